(** Where the assertions hold, the handlers with and without them are the same
    (any arithmetic) *)
From Verif Require Import Base Arith Calc VectorOps Line2d Primitives Collapse CollapseProofs EventsLib
  FlipEvent ParallelEvent EdgeEvent SplitEvent EventLoop Pass OpSpec Order StopSpec RunBase RunTimed RunLoop
  Fan Decent Total FanProofs TotalRun Mesh MeshEvents MeshEdge MeshRun Rings RingEdge RingSplit RingFlip RingGone EdgeHead RingSpec RingRun
  NoAssert.
Local Open Scope nat_scope.

Section Same.
  Context {A : Arith} {E : Env A}.
  Local Open Scope M_scope.
  Ltac peel H n s1 H1 := apply bind_ok in H; destruct H as (n & s1 & H1 & H).

  Lemma bind_like {X Y} (m m' : M X) (k k' : X -> M Y) s : m s = m' s ->
    (forall x s', m s = Ok (x, s') -> k x s' = k' x s') -> bind m k s = bind m' k' s.
  Proof. intros H K. unfold bind. rewrite <- H. destruct (m s) as [[x s']|]; [apply K; reflexivity|reflexivity]. Qed.
  Lemma bind_rest {X Y} (m : M X) (k k' : X -> M Y) s :
    (forall x s', m s = Ok (x, s') -> k x s' = k' x s') -> bind m k s = bind m k' s.
  Proof. intros H. apply bind_like; auto. Qed.
  Lemma bind_assert {Y} b (k : M Y) s : b = true -> bind (assertM b) (fun _ => k) s = k s.
  Proof. intros ->. reflexivity. Qed.
  Lemma bind_assoc {X Y Z} (m : M X) (f : X -> M Y) (g : Y -> M Z) s :
    bind (bind m f) g s = bind m (fun x => bind (f x) g) s.
  Proof. unfold bind. destruct (m s) as [[x s']|]; reflexivity. Qed.

  Lemma bind_ret_r {X} (m : M X) s : bind m (fun r => ret r) s = m s.
  Proof. unfold bind. destruct (m s) as [[x s']|]; reflexivity. Qed.

  (** what a vertex needs when it is stopped *)
  Definition can_stop (kv : kvertex) : Prop :=
    is_some (k_stops kv) = is_some (k_stop_node kv) /\ k_start_node kv <> None.

  Lemma can_anchor now s : forall V acc, (forall v, In v V -> can_stop (vs s v)) ->
    last_anchor now s V acc = None -> acc = None /\ forall v, In v V -> anchored now (vs s v) = false.
  Proof.
    induction V as [|v V IH]; intros acc P H; [split; [exact H|intros v []]|].
    unfold last_anchor in H. cbn in H. fold (last_anchor now s V) in H.
    apply IH in H; [|intros; apply P; simpl; auto]. destruct H as [H1 H2].
    destruct (anchored now (vs s v)) eqn:An.
    - exfalso. destruct (P v (or_introl eq_refl)) as [P1 P2]. unfold anchor in H1.
      destruct (k_stops (vs s v)), (k_stop_node (vs s v)); cbn in *; congruence.
    - split; [exact H1|]. intros w [<-|Hw]; auto.
  Qed.

  Lemma checks_pass now : forall V s,
    (forall v, In v V -> k_inf (vs s v) = false /\ is_some (k_stop_node (vs s v)) = true /\
      exists t, k_stops (vs s v) = Some t /\ neqb t now = true) ->
    forM V (fun v => bind (vattr v k_stop_node) (fun n => bind (assertM (is_some n)) (fun _ =>
       bind (vattr v k_stops) (fun t => assertM (match t with Some t => neqb t now | None => false end))))) s = Ok (tt, s).
  Proof.
    induction V as [|v V IH]; intros s H; [reflexivity|]. cbn [forM].
    destruct (H v (or_introl eq_refl)) as (I & N & t & T & Q).
    rewrite (bind_eq _ _ s tt s); [apply IH; intros; apply H; cbn; auto|].
    assert (VA : forall X (f : kvertex -> X), vattr v f s = Ok (f (vs s v), s)).
    { intros. unfold vattr, rd, kattr. rewrite I. reflexivity. }
    rewrite (bind_eq _ _ s _ _ (VA _ k_stop_node)). rewrite bind_assert by exact N.
    rewrite (bind_eq _ _ s _ _ (VA _ k_stops)). rewrite T, Q. reflexivity.
  Qed.

  Lemma inf_loop : forall V s u s', forM V (fun v => bind (vattr v k_inf_fast) (fun _ => ret tt)) s = Ok (u, s') ->
    s' = s /\ forall v, In v V -> k_inf (vs s v) = false.
  Proof.
    induction V as [|v V IH]; intros s u s' H; [injection H as _ <-; split; [reflexivity|intros v []]|].
    cbn [forM] in H. peel H y s1 H1. peel H1 z s2 H2. apply vattr_ok in H2. destruct H2 as (I & _ & ->).
    apply ret_ok in H1. destruct H1 as [_ ->]. apply IH in H. destruct H as [-> H]. split; [reflexivity|].
    intros w [<-|Hw]; auto.
  Qed.

  (** lib.py 96-99 *)
  Lemma stop_same V step now pos s : NoDup V -> neqb now now = true ->
    (forall v, In v V -> k_inf (vs s v) = false -> can_stop (vs s v)) ->
    stop_kvertices V step now pos s = stop_kvertices_O V step now pos s.
  Proof.
    intros ND NN P. unfold stop_kvertices, stop_kvertices_O.
    apply bind_rest. intros y s0 H0. apply inf_loop in H0. destruct H0 as [-> FIN].
    apply bind_rest. intros sk s1 H1. apply stop_scan_spec in H1. destruct H1 as (f & -> & F1 & _ & _ & F4). specialize (F4 ND).
    match goal with |- bind ?m _ ?s = _ =>
      transitivity (bind m (fun r => ret r) s); [|apply bind_ret_r] end.
    apply bind_rest. intros r s2 H2.
    match goal with |- bind ?m _ _ = _ => assert (C : m s2 = Ok (tt, s2)) end.
    2: { rewrite (bind_eq _ _ _ _ _ C). reflexivity. }
    apply checks_pass. intros v Hv. pose proof (FIN v Hv) as I.
    assert (MV : mem Nat.eqb v V = true) by (apply mem_In; exact Hv).
    assert (IS : k_inf (scanned V now s v) = false) by (unfold scanned; destruct (_ && _)%bool; exact I).
    destruct sk as [n|].
    - peel H2 z s3 H3. apply ret_ok in H2. destruct H2 as [_ ->]. apply forM_stop_at in H3. destruct H3 as (g & -> & G).
      cbn. rewrite G, MV. cbn [vs with_vs]. rewrite F1. cbn. split; [exact IS|]. split; [reflexivity|]. eauto.
    - peel H2 p s3 H3.
      assert (s3 = with_vs s f) as ->.
      { destruct pos; [apply ret_ok in H3; apply H3|apply rd_ok in H3; apply H3]. }
      peel H2 n s4 H4. injection H4 as <- <-. peel H2 z s3 H5. apply ret_ok in H2. destruct H2 as [_ ->].
      apply (forM_modv (fun _ kv => kv_stop_node kv (Some (nn s)))) in H5; [|reflexivity]. destruct H5 as (g & -> & G).
      cbn. rewrite G, MV. cbn. rewrite F1. split; [exact IS|]. split; [reflexivity|].
      symmetry in F4. apply can_anchor in F4; [|intros; apply P; auto]. destruct F4 as [_ F4].
      unfold scanned. rewrite MV, (F4 v Hv). cbn. eauto.
  Qed.
  Lemma register_same V step now pos s : NoDup V -> neqb now now = true ->
    (forall v, In v V -> k_inf (vs s v) = false -> can_stop (vs s v)) ->
    stop_and_register V step now pos s = stop_and_register_O V step now pos s.
  Proof.
    intros ND NN P. unfold stop_and_register, stop_and_register_O. apply bind_like; [apply stop_same; auto|reflexivity].
  Qed.

  (** a difference of equal numbers counts as zero *)
  Definition zero_self : Prop := forall x : num, near_zero (nsub x x) = true.

  Section Zero.
    Hypothesis Z0 : zero_self.
    (** lib.py 375 *)
    Lemma schedule_same t now s : schedule_immediately t now s = schedule_immediately_O t now s.
    Proof.
      unfold schedule_immediately, schedule_immediately_O.
      apply bind_rest. intros x s1 _. apply bind_rest. intros y s2 _. apply bind_rest. intros z s3 _.
      apply bind_rest. intros e s4 H4. apply bind_rest. intros y5 s5 H5. apply bind_rest. intros x6 s6 H6.
      apply gets_ok in H6. destruct H6 as [-> ->].
      apply bind_rest. intros ev s6 H6. unfold eget in H6. apply gets_ok in H6. destruct H6 as [-> ->].
      apply bind_rest. intros y7 s7 H7.
      unfold compute_new_edge_collapse_event in H4. apply bind_ok in H4. destruct H4 as (v & s4' & H3 & H4).
      apply rd_ok in H3. destruct H3 as [H3 ->].
      assert (LV : length (ev_side v) <> 0).
      { unfold new_edge_collapse_event in H3. destruct (dists _ _ _ _ _) as [ds|]; [|discriminate]. unfold rbind in H3. injection H3 as <-. unfold mkevent. cbn [ev_side].
        assert (Q : exists sd, get3 ds sd = min3 ds).
        { unfold min3, nmin. destruct ds as [a b c]. cbn [Primitives.x0 Primitives.x1 Primitives.x2].
          destruct (nltb _ a); destruct (nltb c _); try (exists S0; reflexivity); try (exists S1; reflexivity); exists S2; reflexivity. }
        destruct Q as [sd Q].
        assert (K : In sd (where3 (fun x => near_zero (nsub x (min3 ds))) ds)) by (apply where3_In; rewrite Q; apply Z0).
        intros L. apply length_zero_iff_nil in L. rewrite L in K. contradiction. }
      injection H4 as <- <-. apply modt_spec in H5. subst s5. cbn in H7.
      rewrite (bind_eq (eget (ne s3)) _ s7 (es s7 (ne s3)) s7) by reflexivity.
      apply bind_assert. apply Bool.negb_true_iff, Nat.eqb_neq.
      revert H7. destruct (Nat.eqb _ 3); cbn.
      - intros H7. injection H7 as _ <-. cbn. rewrite upd_same. cbn. discriminate.
      - intros H7. injection H7 as _ <-. cbn. rewrite upd_same. exact LV.
    Qed.
    Lemma unlink_same n t now s : unlink_and_schedule n t now s = unlink_and_schedule_O n t now s.
    Proof.
      destruct n; [|reflexivity]. cbn. apply bind_rest. intros. apply bind_rest. intros.
      destruct (_ && _)%bool; [apply schedule_same|reflexivity].
    Qed.
    Lemma tiny_same fan kv now d s : schedule_if_tiny fan kv now d s = schedule_if_tiny_O fan kv now d s.
    Proof.
      unfold schedule_if_tiny, schedule_if_tiny_O. destruct (rev fan); [reflexivity|].
      apply bind_rest. intros. apply bind_rest. intros. destruct (edge_segment _ _). apply bind_rest. intros. apply bind_rest. intros.
      destruct (near_zero _); [apply schedule_same|reflexivity].
    Qed.
    Lemma neighbour_same t now sd s : schedule_neighbour t now sd s = schedule_neighbour_O t now sd s.
    Proof.
      unfold schedule_neighbour, schedule_neighbour_O. apply bind_rest. intros. destruct (get3 _ _); [|reflexivity].
      apply bind_rest. intros. destruct (_ && _)%bool; [|reflexivity]. cbn. apply bind_rest. intros. apply schedule_same.
    Qed.
    Lemma forM_same {X} (f g : X -> M unit) : (forall x s, f x s = g x s) -> forall l s, forM l f s = forM l g s.
    Proof. intros H. induction l as [|x l IH]; intros s; [reflexivity|]. cbn. apply bind_like; auto. Qed.

    (** ** Flip events *)
    Lemma flip_same t i n j s : shares s t i n j -> link s t i <> None -> link s n j <> None ->
      flip t i n j s = flip_O t i n j s.
    Proof.
      intros [K1 K2] L1 L2. unfold flip, flip_O. rewrite !bind_tget.
      rewrite bind_assert by (apply Nat.eqb_eq; symmetry; exact K2).
      rewrite bind_assert by (apply Nat.eqb_eq; symmetry; exact K1).
      rewrite bind_assert by (unfold link in L1; destruct (get3 (t_n (ts s t)) i); [reflexivity|congruence]).
      rewrite bind_assert by (unfold link in L2; destruct (get3 (t_n (ts s n)) j); [reflexivity|congruence]).
      reflexivity.
    Qed.
    Lemma flip_event_same s evt i n :
      linked (active s) s -> (forall u, active s u -> distinct s u) -> active s (ev_tri evt) -> apart s (ev_tri evt) ->
      ev_side evt = [i] -> link s (ev_tri evt) i = Some n -> handle_flip_event evt s = handle_flip_event_O evt s.
    Proof.
      intros L DI Dt AP SE Hn. unfold handle_flip_event, handle_flip_event_O. rewrite SE.
      apply bind_rest. intros x s1 H1. apply gets_ok in H1. destruct H1 as [-> ->].
      change (get3 (t_n (ts s (ev_tri evt))) i) with (link s (ev_tri evt) i). rewrite Hn. cbn [deref].
      rewrite (bind_eq (ret n) _ s n s) by reflexivity.
      apply bind_rest. intros y s1 H1. apply gets_ok in H1. destruct H1 as [-> ->].
      apply bind_rest. intros j s1 H1. unfold rdr in H1. apply rd_ok in H1. destruct H1 as [H1 ->].
      assert (LJ : link s n j = Some (ev_tri evt)).
      { unfold link. unfold nindex in H1. apply index3_get in H1.
        destruct (get3 (t_n (ts s n)) j) as [q|]; [|discriminate]. apply Nat.eqb_eq in H1. congruence. }
      assert (Dn : active s n) by apply (L _ i n Dt Hn).
      apply bind_like; [|reflexivity]. apply flip_same; [|congruence|congruence].
      destruct (L n j _ Dn LJ) as (_ & m0 & M1 & M2). rewrite (AP i m0 n Hn M1). apply shares_sym, M2.
    Qed.
  End Zero.
End Same.
