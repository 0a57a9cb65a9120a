(** No infinitely fast vertex is left running in the triangulation (any arithmetic) *)
From Verif Require Import Base Arith Calc VectorOps Line2d Primitives Collapse CollapseProofs EventsLib
  FlipEvent ParallelEvent EdgeEvent SplitEvent EventLoop Pass OpSpec Order StopSpec RunBase RunTimed RunLoop
  Decent Total FanProofs TotalRun Mesh MeshEvents MeshEdge MeshRun Effects EdgeHead RingSpec Fast.
Local Open Scope nat_scope.

Section FastRun.
  Context {A : Arith} {E : Env A}.
  Local Open Scope M_scope.

  Ltac peel H n s1 H1 := apply bind_ok in H; destruct H as (n & s1 & H1 & H).

  Definition held (s : state) (v : nat) : Prop := k_stop_node (vs s v) <> None.
  (** infinitely fast corners have ended *)
  Definition tame (s : state) : Prop :=
    forall u i, k_inf_fast (vs s (corner s u i)) = true -> held s (corner s u i).
  Definition seated (s : state) : Prop := forall u i, corner s u i < nv s.
  Definition old_corner (s : state) (v : nat) : Prop := exists u i, corner s u i = v.
  (** the corners after are corners from before, or new vertices that end if they are infinitely fast *)
  Definition safe (s s' : state) : Prop := forall u i,
    old_corner s (corner s' u i) \/
    (nv s <= corner s' u i < nv s' /\ (k_inf_fast (vs s' (corner s' u i)) = true -> held s' (corner s' u i))).

  Lemma held_follows s s' v : follows s s' -> v < nv s -> held s v -> held s' v.
  Proof.
    intros F L H. unfold held in *. pose proof (fo_stopped _ _ F v L) as K.
    destruct (k_stop_node (vs s v)); [|contradiction]. specialize (K eq_refl). destruct (k_stop_node (vs s' v)); [discriminate|discriminate K].
  Qed.
  Lemma safe_same s s' : (forall u, t_v (ts s' u) = t_v (ts s u)) -> safe s s'.
  Proof. intros H u i. left. exists u, i. unfold corner. rewrite H. reflexivity. Qed.
  Lemma safe_trans a b c : safe a b -> safe b c -> follows a b -> follows b c -> safe a c.
  Proof.
    intros S1 S2 F G u i. destruct (S2 u i) as [(u0 & i0 & Q)|[L K]].
    - rewrite <- Q. destruct (S1 u0 i0) as [O|[L K]]; [left; exact O|]. right.
      pose proof (fo_nv _ _ G). split; [lia|]. intros X. apply (held_follows b c); [exact G|lia|]. apply K.
      rewrite (sm_fast _ _ (fo_motion _ _ G _ (proj2 L))) in X. exact X.
    - right. pose proof (fo_nv _ _ F). split; [lia|exact K].
  Qed.
  Lemma safe_seated s s' : safe s s' -> follows s s' -> seated s -> seated s'.
  Proof.
    intros S F C u i. pose proof (fo_nv _ _ F). destruct (S u i) as [(u0 & i0 & <-)|[L _]]; [|lia].
    specialize (C u0 i0). lia.
  Qed.
  Lemma safe_tame s s' : safe s s' -> follows s s' -> seated s -> tame s -> tame s'.
  Proof.
    intros S F C T u i X. destruct (S u i) as [(u0 & i0 & Q)|[_ K]]; [|auto].
    rewrite <- Q in *. pose proof (C u0 i0) as L. apply (held_follows s s'); auto. apply T.
    rewrite (sm_fast _ _ (fo_motion _ _ F _ L)) in X. exact X.
  Qed.

  Lemma ends_held s v n now : ends s v n now -> held s v.
  Proof. intros [H _]. unfold held. rewrite H. discriminate. Qed.
  Lemma corner_list s u i : In (corner s u i) (list3 (t_v (ts s u))).
  Proof. unfold corner. destruct (t_v (ts s u)), i; cbn; auto. Qed.

  (** ** The parts of handle_parallel_fan *)
  Lemma even_at_held t pivot now step s s' : even_legs_at t pivot now step s = Ok (tt, s') ->
    (exists i, corner s t i = pivot) /\ (forall i, held s' (corner s t i)) /\ (forall u, t_v (ts s' u) = t_v (ts s u)).
  Proof.
    intros H. unfold even_legs_at in H. ro_next H. ro_next H. apply even_effects in H.
    destruct H as (P & n & H & _ & _ & _ & _ & _ & SE). split; [eauto|]. split; [|exact SE].
    intros i. apply (ends_held _ _ n now), H, corner_list.
  Qed.

  Lemma isolated_held t pivot now step s s' : parallel_fan_isolated t pivot now step s = Ok (tt, s') ->
    (forall i, held s' (corner s t i)) /\ (forall u, t_v (ts s' u) = t_v (ts s u)).
  Proof.
    intros H. unfold parallel_fan_isolated in H. cbv zeta in H. do 3 ro_next H.
    assert (K3 : forall H : (let! x := tget t in let! i := rdr (vindex x pivot) in
                  handle_parallel_edge_event_3tri t i pivot now step) s = Ok (tt, s'),
      (forall i, held s' (corner s t i)) /\ (forall u, t_v (ts s' u) = t_v (ts s u))).
    { clear. intros H. ro_next H. ro_next H. apply tri_effects in H.
      destruct H as (P & n & H & _ & _ & _ & _ & _ & SE & _). split; [|exact SE].
      intros i. apply (ends_held _ _ n now), H, corner_list. }
    destruct (where3 _ _) as [|sd [|sd2 r]]; [apply K3, H| |apply K3, H].
    destruct (near_zero _); [|apply K3, H]. ro_next H. apply even_at_held in H. tauto.
  Qed.

  (** the flip keeps the corners of the two triangles *)
  Lemma flip_corners t0 a t1 b s u s' : flip t0 a t1 b s = Ok (u, s') ->
    (forall v i, old_corner s (corner s' v i)) /\ vs s' = vs s /\
    (t0 <> t1 -> forall i, exists v j, (v = t0 \/ v = t1) /\ corner s' v j = corner s t0 i).
  Proof.
    intros H. unfold flip in H. cbv zeta in H. do 2 ro_next H.
    peel H u0 sa H0. apply assertM_ok in H0. destruct H0 as [Q1 ->]. apply Nat.eqb_eq in Q1.
    peel H u1 sa H0. apply assertM_ok in H0. destruct H0 as [Q2 ->]. apply Nat.eqb_eq in Q2.
    do 6 ro_next H. clear H0 H1 H2 H3 H4 H5.
    assert (LA : forall n sd t st x st', link_around n sd t st = Ok (x, st') -> (forall v, t_v (ts st' v) = t_v (ts st v)) /\ vs st' = vs st).
    { clear. intros [n|] [sd|] t st x st' H; cbn in H; try (apply ret_ok in H; destruct H as [_ ->]; auto).
      cbn. split; [|reflexivity]. intros v.
      match goal with |- context [upd ?a ?b ?c v] => destruct (upd_case a b c v) as [[<- ->]|[_ ->]] end; reflexivity. }
    peel H z1 s1 H1. apply LA in H1. destruct H1 as [A1 B1].
    peel H z2 s2 H2. apply LA in H2. destruct H2 as [A2 B2].
    peel H z3 s3 H3. apply LA in H3. destruct H3 as [A3 B3].
    peel H z4 s4 H4. apply LA in H4. destruct H4 as [A4 B4].
    peel H z5 s5 H5. apply modt_spec in H5. peel H z6 s6 H6. apply modt_spec in H6.
    peel H z7 s7 H7. apply modt_spec in H7. apply modt_spec in H.
    assert (T : forall v, t_v (ts s' v) = if Nat.eqb t1 v then mk3 (corner s t1 b) (corner s t0 (cw a)) (corner s t0 a)
                          else if Nat.eqb t0 v then mk3 (corner s t0 a) (corner s t0 (ccw a)) (corner s t1 b) else t_v (ts s v)).
    { intros v. subst s' s7 s6 s5. cbn. unfold upd.
      destruct (Nat.eqb_spec t1 v) as [->|N1]; [rewrite Nat.eqb_refl; reflexivity|].
      destruct (Nat.eqb_spec t0 v) as [->|N0]; [rewrite Nat.eqb_refl; reflexivity|].
      rewrite A4, A3, A2, A1. reflexivity. }
    split; [|split].
    - intros v i. unfold corner at 1. rewrite T. unfold old_corner.
      destruct (Nat.eqb t1 v); [destruct i; cbn; eauto|]. destruct (Nat.eqb t0 v); [destruct i; cbn; eauto|].
      exists v, i. reflexivity.
    - subst s' s7 s6 s5. cbn. congruence.
    - intros N i.
      assert (T0 : t_v (ts s' t0) = mk3 (corner s t0 a) (corner s t0 (ccw a)) (corner s t1 b)).
      { rewrite T. destruct (Nat.eqb_spec t1 t0); [congruence|]. rewrite Nat.eqb_refl. reflexivity. }
      assert (T1 : t_v (ts s' t1) = mk3 (corner s t1 b) (corner s t0 (cw a)) (corner s t0 a)).
      { rewrite T, Nat.eqb_refl. reflexivity. }
      assert (C : i = a \/ i = ccw a \/ i = cw a) by (destruct i, a; cbn; auto).
      destruct C as [->|[->| ->]].
      + exists t0, S0. split; [auto|]. unfold corner. rewrite T0. reflexivity.
      + exists t0, S1. split; [auto|]. unfold corner. rewrite T0. reflexivity.
      + exists t1, S1. split; [auto|]. unfold corner. rewrite T1. reflexivity.
  Qed.

  Lemma fasts_true s t l s1 v i : rd (fun s => rmapl (fun v => kattr (vs s v) (k_inf_fast (vs s v))) (list3 (t_v (ts s t)))) s = Ok (l, s1) ->
    corner s t i = v -> k_inf_fast (vs s v) = true -> existsb id l = true.
  Proof.
    intros H C F. apply rd_ok in H. destruct H as [H _].
    assert (K : forall L l, rmapl (fun v => kattr (vs s v) (k_inf_fast (vs s v))) L = Ok l -> In v L -> existsb id l = true).
    { clear - F. induction L as [|x L IH]; intros l H [].
      - subst x. cbn in H. unfold kattr in H at 1. destruct (k_inf (vs s v)); [discriminate|]. cbn in H.
        destruct (rmapl _ L); [|discriminate]. cbn in H. injection H as <-. cbn. rewrite F. reflexivity.
      - cbn in H. destruct (kattr (vs s x) _); [|discriminate]. cbn in H. destruct (rmapl _ L) eqn:Q; [|discriminate].
        cbn in H. injection H as <-. cbn. rewrite (IH _ eq_refl H0). apply Bool.orb_true_r. }
    eapply K; [exact H|]. subst v. apply corner_list.
  Qed.

  Lemma flip_then_held t0 t1 pivot now step s s' : t0 <> t1 -> registered s -> seated s ->
    (exists i, corner s t0 i = pivot) -> k_inf_fast (vs s pivot) = true ->
    flip_then_even_legs t0 t1 pivot now step s = Ok (tt, s') -> held s' pivot /\ safe s s'.
  Proof.
    intros N R C [ip P] F H. unfold flip_then_even_legs in H. cbv zeta in H. do 4 ro_next H. clear H0 H1.
    peel H u s1 H1. destruct (keeps_flip base_sound now _ _ _ _ s R _ _ H1) as [R1 F1].
    apply flip_corners in H1. destruct H1 as (C1 & V1 & K1). specialize (K1 N).
    assert (S1 : safe s s1) by (intros v i; left; apply C1).
    peel H l0 s2 H2. pose proof (fun i => fasts_true s1 t0 l0 s2 pivot i H2) as T0.
    apply rd_ok in H2. destruct H2 as [_ ->].
    peel H l1 s2 H2. pose proof (fun i => fasts_true s1 t1 l1 s2 pivot i H2) as T1.
    apply rd_ok in H2. destruct H2 as [_ ->].
    peel H u1 s2 H2. destruct u1.
    destruct (keeps_whenM base_sound now _ _ (keeps_even_at base_sound t0 pivot now step) s1 R1 _ _ H2) as [R2 F2].
    destruct (keeps_whenM base_sound now _ _ (keeps_even_at base_sound t1 pivot now step) s2 R2 _ _ H) as [R3 F3].
    assert (SV : forall b t st st', whenM b (even_legs_at t pivot now step) st = Ok (tt, st') ->
              (forall u, t_v (ts st' u) = t_v (ts st u)) /\ (b = true -> held st' pivot)).
    { clear. intros [|] t st st' H; cbn in H.
      - apply even_at_held in H. destruct H as ([i <-] & H & SE). auto.
      - apply ret_ok in H. destruct H as [_ ->]. split; [auto|discriminate]. }
    apply SV in H2, H. destruct H2 as [C2 K2], H as [C3 K3].
    assert (L : pivot < nv s) by (rewrite <- P; apply C).
    assert (L1 : pivot < nv s1) by (pose proof (fo_nv _ _ F1); lia).
    assert (L2 : pivot < nv s2) by (pose proof (fo_nv _ _ F2); lia).
    split.
    - assert (F' : k_inf_fast (vs s1 pivot) = true) by (rewrite V1; exact F).
      destruct (K1 ip) as (v & j & [-> | ->] & Q); rewrite P in Q.
      + apply (held_follows s2 s' pivot F3 L2), K2, (T0 j Q F').
      + apply K3, (T1 j Q F').
    - apply (safe_trans s s1 s' S1); [|exact F1|apply (follows_trans _ _ _ F2 F3)].
      apply safe_same. intros u2. rewrite C3. apply C2.
  Qed.

  (** ** handle_parallel_fan *)
  Definition fan_ok (rec : list nat -> nat -> num -> ParallelEvent.turn -> Z -> M unit) : Prop :=
    forall fan pivot now d step s s', rec fan pivot now d step s = Ok (tt, s') -> registered s -> seated s ->
      (forall u r, fan = u :: r -> exists i, corner s u i = pivot) -> held s' pivot /\ safe s s'.

  Lemma fan_of_held rec fa fb kv now step s s' : fan_ok rec ->
    parallel_fan_of rec fa fb kv now step s = Ok (tt, s') -> registered s -> seated s ->
    (forall u, In u (fa ++ fb) -> exists i, corner s u i = kv) ->
    safe s s' /\ (fa ++ fb <> [] -> held s' kv).
  Proof.
    intros K H R C P. unfold parallel_fan_of in H. destruct fa as [|u fa], fb as [|v fb].
    - apply ret_ok in H. destruct H as [_ ->]. split; [apply safe_same; reflexivity|contradiction].
    - destruct (K _ _ _ _ _ _ _ H R C) as [X Y]; [|auto]. intros w r [= <- _]. apply P. left. reflexivity.
    - destruct (K _ _ _ _ _ _ _ H R C) as [X Y]; [|auto]. intros w r [= <- _]. apply P. left. reflexivity.
    - destruct (K _ _ _ _ _ _ _ H R C) as [X Y]; [|auto]. intros w r Q. apply P.
      assert (X : In w (rev (u :: fa) ++ v :: fb)) by (rewrite Q; left; reflexivity).
      apply in_app_or in X. apply in_or_app. destruct X as [X|X]; [left; apply in_rev, X|right; exact X].
  Qed.

  Theorem fan_held fuel : fan_ok (handle_parallel_fan fuel).
  Proof.
    induction fuel as [|fuel IH]; intros fan pivot now d step s s' H R C P; [discriminate H|].
    cbn [handle_parallel_fan] in H. destruct fan as [|t0 rest]; [discriminate H|].
    specialize (P t0 rest eq_refl).
    peel H f0 s0 H0. apply vattr_ok in H0. destruct H0 as (_ & -> & ->).
    peel H u0 s0 H0. apply assertM_ok in H0. destruct H0 as [PF ->].
    ro_next H. destruct (Nat.eqb (tri_type (ts s t0)) 3).
    { ro_next H. apply isolated_held in H. destruct H as [H SE]. destruct P as [i <-]. split; [apply H|apply safe_same, SE]. }
    peel H u1 s0 H1. apply assertM_ok in H1. destruct H1 as [DI ->].
    assert (SH : forall t e s', handle_parallel_edge_event_shorter_leg (handle_parallel_fan fuel) t e pivot now step s = Ok (tt, s') ->
      held s' pivot /\ safe s s').
    { clear H s'. intros t e s' H. pose proof H as H'. apply shorter_effects in H; auto. cbv zeta in H.
      destruct H as (_ & PV & n & fa & fb & s6 & E1 & E2 & E3 & _ & _ & _ & _ & _ & _ & _ & _ & _ & _ & NV & _ & _ & _ & _ & _ & _ & _ & CO & FA & R6 & F6 & W).
      assert (L : pivot < nv s) by (destruct PV as [-> | ->]; apply C).
      assert (H6 : held s6 pivot).
      { unfold held. destruct (k_stop_node (vs s pivot)) eqn:Q.
        - rewrite E3; congruence.
        - destruct (E2 eq_refl) as [-> _]. discriminate. }
      assert (C6 : seated s6).
      { intros u i. destruct (CO u i) as [->|(_ & -> & _)]; [pose proof (C u i)|]; lia. }
      assert (F7 : follows s6 s').
      { apply (keeps_whenM base_sound now _ _ (keeps_fan_of base_sound _ fa fb (nv s) now step (keeps_parallel_fan base_sound fuel)) s6 R6 _ _ W). }
      split; [apply (held_follows s6 s' pivot F7); [lia|exact H6]|].
      pose proof (fo_nv _ _ F7) as N7.
      destruct (k_inf_fast (vs s6 (nv s))) eqn:FK; cbn in W.
      - apply (fan_of_held _ _ _ _ _ _ _ _ IH) in W; auto. destruct W as [S7 H7].
        intros u i. destruct (S7 u i) as [(w0 & i0 & Q)|[L7 K7]].
        + rewrite <- Q. destruct (CO w0 i0) as [->|(_ & -> & X)]; [left; exists w0, i0; reflexivity|].
          right. split; [lia|]. intros _. apply H7. intros Z. rewrite Z in X. destruct X.
        + right. split; [lia|exact K7].
      - apply ret_ok in W. destruct W as [_ ->]. intros u i.
        destruct (CO u i) as [->|(_ & -> & X)]; [left; exists u, i; reflexivity|].
        right. split; [lia|]. rewrite FK. discriminate. }
    assert (EV : forall t s s', even_legs_at t pivot now step s = Ok (tt, s') -> held s' pivot /\ (forall u, t_v (ts s' u) = t_v (ts s u))).
    { clear. intros t s s' H. apply even_at_held in H. destruct H as ([i <-] & H & SE). auto. }
    destruct d; cbv iota beta in H.
    all: ro_next H; do 5 ro_next H; cbv zeta in H;
      repeat match type of H with context [near_zero ?x] => destruct (near_zero x) end;
      [|apply SH in H; exact H|apply SH in H; exact H|discriminate H].
    all: destruct rest as [|t1 [|t2 r]]; [| |discriminate H].
    all: repeat match goal with K : _ ?st = Ok (_, ?st) |- _ => clear K end.
    1,3: peel H u2 s1 K1; destruct u2; apply EV in K1; ro_next H; apply assertM_ok in H; destruct H as [_ ->]; split; [tauto|apply safe_same; tauto].
    all: assert (NE : t0 <> t1) by (clear -DI; cbn in DI; intros ->; rewrite Nat.eqb_refl in DI; discriminate DI).
    all: ro_next H; match type of H with context [if ?b then _ else _] => destruct b end;
      [|apply flip_then_held in H; auto].
    all: peel H u2 s1 K1; destruct u2; peel H u3 s2 K2; destruct u3; apply EV in K1, K2;
      do 2 ro_next H; apply assertM_ok in H; destruct H as [_ ->]; split; [tauto|];
      apply safe_same; intros u; destruct K1 as [_ K1], K2 as [_ K2]; rewrite K2; apply K1.
  Qed.

  (** ** Events *)
  Lemma seats_wf kv l r : seats (set_wf kv l r).
  Proof. intros s x s' H u. apply wf_eff in H. destruct H as (f & -> & _). reflexivity. Qed.
  Lemma seats_newv ul ur now n info int : seats (compute_new_kvertex ul ur now n info int).
  Proof. intros s x s' H u. apply newv_spec in H. destruct H as (k & _ & _ & ->). reflexivity. Qed.
  Lemma seats_addv v : seats (add_vertex v).
  Proof. intros s x s' H u. injection H as _ <-. reflexivity. Qed.
  Lemma seats_circ a b now : seats (update_circ a b now).
  Proof. intros s x s' H u. apply circ_spec in H. destruct H as (f & -> & _). reflexivity. Qed.
  Lemma seats_sched t now : seats (schedule_immediately t now).
  Proof. apply seats_mesh. intros; apply mesh_sched. Qed.
  Lemma seats_riq t now : seats (replace_in_queue t now).
  Proof. apply seats_mesh. intros; apply mesh_riq. Qed.
  Lemma seats_tiny fan kv now d : seats (schedule_if_tiny fan kv now d).
  Proof.
    unfold schedule_if_tiny. destruct (rev fan); [apply seats_ro; auto with ro|].
    do 2 (apply seats_bind; [apply seats_ro; auto with ro|intros]). destruct (edge_segment _ _).
    do 2 (apply seats_bind; [apply seats_ro; auto with ro|intros]).
    apply seats_whenM, seats_sched.
  Qed.

  Lemma fan_seats_tiny o t x v kv now d s fan s' : v <> kv ->
    match o with
    | None => ret []
    | Some a => relink a t x ;; let! fan := replace_kvertex a v kv now d in schedule_if_tiny fan kv now d ;; ret fan
    end s = Ok (fan, s') ->
    (forall u i, corner s' u i = corner s u i \/ (corner s u i = v /\ corner s' u i = kv /\ In u fan)) /\
    (forall u, In u fan -> exists i, corner s' u i = kv).
  Proof.
    intros N H. destruct o as [a|].
    - peel H y s1 H1. peel H f s2 H2. peel H z s3 H3. apply ret_ok in H. destruct H as [Q ->]. subst f.
      assert (K : (relink a t x ;; replace_kvertex a v kv now d) s = Ok (fan, s2)).
      { unfold bind. rewrite H1. exact H2. }
      apply (fan_seats (Some a)) in K; [|exact N]. apply seats_tiny in H3.
      unfold corner in *. destruct K as [K1 K2]. split; [intros u i|intros u Hu]; rewrite H3; auto.
    - apply ret_ok in H. destruct H as [-> ->]. split; [auto|intros u []].
  Qed.

  Lemma quiets_fan_tiny o t x v kv now d : quiets (match o with
    | None => ret []
    | Some a => relink a t x ;; let! fan := replace_kvertex a v kv now d in schedule_if_tiny fan kv now d ;; ret fan
    end).
  Proof.
    destruct o; [|apply quiets_ro; apply ro_ret]. apply quiets_bind; [apply quiets_relink|intros].
    apply quiets_bind; [apply quiets_replace|intros]. apply quiets_bind; [apply quiets_tiny|intros]. apply quiets_ro; auto with ro.
  Qed.
  Lemma keeps_fan_tiny o t x v kv now d : keeps (I := fun _ => registered) (G := follows) now (match o with
    | None => ret []
    | Some a => relink a t x ;; let! fan := replace_kvertex a v kv now d in schedule_if_tiny fan kv now d ;; ret fan
    end).
  Proof.
    destruct o; [|apply (keeps_ro base_sound); apply ro_ret].
    apply (keeps_bind base_sound); [apply (keeps_relink base_sound)|intros].
    apply (keeps_bind base_sound); [apply (keeps_replace_kvertex base_sound)|intros].
    apply (keeps_bind base_sound); [apply (keeps_tiny base_sound)|intros]. apply (keeps_ro base_sound); apply ro_ret.
  Qed.

  (** after the fans of a new vertex have been rebuilt *)
  Lemma fan_step s s6 fa fb fuel now step s' : seated s -> registered s6 -> follows s s6 -> nv s6 = S (nv s) ->
    (forall u i, corner s6 u i = corner s u i \/ (corner s6 u i = nv s /\ In u (fa ++ fb))) ->
    (forall u, In u (fa ++ fb) -> exists i, corner s6 u i = nv s) ->
    whenM (k_inf_fast (vs s6 (nv s))) (parallel_fan_of (handle_parallel_fan fuel) fa fb (nv s) now step) s6 = Ok (tt, s') ->
    safe s s'.
  Proof.
    intros C R6 F6 NV CO FA W.
    assert (C6 : seated s6).
    { intros u i. destruct (CO u i) as [->|(-> & _)]; [pose proof (C u i)|]; lia. }
    assert (F7 : follows s6 s').
    { apply (keeps_whenM base_sound now _ _ (keeps_fan_of base_sound _ fa fb (nv s) now step (keeps_parallel_fan base_sound fuel)) s6 R6 _ _ W). }
    pose proof (fo_nv _ _ F7) as N7.
    destruct (k_inf_fast (vs s6 (nv s))) eqn:FK; cbn in W.
    - apply (fan_of_held _ _ _ _ _ _ _ _ (fan_held fuel)) in W; auto. destruct W as [S7 H7].
      intros u i. destruct (S7 u i) as [(w0 & i0 & Q)|[L7 K7]].
      + rewrite <- Q. destruct (CO w0 i0) as [->|(-> & X)]; [left; exists w0, i0; reflexivity|].
        right. split; [lia|]. intros _. apply H7. intros Z. rewrite Z in X. destruct X.
      + right. split; [lia|exact K7].
    - apply ret_ok in W. destruct W as [_ ->]. intros u i.
      destruct (CO u i) as [->|(-> & X)]; [left; exists u, i; reflexivity|].
      right. split; [lia|]. rewrite FK. discriminate.
  Qed.

  Theorem edge_safe evt step s s' : handle_edge_event evt step s = Ok (tt, s') -> registered s -> seated s -> safe s s'.
  Proof.
    intros H R C. set (now := ev_time evt).
    unfold handle_edge_event, handle_edge_event_with in H. destruct (ev_side evt) as [|e [|? ?]] eqn:He; try discriminate H. cbv zeta in H.
    fold now in H. set (t := ev_tri evt) in *.
    ro_next H. change (get3 (t_v (ts s t)) (ccw e)) with (corner s t (ccw e)) in H. change (get3 (t_v (ts s t)) (cw e)) with (corner s t (cw e)) in H.
    set (v1 := corner s t (ccw e)) in *. set (v2 := corner s t (cw e)) in *.
    assert (L1 : v1 < nv s) by apply C. assert (L2 : v2 < nv s) by apply C.
    do 5 ro_next H.
    peel H n s1 Hstop.
    pose proof (stop_follows _ _ _ _ _ _ _ Hstop) as (F1 & R1). destruct (R1 R) as [R1' In1]. clear R1.
    pose proof (seats_stop _ _ _ _ _ _ _ Hstop) as C1.
    apply stop_ends in Hstop. destruct Hstop as (_ & _ & _ & E3 & _).
    do 3 ro_next H.
    peel H kv s2 Hnew.
    pose proof (newv_follows _ _ _ _ _ _ _ _ _ Hnew In1) as (F2 & R2 & _). specialize (R2 R1').
    pose proof (seats_newv _ _ _ _ _ _ _ _ _ Hnew) as C2.
    apply new_starts in Hnew. destruct Hnew as (-> & B2 & _). rewrite E3 in *.
    peel H z3 s3 J3. pose proof (seats_wf _ _ _ _ _ _ J3) as C3. destruct (keeps_wf base_sound now _ _ _ _ R2 _ _ J3) as [R3 F3].
    apply quiets_wf, qu_nv in J3.
    peel H z4 s4 J4.
    assert (s4 = s3) as ->. { revert J4. destruct (kleft _); [|apply ro_ret]. apply ro_bind; auto with ro. } clear J4.
    peel H z5 s4 J4.
    assert (s4 = s3) as ->. { revert J4. destruct (kright _); [|apply ro_ret]. apply ro_bind; auto with ro. } clear J4.
    peel H z6 s4 J4. assert (LK : nv s < nv s3) by lia.
    pose proof (seats_addv _ _ _ _ J4) as C4. destruct (s_addv base_sound now _ _ R3 LK _ _ J4) as [R4 F4].
    apply addv_eff in J4. destruct J4 as (_ & J4 & _).
    peel H z7 s5 J5. pose proof (seats_circ _ _ _ _ _ _ J5) as C5. destruct (keeps_circ base_sound now _ _ _ R4 _ _ J5) as [R5 F5].
    apply quiets_circ, qu_nv in J5. ro_next H.
    peel H z8 s6 J6. pose proof (seats_circ _ _ _ _ _ _ J6) as C6. destruct (keeps_circ base_sound now _ _ _ R5 _ _ J6) as [R6 F6].
    apply quiets_circ, qu_nv in J6. do 6 ro_next H.
    peel H fa s7 J7.
    destruct (keeps_fan_tiny _ _ _ _ _ _ _ _ R6 _ _ J7) as [R7 F7].
    pose proof (quiets_fan_tiny _ _ _ _ _ _ _ _ _ _ J7) as Q7. apply qu_nv in Q7.
    apply fan_seats_tiny in J7; [|lia]. destruct J7 as [K7 K7'].
    peel H fb s8 J8.
    destruct (keeps_fan_tiny _ _ _ _ _ _ _ _ R7 _ _ J8) as [R8 F8].
    pose proof (quiets_fan_tiny _ _ _ _ _ _ _ _ _ _ J8) as Q8. apply qu_nv in Q8.
    apply fan_seats_tiny in J8; [|lia]. destruct J8 as [K8 K8'].
    peel H z9 s9 J9. pose proof (seats_unlink _ _ _ _ _ _ J9) as C9.
    destruct (keeps_unlink base_sound now _ _ _ R8 _ _ J9) as [R9 F9]. apply quiets_unlink, qu_nv in J9.
    peel H z10 s10 J10. pose proof (seats_tstops _ _ _ _ _ J10) as C10.
    destruct (s_tstops base_sound now _ _ R9 _ _ J10) as [R10 F10].
    apply modt_spec in J10. assert (N10 : nv s10 = nv s9) by (rewrite J10; reflexivity). clear J10.
    peel H f11 s11 J11. apply vattr_ok in J11. destruct J11 as (_ & -> & ->).
    assert (CO : forall u i, corner s6 u i = corner s u i).
    { intros u i. unfold corner. rewrite C6, C5, C4, C3, C2, C1. reflexivity. }
    assert (CC : forall u i, corner s10 u i = corner s8 u i).
    { intros u i. unfold corner. rewrite C10, C9. reflexivity. }
    apply (fan_step s s10 fa fb reclimit now step s' C R10); [| lia | | |exact H].
    - exact (follows_trans _ _ _ F1 (follows_trans _ _ _ F2 (follows_trans _ _ _ F3 (follows_trans _ _ _ F4 (follows_trans _ _ _ F5 (follows_trans _ _ _ F6 (follows_trans _ _ _ F7 (follows_trans _ _ _ F8 (follows_trans _ _ _ F9 F10))))))))).
    - intros u i. rewrite CC. destruct (K8 u i) as [->|(_ & -> & X)]; [|right; split; [reflexivity|apply in_or_app; auto]].
      destruct (K7 u i) as [->|(_ & -> & X)]; [left; apply CO|right; split; [reflexivity|apply in_or_app; auto]].
    - intros u X. apply in_app_or in X. destruct X as [X|X]; [|destruct (K8' u X) as [i Q]; exists i; rewrite CC; exact Q].
      destruct (K7' u X) as [i Q]. exists i. rewrite CC. destruct (K8 u i) as [->|(_ & -> & _)]; [exact Q|reflexivity].
  Qed.

  (** a new vertex that is not infinitely fast, and the fan of another *)
  Lemma one_side_safe evt step s s' : handle_edge_event_1side evt step s = Ok (tt, s') -> safe s s'.
  Proof.
    intros H. apply safe_same. unfold handle_edge_event_1side in H. cbv zeta in H.
    destruct (ev_side evt) as [|e [|? ?]]; try discriminate H. intros u. revert H.
    assert (K : forall m : M unit, seats m -> m s = Ok (tt, s') -> t_v (ts s' u) = t_v (ts s u)) by (intros m Hm Q; apply (Hm _ _ _ Q)).
    apply K.
    repeat first [apply seats_tstops
      |apply seats_bind; [first [apply seats_stop|apply seats_newv|apply seats_addv|apply seats_ro; auto with ro]|intros]].
  Qed.
  Lemma forM_seats {X} (l : list X) f : (forall x, seats (f x)) -> seats (forM l f).
  Proof.
    intros H. induction l as [|x l IH]; cbn; [apply seats_ro; auto with ro|]. apply seats_bind; auto.
  Qed.
  Lemma three_safe evt step s s' : handle_edge_event_3sides evt step s = Ok (tt, s') -> safe s s'.
  Proof.
    intros H. apply safe_same. unfold handle_edge_event_3sides in H. cbv zeta in H.
    intros u. revert H.
    assert (K : forall m : M unit, seats m -> m s = Ok (tt, s') -> t_v (ts s' u) = t_v (ts s u)) by (intros m Hm Q; apply (Hm _ _ _ Q)).
    apply K.
    repeat first [apply seats_tstops
      |apply seats_bind; [first [apply seats_stop|apply forM_seats; intros; unfold schedule_neighbour|apply seats_ro; auto with ro]|intros]].
    destruct (get3 _ _); [|apply seats_ro; auto with ro].
      apply seats_bind; [apply seats_ro; auto with ro|intros]. apply seats_whenM, seats_bind; [apply seats_relink|intros; apply seats_sched].
  Qed.
  Lemma flip_safe evt s s' : handle_flip_event evt s = Ok (tt, s') -> safe s s'.
  Proof.
    intros H. unfold handle_flip_event in H. cbv zeta in H. destruct (ev_side evt) as [|e [|? ?]]; try discriminate H.
    ro_next H. change (get3 (t_n (ts s (ev_tri evt))) e) with (link s (ev_tri evt) e) in H.
    destruct (link s (ev_tri evt) e) as [m|]; [|discriminate H]. do 2 ro_next H. clear H0.
    peel H z1 s1 H1. apply flip_corners in H1. destruct H1 as (K & _).
    peel H z2 s2 H2. apply seats_riq in H2. apply seats_riq in H.
    intros u i. left. unfold corner in K |- *. rewrite H, H2. apply K.
  Qed.

  Lemma replace_seats a t x v kv now d s fan s' : v <> kv ->
    (relink a t x ;; replace_kvertex a v kv now d) s = Ok (fan, s') ->
    (forall u i, corner s' u i = corner s u i \/ (corner s u i = v /\ corner s' u i = kv /\ In u fan)) /\
    (forall u, In u fan -> exists i, corner s' u i = kv).
  Proof. apply (fan_seats (Some a)). Qed.

  (** handing the fan of an infinitely fast new vertex over *)
  Lemma hand_over fuel fan kv now d step s s' : seated s -> registered s ->
    (forall u, In u fan -> exists i, corner s u i = kv) ->
    whenM (k_inf_fast (vs s kv)) (handle_parallel_fan fuel fan kv now d step) s = Ok (tt, s') ->
    safe s s' /\ (k_inf_fast (vs s kv) = true -> held s' kv).
  Proof.
    intros C R K H. destruct (k_inf_fast (vs s kv)); cbn in H.
    - destruct (fan_held _ _ _ _ _ _ _ _ H R C) as [X Y]; [|auto]. intros u r ->. apply K. left. reflexivity.
    - apply ret_ok in H. destruct H as [_ ->]. split; [apply safe_same; reflexivity|discriminate].
  Qed.

  Theorem split_safe evt step s s' : handle_split_event evt step s = Ok (tt, s') -> registered s -> seated s ->
    (k_inf_fast (vs s' (nv s)) = false \/ k_inf_fast (vs s' (S (nv s))) = false) -> safe s s'.
  Proof.
    intros H R C ONE. set (now := ev_time evt).
    unfold handle_split_event, handle_split_event_with in H. destruct (ev_side evt) as [|e [|? ?]] eqn:He; try discriminate H. cbv zeta in H.
    fold now in H. set (t := ev_tri evt) in *.
    ro_next H. change (get3 (t_v (ts s t)) (ccw e)) with (corner s t (ccw e)) in H. change (get3 (t_v (ts s t)) (cw e)) with (corner s t (cw e)) in H.
    change (get3 (t_v (ts s t)) e) with (corner s t e) in H.
    set (v := corner s t e) in *. set (v1 := corner s t (ccw e)) in *. set (v2 := corner s t (cw e)) in *.
    assert (L : v < nv s) by apply C.
    do 2 ro_next H.
    peel H n s1 Hstop.
    pose proof (stop_follows _ _ _ _ _ _ _ Hstop) as (F1 & R1). destruct (R1 R) as [R1' In1]. clear R1.
    pose proof (seats_stop _ _ _ _ _ _ _ Hstop) as C1.
    apply stop_ends in Hstop. destruct Hstop as (_ & _ & _ & E3 & _).
    do 5 ro_next H.
    peel H kv s2 Hnew.
    pose proof (newv_follows _ _ _ _ _ _ _ _ _ Hnew In1) as (F2 & R2 & _). specialize (R2 R1').
    pose proof (seats_newv _ _ _ _ _ _ _ _ _ Hnew) as C2.
    apply new_starts in Hnew. destruct Hnew as (-> & B2 & _ & _ & B5 & _). rewrite E3 in *.
    peel H z3 s3 J3. pose proof (seats_wf _ _ _ _ _ _ J3) as C3. destruct (keeps_wf base_sound now _ _ _ _ R2 _ _ J3) as [R3 F3].
    apply quiets_wf in J3. pose proof (qu_nv _ _ J3) as N3. pose proof (qu_nodes _ _ J3) as M3. clear J3.
    peel H z6 s4 J4. assert (LK : nv s < nv s3) by lia.
    pose proof (seats_addv _ _ _ _ J4) as C4. destruct (s_addv base_sound now _ _ R3 LK _ _ J4) as [R4 F4].
    apply addv_eff in J4. destruct J4 as (_ & N4 & _ & _ & M4 & _).
    ro_next H.
    assert (In4 : In n (sk_nodes s4)) by (rewrite M4, M3, B5; exact In1).
    peel H kv s5 Hnew.
    pose proof (newv_follows _ _ _ _ _ _ _ _ _ Hnew In4) as (F5 & R5 & _). specialize (R5 R4).
    pose proof (seats_newv _ _ _ _ _ _ _ _ _ Hnew) as C5.
    apply new_starts in Hnew. destruct Hnew as (-> & G2 & _).
    assert (N4' : nv s4 = S (nv s)) by lia. rewrite N4' in *.
    peel H z7 s6 J6. pose proof (seats_wf _ _ _ _ _ _ J6) as C6. destruct (keeps_wf base_sound now _ _ _ _ R5 _ _ J6) as [R6 F6].
    apply quiets_wf, qu_nv in J6.
    peel H z8 s7 J7. assert (LK' : S (nv s) < nv s6) by lia.
    pose proof (seats_addv _ _ _ _ J7) as C7. destruct (s_addv base_sound now _ _ R6 LK' _ _ J7) as [R7 F7].
    apply addv_eff in J7. destruct J7 as (_ & N7 & _).
    peel H z9 s8 J8. pose proof (seats_circ _ _ _ _ _ _ J8) as C8. destruct (keeps_circ base_sound now _ _ _ R7 _ _ J8) as [R8 F8].
    apply quiets_circ, qu_nv in J8.
    peel H z10 s9 J9. pose proof (seats_circ _ _ _ _ _ _ J9) as C9. destruct (keeps_circ base_sound now _ _ _ R8 _ _ J9) as [R9 F9].
    apply quiets_circ, qu_nv in J9. do 5 ro_next H.
    peel H z11 s10 J10. pose proof (seats_circ _ _ _ _ _ _ J10) as C10. destruct (keeps_circ base_sound now _ _ _ R9 _ _ J10) as [R10 F10].
    apply quiets_circ, qu_nv in J10. ro_next H.
    peel H z12 s11 J11. pose proof (seats_circ _ _ _ _ _ _ J11) as C11. destruct (keeps_circ base_sound now _ _ _ R10 _ _ J11) as [R11 F11].
    apply quiets_circ, qu_nv in J11. do 6 ro_next H.
    destruct (get3 (t_n (ts s11 t)) (ccw e)) as [b|]; [|discriminate H].
    peel H z13 s12 J12. pose proof (quiets_relink _ _ _ _ _ _ J12) as Q12. apply qu_nv in Q12.
    destruct (keeps_relink base_sound now _ _ _ _ R11 _ _ J12) as [R12 F12]. apply seats_relink in J12.
    peel H fb s13 J13. pose proof (quiets_replace _ _ _ _ _ _ _ _ J13) as Q13. apply qu_nv in Q13.
    destruct (keeps_replace_kvertex base_sound _ _ _ now _ _ R12 _ _ J13) as [R13 F13].
    unfold replace_kvertex in J13. ro_next J13. apply walk_seats in J13; [|lia]. destruct J13 as [K13 K13'].
    ro_next H.
    destruct (get3 (t_n (ts s13 t)) (cw e)) as [a|]; [|discriminate H].
    peel H z14 s14 J14. pose proof (quiets_relink _ _ _ _ _ _ J14) as Q14. apply qu_nv in Q14.
    destruct (keeps_relink base_sound now _ _ _ _ R13 _ _ J14) as [R14 F14]. apply seats_relink in J14.
    peel H fa s15 J15. pose proof (quiets_replace _ _ _ _ _ _ _ _ J15) as Q15. apply qu_nv in Q15.
    destruct (keeps_replace_kvertex base_sound _ _ _ now _ _ R14 _ _ J15) as [R15 F15].
    unfold replace_kvertex in J15. ro_next J15. apply walk_seats in J15; [|lia]. destruct J15 as [K15 K15'].
    peel H z16 s16 J16. pose proof (seats_tstops _ _ _ _ _ J16) as C16.
    destruct (s_tstops base_sound now _ _ R15 _ _ J16) as [R16 F16].
    apply modt_spec in J16. assert (N16 : nv s16 = nv s15) by (rewrite J16; reflexivity). clear J16.
    peel H f17 s17 J17. apply vattr_ok in J17. destruct J17 as (_ & -> & ->).
    peel H z18 s18 J18. destruct z18.
    peel H f19 s19 J19. apply vattr_ok in J19. destruct J19 as (_ & -> & ->).
    assert (FF : follows s s16) by exact (follows_trans _ _ _ F1 (follows_trans _ _ _ F2 (follows_trans _ _ _ F3 (follows_trans _ _ _ F4 (follows_trans _ _ _ F5 (follows_trans _ _ _ F6 (follows_trans _ _ _ F7 (follows_trans _ _ _ F8 (follows_trans _ _ _ F9 (follows_trans _ _ _ F10 (follows_trans _ _ _ F11 (follows_trans _ _ _ F12 (follows_trans _ _ _ F13 (follows_trans _ _ _ F14 (follows_trans _ _ _ F15 F16))))))))))))))).
    clear F1 F2 F3 F4 F5 F6 F7 F8 F9 F10 F11 F12 F13 F14 F15 F16.
    assert (N : nv s16 = S (S (nv s))) by lia.
    assert (CO : forall u i, corner s12 u i = corner s u i).
    { intros u i. unfold corner. rewrite J12, C11, C10, C9, C8, C7, C6, C5, C4, C3, C2, C1. reflexivity. }
    assert (CA : forall u i, corner s16 u i = corner s u i \/ (corner s16 u i = nv s /\ In u fb) \/ (corner s16 u i = S (nv s) /\ In u fa)).
    { intros u i. replace (corner s16 u i) with (corner s15 u i) by (unfold corner; rewrite C16; reflexivity).
      destruct (K15 u i) as [->|(_ & -> & X)]; [|auto].
      replace (corner s14 u i) with (corner s13 u i) by (unfold corner; rewrite J14; reflexivity).
      destruct (K13 u i) as [->|(_ & -> & X)]; [rewrite CO|]; auto. }
    assert (FA : forall u, In u fa -> exists i, corner s16 u i = S (nv s)).
    { intros u X. destruct (K15' u X) as [i Q]. exists i. unfold corner in *. rewrite C16. exact Q. }
    assert (FB : forall u, In u fb -> exists i, corner s16 u i = nv s).
    { intros u X. destruct (K13' u X) as [i Q]. exists i. rewrite <- Q.
      replace (corner s13 u i) with (corner s14 u i) by (unfold corner; rewrite J14; reflexivity).
      replace (corner s16 u i) with (corner s15 u i) by (unfold corner; rewrite C16; reflexivity).
      destruct (K15 u i) as [->|(Z & _ & _)]; [reflexivity|]. exfalso.
      assert (corner s14 u i = nv s) by (unfold corner in *; rewrite J14; exact Q). lia. }
    assert (C16' : seated s16).
    { intros u i. pose proof (C u i). destruct (CA u i) as [->|[[-> _]|[-> _]]]; lia. }
    destruct (keeps_whenM base_sound now _ _ (keeps_parallel_fan base_sound reclimit fa (S (nv s)) now Cw step) s16 R16 _ _ J18) as [R18 F18].
    destruct (keeps_whenM base_sound now _ _ (keeps_parallel_fan base_sound reclimit fb (nv s) now Ccw step) s18 R18 _ _ H) as [R19 F19].
    pose proof (fo_nv _ _ F18) as N18. pose proof (fo_nv _ _ F19) as N19.
    assert (MB : k_inf_fast (vs s' (nv s)) = k_inf_fast (vs s16 (nv s)) /\ k_inf_fast (vs s18 (nv s)) = k_inf_fast (vs s16 (nv s))).
    { rewrite (sm_fast _ _ (fo_motion _ _ F19 (nv s) ltac:(lia))), (sm_fast _ _ (fo_motion _ _ F18 (nv s) ltac:(lia))). auto. }
    assert (MA : k_inf_fast (vs s' (S (nv s))) = k_inf_fast (vs s16 (S (nv s)))).
    { rewrite (sm_fast _ _ (fo_motion _ _ F19 (S (nv s)) ltac:(lia))), (sm_fast _ _ (fo_motion _ _ F18 (S (nv s)) ltac:(lia))). auto. }
    destruct (hand_over _ _ _ _ _ _ _ _ C16' R16 FA J18) as [S18 H18].
    assert (FIN : safe s16 s' /\ (k_inf_fast (vs s' (nv s)) = true -> held s' (nv s)) /\ (k_inf_fast (vs s' (S (nv s))) = true -> held s' (S (nv s)))).
    { destruct MB as [MB MB']. rewrite MA, MB in *.
      destruct (k_inf_fast (vs s16 (nv s))) eqn:FB1; rewrite MB' in H; cbn in H.
      - destruct ONE as [ONE|ONE]; [discriminate ONE|]. rewrite ONE in J18. cbn in J18. apply ret_ok in J18. destruct J18 as [_ ->].
        destruct (fan_held _ _ _ _ _ _ _ _ H R16 C16') as [X Y]; [|rewrite ONE; split; [exact Y|]; split; [auto|discriminate]].
        intros u r ->. apply FB. left. reflexivity.
      - apply ret_ok in H. destruct H as [_ ->]. split; [exact S18|]. split; [discriminate|exact H18]. }
    destruct FIN as (S & HB & HA). intros u i. destruct (S u i) as [(u0 & i0 & Q)|[L0 K0]].
    - rewrite <- Q. destruct (CA u0 i0) as [->|[[-> _]|[-> _]]].
      + left. exists u0, i0. reflexivity.
      + right. split; [lia|exact HB].
      + right. split; [lia|exact HA].
    - right. split; [lia|exact K0].
  Qed.

  Theorem event_safe e step s s' : handle_event e step s = Ok (tt, s') -> registered s -> seated s ->
    (ev_tp (es s e) = Split -> t_stops (ts s (ev_tri (es s e))) = None ->
       k_inf_fast (vs s' (nv s)) = false \/ k_inf_fast (vs s' (S (nv s))) = false) -> safe s s'.
  Proof.
    intros H R C ONE. unfold handle_event in H. do 2 ro_next H.
    destruct (t_stops (ts s (ev_tri (es s e)))); cbn [is_some] in H.
    { apply ret_ok in H. destruct H as [_ ->]. apply safe_same. reflexivity. }
    destruct (ev_tp (es s e)).
    - destruct (Nat.eqb _ 3); [apply three_safe in H; exact H|].
      destruct (_ && _); [apply one_side_safe in H; exact H|].
      destruct (Nat.eqb _ 2); [discriminate H|]. apply edge_safe in H; auto.
    - apply flip_safe in H. exact H.
    - apply split_safe in H; auto.
  Qed.

  (** ** Runs *)
  Theorem run_tame s0 now tr s : registered s0 -> shaped s0 -> tame s0 -> reach s0 now tr s ->
    (forall now1 tr1 s1 e now2 s2 s3, reach s0 now1 tr1 s1 -> length tr1 < length tr ->
       take_next now1 s1 = Ok ((e, now2), s2) -> handle_event e (Z.of_nat (S (length tr1))) s2 = Ok (tt, s3) ->
       ev_tp (es s2 e) = Split -> t_stops (ts s2 (ev_tri (es s2 e))) = None ->
       k_inf_fast (vs s3 (nv s2)) = false \/ k_inf_fast (vs s3 (S (nv s2))) = false) ->
    tame s.
  Proof.
    intros R0 SH0 L0 H. induction H as [|now tr s e now' s1 s' R IH T H]; intros ONE; [exact L0|].
    rewrite app_length in ONE. cbn [length] in ONE.
    destruct (steps_base _ _ _ _ _ _ R0 R) as [Rs Fs].
    pose proof (steps_shaped _ _ _ _ _ _ R0 SH0 R) as Ss.
    assert (C : registered s1 /\ shaped s1 /\ nv s1 = nv s /\ ts s1 = ts s /\ vs s1 = vs s).
    { apply take_next_ok in T. destruct T as [(r & _ & _ & ->)|(r & _ & _ & _ & ->)];
        (split; [destruct Rs; constructor; auto|split; [destruct Ss; constructor; auto|auto]]). }
    destruct C as (R1 & SH1 & N1 & TS & VS).
    pose proof (keeps_handle_event base_sound e (Z.of_nat (S (length tr))) s1 R1 tt s' H) as [R2 F2].
    assert (Ts : tame s).
    { apply IH. intros now1 tr1 s3 e1 now2 s2 s4 Q1 Q2. apply (ONE now1 tr1 s3 e1 now2 s2 s4 Q1). clear -Q2; lia. }
    assert (T1 : tame s1) by (unfold tame, corner, held in *; rewrite TS, VS; exact Ts).
    assert (C1 : seated s1) by (intros u i; apply (sh_v _ SH1)).
    apply (safe_tame s1 s'); auto. eapply event_safe; eauto.
    intros Q4 Q5. apply (ONE now tr s e now' s1 s' R ltac:(clear; lia) T H Q4 Q5).
  Qed.
End FastRun.
