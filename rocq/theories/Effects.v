(** What an event does to the skeleton: which triangles and vertices stop, which
    vertices start, and when (any arithmetic) *)
From Verif Require Import Base Arith Calc VectorOps Line2d Primitives Collapse
  EventsLib FlipEvent ParallelEvent EdgeEvent SplitEvent EventLoop Pass OpSpec StopSpec RunBase.
Local Open Scope nat_scope.

(** ** Times *)
(** step over a read-only operation *)
Ltac ro_next H := apply bind_ok in H; let x := fresh "y" in let s0 := fresh "s0" in let H0 := fresh "H0" in
  destruct H as (x & s0 & H0 & H);
  first [injection H0 as <- <-
        |let R := fresh "R" in match type of H0 with ?m ?s = _ => assert (R : ro m) by (auto with ro); pose proof (R _ _ _ H0); subst s0; clear R end].

Section Stamps.
  Context {A : Arith} {E : Env A}.
  Variables (now0 : num) (s0 : state).

  (** since [s0], times were only set to [now0] *)
  Definition stamped (s : state) : Prop :=
    (forall t, t_stops (ts s t) = t_stops (ts s0 t) \/ t_stops (ts s t) = Some now0) /\
    nv s0 <= nv s /\
    (forall v, v < nv s0 -> k_stops (vs s v) = k_stops (vs s0 v) \/ k_stops (vs s v) = Some now0) /\
    (forall v, nv s0 <= v < nv s -> k_starts (vs s v) = Some now0 /\
       (k_stops (vs s v) = None \/ k_stops (vs s v) = Some now0)).
  Definition stampedI (now : num) (s : state) : Prop := registered s /\ (now = now0 -> stamped s).

  Lemma stamped_same s s' : ts s' = ts s -> nv s' = nv s ->
    (forall v, k_starts (vs s' v) = k_starts (vs s v) /\
       (k_stops (vs s' v) = k_stops (vs s v) \/ k_stops (vs s' v) = Some now0)) ->
    stamped s -> stamped s'.
  Proof.
    intros T N V (S1 & S2 & S3 & S4). split; [rewrite T; exact S1|]. split; [lia|]. split.
    - intros v Hv. destruct (V v) as [_ [->| ->]]; auto.
    - rewrite N. intros v Hv. destruct (V v) as [-> [->| ->]]; split; auto; apply (S4 v Hv).
  Qed.
  Lemma stamped_tris s s' : vs s' = vs s -> nv s' = nv s ->
    (forall t, t_stops (ts s' t) = t_stops (ts s t) \/ t_stops (ts s' t) = Some now0) -> stamped s -> stamped s'.
  Proof.
    intros V N T (S1 & S2 & S3 & S4). split; [|rewrite V, N; auto].
    intros t. destruct (T t) as [->| ->]; auto.
  Qed.

  Lemma stamped_sound : Sound stampedI follows.
  Proof.
    pose proof (base_sound (A:=A) (E:=E)) as B.
    constructor; try (solve [apply B]).
    - intros now s V step pos [R H] n s' K. destruct (s_stop B now s V step pos R n s' K) as (R' & F & In').
      split; [|auto]. split; [exact R'|]. intros ->. specialize (H eq_refl).
      apply stop_and_register_spec in K. destruct K as (new & s1 & K & ->).
      apply stop_kvertices_spec in K. destruct K as (_ & _ & K). destruct new.
      + destruct K as (-> & p & f & -> & Ff & _). apply (stamped_same s); [reflexivity|reflexivity| |exact H].
        intros v. cbn. rewrite Ff. unfold scanned. destruct (mem Nat.eqb v V); cbn; [|auto].
        destruct (negb (anchored now0 (vs s v))); cbn; auto.
      + destruct K as (f & -> & _ & Ff). apply (stamped_same s); [reflexivity|reflexivity| |exact H].
        intros v. cbn. rewrite Ff. destruct (mem Nat.eqb v V); cbn; auto.
    - intros now s v n [R H] Hn u s' K. destruct (s_stop_at B now s v n R Hn u s' K) as [R' F]. split; [|exact F].
      split; [exact R'|]. intros ->. specialize (H eq_refl). apply stop_at_eff in K. destruct K as (f & -> & Ff).
      apply (stamped_same s); [reflexivity|reflexivity| |exact H]. intros w. cbn. rewrite Ff.
      destruct (Nat.eqb_spec v w); [subst; cbn; auto|auto].
    - intros now s ul ur n info int [R H] Hn v s' K. destruct (s_newv B now s ul ur n info int R Hn v s' K) as (R' & F & L).
      split; [|auto]. split; [exact R'|]. intros ->. destruct (H eq_refl) as (S1 & S2 & S3 & S4).
      apply newv_spec in K. destruct K as (kv & K & -> & ->).
      pose proof (new_kvertex_fields _ _ _ _ _ _ _ _ K) as (_ & F0 & F2 & F1 & F3 & _).
      split; [exact S1|]. split; [cbn; lia|]. split; cbn.
      + intros v Hv. rewrite upd_other by lia. auto.
      + intros v Hv. destruct (upd_case (vs s) (nv s) kv v) as [[<- ->]|[N ->]].
        * split; [congruence|]. left. congruence.
        * apply S4. lia.
    - intros now s v l r [R H] u s' K. destruct (s_wf B now s v l r R u s' K) as [R' F]. split; [|exact F].
      split; [exact R'|]. intros ->. specialize (H eq_refl). apply wf_eff in K. destruct K as (f & -> & Ff).
      apply (stamped_same s); [reflexivity|reflexivity| |exact H]. intros w. cbn. rewrite Ff.
      destruct (Nat.eqb_spec v w); [subst; cbn; auto|auto].
    - intros now s v [R H] Hv u s' K. destruct (s_addv B now s v R Hv u s' K) as [R' F]. split; [|exact F].
      split; [exact R'|]. intros ->. specialize (H eq_refl). injection K as _ <-.
      apply (stamped_same s); [reflexivity|reflexivity|cbn; auto|exact H].
    - intros now s l r [R H] u s' K. destruct (s_circ B now s l r R u s' K) as [R' F]. split; [|exact F].
      split; [exact R'|]. intros ->. specialize (H eq_refl). apply circ_spec in K. destruct K as (f & -> & Ff).
      apply (stamped_same s); [reflexivity|reflexivity| |exact H]. intros w. cbn. destruct (Ff w) as (? & ? & ->). auto.
    - intros now s t f [R H] Mf u s' K. destruct (s_mesh B now s t f R Mf u s' K) as [R' F]. split; [|exact F].
      split; [exact R'|]. intros ->. specialize (H eq_refl). apply modt_spec in K. subst s'.
      apply (stamped_tris s); [reflexivity|reflexivity| |exact H]. intros w. cbn.
      destruct (upd_case (ts s) t (f (ts s t)) w) as [[<- ->]|[_ ->]]; [|auto]. left. apply Mf.
    - intros now s t [R H] u s' K. destruct (s_tstops B now s t R u s' K) as [R' F]. split; [|exact F].
      split; [exact R'|]. intros ->. specialize (H eq_refl). apply modt_spec in K. subst s'.
      apply (stamped_tris s); [reflexivity|reflexivity| |exact H]. intros w. cbn.
      destruct (upd_case (ts s) t (tri_stops (ts s t) (Some now0)) w) as [[<- ->]|[_ ->]]; auto.
    - intros now s e [R H] u s' K. destruct (s_forget B now s e R u s' K) as [R' F]. split; [|exact F].
      split; [exact R'|]. intros ->. apply forget_spec in K. subst s'. exact (H eq_refl).
    - intros now s t [R H] u s' K. destruct (s_riq B now s t R u s' K) as [R' F]. split; [|exact F].
      split; [exact R'|]. intros ->. specialize (H eq_refl). apply riq_spec in K.
      assert (H' : stamped (forget s (t_event (ts s t)))) by (destruct (t_event (ts s t)); exact H).
      destruct K as [[_ ->]|(e & _ & ->)]; [exact H'|].
      refine (stamped_tris _ _ _ _ _ H'); [reflexivity|reflexivity|]. intros w. cbn.
      match goal with |- context [upd ?a ?b ?c w] => destruct (upd_case a b c w) as [[<- ->]|[_ ->]] end; auto.
    - intros now s t [R H] u s' K. destruct (s_sched B now s t R u s' K) as [R' F]. split; [|exact F].
      split; [exact R'|]. intros ->. specialize (H eq_refl). apply sched_spec in K.
      destruct K as (e & _ & _ & _ & H1 & H2 & _ & _ & _ & _ & _ & _ & _ & _ & _ & _ & H11 & _).
      apply (stamped_tris s); [exact H1|exact H2| |exact H]. intros w. rewrite H11.
      match goal with |- context [upd ?a ?b ?c w] => destruct (upd_case a b c w) as [[<- ->]|[_ ->]] end; auto.
  Qed.
End Stamps.

Section Effects.
  Context {A : Arith} {E : Env A}.
  Local Open Scope M_scope.

  Theorem event_stamps s e step s' : registered s -> handle_event e step s = Ok (tt, s') ->
    stamped (ev_time (es s e)) s s'.
  Proof.
    intros R H.
    destruct (keeps_handle_event (stamped_sound (ev_time (es s e)) s) e step s) with (x := tt) (s' := s') as [[_ K] _]; auto.
    split; [exact R|]. intros _. split; [auto|]. split; [lia|]. split; [auto|]. intros; lia.
  Qed.

  (** ** Steps that neither stop nor start anything *)
  Record quiet (s s' : state) : Prop := {
    qu_nv : nv s' = nv s; qu_nn : nn s' = nn s; qu_ns : ns s' = ns s;
    qu_nodes : sk_nodes s' = sk_nodes s; qu_verts : sk_vertices s' = sk_vertices s;
    qu_motion : forall v, same_motion (vs s v) (vs s' v);
    qu_stop_node : forall v, k_stop_node (vs s' v) = k_stop_node (vs s v);
    qu_stops : forall v, k_stops (vs s' v) = k_stops (vs s v);
    qu_tstops : forall t, t_stops (ts s' t) = t_stops (ts s t) }.
  Lemma quiet_refl s : quiet s s.
  Proof. constructor; auto using same_motion_refl. Qed.
  Lemma quiet_trans a b c : quiet a b -> quiet b c -> quiet a c.
  Proof.
    intros [] []. constructor; try congruence; intros.
    eapply same_motion_trans; eauto.
  Qed.
  Definition quiets {X} (m : M X) : Prop := forall s x s', m s = Ok (x, s') -> quiet s s'.

  Lemma quiets_ro {X} (m : M X) : ro m -> quiets m.
  Proof. intros H s x s' K. apply H in K. subst. apply quiet_refl. Qed.
  Lemma quiets_bind {X Y} (m : M X) (k : X -> M Y) : quiets m -> (forall x, quiets (k x)) -> quiets (bind m k).
  Proof.
    intros H K s y s' L. apply bind_ok in L. destruct L as (x & s1 & L1 & L2).
    eapply quiet_trans; [eapply H, L1|eapply K, L2].
  Qed.
  Lemma quiets_whenM b m : quiets m -> quiets (whenM b m).
  Proof. destruct b; simpl; auto. intros _. apply quiets_ro; auto with ro. Qed.
  Lemma quiets_forM {X} (l : list X) f : (forall x, quiets (f x)) -> quiets (forM l f).
  Proof.
    intros H. induction l as [|x l IH]; cbn [forM]; [apply quiets_ro; auto with ro|].
    apply quiets_bind; auto.
  Qed.
  Lemma quiets_modt t f : mesh_change f -> quiets (modt t f).
  Proof.
    intros F s x s' H. apply modt_spec in H. subst. constructor; cbn; auto using same_motion_refl.
    intros w. destruct (upd_case (ts s) t (f (ts s t)) w) as [[<- ->]|[_ ->]]; auto. apply F.
  Qed.
  Lemma quiets_circ l r now : quiets (update_circ l r now).
  Proof.
    intros s x s' H. apply circ_spec in H. destruct H as (f & -> & F).
    constructor; cbn; auto; intros v; destruct (F v) as (? & ? & ->); auto. constructor; reflexivity.
  Qed.
  Lemma quiets_wf v l r : quiets (set_wf v l r).
  Proof.
    intros s x s' H. apply wf_eff in H. destruct H as (f & -> & F).
    constructor; cbn; auto; intros w; rewrite F; destruct (Nat.eqb_spec v w); try subst w; auto using same_motion_refl.
    constructor; reflexivity.
  Qed.
  Lemma quiets_forget e : quiets (queue_discard (Some e) ;; immediate_remove (Some e)).
  Proof. intros s x s' H. apply forget_spec in H. subst. constructor; auto using same_motion_refl. Qed.
  Lemma quiets_riq t now : quiets (replace_in_queue t now).
  Proof.
    intros s x s' H. apply riq_spec in H.
    destruct H as [[_ ->]|(e & _ & ->)]; destruct (t_event (ts s t)); constructor; cbn; auto using same_motion_refl;
    intros w; match goal with |- context [upd ?a ?b ?c w] => destruct (upd_case a b c w) as [[<- ->]|[_ ->]] end; auto.
  Qed.
  Lemma quiets_sched t now : quiets (schedule_immediately t now).
  Proof.
    intros s x s' H. apply sched_spec in H.
    destruct H as (e & _ & _ & _ & H1 & H2 & H3 & H4 & H5 & H6 & H7 & H8 & H9 & H10 & _ & _ & H11 & H12).
    constructor; auto; rewrite ?H1; auto using same_motion_refl.
    intros w. rewrite H11. match goal with |- context [upd ?a ?b ?c w] => destruct (upd_case a b c w) as [[<- ->]|[_ ->]] end; auto.
  Qed.
  Lemma quiets_walk fuel : forall t v newv now d, quiets (replace_walk fuel t v newv now d).
  Proof.
    induction fuel as [|fuel IH]; intros t v newv now d; cbn [replace_walk].
    { destruct t; apply quiets_ro; auto with ro. }
    destruct t as [t|]; [|apply quiets_ro; auto with ro].
    apply quiets_bind; [apply quiets_ro; auto with ro|intros x].
    apply quiets_bind; [apply quiets_ro; auto with ro|intros sd].
    apply quiets_bind; [apply quiets_modt; repeat split|intros _].
    apply quiets_bind; [apply quiets_ro; auto with ro|intros fast].
    apply quiets_bind.
    { destruct (if (fast : bool) then t_event x else None); [apply quiets_forget|apply quiets_riq]. }
    intros _. apply quiets_bind; [apply quiets_ro; auto with ro|intros y].
    apply quiets_bind; [apply IH|intros]. apply quiets_ro; auto with ro.
  Qed.
  Lemma quiets_replace t v newv now d : quiets (replace_kvertex t v newv now d).
  Proof. apply quiets_bind; [apply quiets_ro; auto with ro|intros]. apply quiets_walk. Qed.
  Lemma quiets_relink n t x : quiets (relink n t x).
  Proof.
    apply quiets_bind; [apply quiets_ro; auto with ro|intros].
    apply quiets_bind; [apply quiets_ro; auto with ro|intros]. apply quiets_modt; repeat split.
  Qed.
  Lemma quiets_unlink now n t : quiets (unlink_and_schedule n t now).
  Proof.
    unfold unlink_and_schedule. destruct n; [|apply quiets_ro; auto with ro].
    apply quiets_bind; [apply quiets_relink|intros]. apply quiets_bind; [apply quiets_ro; auto with ro|intros].
    apply quiets_whenM, quiets_sched.
  Qed.
  Lemma quiets_tiny fan kv now d : quiets (schedule_if_tiny fan kv now d).
  Proof.
    unfold schedule_if_tiny. destruct (rev fan); [apply quiets_ro; auto with ro|].
    apply quiets_bind; [apply quiets_ro; auto with ro|intros].
    apply quiets_bind; [apply quiets_ro; auto with ro|intros].
    destruct (edge_segment _ _).
    apply quiets_bind; [apply quiets_ro; auto with ro|intros].
    apply quiets_bind; [apply quiets_ro; auto with ro|intros].
    apply quiets_whenM, quiets_sched.
  Qed.
  Lemma quiets_neighbour t now sd : quiets (schedule_neighbour t now sd).
  Proof.
    apply quiets_bind; [apply quiets_ro; auto with ro|intros]. destruct (get3 _ sd); [|apply quiets_ro; auto with ro].
    apply quiets_bind; [apply quiets_ro; auto with ro|intros]. apply quiets_whenM.
    apply quiets_bind; [apply quiets_relink|intros; apply quiets_sched].
  Qed.
  Lemma quiets_link_around n sd t : quiets (link_around n sd t).
  Proof. destruct n as [n|], sd as [sd|]; [apply quiets_modt; repeat split|..]; apply quiets_ro; apply ro_ret. Qed.
  Lemma quiets_flip t0 sd0 t1 sd1 : quiets (flip t0 sd0 t1 sd1).
  Proof.
    unfold flip. repeat (match goal with |- quiets (bind _ _) => idtac end; apply quiets_bind; [solve [apply quiets_ro; auto with ro|apply quiets_link_around|apply quiets_modt; repeat split]|intros]).
    apply quiets_modt; repeat split.
  Qed.

  (** ** Stopping vertices *)
  (** [v] ends in the node [n] at time [now] *)
  Definition ends (s : state) (v n : nat) (now : num) : Prop :=
    k_stop_node (vs s v) = Some n /\ exists z, k_stops (vs s v) = Some z /\ (z = now \/ neqb z now = true).

  Lemma stop_ends V step now pos s n s' : stop_and_register V step now pos s = Ok (n, s') ->
    (forall v, In v V -> ends s' v n now) /\ (forall v, ~ In v V -> vs s' v = vs s v) /\
    (forall v, same_motion (vs s v) (vs s' v)) /\
    nv s' = nv s /\ ts s' = ts s /\ sk_vertices s' = sk_vertices s /\
    ((n = nn s /\ sk_nodes s' = sk_nodes s ++ [n] /\ nn s' = S (nn s)) \/ (sk_nodes s' = sk_nodes s /\ nn s' = nn s)).
  Proof.
    intros H. apply stop_and_register_spec in H. destruct H as (new & s1 & H & ->).
    apply stop_kvertices_spec in H. destruct H as (_ & _ & H). destruct new.
    - destruct H as (-> & p & f & -> & F & G & _). cbn. split; [|split; [|split; [|auto 10]]].
      + intros v Hv. split; cbn.
        * rewrite F. apply mem_In in Hv. rewrite Hv. reflexivity.
        * destruct (G v Hv) as (z & Z1 & Z2). eauto.
      + intros v Hv. rewrite F. destruct (mem Nat.eqb v V) eqn:Q; [apply mem_In in Q; tauto|reflexivity].
      + intros v. rewrite F. unfold scanned. destruct (mem Nat.eqb v V); cbn; [|apply same_motion_refl].
        destruct (negb _); constructor; reflexivity.
    - destruct H as (f & -> & _ & F). cbn. split; [|split; [|split; [|auto 10]]].
      + intros v Hv. apply mem_In in Hv. split; cbn; rewrite F, Hv; cbn; eauto.
      + intros v Hv. rewrite F. destruct (mem Nat.eqb v V) eqn:Q; [apply mem_In in Q; tauto|reflexivity].
      + intros v. rewrite F. destruct (mem Nat.eqb v V); [constructor; reflexivity|apply same_motion_refl].
  Qed.
  Lemma quiet_ends s s' v n now : quiet s s' -> ends s v n now -> ends s' v n now.
  Proof. intros Q [H1 (z & H2 & H3)]. split; [rewrite (qu_stop_node _ _ Q); exact H1|]. exists z. rewrite (qu_stops _ _ Q). auto. Qed.

  Theorem three_effects evt step s s' : handle_edge_event_3sides evt step s = Ok (tt, s') ->
    let now := ev_time evt in
    exists n, (forall v, In v (list3 (t_v (ts s (ev_tri evt)))) -> ends s' v n now) /\
      (forall v, ~ In v (list3 (t_v (ts s (ev_tri evt)))) ->
         k_stop_node (vs s' v) = k_stop_node (vs s v) /\ k_stops (vs s' v) = k_stops (vs s v)) /\
      nv s' = nv s /\ sk_vertices s' = sk_vertices s /\
      (forall t, t_stops (ts s' t) = if Nat.eqb (ev_tri evt) t then Some now else t_stops (ts s t)) /\
      ((n = nn s /\ sk_nodes s' = sk_nodes s ++ [n]) \/ sk_nodes s' = sk_nodes s).
  Proof.
    intros H now. unfold handle_edge_event_3sides in H. cbv zeta in H.
    apply bind_ok in H. destruct H as (? & s1 & H0 & H). apply assertM_ok in H0. destruct H0 as [_ ->].
    apply bind_ok in H. destruct H as (y & s1 & H0 & H). injection H0 as <- <-.
    apply bind_ok in H. destruct H as (n & s1 & H1 & H). apply stop_ends in H1.
    destruct H1 as (E1 & E2 & _ & E3 & E4 & E5 & E6).
    apply bind_ok in H. destruct H as (? & s2 & H2 & H).
    apply (quiets_forM sides (schedule_neighbour (ev_tri evt) (ev_time evt))) in H2; [|intros; apply quiets_neighbour].
    apply modt_spec in H. subst s'. exists n. cbn. split; [|split; [|split; [|split; [|split]]]].
    - intros v Hv. apply (quiet_ends _ _ _ _ _ H2), E1, Hv.
    - intros v Hv. rewrite (qu_stop_node _ _ H2), (qu_stops _ _ H2), (E2 v Hv). auto.
    - rewrite (qu_nv _ _ H2). exact E3.
    - rewrite (qu_verts _ _ H2). exact E5.
    - intros t. unfold upd. destruct (Nat.eqb (ev_tri evt) t); [reflexivity|].
      rewrite (qu_tstops _ _ H2), E4. reflexivity.
    - rewrite (qu_nodes _ _ H2). tauto.
  Qed.

  Lemma new_starts ul ur now n info int s v s' : compute_new_kvertex ul ur now n info int s = Ok (v, s') ->
    v = nv s /\ nv s' = S (nv s) /\ ts s' = ts s /\ nn s' = nn s /\ sk_nodes s' = sk_nodes s /\ sk_vertices s' = sk_vertices s /\
    (forall w, w <> v -> vs s' w = vs s w) /\
    k_start_node (vs s' v) = Some n /\ k_starts (vs s' v) = Some now /\ k_ul (vs s' v) = ul /\ k_ur (vs s' v) = ur /\
    k_stops (vs s' v) = None /\ k_stop_node (vs s' v) = None /\ k_inf (vs s' v) = false.
  Proof.
    intros H. apply newv_spec in H. destruct H as (kv & H & -> & ->). apply new_kvertex_fields in H.
    cbn. rewrite upd_same. split; [reflexivity|]. repeat (split; [reflexivity|]).
    split; [intros w Hw; apply upd_other; congruence|]. tauto.
  Qed.

  (** the last vertex of a list decides which node is used, if it is at a node *)
  Lemma last_anchor_last now s V v n : anchored now (vs s v) = true -> anchor (vs s v) = Some n ->
    last_anchor now s (V ++ [v]) None = Some n.
  Proof. intros H1 H2. unfold last_anchor. rewrite fold_left_app. cbn. rewrite H1. exact H2. Qed.

  Theorem one_effects evt step e s s' : ev_side evt = [e] -> handle_edge_event_1side evt step s = Ok (tt, s') ->
    let now := ev_time evt in
    let v0 := get3 (t_v (ts s (ev_tri evt))) e in
    let v1 := get3 (t_v (ts s (ev_tri evt))) (ccw e) in
    let v2 := get3 (t_v (ts s (ev_tri evt))) (cw e) in
    near_zero (nsub now now) = true -> v0 <> v1 -> v0 <> v2 -> v0 < nv s -> v1 < nv s -> v2 < nv s ->
    exists n, ends s' v1 n now /\ ends s' v2 n now /\ ends s' v0 n now /\ ends s' (nv s) n now /\
      k_start_node (vs s' (nv s)) = Some n /\ k_starts (vs s' (nv s)) = Some now /\
      nv s' = S (nv s) /\ sk_vertices s' = sk_vertices s ++ [nv s] /\
      (forall v, v < nv s -> ~ In v [v0; v1; v2] -> k_stop_node (vs s' v) = k_stop_node (vs s v) /\ k_stops (vs s' v) = k_stops (vs s v)) /\
      (forall t, t_stops (ts s' t) = if Nat.eqb (ev_tri evt) t then Some now else t_stops (ts s t)) /\
      ((n = nn s /\ sk_nodes s' = sk_nodes s ++ [n]) \/ sk_nodes s' = sk_nodes s).
  Proof.
    intros He H now v0 v1 v2 Z N1 N2 L0 L1 L2. unfold handle_edge_event_1side in H. rewrite He in H. cbv zeta in H.
    apply bind_ok in H. destruct H as (x & s1 & H0 & H). injection H0 as <- <-. fold now v0 v1 v2 in H.
    apply bind_ok in H. destruct H as (n & s1 & H1 & H). apply stop_ends in H1.
    destruct H1 as (E1 & E2 & _ & E3 & E4 & E5 & E6).
    apply bind_ok in H. destruct H as (k1 & s0 & H0 & H). injection H0 as <- <-.
    apply bind_ok in H. destruct H as (k2 & s0 & H0 & H). injection H0 as <- <-.
    apply bind_ok in H. destruct H as (len & s0 & H0 & H). injection H0 as <- <-.
    apply bind_ok in H. destruct H as (kv & s2 & H2 & H). apply new_starts in H2.
    destruct H2 as (-> & B2 & B3 & B4 & B5 & B6 & B7 & B8 & B9 & B10 & B11 & B12 & B13 & B14).
    rewrite E3 in *.
    apply bind_ok in H. destruct H as (? & s0 & H0 & H). apply rd_ok in H0. destruct H0 as [_ ->].
    apply bind_ok in H. destruct H as (? & s3 & H3 & H). injection H3 as _ <-.
    apply bind_ok in H. destruct H as (m & s4 & H4 & H).
    assert (m = n /\ sk_nodes s4 = sk_nodes s2) as [-> SN].
    { pose proof H4 as K. apply stop_and_register_spec in K. destruct K as (new & s5 & K & K5).
      apply stop_kvertices_spec in K. destruct K as (_ & K & K6).
      assert (ND : NoDup [v0; nv s]). { constructor; [intros [Q|[]]; lia|]. constructor; [intros []|constructor]. }
      specialize (K ND). rewrite (last_anchor_last now _ [v0] (nv s) n) in K.
      - destruct new; [discriminate|]. split; [congruence|]. destruct K6 as (f & -> & _). rewrite K5. reflexivity.
      - unfold anchored. cbn. rewrite B12, B9. cbn. exact Z.
      - unfold anchor. cbn. rewrite B12. exact B8. }
    apply stop_ends in H4. destruct H4 as (D1 & D2 & SM & D3 & D4 & D5 & D6).
    assert (D2' : forall v, ~ In v [v0; nv s] -> vs s4 v = vs s2 v) by exact D2.
    apply modt_spec in H. subst s'. exists n. unfold ends; cbn [vs with_ts].
    split. { rewrite D2', B7 by (cbn; intuition lia). apply E1. cbn. auto. }
    split. { rewrite D2', B7 by (cbn; intuition lia). apply E1. cbn. auto. }
    split. { apply D1. cbn. auto. }
    split. { apply D1. cbn. auto. }
    pose proof (SM (nv s)) as [_ _ _ M4 M5 _ _ _ _ _]. cbn in M4, M5.
    split. { congruence. }
    split. { congruence. }
    split. { cbn. rewrite D3. exact B2. }
    split. { cbn. rewrite D5. cbn. rewrite B6, E5. reflexivity. }
    split. { intros v Lv Hv. rewrite D2', B7 by (cbn in *; intuition lia). rewrite E2 by (cbn in *; intuition). auto. }
    split. { intros t. cbn. unfold upd. destruct (Nat.eqb (ev_tri evt) t); [reflexivity|]. rewrite D4. cbn. rewrite B3, E4. reflexivity. }
    cbn. rewrite SN, B5. tauto.
  Qed.

  Lemma addv_eff v s u s' : add_vertex v s = Ok (u, s') ->
    vs s' = vs s /\ nv s' = nv s /\ ts s' = ts s /\ nn s' = nn s /\ sk_nodes s' = sk_nodes s /\ sk_vertices s' = sk_vertices s ++ [v].
  Proof. intros H. injection H as _ <-. repeat split. Qed.

  Lemma quiet_registered s s' : quiet s s' -> registered s -> registered s'.
  Proof.
    intros [] [R1 R2 R3 R4]. constructor.
    - intros v n H. rewrite qu_nodes0. rewrite (sm_start_node _ _ (qu_motion0 v)) in H. eauto.
    - intros v n H. rewrite qu_nodes0. rewrite qu_stop_node0 in H. eauto.
    - intros n H. rewrite qu_nodes0 in H. rewrite qu_nn0. eauto.
    - intros v H. rewrite qu_verts0 in H. rewrite qu_nv0. eauto.
  Qed.

  (** an edge event, up to the handling of an infinitely fast vertex *)
  Theorem edge_effects evt step e s s' : ev_side evt = [e] -> registered s -> handle_edge_event evt step s = Ok (tt, s') ->
    let now := ev_time evt in
    let v1 := get3 (t_v (ts s (ev_tri evt))) (ccw e) in
    let v2 := get3 (t_v (ts s (ev_tri evt))) (cw e) in
    v1 < nv s -> v2 < nv s ->
    exists n s6, ends s6 v1 n now /\ ends s6 v2 n now /\
      k_start_node (vs s6 (nv s)) = Some n /\ k_starts (vs s6 (nv s)) = Some now /\
      k_ul (vs s6 (nv s)) = k_ul (vs s v1) /\ k_ur (vs s6 (nv s)) = k_ur (vs s v2) /\
      k_stop_node (vs s6 (nv s)) = None /\ k_stops (vs s6 (nv s)) = None /\
      nv s6 = S (nv s) /\ sk_vertices s6 = sk_vertices s ++ [nv s] /\
      (forall v, v < nv s -> ~ In v [v1; v2] -> k_stop_node (vs s6 v) = k_stop_node (vs s v) /\ k_stops (vs s6 v) = k_stops (vs s v)) /\
      (forall t, t_stops (ts s6 t) = if Nat.eqb (ev_tri evt) t then Some now else t_stops (ts s t)) /\
      ((n = nn s /\ sk_nodes s6 = sk_nodes s ++ [n]) \/ sk_nodes s6 = sk_nodes s) /\ In n (sk_nodes s6) /\
      registered s6 /\ follows s6 s' /\ (k_inf_fast (vs s' (nv s)) = false -> s' = s6).
  Proof.
    intros He R H now v1 v2 L1 L2.
    unfold handle_edge_event, handle_edge_event_with in H. rewrite He in H. cbv zeta in H.
    ro_next H. fold now v1 v2 in H. do 5 ro_next H.
    apply bind_ok in H. destruct H as (n & s1 & Hstop & H).
    pose proof (stop_follows _ _ _ _ _ _ _ Hstop) as (F1 & R1). destruct (R1 R) as [R1' In1]. clear R1.
    apply stop_ends in Hstop. destruct Hstop as (E1 & E2 & EM & E3 & E4 & E5 & E6).
    do 3 ro_next H.
    apply bind_ok in H. destruct H as (kv & s2 & Hnew & H).
    pose proof (newv_follows _ _ _ _ _ _ _ _ _ Hnew In1) as (F2 & R2 & _). specialize (R2 R1').
    apply new_starts in Hnew. destruct Hnew as (-> & B2 & B3 & B4 & B5 & B6 & B7 & B8 & B9 & B10 & B11 & B12 & B13 & B14).
    rewrite E3 in *.
    assert (T : exists s5, quiet s2 s5 /\ exists s6, add_vertex (nv s) s5 = Ok (tt, s6) /\ exists s7, quiet s6 s7 /\
        exists s8, set_tstops (ev_tri evt) now s7 = Ok (tt, s8) /\ exists fa fb,
          whenM (k_inf_fast (vs s8 (nv s))) (parallel_fan_of (handle_parallel_fan reclimit) fa fb (nv s) now step) s8 = Ok (tt, s')).
    { apply bind_ok in H. destruct H as (? & s3 & H3 & H). apply quiets_wf in H3.
      apply bind_ok in H. destruct H as (? & s4 & H4 & H).
      assert (s4 = s3) as ->. { revert H4. destruct (kleft _); [|apply ro_ret]. apply ro_bind; auto with ro. } clear H4.
      apply bind_ok in H. destruct H as (? & s4 & H4 & H).
      assert (s4 = s3) as ->. { revert H4. destruct (kright _); [|apply ro_ret]. apply ro_bind; auto with ro. } clear H4.
      exists s3. split; [exact H3|]. clear H3.
      apply bind_ok in H. destruct H as ([] & s4 & H4 & H). exists s4. split; [exact H4|]. clear H4.
      apply bind_ok in H. destruct H as (? & s5 & H5 & H). apply quiets_circ in H5.
      ro_next H.
      apply bind_ok in H. destruct H as (? & s6 & H6 & H). apply quiets_circ in H6.
      do 6 ro_next H.
      apply bind_ok in H. destruct H as (fa & s7 & Hfa & H).
      assert (T7 : quiet s6 s7).
      { revert Hfa. destruct (get3 (t_n (ts s6 (ev_tri evt))) (ccw e)) as [a'|]; intros Hfa; [|apply ro_ret in Hfa; subst; apply quiet_refl].
        refine (quiets_bind _ _ (quiets_relink _ _ _) _ _ _ _ Hfa). intros _.
        apply quiets_bind; [apply quiets_replace|intros]. apply quiets_bind; [apply quiets_tiny|intros]. apply quiets_ro; auto with ro. }
      apply bind_ok in H. destruct H as (fb & s8 & Hfb & H).
      assert (T8 : quiet s7 s8).
      { revert Hfb. destruct (get3 (t_n (ts s6 (ev_tri evt))) (cw e)) as [a'|]; intros Hfb; [|apply ro_ret in Hfb; subst; apply quiet_refl].
        refine (quiets_bind _ _ (quiets_relink _ _ _) _ _ _ _ Hfb). intros _.
        apply quiets_bind; [apply quiets_replace|intros]. apply quiets_bind; [apply quiets_tiny|intros]. apply quiets_ro; auto with ro. }
      apply bind_ok in H. destruct H as (? & s9 & Hun & H). apply quiets_unlink in Hun.
      exists s9. split; [repeat (eapply quiet_trans; [eassumption|]); apply quiet_refl|].
      apply bind_ok in H. destruct H as ([] & s10 & Hts & H). exists s10. split; [exact Hts|].
      apply bind_ok in H. destruct H as (fast & s11 & Hf & H). apply vattr_ok in Hf. destruct Hf as (_ & -> & ->).
      exists fa, fb. exact H. }
    clear H. destruct T as (s5 & Q5 & s6 & H6 & s7 & Q7 & s8 & H8 & fa & fb & K).
    pose proof H6 as H6'. apply addv_eff in H6'. destruct H6' as (C1 & C2 & C3 & C4 & C5 & C6).
    pose proof H8 as H8'. apply modt_spec in H8'.
    assert (VN : forall v, k_stop_node (vs s8 v) = k_stop_node (vs s2 v) /\ k_stops (vs s8 v) = k_stops (vs s2 v) /\ same_motion (vs s2 v) (vs s8 v)).
    { intros v. subst s8. cbn. rewrite (qu_stop_node _ _ Q7), (qu_stops _ _ Q7), C1, (qu_stop_node _ _ Q5), (qu_stops _ _ Q5).
      split; [reflexivity|]. split; [reflexivity|]. eapply same_motion_trans; [apply (qu_motion _ _ Q5)|].
      rewrite <- C1. apply Q7. }
    assert (R8 : registered s8).
    { apply (s_tstops base_sound now s7 (ev_tri evt)) in H8; [apply H8|]. apply (quiet_registered _ _ Q7).
      apply (s_addv base_sound now s5 (nv s)) in H6; [apply H6|apply (quiet_registered _ _ Q5 R2)|rewrite (qu_nv _ _ Q5), B2; lia]. }
    assert (F8 : follows s8 s').
    { destruct (keeps_whenM base_sound now (k_inf_fast (vs s8 (nv s))) _
                 (keeps_fan_of base_sound _ fa fb (nv s) now step (keeps_parallel_fan base_sound reclimit))
                 s8 R8 _ _ K) as [_ Q]. exact Q. }
    assert (N8 : nv s8 = S (nv s)) by (subst s8; cbn; rewrite (qu_nv _ _ Q7), C2, (qu_nv _ _ Q5); exact B2).
    assert (SN : sk_nodes s8 = sk_nodes s1) by (subst s8; cbn; rewrite (qu_nodes _ _ Q7), C5, (qu_nodes _ _ Q5); exact B5).
    assert (OLD : forall v, v < nv s -> k_stop_node (vs s8 v) = k_stop_node (vs s1 v) /\ k_stops (vs s8 v) = k_stops (vs s1 v)).
    { intros v Hv. destruct (VN v) as (-> & -> & _). rewrite (B7 v) by lia. auto. }
    assert (EN : forall v, v < nv s -> ends s1 v n now -> ends s8 v n now).
    { intros v Hv [X1 X2]. destruct (OLD v Hv) as [O1 O2]. split; [congruence|]. rewrite O2. exact X2. }
    destruct (VN (nv s)) as (V1 & V2 & V3). destruct V3 as [_ _ _ M4 M5 M6 M7 _ _ _].
    exists n, s8. split; [apply EN; [exact L1|apply E1; cbn; auto]|]. split; [apply EN; [exact L2|apply E1; cbn; auto]|].
    split; [congruence|]. split; [congruence|].
    split; [rewrite M6, B10; apply (sm_ul _ _ (EM v1))|]. split; [rewrite M7, B11; apply (sm_ur _ _ (EM v2))|].
    split; [congruence|]. split; [congruence|]. split; [exact N8|].
    split; [subst s8; cbn; rewrite (qu_verts _ _ Q7), C6, (qu_verts _ _ Q5), B6, E5; reflexivity|].
    split. { intros v Hv Nv. destruct (OLD v Hv) as [-> ->]. rewrite (E2 v Nv). auto. }
    split. { intros t. subst s8. cbn. unfold upd. destruct (Nat.eqb (ev_tri evt) t); [reflexivity|].
             rewrite (qu_tstops _ _ Q7), C3, (qu_tstops _ _ Q5), B3, E4. reflexivity. }
    split; [rewrite SN; tauto|]. split; [rewrite SN; exact In1|]. split; [exact R8|]. split; [exact F8|].
    intros NF. rewrite (sm_fast _ _ (fo_motion _ _ F8 (nv s) ltac:(lia))) in NF. rewrite NF in K.
    apply ro_ret in K. exact K.
  Qed.

  (** a split event, up to the handling of infinitely fast vertices *)
  Theorem split_effects evt step e s s' : ev_side evt = [e] -> registered s -> handle_split_event evt step s = Ok (tt, s') ->
    let now := ev_time evt in
    let v := get3 (t_v (ts s (ev_tri evt))) e in
    let v1 := get3 (t_v (ts s (ev_tri evt))) (ccw e) in
    let v2 := get3 (t_v (ts s (ev_tri evt))) (cw e) in
    v < nv s -> v1 < nv s -> v2 < nv s ->
    let vb := nv s in let va := S (nv s) in
    exists n s6, ends s6 v n now /\
      (forall w, w = vb \/ w = va -> k_start_node (vs s6 w) = Some n /\ k_starts (vs s6 w) = Some now /\
         k_stop_node (vs s6 w) = None /\ k_stops (vs s6 w) = None) /\
      k_ul (vs s6 vb) = k_ul (vs s v) /\ k_ur (vs s6 vb) = k_ul (vs s v2) /\
      k_ul (vs s6 va) = k_ur (vs s v1) /\ k_ur (vs s6 va) = k_ur (vs s v) /\
      nv s6 = S (S (nv s)) /\ sk_vertices s6 = sk_vertices s ++ [vb; va] /\
      (forall w, w < nv s -> w <> v -> k_stop_node (vs s6 w) = k_stop_node (vs s w) /\ k_stops (vs s6 w) = k_stops (vs s w)) /\
      (forall t, t_stops (ts s6 t) = if Nat.eqb (ev_tri evt) t then Some now else t_stops (ts s t)) /\
      ((n = nn s /\ sk_nodes s6 = sk_nodes s ++ [n]) \/ sk_nodes s6 = sk_nodes s) /\ In n (sk_nodes s6) /\
      registered s6 /\ follows s6 s' /\
      (k_inf_fast (vs s' vb) = false -> k_inf_fast (vs s' va) = false -> s' = s6).
  Proof.
    intros He R H now v v1 v2 L L1 L2 vb va.
    unfold handle_split_event, handle_split_event_with in H. rewrite He in H. cbv zeta in H.
    ro_next H. fold now v v1 v2 in H. do 2 ro_next H.
    apply bind_ok in H. destruct H as (n & s1 & Hstop & H).
    pose proof (stop_follows _ _ _ _ _ _ _ Hstop) as (F1 & R1). destruct (R1 R) as [R1' In1]. clear R1.
    apply stop_ends in Hstop. destruct Hstop as (E1 & E2 & EM & E3 & E4 & E5 & E6).
    do 5 ro_next H.
    apply bind_ok in H. destruct H as (kv & s2 & Hnew & H).
    pose proof (newv_follows _ _ _ _ _ _ _ _ _ Hnew In1) as (F2 & R2 & _). specialize (R2 R1').
    apply new_starts in Hnew. destruct Hnew as (-> & B2 & B3 & B4 & B5 & B6 & B7 & B8 & B9 & B10 & B11 & B12 & B13 & B14).
    rewrite E3 in *. fold vb in H, B7, B8, B9, B10, B11, B12, B13, B14.
    apply bind_ok in H. destruct H as (? & s3 & Hw & H). apply quiets_wf in Hw. rename Hw into Q3.
    apply bind_ok in H. destruct H as ([] & s4 & Ha & H).
    assert (R4 : registered s4).
    { apply (s_addv base_sound now s3 vb) in Ha; [apply Ha|apply (quiet_registered _ _ Q3 R2)|rewrite (qu_nv _ _ Q3), B2; unfold vb; lia]. }
    apply addv_eff in Ha. destruct Ha as (C1 & C2 & C3 & C4 & C5 & C6).
    ro_next H.
    assert (In4 : In n (sk_nodes s4)) by (rewrite C5, (qu_nodes _ _ Q3), B5; exact In1).
    apply bind_ok in H. destruct H as (kv & s5 & Hnew & H).
    pose proof (newv_follows _ _ _ _ _ _ _ _ _ Hnew In4) as (F5 & R5 & _). specialize (R5 R4).
    apply new_starts in Hnew. destruct Hnew as (-> & G2 & G3 & G4 & G5 & G6 & G7 & G8 & G9 & G10 & G11 & G12 & G13 & G14).
    assert (N4 : nv s4 = va) by (rewrite C2, (qu_nv _ _ Q3), B2; reflexivity). rewrite N4 in *.
    apply bind_ok in H. destruct H as (? & s6 & Hw & H). apply quiets_wf in Hw. rename Hw into Q6.
    apply bind_ok in H. destruct H as ([] & s7 & Ha & H).
    assert (R7 : registered s7).
    { apply (s_addv base_sound now s6 va) in Ha; [apply Ha|apply (quiet_registered _ _ Q6 R5)|rewrite (qu_nv _ _ Q6), G2; lia]. }
    apply addv_eff in Ha. destruct Ha as (D1 & D2 & D3 & D4 & D5 & D6).
    assert (T : exists s8, quiet s7 s8 /\ exists s9, set_tstops (ev_tri evt) now s8 = Ok (tt, s9) /\ exists fa fb s10,
          whenM (k_inf_fast (vs s9 va)) (handle_parallel_fan reclimit fa va now Cw step) s9 = Ok (tt, s10) /\
          whenM (k_inf_fast (vs s10 vb)) (handle_parallel_fan reclimit fb vb now Ccw step) s10 = Ok (tt, s')).
    { clear - H.
      apply bind_ok in H. destruct H as (? & s8 & Hc & H). apply quiets_circ in Hc.
      apply bind_ok in H. destruct H as (? & s9 & Hd & H). apply quiets_circ in Hd.
      do 5 ro_next H.
      apply bind_ok in H. destruct H as (? & s10 & He & H). apply quiets_circ in He.
      ro_next H.
      apply bind_ok in H. destruct H as (? & s11 & Hf & H). apply quiets_circ in Hf.
      do 6 ro_next H.
      destruct (get3 (t_n (ts s11 (ev_tri evt))) (ccw e)) as [b|]; [|discriminate].
      apply bind_ok in H. destruct H as (? & s12 & Hg & H). apply quiets_relink in Hg.
      apply bind_ok in H. destruct H as (fb & s13 & Hh & H). apply quiets_replace in Hh.
      ro_next H.
      destruct (get3 (t_n (ts s13 (ev_tri evt))) (cw e)) as [a|]; [|discriminate].
      apply bind_ok in H. destruct H as (? & s14 & Hi & H). apply quiets_relink in Hi.
      apply bind_ok in H. destruct H as (fa & s15 & Hj & H). apply quiets_replace in Hj.
      exists s15. split; [repeat (eapply quiet_trans; [eassumption|]); apply quiet_refl|].
      apply bind_ok in H. destruct H as ([] & s16 & Hts & H). exists s16. split; [exact Hts|].
      apply bind_ok in H. destruct H as (fast & s17 & Hk & H). apply vattr_ok in Hk. destruct Hk as (_ & -> & ->).
      apply bind_ok in H. destruct H as ([] & s18 & Hl & H).
      apply bind_ok in H. destruct H as (fast & s19 & Hk & H). apply vattr_ok in Hk. destruct Hk as (_ & -> & ->).
      exists fa, fb, s18. split; assumption. }
    clear H. destruct T as (s8 & Q8 & s9 & H9 & fa & fb & s10 & K1 & K2).
    pose proof H9 as H9'. apply modt_spec in H9'.
    assert (R9 : registered s9).
    { apply (s_tstops base_sound now s8 (ev_tri evt)) in H9; [apply H9|apply (quiet_registered _ _ Q8 R7)]. }
    assert (N9 : nv s9 = S (S (nv s))) by (subst s9; cbn; rewrite (qu_nv _ _ Q8), D2, (qu_nv _ _ Q6); exact G2).
    destruct (keeps_whenM base_sound now (k_inf_fast (vs s9 va)) _ (keeps_parallel_fan base_sound reclimit fa va now Cw step)
                 s9 R9 _ _ K1) as [R10 F10].
    destruct (keeps_whenM base_sound now (k_inf_fast (vs s10 vb)) _ (keeps_parallel_fan base_sound reclimit fb vb now Ccw step)
                 s10 R10 _ _ K2) as [R11 F11].
    assert (V5 : forall w, k_stop_node (vs s9 w) = k_stop_node (vs s5 w) /\ k_stops (vs s9 w) = k_stops (vs s5 w) /\ same_motion (vs s5 w) (vs s9 w)).
    { intros w. subst s9. cbn. rewrite (qu_stop_node _ _ Q8), (qu_stops _ _ Q8), D1, (qu_stop_node _ _ Q6), (qu_stops _ _ Q6).
      split; [reflexivity|]. split; [reflexivity|]. eapply same_motion_trans; [apply (qu_motion _ _ Q6)|].
      rewrite <- D1. apply Q8. }
    assert (V2 : forall w, w <> va -> k_stop_node (vs s9 w) = k_stop_node (vs s2 w) /\ k_stops (vs s9 w) = k_stops (vs s2 w) /\ same_motion (vs s2 w) (vs s9 w)).
    { intros w Hw. destruct (V5 w) as (-> & -> & M). rewrite (G7 w Hw) in *. rewrite C1 in *.
      rewrite (qu_stop_node _ _ Q3), (qu_stops _ _ Q3). split; [reflexivity|]. split; [reflexivity|].
      eapply same_motion_trans; [apply (qu_motion _ _ Q3)|exact M]. }
    assert (OLD : forall w, w < nv s -> k_stop_node (vs s9 w) = k_stop_node (vs s1 w) /\ k_stops (vs s9 w) = k_stops (vs s1 w)).
    { intros w Hw. destruct (V2 w ltac:(unfold va; lia)) as (-> & -> & _). rewrite (B7 w) by (unfold vb; lia). auto. }
    assert (W4 : forall w, w <> vb -> same_motion (vs s1 w) (vs s4 w)).
    { intros w Hw. rewrite C1, <- (B7 w Hw). apply Q3. }
    assert (SN : sk_nodes s9 = sk_nodes s1) by (subst s9; cbn; rewrite (qu_nodes _ _ Q8), D5, (qu_nodes _ _ Q6), G5, C5, (qu_nodes _ _ Q3); exact B5).
    destruct (V5 va) as (A1 & A2 & [_ _ _ A4 A5 A6 A7 _ _ _]).
    destruct (V2 vb ltac:(unfold va, vb; lia)) as (P1 & P2 & [_ _ _ P4 P5 P6 P7 _ _ _]).
    exists n, s9.
    split. { destruct (OLD v L) as [O1 O2]. destruct (E1 v (or_introl eq_refl)) as [X1 X2]. split; [congruence|rewrite O2; exact X2]. }
    split. { intros w [->| ->]; repeat split; congruence. }
    split. { rewrite P6, B10. apply (sm_ul _ _ (EM v)). }
    split. { rewrite P7, B11. apply (sm_ul _ _ (EM v2)). }
    split. { rewrite A6, G10. apply (sm_ur _ _ (EM v1)). }
    split. { rewrite A7, G11. apply (sm_ur _ _ (EM v)). }
    split; [exact N9|].
    split. { subst s9; cbn. rewrite (qu_verts _ _ Q8), D6, (qu_verts _ _ Q6), G6, C6, (qu_verts _ _ Q3), B6, E5, <- app_assoc. reflexivity. }
    split. { intros w Hw Nw. destruct (OLD w Hw) as [-> ->]. rewrite (E2 w) by (intros [Q|[]]; congruence). auto. }
    split. { intros t. subst s9. cbn. unfold upd. destruct (Nat.eqb (ev_tri evt) t); [reflexivity|].
             rewrite (qu_tstops _ _ Q8), D3, (qu_tstops _ _ Q6), G3, C3, (qu_tstops _ _ Q3), B3, E4. reflexivity. }
    split; [rewrite SN; tauto|]. split; [rewrite SN; exact In1|]. split; [exact R9|].
    split; [eapply follows_trans; eauto|].
    intros NB NA.
    pose proof (fo_nv _ _ F10). 
    assert (FA : k_inf_fast (vs s9 va) = false).
    { rewrite <- (sm_fast _ _ (fo_motion _ _ F10 va ltac:(unfold va; lia))), <- (sm_fast _ _ (fo_motion _ _ F11 va ltac:(unfold va; lia))). exact NA. }
    assert (FB : k_inf_fast (vs s10 vb) = false).
    { rewrite <- (sm_fast _ _ (fo_motion _ _ F11 vb ltac:(unfold vb; lia))). exact NB. }
    rewrite FB in K2. rewrite FA in K1. apply ro_ret in K1, K2. congruence.
  Qed.

  Theorem flip_effects evt s s' : handle_flip_event evt s = Ok (tt, s') -> quiet s s'.
  Proof.
    intros H. unfold handle_flip_event in H. destruct (ev_side evt) as [|e [|]]; try discriminate.
    ro_next H. destruct (get3 _ e) as [n|]; [|discriminate]. do 2 ro_next H.
    apply bind_ok in H. destruct H as (? & s1 & H1 & H). apply quiets_flip in H1.
    apply bind_ok in H. destruct H as (? & s2 & H2 & H). apply quiets_riq in H2. apply quiets_riq in H.
    eapply quiet_trans; [exact H1|]. eapply quiet_trans; eauto.
  Qed.
End Effects.
