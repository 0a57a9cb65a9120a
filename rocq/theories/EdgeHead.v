(** How an edge event makes its node and its new vertex, and what the rest of
    the event leaves alone (any arithmetic) *)
From Verif Require Import Base Arith Calc VectorOps Line2d Primitives Collapse
  EventsLib FlipEvent ParallelEvent EdgeEvent EventLoop Pass OpSpec StopSpec RunBase.

Section EdgeHead.
  Context {A : Arith} {E : Env A}.
  Local Open Scope M_scope.

  (** stop nodes unchanged *)
  Definition still (s s' : state) : Prop :=
    registered s' /\ follows s s' /\ forall v, k_stop_node (vs s' v) = k_stop_node (vs s v).

  Lemma still_refl s : registered s -> still s s.
  Proof. intros R. split; [exact R|]. split; [apply follows_refl|reflexivity]. Qed.
  Lemma still_trans a b c : still a b -> still b c -> still a c.
  Proof.
    intros (R1 & F1 & M1) (R2 & F2 & M2). split; [exact R2|]. split; [eapply follows_trans; eauto|].
    intros v. rewrite M2. apply M1.
  Qed.
  (** [m] leaves the stop nodes alone *)
  Definition stills {X} (now : num) (m : M X) : Prop :=
    forall s x s', registered s -> m s = Ok (x, s') -> still s s'.

  Lemma stills_ro {X} now (m : M X) : ro m -> stills now m.
  Proof. intros H s x s' R K. apply H in K. subst. apply still_refl, R. Qed.
  Lemma stills_bind {X Y} now (m : M X) (k : X -> M Y) :
    stills now m -> (forall x, stills now (k x)) -> stills now (bind m k).
  Proof.
    intros H K s y s' R L. apply bind_ok in L. destruct L as (x & s1 & L1 & L2).
    apply H in L1; [|exact R]. eapply still_trans; [exact L1|]. eapply K; [apply L1|exact L2].
  Qed.
  Lemma stills_whenM now b m : stills now m -> stills now (whenM b m).
  Proof. destruct b; simpl; auto. intros _. apply stills_ro; auto with ro. Qed.
  Lemma stills_keeps {X} now (m : M X) : keeps (I := fun _ => registered) (G := follows) now m ->
    (forall s x s', m s = Ok (x, s') -> forall v, k_stop_node (vs s' v) = k_stop_node (vs s v)) -> stills now m.
  Proof. intros K H s x s' R L. destruct (K s R x s' L) as [K1 K2]. split; [exact K1|]. split; [exact K2|eapply H, L]. Qed.

  Lemma stills_modt now t f : mesh_change f -> stills now (modt t f).
  Proof. intros F. apply stills_keeps; [apply (keeps_mesh base_sound), F|]. intros s x s' H. apply modt_spec in H. subst. reflexivity. Qed.
  Lemma stills_tstops now t : stills now (set_tstops t now).
  Proof. apply stills_keeps; [apply (keeps_tstops base_sound)|]. intros s x s' H. apply modt_spec in H. subst. reflexivity. Qed.
  Lemma stills_circ now l r : stills now (update_circ l r now).
  Proof.
    apply stills_keeps; [apply (keeps_circ base_sound)|]. intros s x s' H v. apply circ_spec in H.
    destruct H as (f & -> & F). cbn. destruct (F v) as (? & ? & ->). reflexivity.
  Qed.
  Lemma stills_wf now v l r : stills now (set_wf v l r).
  Proof.
    apply stills_keeps; [apply (keeps_wf base_sound)|]. intros s x s' H w. apply wf_eff in H.
    destruct H as (f & -> & F). cbn. rewrite F. destruct (Nat.eqb_spec v w); [subst|]; reflexivity.
  Qed.
  Lemma stills_forget now e : stills now (queue_discard (Some e) ;; immediate_remove (Some e)).
  Proof. apply stills_keeps; [apply (keeps_forget base_sound)|]. intros s x s' H. apply forget_spec in H. subst. reflexivity. Qed.
  Lemma stills_riq now t : stills now (replace_in_queue t now).
  Proof.
    apply stills_keeps; [apply (keeps_riq base_sound)|]. intros s x s' H. apply riq_spec in H.
    destruct H as [[_ ->]|(e & _ & ->)]; cbn; destruct (t_event (ts s t)); reflexivity.
  Qed.
  Lemma stills_sched now t : stills now (schedule_immediately t now).
  Proof.
    apply stills_keeps; [apply (keeps_sched base_sound)|]. intros s x s' H. apply sched_spec in H.
    destruct H as (e & _ & _ & _ & -> & _). reflexivity.
  Qed.
  Lemma stills_walk fuel : forall t v newv now d, stills now (replace_walk fuel t v newv now d).
  Proof.
    induction fuel as [|fuel IH]; intros t v newv now d; cbn [replace_walk].
    { destruct t; apply stills_ro; auto with ro. }
    destruct t as [t|]; [|apply stills_ro; auto with ro].
    apply stills_bind; [apply stills_ro; auto with ro|intros x].
    apply stills_bind; [apply stills_ro; auto with ro|intros sd].
    apply stills_bind; [apply stills_modt; repeat split|intros _].
    apply stills_bind; [apply stills_ro; auto with ro|intros fast].
    apply stills_bind.
    { destruct (if (fast : bool) then t_event x else None); [apply stills_forget|apply stills_riq]. }
    intros _. apply stills_bind; [apply stills_ro; auto with ro|intros y].
    apply stills_bind; [apply IH|intros]. apply stills_ro; auto with ro.
  Qed.
  Lemma stills_replace t v newv now d : stills now (replace_kvertex t v newv now d).
  Proof. apply stills_bind; [apply stills_ro; auto with ro|intros]. apply stills_walk. Qed.
  Lemma stills_relink now n t x : stills now (relink n t x).
  Proof.
    apply stills_bind; [apply stills_ro; auto with ro|intros].
    apply stills_bind; [apply stills_ro; auto with ro|intros]. apply stills_modt; repeat split.
  Qed.
  Lemma stills_unlink now n t : stills now (unlink_and_schedule n t now).
  Proof.
    unfold unlink_and_schedule. destruct n; [|apply stills_ro; auto with ro].
    apply stills_bind; [apply stills_relink|intros]. apply stills_bind; [apply stills_ro; auto with ro|intros].
    apply stills_whenM, stills_sched.
  Qed.
  Lemma stills_tiny fan kv now d : stills now (schedule_if_tiny fan kv now d).
  Proof.
    unfold schedule_if_tiny. destruct (rev fan); [apply stills_ro; auto with ro|].
    apply stills_bind; [apply stills_ro; auto with ro|intros].
    apply stills_bind; [apply stills_ro; auto with ro|intros].
    destruct (edge_segment _ _).
    apply stills_bind; [apply stills_ro; auto with ro|intros].
    apply stills_bind; [apply stills_ro; auto with ro|intros].
    apply stills_whenM, stills_sched.
  Qed.

  (** the two steps of an edge event that make the node [n] and the vertex [kv] *)
  Theorem edge_head evt step s u s' e : ev_side evt = [e] -> registered s ->
    handle_edge_event evt step s = Ok (u, s') ->
    let now := ev_time evt in
    let v1 := get3 (t_v (ts s (ev_tri evt))) (ccw e) in
    let v2 := get3 (t_v (ts s (ev_tri evt))) (cw e) in
    exists pos n s1 info int s2,
      wf_intersection_at (k_wfl (vs s v1)) (k_wfr (vs s v2)) now s = Ok (pos, s) /\
      stop_and_register [v1; v2] step now pos s = Ok (n, s1) /\
      compute_new_kvertex (k_ul (vs s1 v1)) (k_ur (vs s1 v2)) now n info int s1 = Ok (nv s, s2) /\
      follows s2 s' /\
      (k_inf_fast (vs s' (nv s)) = false -> forall v, k_stop_node (vs s' v) = k_stop_node (vs s2 v)).
  Proof.
    intros He R H now v1 v2. unfold handle_edge_event, handle_edge_event_with in H. rewrite He in H. cbv zeta in H.
    apply bind_ok in H. destruct H as (x & s0 & H0 & H). injection H0 as <- <-.
    fold now v1 v2 in H.
    apply bind_ok in H. destruct H as (? & s0 & H0 & H).
    assert (s0 = s) as -> by (revert H0; apply ro_edge_precheck). clear H0.
    apply bind_ok in H. destruct H as (k1 & s0 & H0 & H). injection H0 as <- <-.
    apply bind_ok in H. destruct H as (k2 & s0 & H0 & H). injection H0 as <- <-.
    apply bind_ok in H. destruct H as (? & s0 & H0 & H).
    assert (s0 = s) as -> by (revert H0; apply ro_wf_bisector). clear H0.
    apply bind_ok in H. destruct H as (pos & s0 & Hpos & H).
    assert (s0 = s) as -> by (revert Hpos; apply ro_wf_intersection_at).
    apply bind_ok in H. destruct H as (n & s1 & Hstop & H).
    apply bind_ok in H. destruct H as (k1 & s0 & H0 & H). injection H0 as <- <-.
    apply bind_ok in H. destruct H as (k2 & s0 & H0 & H). injection H0 as <- <-.
    apply bind_ok in H. destruct H as (len & s0 & H0 & H). injection H0 as <- <-.
    apply bind_ok in H. destruct H as (kv & s2 & Hnew & H).
    pose proof (stop_follows _ _ _ _ _ _ _ Hstop) as (F1 & R1). destruct (R1 R) as [R1' In1].
    pose proof (newv_follows _ _ _ _ _ _ _ _ _ Hnew In1) as (F2 & R2 & Kv). specialize (R2 R1').
    assert (kv = nv s) as ->.
    { apply newv_spec in Hnew. destruct Hnew as (? & _ & -> & _).
      apply stop_and_register_spec in Hstop. destruct Hstop as (new & s3 & Hs & ->).
      apply stop_kvertices_spec in Hs. destruct Hs as (_ & _ & Hs). destruct new.
      - destruct Hs as (_ & p & f & -> & _). reflexivity.
      - destruct Hs as (f & -> & _). reflexivity. }
    exists pos, n, s1. do 2 eexists. exists s2. split; [exact Hpos|]. split; [exact Hstop|]. split; [exact Hnew|].
    clear Hpos Hstop Hnew.
    apply bind_ok in H. destruct H as (? & s3 & H3 & H). apply (stills_wf now) in H3; [|exact R2].
    apply bind_ok in H. destruct H as (? & s4 & H4 & H).
    assert (s4 = s3) as ->.
    { revert H4. destruct (kleft _); [|apply ro_ret]. apply ro_bind; auto with ro. } clear H4.
    apply bind_ok in H. destruct H as (? & s4 & H4 & H).
    assert (s4 = s3) as ->.
    { revert H4. destruct (kright _); [|apply ro_ret]. apply ro_bind; auto with ro. } clear H4.
    apply bind_ok in H. destruct H as (? & s4 & H4 & H).
    assert (H4' : still s3 s4).
    { assert (Hlt : nv s < nv s3) by (pose proof (fo_nv _ _ (proj1 (proj2 H3))); lia).
      destruct (s_addv base_sound now s3 (nv s) (proj1 H3) Hlt _ _ H4) as [Q1 Q2]. split; [exact Q1|]. split; [exact Q2|].
      injection H4 as _ <-. reflexivity. }
    clear H4. pose proof (still_trans _ _ _ H3 H4') as T. clear H3 H4'.
    match type of H with ?m _ = _ => assert (K : exists fast s6,
       still s4 s6 /\ fast = k_inf_fast (vs s6 (nv s)) /\ exists fa fb,
       whenM fast (parallel_fan_of (handle_parallel_fan reclimit) fa fb (nv s) now step) s6 = Ok (u, s')) end.
    { pose proof (proj1 T) as R4. clear T.
      apply bind_ok in H. destruct H as (? & s5 & H5 & H). apply stills_circ in H5; [|exact R4].
      apply bind_ok in H. destruct H as (k2 & s0 & H0 & H). injection H0 as <- <-.
      apply bind_ok in H. destruct H as (? & s6 & H6 & H). apply stills_circ in H6; [|apply H5].
      pose proof (still_trans _ _ _ H5 H6) as T. clear H5 H6 R4.
      apply bind_ok in H. destruct H as (k & s0 & H0 & H). injection H0 as <- <-.
      apply bind_ok in H. destruct H as (wl & s0 & H0 & H). apply ro_left_wfr in H0. subst s0.
      apply bind_ok in H. destruct H as (? & s0 & H0 & H). apply ro_assertM in H0. subst s0.
      apply bind_ok in H. destruct H as (wr & s0 & H0 & H). apply ro_right_wfl in H0. subst s0.
      apply bind_ok in H. destruct H as (? & s0 & H0 & H). apply ro_assertM in H0. subst s0.
      apply bind_ok in H. destruct H as (y & s0 & H0 & H). injection H0 as <- <-.
      apply bind_ok in H. destruct H as (fa & s7 & H7 & H).
      assert (T7 : still s6 s7).
      { revert H7. destruct (get3 (t_n (ts s6 (ev_tri evt))) (ccw e)) as [a'|]; [|intros H7; apply ro_ret in H7; subst; apply still_refl, T].
        intros H7. refine (stills_bind now _ _ (stills_relink now _ _ _) _ _ _ _ (proj1 T) H7). intros _.
        apply stills_bind; [apply stills_replace|intros]. apply stills_bind; [apply stills_tiny|intros]. apply stills_ro; auto with ro. }
      apply bind_ok in H. destruct H as (fb & s8 & H8 & H).
      assert (T8 : still s7 s8).
      { revert H8. destruct (get3 (t_n (ts s6 (ev_tri evt))) (cw e)) as [a'|]; [|intros H8; apply ro_ret in H8; subst; apply still_refl, T7].
        intros H8. refine (stills_bind now _ _ (stills_relink now _ _ _) _ _ _ _ (proj1 T7) H8). intros _.
        apply stills_bind; [apply stills_replace|intros]. apply stills_bind; [apply stills_tiny|intros]. apply stills_ro; auto with ro. }
      apply bind_ok in H. destruct H as (? & s9 & H9 & H). apply stills_unlink in H9; [|apply T8].
      apply bind_ok in H. destruct H as (? & s10 & H10 & H). apply stills_tstops in H10; [|apply H9].
      apply bind_ok in H. destruct H as (fast & s0 & H0 & H). unfold vattr in H0. apply rd_ok in H0. destruct H0 as [H0 ->].
      unfold kattr in H0. destruct (k_inf _); [discriminate|]. injection H0 as <-.
      eexists. exists s10. split; [|split; [reflexivity|exists fa, fb; exact H]].
      eapply still_trans; [exact T|]. eapply still_trans; [exact T7|]. eapply still_trans; [exact T8|].
      eapply still_trans; eauto. }
    clear H. destruct K as (fast & s6 & T6 & -> & fa & fb & K).
    pose proof (still_trans _ _ _ T T6) as TT. clear T T6.
    assert (F6 : follows s6 s').
    { destruct (keeps_whenM base_sound now (k_inf_fast (vs s6 (nv s))) _
                 (keeps_fan_of base_sound _ fa fb (nv s) now step (keeps_parallel_fan base_sound reclimit))
                 s6 (proj1 TT) _ _ K) as [_ Q]. exact Q. }
    split; [eapply follows_trans; [apply TT|exact F6]|].
    intros NF. rewrite (sm_fast _ _ (fo_motion _ _ F6 (nv s) ltac:(pose proof (fo_nv _ _ (proj1 (proj2 TT))); lia))) in NF.
    rewrite NF in K. cbn [whenM] in K. apply ro_ret in K. subst s'. apply TT.
  Qed.
End EdgeHead.
