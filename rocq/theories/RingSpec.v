(** What the handlers of edge and split events do to the kinetic vertices
    (any arithmetic) *)
From Verif Require Import Base Arith Calc VectorOps Line2d Primitives Collapse
  EventsLib FlipEvent ParallelEvent EdgeEvent SplitEvent EventLoop Pass OpSpec StopSpec RunBase HistProofs Decent Total Fan FanProofs TotalRun Mesh MeshEvents EdgeHead.
Local Open Scope nat_scope.

Section RingSpec.
  Context {A : Arith} {E : Env A}.
  Local Open Scope M_scope.

  Ltac peel H n s1 H1 := apply bind_ok in H; destruct H as (n & s1 & H1 & H).

  (** ** Steps that leave the vertices alone *)
  Definition keepv {X} (m : M X) : Prop := forall s x s', m s = Ok (x, s') -> vs s' = vs s /\ nv s' = nv s.

  Lemma keepv_ro {X} (m : M X) : ro m -> keepv m.
  Proof. intros H s x s' K. apply H in K. subst. auto. Qed.
  Lemma keepv_bind {X Y} (m : M X) (k : X -> M Y) : keepv m -> (forall x, keepv (k x)) -> keepv (bind m k).
  Proof.
    intros H K s y s' L. apply bind_ok in L. destruct L as (x & s1 & L1 & L2).
    apply H in L1. apply K in L2. destruct L1, L2. split; congruence.
  Qed.
  Lemma keepv_whenM b m : keepv m -> keepv (whenM b m).
  Proof. destruct b; simpl; auto. intros _. apply keepv_ro; auto with ro. Qed.
  Lemma keepv_modt t f : keepv (modt t f).
  Proof. intros s x s' H. apply modt_spec in H. subst. auto. Qed.
  Lemma keepv_tstops t now : keepv (set_tstops t now).
  Proof. apply keepv_modt. Qed.
  Lemma keepv_forget e : keepv (queue_discard (Some e) ;; immediate_remove (Some e)).
  Proof. intros s x s' H. apply forget_spec in H. subst. auto. Qed.
  Lemma keepv_riq t now : keepv (replace_in_queue t now).
  Proof.
    intros s x s' H. apply riq_spec in H.
    destruct H as [[_ ->]|(e & _ & ->)]; cbn; destruct (t_event (ts s t)); auto.
  Qed.
  Lemma keepv_sched t now : keepv (schedule_immediately t now).
  Proof.
    intros s x s' H. apply sched_spec in H.
    destruct H as (e & _ & _ & _ & -> & -> & _). auto.
  Qed.
  Lemma keepv_walk fuel : forall t v newv now d, keepv (replace_walk fuel t v newv now d).
  Proof.
    induction fuel as [|fuel IH]; intros t v newv now d; cbn [replace_walk].
    { destruct t; apply keepv_ro; auto with ro. }
    destruct t as [t|]; [|apply keepv_ro; auto with ro].
    apply keepv_bind; [apply keepv_ro; auto with ro|intros x].
    apply keepv_bind; [apply keepv_ro; auto with ro|intros sd].
    apply keepv_bind; [apply keepv_modt|intros _].
    apply keepv_bind; [apply keepv_ro; auto with ro|intros fast].
    apply keepv_bind.
    { destruct (if (fast : bool) then t_event x else None); [apply keepv_forget|apply keepv_riq]. }
    intros _. apply keepv_bind; [apply keepv_ro; auto with ro|intros y].
    apply keepv_bind; [apply IH|intros]. apply keepv_ro; auto with ro.
  Qed.
  Lemma keepv_replace t v newv now d : keepv (replace_kvertex t v newv now d).
  Proof. apply keepv_bind; [apply keepv_ro; auto with ro|intros]. apply keepv_walk. Qed.
  Lemma keepv_relink n t x : keepv (relink n t x).
  Proof.
    apply keepv_bind; [apply keepv_ro; auto with ro|intros].
    apply keepv_bind; [apply keepv_ro; auto with ro|intros]. apply keepv_modt.
  Qed.
  Lemma keepv_unlink n t now : keepv (unlink_and_schedule n t now).
  Proof.
    unfold unlink_and_schedule. destruct n; [|apply keepv_ro; auto with ro].
    apply keepv_bind; [apply keepv_relink|intros]. apply keepv_bind; [apply keepv_ro; auto with ro|intros].
    apply keepv_whenM, keepv_sched.
  Qed.
  Lemma keepv_tiny fan kv now d : keepv (schedule_if_tiny fan kv now d).
  Proof.
    unfold schedule_if_tiny. destruct (rev fan); [apply keepv_ro; auto with ro|].
    apply keepv_bind; [apply keepv_ro; auto with ro|intros].
    apply keepv_bind; [apply keepv_ro; auto with ro|intros].
    destruct (edge_segment _ _).
    apply keepv_bind; [apply keepv_ro; auto with ro|intros].
    apply keepv_bind; [apply keepv_ro; auto with ro|intros].
    apply keepv_whenM, keepv_sched.
  Qed.
  Lemma keepv_addv v : keepv (add_vertex v).
  Proof. intros s x s' H. injection H as _ <-. auto. Qed.

  (** ** Steps that change them *)
  Definition rest (k : kvertex) := (k_inf k, k_wfl k, k_wfr k, k_ul k, k_ur k, k_stops k).

  Lemma set_right_ring v r now s u s' : set_right v r now s = Ok (u, s') -> nv s' = nv s /\
    forall w, rest (vs s' w) = rest (vs s w) /\ kleft (vs s' w) = kleft (vs s w) /\
      kright (vs s' w) = if Nat.eqb v w then r else kright (vs s w).
  Proof.
    intros H. apply modv_spec in H. destruct H as [_ ->]. split; [reflexivity|]. intros w. cbn.
    destruct (Nat.eqb_spec v w) as [<-|N].
    - rewrite upd_same. unfold kright. cbn. rewrite hist_last_set. auto.
    - rewrite upd_other by auto. auto.
  Qed.
  Lemma set_left_ring v r now s u s' : set_left v r now s = Ok (u, s') -> nv s' = nv s /\
    forall w, rest (vs s' w) = rest (vs s w) /\ kright (vs s' w) = kright (vs s w) /\
      kleft (vs s' w) = if Nat.eqb v w then r else kleft (vs s w).
  Proof.
    intros H. apply modv_spec in H. destruct H as [_ ->]. split; [reflexivity|]. intros w. cbn.
    destruct (Nat.eqb_spec v w) as [<-|N].
    - rewrite upd_same. unfold kleft. cbn. rewrite hist_last_set. auto.
    - rewrite upd_other by auto. auto.
  Qed.
  Lemma circ_ring l r now s u s' : update_circ l r now s = Ok (u, s') -> nv s' = nv s /\
    forall w, rest (vs s' w) = rest (vs s w) /\
      kright (vs s' w) = (if onat_eqb l (Some w) then r else kright (vs s w)) /\
      kleft (vs s' w) = (if onat_eqb r (Some w) then l else kleft (vs s w)).
  Proof.
    unfold update_circ. intros H. peel H y s1 H1.
    assert (Q : nv s1 = nv s /\ forall w, rest (vs s1 w) = rest (vs s w) /\ kleft (vs s1 w) = kleft (vs s w) /\
      kright (vs s1 w) = if onat_eqb l (Some w) then r else kright (vs s w)).
    { destruct l as [l|]; [apply set_right_ring in H1; exact H1|]. apply ret_ok in H1. destruct H1 as [_ ->]. auto. }
    clear H1. destruct Q as [Q1 Q2].
    assert (P : nv s' = nv s1 /\ forall w, rest (vs s' w) = rest (vs s1 w) /\ kright (vs s' w) = kright (vs s1 w) /\
      kleft (vs s' w) = if onat_eqb r (Some w) then l else kleft (vs s1 w)).
    { destruct r as [r|]; [apply set_left_ring in H; exact H|]. apply ret_ok in H. destruct H as [_ ->]. auto. }
    destruct P as [P1 P2]. split; [congruence|]. intros w. destruct (P2 w) as (-> & -> & ->). destruct (Q2 w) as (-> & -> & ->). auto.
  Qed.

  Lemma stop_ring V step now pos s n s' : stop_and_register V step now pos s = Ok (n, s') -> nv s' = nv s /\ ts s' = ts s /\
    (forall v, In v V -> k_inf (vs s v) = false) /\
    (forall v, k_inf (vs s' v) = k_inf (vs s v) /\ k_wfl (vs s' v) = k_wfl (vs s v) /\ k_wfr (vs s' v) = k_wfr (vs s v) /\
       k_ul (vs s' v) = k_ul (vs s v) /\ k_ur (vs s' v) = k_ur (vs s v) /\ kleft (vs s' v) = kleft (vs s v) /\ kright (vs s' v) = kright (vs s v)) /\
    (forall v, In v V -> k_stops (vs s' v) <> None) /\ (forall v, ~ In v V -> k_stops (vs s' v) = k_stops (vs s v)).
  Proof.
    intros H. apply stop_and_register_spec in H. destruct H as (new & s1 & H & ->).
    apply stop_kvertices_spec in H. destruct H as (HI & _ & H). destruct new.
    - destruct H as (-> & p & f & -> & F & T & _). cbn. split; [reflexivity|]. split; [reflexivity|]. split; [exact HI|]. split; [|split].
      + intros v. rewrite F. unfold scanned. destruct (mem Nat.eqb v V); [|repeat split]. destruct (_ && _)%bool; repeat split.
      + intros v Hv. destruct (T v Hv) as (t & -> & _). discriminate.
      + intros v Hv. rewrite F. rewrite <- mem_In in Hv. destruct (mem Nat.eqb v V); [destruct (Hv eq_refl)|reflexivity].
    - destruct H as (f & -> & _ & F). cbn. split; [reflexivity|]. split; [reflexivity|]. split; [exact HI|]. split; [|split].
      + intros v. rewrite F. destruct (mem Nat.eqb v V); repeat split.
      + intros v Hv. rewrite F. apply mem_In in Hv. rewrite Hv. discriminate.
      + intros v Hv. rewrite F. rewrite <- mem_In in Hv. destruct (mem Nat.eqb v V); [destruct (Hv eq_refl)|reflexivity].
  Qed.

  Lemma newv_ring ul ur now n info int s v s' : compute_new_kvertex ul ur now n info int s = Ok (v, s') ->
    v = nv s /\ nv s' = S (nv s) /\ (forall w, w <> v -> vs s' w = vs s w) /\
    rest (vs s' v) = (false, None, None, ul, ur, None).
  Proof.
    intros H. apply newv_spec in H. destruct H as (kv & K & -> & ->). cbn. split; [reflexivity|]. split; [reflexivity|].
    split; [intros w Hw; apply upd_other; auto|]. rewrite upd_same. unfold rest.
    apply new_kvertex_fields in K. destruct K as (-> & _ & -> & _ & _ & -> & -> & _ & _ & -> & -> & _). reflexivity.
  Qed.
  Lemma wf_ring v l r s u s' : set_wf v l r s = Ok (u, s') -> nv s' = nv s /\
    (forall w, w <> v -> vs s' w = vs s w) /\ k_inf (vs s' v) = k_inf (vs s v) /\ k_wfl (vs s' v) = l /\ k_wfr (vs s' v) = r /\
    k_ul (vs s' v) = k_ul (vs s v) /\ k_ur (vs s' v) = k_ur (vs s v) /\ k_stops (vs s' v) = k_stops (vs s v).
  Proof.
    intros H. apply modv_spec in H. destruct H as [_ ->]. cbn. rewrite upd_same.
    split; [reflexivity|]. split; [intros w Hw; apply upd_other; auto|]. repeat split.
  Qed.
  Lemma rest_eq a b : rest a = rest b -> k_inf a = k_inf b /\ k_wfl a = k_wfl b /\ k_wfr a = k_wfr b /\ k_ul a = k_ul b /\
    k_ur a = k_ur b /\ k_stops a = k_stops b.
  Proof. unfold rest. intros H. injection H as -> -> -> -> -> ->. repeat split. Qed.

  (** ** Edge events *)
  Theorem edge_vertices evt step s u s' e : ev_side evt = [e] ->
    handle_edge_event evt step s = Ok (u, s') -> (forall v, nv s <= v < nv s' -> k_inf_fast (vs s' v) = false) ->
    registered s -> shaped s ->
    let kv := nv s in
    let v1 := corner s (ev_tri evt) (ccw e) in
    let v2 := corner s (ev_tri evt) (cw e) in
    nv s' = S (nv s) /\ k_inf (vs s v1) = false /\ k_inf (vs s v2) = false /\
    (forall v, v <> kv -> kright (vs s' v) = if onat_eqb (kleft (vs s v1)) (Some v) then Some kv else kright (vs s v)) /\
    kright (vs s' kv) = (if onat_eqb (kleft (vs s v1)) (Some v2) then Some kv else kright (vs s v2)) /\
    (forall v, v <> kv -> kright (vs s' kv) <> Some v -> kleft (vs s' v) = kleft (vs s v)) /\
    (forall v, kright (vs s' kv) = Some v -> kleft (vs s' v) = Some kv) /\
    (kright (vs s' kv) <> Some kv -> kleft (vs s' kv) = kleft (vs s v1)) /\
    (forall v, v <> kv -> k_inf (vs s' v) = k_inf (vs s v) /\ k_wfl (vs s' v) = k_wfl (vs s v) /\
      k_wfr (vs s' v) = k_wfr (vs s v) /\ k_ul (vs s' v) = k_ul (vs s v) /\ k_ur (vs s' v) = k_ur (vs s v)) /\
    (k_inf (vs s' kv) = false /\ k_wfl (vs s' kv) = k_wfl (vs s v1) /\ k_wfr (vs s' kv) = k_wfr (vs s v2) /\
      k_ul (vs s' kv) = k_ul (vs s v1) /\ k_ur (vs s' kv) = k_ur (vs s v2) /\ k_stops (vs s' kv) = None) /\
    k_stops (vs s' v1) <> None /\ k_stops (vs s' v2) <> None /\
    (forall v, v <> kv -> v <> v1 -> v <> v2 -> k_stops (vs s' v) = k_stops (vs s v)).
  Proof.
    intros He H NF R SH kv v1 v2.
    assert (NK1 : v1 <> kv) by (pose proof (sh_v _ SH (ev_tri evt) (ccw e)) as Q; intros K; unfold kv in K; rewrite <- K in Q; exact (Nat.lt_irrefl _ Q)).
    assert (NK2 : v2 <> kv) by (pose proof (sh_v _ SH (ev_tri evt) (cw e)) as Q; intros K; unfold kv in K; rewrite <- K in Q; exact (Nat.lt_irrefl _ Q)).
    unfold handle_edge_event, handle_edge_event_with in H. rewrite He in H. cbv zeta in H.
    set (now := ev_time evt) in *.
    peel H x s0 H0. injection H0 as <- <-.
    change (get3 (t_v (ts s (ev_tri evt))) (ccw e)) with v1 in H. change (get3 (t_v (ts s (ev_tri evt))) (cw e)) with v2 in H.
    peel H y0 s0 H0. assert (s0 = s) as -> by (revert H0; apply ro_edge_precheck). clear H0.
    peel H k1 s0 H0. injection H0 as <- <-.
    peel H k2 s0 H0. injection H0 as <- <-.
    peel H y1 s0 H0. assert (s0 = s) as -> by (revert H0; apply ro_wf_bisector). clear H0.
    peel H pos s0 Hpos. assert (s0 = s) as -> by (revert Hpos; apply ro_wf_intersection_at).
    peel H n s1 Hstop.
    peel H k1 s0 H0. injection H0 as <- <-.
    peel H k2 s0 H0. injection H0 as <- <-.
    peel H len s0 H0. injection H0 as <- <-.
    peel H kv0 s2 Hnew.
    pose proof (stop_follows _ _ _ _ _ _ _ Hstop) as (F1 & R1). destruct (R1 R) as [R1' In1].
    pose proof (newv_follows _ _ _ _ _ _ _ _ _ Hnew In1) as (F2 & R2 & Kv). specialize (R2 R1').
    apply stop_ring in Hstop. destruct Hstop as (SN & _ & SI & SE & SS & SO).
    apply newv_ring in Hnew. destruct Hnew as (KV & NV2 & NO & NW). rewrite SN in KV, NV2. fold kv in KV. subst kv0.
    peel H y2 s3 H3. pose proof (stills_wf now _ _ _ _ _ _ R2 H3) as R3.
    apply wf_ring in H3. destruct H3 as (NV3 & WO & W1 & W2 & W3 & W4 & W5 & W6).
    peel H y3 s0 H0. assert (s0 = s3) as ->.
    { revert H0. destruct (kleft _); [|apply ro_ret]. apply ro_bind; auto with ro. } clear H0.
    peel H y4 s0 H0. assert (s0 = s3) as ->.
    { revert H0. destruct (kright _); [|apply ro_ret]. apply ro_bind; auto with ro. } clear H0.
    peel H y5 s4 H4.
    assert (R4 : registered s4).
    { assert (Hlt : nv s < nv s3) by (rewrite NV3, NV2; apply Nat.lt_succ_diag_r).
      exact (proj1 (s_addv base_sound now s3 (nv s) (proj1 R3) Hlt _ _ H4)). }
    apply keepv_addv in H4. destruct H4 as [VS4 NV4].
    peel H y6 s5 H5. pose proof (stills_circ _ _ _ _ _ _ R4 H5) as R5.
    apply circ_ring in H5. destruct H5 as [NV5 C5].
    peel H k2 s0 H0. injection H0 as <- <-.
    peel H y7 s6 H6. pose proof (stills_circ _ _ _ _ _ _ (proj1 R5) H6) as R6.
    apply circ_ring in H6. destruct H6 as [NV6 C6].
    peel H k s0 H0. injection H0 as <- <-.
    peel H wl s0 H0. apply ro_left_wfr in H0. subst s0.
    peel H y8 s0 H0. apply ro_assertM in H0. subst s0.
    peel H wr s0 H0. apply ro_right_wfl in H0. subst s0.
    peel H y9 s0 H0. apply ro_assertM in H0. subst s0.
    peel H y s0 H0. injection H0 as <- <-.
    assert (TAIL : vs s' = vs s6 /\ nv s' = nv s6).
    { peel H fa s7 H7.
      assert (T7 : still s6 s7 /\ vs s7 = vs s6 /\ nv s7 = nv s6).
      { revert H7. destruct (get3 (t_n (ts s6 (ev_tri evt))) (ccw e)) as [a'|].
        - intros H7. split.
          + refine (stills_bind now _ _ (stills_relink now _ _ _) _ _ _ _ (proj1 R6) H7). intros _.
            apply stills_bind; [apply stills_replace|intros]. apply stills_bind; [apply stills_tiny|intros]. apply stills_ro; auto with ro.
          + refine (keepv_bind _ _ (keepv_relink _ _ _) _ _ _ _ H7). intros _.
            apply keepv_bind; [apply keepv_replace|intros]. apply keepv_bind; [apply keepv_tiny|intros]. apply keepv_ro; auto with ro.
        - intros H7. apply ro_ret in H7. subst s7. split; [apply still_refl, R6|auto]. }
      clear H7. destruct T7 as (R7 & V7 & N7).
      peel H fb s8 H8.
      assert (T8 : still s7 s8 /\ vs s8 = vs s7 /\ nv s8 = nv s7).
      { revert H8. destruct (get3 (t_n (ts s6 (ev_tri evt))) (cw e)) as [a'|].
        - intros H8. split.
          + refine (stills_bind now _ _ (stills_relink now _ _ _) _ _ _ _ (proj1 R7) H8). intros _.
            apply stills_bind; [apply stills_replace|intros]. apply stills_bind; [apply stills_tiny|intros]. apply stills_ro; auto with ro.
          + refine (keepv_bind _ _ (keepv_relink _ _ _) _ _ _ _ H8). intros _.
            apply keepv_bind; [apply keepv_replace|intros]. apply keepv_bind; [apply keepv_tiny|intros]. apply keepv_ro; auto with ro.
        - intros H8. apply ro_ret in H8. subst s8. split; [apply still_refl, R7|auto]. }
      clear H8. destruct T8 as (R8 & V8 & N8).
      peel H z1 s9 H9. pose proof (stills_unlink _ _ _ _ _ _ (proj1 R8) H9) as R9. apply keepv_unlink in H9. destruct H9 as [V9 N9].
      peel H z2 s10 H10. pose proof (stills_tstops _ _ _ _ _ (proj1 R9) H10) as R10. apply keepv_tstops in H10. destruct H10 as [V10 N10].
      peel H fast s0 H0. apply vattr_ok in H0. destruct H0 as (_ & -> & ->).
      assert (VV : vs s10 = vs s6) by congruence. assert (NN : nv s10 = nv s6) by congruence. rewrite <- VV, <- NN.
      assert (FR : follows s10 s').
      { destruct (keeps_whenM base_sound now (k_inf_fast (vs s10 kv)) _
                   (keeps_fan_of base_sound _ fa fb kv now step (keeps_parallel_fan base_sound reclimit))
                   s10 (proj1 R10) _ _ H) as [_ Q]. exact Q. }
      assert (LT : kv < nv s10) by (rewrite NN, NV6, NV5, NV4, NV3, NV2; apply Nat.lt_succ_diag_r).
      assert (FF : k_inf_fast (vs s10 kv) = false).
      { rewrite <- (sm_fast _ _ (fo_motion _ _ FR kv LT)). apply NF. split; [apply Nat.le_refl|].
        apply (Nat.lt_le_trans _ _ _ LT (fo_nv _ _ FR)). }
      rewrite FF in H. cbn [whenM] in H. apply ro_ret in H. subst s'. auto. }
    clear H. destruct TAIL as [VT NT].
    assert (OLDV : forall v, v <> kv -> vs s4 v = vs s1 v).
    { intros v Hv. rewrite VS4, WO, NO; auto. }
    assert (RE : forall v, rest (vs s' v) = rest (vs s4 v)).
    { intros v. rewrite VT. destruct (C6 v) as (-> & _). apply C5. }
    assert (KL1 : kleft (vs s1 v1) = kleft (vs s v1)) by (destruct (SE v1) as (_ & _ & _ & _ & _ & Q & _); exact Q).
    rewrite KL1 in C5.
    set (r := kright (vs s5 v2)) in *.
    assert (RV : r = if onat_eqb (kleft (vs s v1)) (Some v2) then Some kv else kright (vs s v2)).
    { unfold r. destruct (C5 v2) as (_ & -> & _). rewrite (OLDV v2 NK2). destruct (SE v2) as (_ & _ & _ & _ & _ & _ & ->). reflexivity. }
    assert (KK : kright (vs s' kv) = r).
    { rewrite VT. destruct (C6 kv) as (_ & -> & _). cbn [onat_eqb]. rewrite Nat.eqb_refl. reflexivity. }
    assert (LL : forall v, kleft (vs s' v) = if onat_eqb r (Some v) then Some kv else kleft (vs s5 v)).
    { intros v. rewrite VT. apply C6. }
    assert (ON : forall a b, onat_eqb a (Some b) = true <-> a = Some b).
    { intros [a|] b; cbn; [rewrite Nat.eqb_eq|]; split; congruence. }
    split; [rewrite NT, NV6, NV5, NV4, NV3, NV2; reflexivity|].
    split; [apply SI; cbn; auto|]. split; [apply SI; cbn; auto|].
    split.
    { intros v Hv. rewrite VT. destruct (C6 v) as (_ & -> & _).
      assert (Q : onat_eqb (Some kv) (Some v) = false) by (cbn; apply Nat.eqb_neq; auto). rewrite Q.
      destruct (C5 v) as (_ & -> & _). rewrite (OLDV v Hv). destruct (SE v) as (_ & _ & _ & _ & _ & _ & ->). reflexivity. }
    split; [rewrite KK; exact RV|].
    split.
    { intros v Hv Hr. rewrite LL. rewrite KK in Hr. destruct (onat_eqb r (Some v)) eqn:Q; [apply ON in Q; contradiction|].
      destruct (C5 v) as (_ & _ & ->). assert (Q2 : onat_eqb (Some kv) (Some v) = false) by (cbn; apply Nat.eqb_neq; auto). rewrite Q2.
      rewrite (OLDV v Hv). destruct (SE v) as (_ & _ & _ & _ & _ & -> & _). reflexivity. }
    split. { intros v Hr. rewrite KK in Hr. rewrite LL. apply ON in Hr. rewrite Hr. reflexivity. }
    split.
    { intros Hr. rewrite KK in Hr. rewrite LL. destruct (onat_eqb r (Some kv)) eqn:Q; [apply ON in Q; contradiction|].
      destruct (C5 kv) as (_ & _ & ->). cbn [onat_eqb]. rewrite Nat.eqb_refl. reflexivity. }
    split.
    { intros v Hv. pose proof (RE v) as Q. rewrite (OLDV v Hv) in Q. apply rest_eq in Q.
      destruct Q as (-> & -> & -> & -> & -> & _). destruct (SE v) as (? & ? & ? & ? & ? & _). auto. }
    split.
    { pose proof (rest_eq _ _ (RE kv)) as (-> & -> & -> & -> & -> & ->). rewrite VS4, W1, W2, W3, W4, W5, W6.
      unfold rest in NW. injection NW as Q1 Q2 Q3 Q4 Q5 Q6. rewrite Q1, Q4, Q5, Q6.
      destruct (SE v1) as (_ & -> & _ & -> & _). destruct (SE v2) as (_ & _ & -> & _ & -> & _). repeat split. }
    assert (ST : forall v, v <> kv -> k_stops (vs s' v) = k_stops (vs s1 v)).
    { intros v Hv. pose proof (rest_eq _ _ (RE v)) as (_ & _ & _ & _ & _ & ->). rewrite (OLDV v Hv). reflexivity. }
    split; [rewrite (ST v1 NK1); apply SS; cbn; auto|].
    split; [rewrite (ST v2 NK2); apply SS; cbn; auto|].
    intros v Hv H1 H2. rewrite (ST v Hv). apply SO. cbn. intros [Q|[Q|[]]]; congruence.
  Qed.

  (** ** Split events *)
  Theorem split_vertices evt step s u s' e : ev_side evt = [e] ->
    handle_split_event evt step s = Ok (u, s') -> (forall v, nv s <= v < nv s' -> k_inf_fast (vs s' v) = false) ->
    registered s -> shaped s -> distinct s (ev_tri evt) ->
    let vb := nv s in
    let va := S (nv s) in
    let v := corner s (ev_tri evt) e in
    let v1 := corner s (ev_tri evt) (ccw e) in
    let v2 := corner s (ev_tri evt) (cw e) in
    nv s' = S (S (nv s)) /\ k_inf (vs s v) = false /\ k_inf (vs s v1) = false /\ k_inf (vs s v2) = false /\
    (forall x, x <> va -> x <> vb -> x <> v1 -> kleft (vs s v) <> Some x -> kright (vs s' x) = kright (vs s x)) /\
    (forall x, kleft (vs s v) = Some x -> x <> va -> x <> vb -> x <> v1 -> kright (vs s' x) = Some vb) /\
    kright (vs s' vb) = Some v2 /\ kright (vs s' v1) = Some va /\
    (kleft (vs s v) <> Some v -> kright (vs s' va) = kright (vs s v)) /\
    (forall x, x <> va -> x <> vb -> x <> v2 -> kright (vs s' va) <> Some x -> kleft (vs s' x) = kleft (vs s x)) /\
    (forall x, kright (vs s' va) = Some x -> kleft (vs s' x) = Some va) /\
    (kright (vs s' va) <> Some v2 -> kleft (vs s' v2) = Some vb) /\
    (kright (vs s' va) <> Some vb -> kleft (vs s' vb) = kleft (vs s v)) /\
    (kright (vs s' va) <> Some va -> kleft (vs s' va) = Some v1) /\
    (forall x, x <> va -> x <> vb -> k_inf (vs s' x) = k_inf (vs s x) /\ k_wfl (vs s' x) = k_wfl (vs s x) /\
      k_wfr (vs s' x) = k_wfr (vs s x) /\ k_ul (vs s' x) = k_ul (vs s x) /\ k_ur (vs s' x) = k_ur (vs s x)) /\
    (k_inf (vs s' vb) = false /\ k_wfl (vs s' vb) = k_wfl (vs s v) /\ k_wfr (vs s' vb) = k_wfl (vs s v2) /\
      k_ul (vs s' vb) = k_ul (vs s v) /\ k_ur (vs s' vb) = k_ul (vs s v2) /\ k_stops (vs s' vb) = None) /\
    (k_inf (vs s' va) = false /\ k_wfl (vs s' va) = k_wfr (vs s v1) /\ k_wfr (vs s' va) = k_wfr (vs s v) /\
      k_ul (vs s' va) = k_ur (vs s v1) /\ k_ur (vs s' va) = k_ur (vs s v) /\ k_stops (vs s' va) = None) /\
    k_stops (vs s' v) <> None /\
    (forall x, x <> va -> x <> vb -> x <> v -> k_stops (vs s' x) = k_stops (vs s x)).
  Proof.
    intros He H NF R SH DI vb va v v1 v2.
    assert (OC : forall i, corner s (ev_tri evt) i <> vb /\ corner s (ev_tri evt) i <> va).
    { intros i. pose proof (sh_v _ SH (ev_tri evt) i) as Q. change (get3 (t_v (ts s (ev_tri evt))) i) with (corner s (ev_tri evt) i) in Q.
      unfold vb, va. clear -Q. lia. }
    destruct (OC e) as [Nb Na]. destruct (OC (ccw e)) as [N1b N1a]. destruct (OC (cw e)) as [N2b N2a]. fold v v1 v2 in Nb, Na, N1b, N1a, N2b, N2a.
    clear OC. assert (Nab : va <> vb) by (unfold va, vb; clear; lia).
    assert (D01 : v <> v1) by (intros Q; apply DI in Q; destruct e; discriminate).
    assert (D02 : v <> v2) by (intros Q; apply DI in Q; destruct e; discriminate).
    unfold handle_split_event, handle_split_event_with in H. rewrite He in H. cbv zeta in H.
    set (now := ev_time evt) in *.
    peel H x s0 H0. injection H0 as <- <-.
    change (get3 (t_v (ts s (ev_tri evt))) (ccw e)) with v1 in H. change (get3 (t_v (ts s (ev_tri evt))) (cw e)) with v2 in H.
    change (get3 (t_v (ts s (ev_tri evt))) e) with v in H.
    peel H y0 s0 H0. apply ro_assertM in H0. subst s0.
    peel H y1 s0 H0.
    assert (s0 = s /\ k_inf (vs s v1) = false /\ k_inf (vs s v2) = false) as (-> & I1 & I2).
    { split; [revert H0; apply ro_split_precheck|]. unfold split_precheck in H0.
      peel H0 w1 s9 H9. apply vattr_ok in H9. destruct H9 as (Q1 & _ & ->).
      peel H0 w2 s9 H9. apply vattr_ok in H9. destruct H9 as (Q2 & _ & _). auto. }
    clear H0.
    peel H n s1 Hstop.
    peel H k s0 H0. injection H0 as <- <-.
    peel H k1 s0 H0. injection H0 as <- <-.
    peel H k2 s0 H0. injection H0 as <- <-.
    peel H y2 s0 H0. apply ro_assertM in H0. subst s0.
    peel H len s0 H0. injection H0 as <- <-.
    peel H vb0 s2 Hnew.
    pose proof (stop_follows _ _ _ _ _ _ _ Hstop) as (F1 & R1). destruct (R1 R) as [R1' In1].
    pose proof (newv_follows _ _ _ _ _ _ _ _ _ Hnew In1) as (F2 & R2 & Kv). specialize (R2 R1').
    apply stop_ring in Hstop. destruct Hstop as (SN & _ & SI & SE & SS & SO).
    apply newv_ring in Hnew. destruct Hnew as (KV & NV2 & NO & NW). rewrite SN in KV, NV2. fold vb in KV. subst vb0.
    peel H y3 s3 H3. pose proof (stills_wf now _ _ _ _ _ _ R2 H3) as R3.
    apply wf_ring in H3. destruct H3 as (NV3 & WO & W1 & W2 & W3 & W4 & W5 & W6).
    peel H y4 s4 H4.
    assert (R4 : registered s4 /\ follows s3 s4).
    { assert (Hlt : nv s < nv s3) by (rewrite NV3, NV2; apply Nat.lt_succ_diag_r).
      exact (s_addv base_sound now s3 (nv s) (proj1 R3) Hlt _ _ H4). }
    apply keepv_addv in H4. destruct H4 as [VS4 NV4].
    peel H len2 s0 H0. injection H0 as <- <-.
    peel H va0 s5 Hnew2.
    assert (In4 : In n (sk_nodes s4)).
    { pose proof (follows_trans _ _ _ F2 (follows_trans _ _ _ (proj1 (proj2 R3)) (proj2 R4))) as FF.
      destruct (fo_nodes _ _ FF) as [l' ->]. apply in_or_app. left. exact In1. }
    pose proof (newv_follows _ _ _ _ _ _ _ _ _ Hnew2 In4) as (F5 & R5 & Kv5). specialize (R5 (proj1 R4)).
    apply newv_ring in Hnew2. destruct Hnew2 as (KV2 & NV5 & NO5 & NW5).
    assert (NVq : nv s4 = va) by (rewrite NV4, NV3, NV2; reflexivity). rewrite NVq in KV2, NV5. subst va0.
    peel H y5 s6 H6. pose proof (stills_wf now _ _ _ _ _ _ R5 H6) as R6.
    apply wf_ring in H6. destruct H6 as (NV6 & WO6 & X1 & X2 & X3 & X4 & X5 & X6).
    peel H y6 s7 H7.
    assert (R7 : registered s7).
    { assert (Hlt : va < nv s6) by (rewrite NV6, NV5; apply Nat.lt_succ_diag_r).
      exact (proj1 (s_addv base_sound now s6 va (proj1 R6) Hlt _ _ H7)). }
    apply keepv_addv in H7. destruct H7 as [VS7 NV7].
    peel H y7 s8 H8. pose proof (stills_circ _ _ _ _ _ _ R7 H8) as R8. apply circ_ring in H8. destruct H8 as [NV8 C8].
    peel H y8 s9 H9. pose proof (stills_circ _ _ _ _ _ _ (proj1 R8) H9) as R9. apply circ_ring in H9. destruct H9 as [NV9 C9].
    peel H kb s0 H0. injection H0 as <- <-.
    peel H wl s0 H0. apply ro_left_wfr in H0. subst s0.
    peel H y9 s0 H0. apply ro_assertM in H0. subst s0.
    peel H wr s0 H0. apply ro_right_wfl in H0. subst s0.
    peel H y10 s0 H0. apply ro_assertM in H0. subst s0.
    peel H y11 s10 H10. pose proof (stills_circ _ _ _ _ _ _ (proj1 R9) H10) as R10. apply circ_ring in H10. destruct H10 as [NV10 C10].
    peel H k s0 H0. injection H0 as <- <-.
    peel H y12 s11 H11. pose proof (stills_circ _ _ _ _ _ _ (proj1 R10) H11) as R11. apply circ_ring in H11. destruct H11 as [NV11 C11].
    peel H ka s0 H0. injection H0 as <- <-.
    peel H wl2 s0 H0. apply ro_left_wfr in H0. subst s0.
    peel H y13 s0 H0. apply ro_assertM in H0. subst s0.
    peel H wr2 s0 H0. apply ro_right_wfl in H0. subst s0.
    peel H y14 s0 H0. apply ro_assertM in H0. subst s0.
    peel H x s0 H0. injection H0 as <- <-.
    assert (NN : nv s11 = S va) by (rewrite NV11, NV10, NV9, NV8, NV7, NV6, NV5; reflexivity).
    assert (TAIL : vs s' = vs s11 /\ nv s' = nv s11).
    { destruct (get3 (t_n (ts s11 (ev_tri evt))) (ccw e)) as [b|]; [|discriminate H].
      peel H z0 t1 G1. pose proof (stills_relink now _ _ _ _ _ _ (proj1 R11) G1) as Q1. apply keepv_relink in G1. destruct G1 as [V1 M1].
      peel H fb t2 G2. pose proof (stills_replace _ _ _ _ _ _ _ _ (proj1 Q1) G2) as Q2. apply keepv_replace in G2. destruct G2 as [V2 M2].
      peel H x t0 H0. injection H0 as <- <-.
      destruct (get3 (t_n (ts t2 (ev_tri evt))) (cw e)) as [a|]; [|discriminate H].
      peel H z1 t3 G3. pose proof (stills_relink now _ _ _ _ _ _ (proj1 Q2) G3) as Q3. apply keepv_relink in G3. destruct G3 as [V3 M3].
      peel H fa t4 G4. pose proof (stills_replace _ _ _ _ _ _ _ _ (proj1 Q3) G4) as Q4. apply keepv_replace in G4. destruct G4 as [V4 M4].
      peel H z2 t5 G5. pose proof (stills_tstops _ _ _ _ _ (proj1 Q4) G5) as Q5. apply keepv_tstops in G5. destruct G5 as [V5 M5].
      assert (VV : vs t5 = vs s11) by congruence. assert (MM : nv t5 = nv s11) by congruence.
      peel H fasta t6 G6. apply vattr_ok in G6. destruct G6 as (_ & -> & ->).
      peel H z3 t7 G7.
      destruct (keeps_whenM base_sound now (k_inf_fast (vs t5 va)) _
                 (keeps_parallel_fan base_sound reclimit fa va now Cw step) t5 (proj1 Q5) _ _ G7) as [R7' F7].
      peel H fastb t8 G8. apply vattr_ok in G8. destruct G8 as (_ & -> & ->).
      destruct (keeps_whenM base_sound now (k_inf_fast (vs t7 vb)) _
                 (keeps_parallel_fan base_sound reclimit fb vb now Ccw step) t7 R7' _ _ H) as [R8' F8].
      assert (La : va < nv t5) by (rewrite MM, NN; apply Nat.lt_succ_diag_r).
      assert (La7 : va < nv t7) by (apply (Nat.lt_le_trans _ _ _ La (fo_nv _ _ F7))).
      assert (La' : va < nv s') by (apply (Nat.lt_le_trans _ _ _ La7 (fo_nv _ _ F8))).
      assert (FA : k_inf_fast (vs t5 va) = false).
      { rewrite <- (sm_fast _ _ (fo_motion _ _ F7 va La)), <- (sm_fast _ _ (fo_motion _ _ F8 va La7)). apply NF.
        split; [apply Nat.le_succ_diag_r|exact La']. }
      rewrite FA in G7. cbn [whenM] in G7. apply ro_ret in G7. subst t7.
      assert (Lb : vb < nv t5) by (apply (Nat.lt_trans _ va); [apply Nat.lt_succ_diag_r|exact La]).
      assert (FB : k_inf_fast (vs t5 vb) = false).
      { rewrite <- (sm_fast _ _ (fo_motion _ _ F8 vb Lb)). apply NF.
        split; [apply Nat.le_refl|]. apply (Nat.lt_trans _ va); [apply Nat.lt_succ_diag_r|exact La']. }
      rewrite FB in H. cbn [whenM] in H. apply ro_ret in H. subst s'. auto. }
    clear H. destruct TAIL as [VT NT].
    assert (OLDV : forall x, x <> va -> x <> vb -> vs s7 x = vs s1 x).
    { intros x Ha Hb. rewrite VS7, WO6, NO5, VS4, WO, NO; auto. }
    assert (RE : forall x, rest (vs s' x) = rest (vs s7 x)).
    { intros x. rewrite VT. destruct (C11 x) as (-> & _). destruct (C10 x) as (-> & _). destruct (C9 x) as (-> & _). apply C8. }
    assert (KLv : kleft (vs s1 v) = kleft (vs s v)) by (destruct (SE v) as (_ & _ & _ & _ & _ & Q & _); exact Q).
    rewrite KLv in C8.
    set (r := kright (vs s10 v)) in *.
    assert (EQ : forall a b, onat_eqb (Some a) (Some b) = Nat.eqb a b) by reflexivity.
    assert (NE : forall a b, a <> b -> onat_eqb (Some a) (Some b) = false) by (intros a b Q; rewrite EQ; apply Nat.eqb_neq; exact Q).
    assert (RF : forall a, onat_eqb (Some a) (Some a) = true) by (intros a; rewrite EQ; apply Nat.eqb_refl).
    assert (ON : forall a b, onat_eqb a (Some b) = true <-> a = Some b).
    { intros [a|] b; cbn; [rewrite Nat.eqb_eq|]; split; congruence. }
    assert (OF : forall a b, a <> Some b -> onat_eqb a (Some b) = false).
    { intros a b Q. destruct (onat_eqb a (Some b)) eqn:K; [apply ON in K; contradiction|reflexivity]. }
    (* rights *)
    assert (RA' : forall x, kright (vs s' x) = if onat_eqb (Some va) (Some x) then r else
       if onat_eqb (Some v1) (Some x) then Some va else if onat_eqb (Some vb) (Some x) then Some v2 else
       if onat_eqb (kleft (vs s v)) (Some x) then Some vb else kright (vs s7 x)).
    { intros x. rewrite VT. destruct (C11 x) as (_ & -> & _). destruct (C10 x) as (_ & -> & _). destruct (C9 x) as (_ & -> & _).
      destruct (C8 x) as (_ & -> & _). reflexivity. }
    assert (LA' : forall x, kleft (vs s' x) = if onat_eqb r (Some x) then Some va else
       if onat_eqb (Some va) (Some x) then Some v1 else if onat_eqb (Some v2) (Some x) then Some vb else
       if onat_eqb (Some vb) (Some x) then kleft (vs s v) else kleft (vs s7 x)).
    { intros x. rewrite VT. destruct (C11 x) as (_ & _ & ->). destruct (C10 x) as (_ & _ & ->). destruct (C9 x) as (_ & _ & ->).
      destruct (C8 x) as (_ & _ & ->). reflexivity. }
    assert (KK : kright (vs s' va) = r) by (rewrite RA', RF; reflexivity).
    assert (RVq : r = if onat_eqb (kleft (vs s v)) (Some v) then Some vb else kright (vs s v)).
    { unfold r. destruct (C10 v) as (_ & -> & _). rewrite NE by auto. destruct (C9 v) as (_ & -> & _). rewrite NE by auto.
      destruct (C8 v) as (_ & -> & _). rewrite OLDV by auto. destruct (SE v) as (_ & _ & _ & _ & _ & _ & ->). reflexivity. }
    split; [rewrite NT, NN; reflexivity|]. split; [apply SI; cbn; auto|]. split; [exact I1|]. split; [exact I2|].
    split.
    { intros x Ha Hb H1 Hl. rewrite RA', !NE, (OF _ _ Hl), OLDV by auto. apply SE. }
    split.
    { intros x Hl Ha Hb H1. rewrite RA', !NE by auto. apply ON in Hl. rewrite Hl. reflexivity. }
    split; [rewrite RA', !NE, RF by auto; reflexivity|].
    split; [rewrite RA', NE, RF by auto; reflexivity|].
    split; [intros Hl; rewrite KK, RVq, (OF _ _ Hl); reflexivity|].
    rewrite KK.
    split. { intros x Ha Hb H2 Hr. rewrite LA', (OF _ _ Hr), !NE, OLDV by auto. apply SE. }
    split. { intros x Hr. rewrite LA'. apply ON in Hr. rewrite Hr. reflexivity. }
    split. { intros Hr. rewrite LA', (OF _ _ Hr), NE, RF by auto. reflexivity. }
    split. { intros Hr. rewrite LA', (OF _ _ Hr), !NE, RF by auto. reflexivity. }
    split. { intros Hr. rewrite LA', (OF _ _ Hr), RF by auto. reflexivity. }
    split.
    { intros x Ha Hb. pose proof (RE x) as Q. rewrite (OLDV x Ha Hb) in Q. apply rest_eq in Q.
      destruct Q as (-> & -> & -> & -> & -> & _). destruct (SE x) as (? & ? & ? & ? & ? & _). auto. }
    split.
    { pose proof (rest_eq _ _ (RE vb)) as (-> & -> & -> & -> & -> & ->).
      rewrite VS7, WO6, NO5, VS4, W1, W2, W3, W4, W5, W6 by auto.
      unfold rest in NW. injection NW as Q1 Q2 Q3 Q4 Q5 Q6. rewrite Q1, Q4, Q5, Q6.
      destruct (SE v) as (_ & -> & _ & -> & _). destruct (SE v2) as (_ & -> & _ & -> & _). repeat split. }
    split.
    { pose proof (rest_eq _ _ (RE va)) as (-> & -> & -> & -> & -> & ->).
      rewrite VS7, X1, X2, X3, X4, X5, X6.
      unfold rest in NW5. injection NW5 as Q1 Q2 Q3 Q4 Q5 Q6. rewrite Q1, Q4, Q5, Q6.
      destruct (SE v) as (_ & _ & -> & _ & -> & _). destruct (SE v1) as (_ & _ & -> & _ & -> & _). repeat split. }
    assert (ST : forall x, x <> va -> x <> vb -> k_stops (vs s' x) = k_stops (vs s1 x)).
    { intros x Ha Hb. pose proof (rest_eq _ _ (RE x)) as (_ & _ & _ & _ & _ & ->). rewrite OLDV; auto. }
    split; [rewrite ST by auto; apply SS; cbn; auto|].
    intros x Ha Hb Hv. rewrite (ST x Ha Hb). apply SO. cbn. intros [Q|[]]. congruence.
  Qed.
End RingSpec.
