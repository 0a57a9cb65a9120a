(** The wavefronts recorded with a vertex are its support lines, as long as no vertex is infinitely fast (any arithmetic) *)
From Verif Require Import Base Arith Calc VectorOps Line2d Primitives Collapse EventsLib FlipEvent ParallelEvent
  EdgeEvent SplitEvent EventLoop Pass OpSpec StopSpec RunBase RunTimed RunLoop Mesh MeshEvents MeshEdge MeshRun
  Decent Total FanProofs TotalRun Rings RingEdge RingSplit RingFlip EdgeHead RingSpec RingGone RingRun Effects.

Section Placed.
  Context {A : Arith} {E : Env A}.
  Local Open Scope M_scope.
  Ltac peel H n s1 H1 := apply bind_ok in H; destruct H as (n & s1 & H1 & H).

  (** the vertex made by handle_edge_event_1side has no wavefronts (edge.py 328-338 does not set them) *)
  Definition own_fronts (s : state) : Prop := forall v, v < nv s -> k_inf (vs s v) = false ->
    (k_wfl (vs s v) = None /\ k_wfr (vs s v) = None) \/
    (k_wfl (vs s v) = k_ul (vs s v) /\ k_wfr (vs s v) = k_ur (vs s v)).

  Lemma wf_bisector_some a b s x s' : wf_bisector a b s = Ok (x, s') -> a <> None /\ b <> None.
  Proof. unfold wf_bisector. destruct a, b; try discriminate. split; discriminate. Qed.

  Lemma edge_own evt step s u s' e : ev_side evt = [e] -> handle_edge_event evt step s = Ok (u, s') ->
    k_wfl (vs s (corner s (ev_tri evt) (ccw e))) <> None /\ k_wfr (vs s (corner s (ev_tri evt) (cw e))) <> None.
  Proof.
    intros He H. unfold handle_edge_event, handle_edge_event_with in H. rewrite He in H. cbv zeta in H.
    peel H x s0 H0. injection H0 as <- <-.
    peel H y0 s0 H0. assert (s0 = s) as -> by (revert H0; apply ro_edge_precheck). clear H0.
    peel H k1 s0 H0. injection H0 as <- <-.
    peel H k2 s0 H0. injection H0 as <- <-.
    peel H y1 s0 H0. apply wf_bisector_some in H0. exact H0.
  Qed.
  Lemma split_own evt step s u s' e : ev_side evt = [e] -> handle_split_event evt step s = Ok (u, s') ->
    let v := corner s (ev_tri evt) e in let v1 := corner s (ev_tri evt) (ccw e) in let v2 := corner s (ev_tri evt) (cw e) in
    k_wfr (vs s v) <> None /\ k_wfl (vs s v) <> None /\ k_wfr (vs s v1) <> None /\ k_wfl (vs s v2) <> None.
  Proof.
    intros He H v v1 v2. unfold handle_split_event, handle_split_event_with in H. rewrite He in H. cbv zeta in H.
    peel H x s0 H0. injection H0 as <- <-. fold v v1 v2 in H.
    peel H y0 s0 H0. apply ro_assertM in H0. subst s0.
    peel H y1 s0 H0. clear H.
    unfold split_precheck in H0.
    peel H0 w1 s9 H9. apply vattr_ok in H9. destruct H9 as (_ & -> & ->).
    peel H0 w2 s9 H9. apply vattr_ok in H9. destruct H9 as (_ & -> & ->).
    peel H0 y2 s9 H9. apply assertM_ok in H9. destruct H9 as [EQ ->].
    peel H0 a s9 H9. apply vattr_ok in H9. destruct H9 as (_ & -> & ->).
    peel H0 c s9 H9. apply vattr_ok in H9. destruct H9 as (_ & -> & ->).
    peel H0 y3 s9 H9. pose proof (wf_bisector_some _ _ _ _ _ H9) as [N1 N2].
    assert (s9 = s) as -> by (revert H9; apply ro_wf_bisector).
    peel H0 y4 s8 H8. apply wf_bisector_some in H8. destruct H8 as [_ N3].
    change (get3 (t_v (ts s (ev_tri evt))) e) with v in *. change (get3 (t_v (ts s (ev_tri evt))) (ccw e)) with v1 in *.
    change (get3 (t_v (ts s (ev_tri evt))) (cw e)) with v2 in *.
    split; [exact N1|]. split; [exact N3|]. split; [exact N2|].
    intros K. rewrite K in EQ. destruct (k_wfr (vs s v1)); [discriminate|contradiction].
  Qed.

  Lemma keepv_flip t0 sd0 t1 sd1 : keepv (flip t0 sd0 t1 sd1).
  Proof.
    assert (LA : forall n sd t, keepv (link_around n sd t)).
    { intros n sd t. unfold link_around. destruct n, sd; try (apply keepv_ro; solve [auto with ro]). apply keepv_modt. }
    unfold flip. cbv zeta.
    do 2 (apply keepv_bind; [apply keepv_ro, ro_tget|intros]).
    do 4 (apply keepv_bind; [apply keepv_ro, ro_assertM|intros]).
    do 4 (apply keepv_bind; [apply keepv_ro, ro_apex_around|intros]).
    do 4 (apply keepv_bind; [apply LA|intros]).
    do 3 (apply keepv_bind; [apply keepv_modt|intros]). apply keepv_modt.
  Qed.
  Lemma keepv_flip_event evt : keepv (handle_flip_event evt).
  Proof.
    unfold handle_flip_event. cbv zeta. destruct (ev_side evt) as [|sd [|]]; [apply keepv_ro; auto with ro| |apply keepv_ro; auto with ro].
    apply keepv_bind; [apply keepv_ro, ro_tget|intros x]. destruct (get3 (t_n x) sd) as [n|]; [|apply keepv_ro; auto with ro].
    apply keepv_bind; [apply keepv_ro, ro_tget|intros y]. apply keepv_bind; [apply keepv_ro; auto with ro|intros j].
    apply keepv_bind; [apply keepv_flip|intros _]. apply keepv_bind; [apply keepv_riq|intros _]. apply keepv_riq.
  Qed.

  Theorem event_own s e step s' : registered s -> shaped s -> own_fronts s ->
    (t_stops (ts s (ev_tri (es s e))) = None -> distinct s (ev_tri (es s e))) ->
    handle_event e step s = Ok (tt, s') ->
    (forall v, nv s <= v < nv s' -> k_inf_fast (vs s' v) = false) -> own_fronts s'.
  Proof.
    intros R SH OW DI H NF.
    unfold handle_event in H. peel H evt s1 H1. apply gets_ok in H1. destruct H1 as [-> ->].
    peel H x s1 H1. apply gets_ok in H1. destruct H1 as [-> ->].
    set (evt := es s e) in *. set (t := ev_tri evt) in *.
    assert (LT : forall i, corner s t i < nv s) by (intros i; apply (sh_v _ SH)).
    destruct (t_stops (ts s t)) eqn:ST; cbn [is_some] in H.
    { apply ret_ok in H. destruct H as [_ ->]. exact OW. }
    specialize (DI eq_refl).
    assert (SAME : nv s' = nv s -> (forall v, v < nv s -> k_inf (vs s' v) = k_inf (vs s v) /\ k_wfl (vs s' v) = k_wfl (vs s v) /\
        k_wfr (vs s' v) = k_wfr (vs s v) /\ k_ul (vs s' v) = k_ul (vs s v) /\ k_ur (vs s' v) = k_ur (vs s v)) -> own_fronts s').
    { intros N Q v Hv. rewrite N in Hv. destruct (Q v Hv) as (-> & -> & -> & -> & ->). apply OW, Hv. }
    destruct (ev_tp evt) eqn:TP.
    - destruct (Nat.eqb (length (ev_side evt)) 3) eqn:L3.
      + destruct (three_vertices _ _ _ _ _ H) as (V1 & _). apply three_effects in H. destruct H as (n & _ & _ & NV & _).
        apply (SAME NV). intros v Hv. destruct (V1 v Hv) as (Q1 & Q2 & Q3 & Q4 & Q5 & _). auto.
      + destruct (_ && _)%bool eqn:L1.
        * apply Bool.andb_true_iff in L1. destruct L1 as [LS TY]. apply Nat.eqb_eq in LS.
          assert (SE : exists sd, ev_side evt = [sd]) by (destruct (ev_side evt) as [|sd [|]]; try discriminate LS; eauto).
          destruct SE as [sd SE]. destruct (one_vertices _ _ _ _ _ sd SE SH H) as (V1 & _).
          unfold handle_edge_event_1side in H. rewrite SE in H. cbv zeta in H.
          peel H x s1 H1. apply gets_ok in H1. destruct H1 as [-> ->].
          peel H nd s1 H1. apply stop_ring in H1. destruct H1 as (SN & _).
          peel H k1 s2 H1. injection H1 as <- <-.
          peel H k2 s2 H1. injection H1 as <- <-.
          peel H len s2 H1. injection H1 as <- <-.
          peel H kv s2 H1. apply newv_ring in H1. destruct H1 as (KV & NV2 & NO & NW). rewrite SN in KV, NV2.
          peel H pos s3 H1. apply ro_ok in H1; [|auto with ro]. subst s3.
          peel H y s3 H1. apply keepv_addv in H1. destruct H1 as [V3 M3].
          peel H nd2 s4 H1. apply stop_ring in H1. destruct H1 as (SN4 & _ & _ & SE4 & _).
          apply keepv_tstops in H. destruct H as [V5 M5].
          intros v Hv KV'.
          destruct (Nat.lt_ge_cases v (nv s)) as [Q|Q].
          { destruct (V1 v Q) as (_ & -> & -> & -> & -> & _). apply OW; [exact Q|].
            destruct (V1 v Q) as (K & _). congruence. }
          left. assert (v = kv) as -> by (rewrite M5, SN4, M3, NV2 in Hv; lia).
          rewrite V5. destruct (SE4 kv) as (_ & -> & -> & _). rewrite V3. unfold rest in NW. injection NW as _ -> -> _ _ _. auto.
        * destruct (Nat.eqb (length (ev_side evt)) 2) eqn:L2; [discriminate|].
          assert (SE : exists sd, ev_side evt = [sd]).
          { unfold handle_edge_event, handle_edge_event_with in H. destruct (ev_side evt) as [|sd [|]]; try discriminate H. eauto. }
          destruct SE as [sd SE]. destruct (edge_own evt step s tt s' sd SE H) as [W1 W2].
          destruct (edge_vertices evt step s tt s' sd SE H NF R SH) as
            (NV & I1 & I2 & _ & _ & _ & _ & _ & OLD & (_ & N1 & N2 & N3 & N4 & _) & _).
          intros v Hv KI. destruct (Nat.eq_dec v (nv s)) as [->|N].
          -- right. rewrite N1, N2, N3, N4. destruct (OW _ (LT (ccw sd)) I1) as [[K _]|[K _]]; [contradiction|].
             destruct (OW _ (LT (cw sd)) I2) as [[_ K']|[_ K']]; [contradiction|]. auto.
          -- destruct (OLD v N) as (K & -> & -> & -> & ->). apply OW; [lia|congruence].
    - assert (SE : exists sd, ev_side evt = [sd]).
      { unfold handle_flip_event in H. destruct (ev_side evt) as [|sd [|]]; try discriminate H. eauto. }
      destruct SE as [sd SE]. apply keepv_flip_event in H. destruct H as [V N].
      apply SAME; [exact N|]. intros v _. rewrite V. auto.
    - assert (SE : exists sd, ev_side evt = [sd]).
      { unfold handle_split_event, handle_split_event_with in H. destruct (ev_side evt) as [|sd [|]]; try discriminate H. eauto. }
      destruct SE as [sd SE]. destruct (split_own evt step s tt s' sd SE H) as (W1 & W2 & W3 & W4).
      destruct (split_vertices evt step s tt s' sd SE H NF R SH DI) as
        (NV & I0 & I1 & I2 & _ & _ & _ & _ & _ & _ & _ & _ & _ & _ & OLD & (_ & B1 & B2 & B3 & B4 & _) & (_ & A1 & A2 & A3 & A4 & _) & _).
      fold t in W1, W2, W3, W4, I0, I1, I2, B1, B2, B3, B4, A1, A2, A3, A4.
      destruct (OW _ (LT sd) I0) as [[K _]|[K0 K0']]; [contradiction|].
      destruct (OW _ (LT (ccw sd)) I1) as [[_ K]|[_ K1]]; [contradiction|].
      destruct (OW _ (LT (cw sd)) I2) as [[K _]|[K2 _]]; [contradiction|].
      intros v Hv KI. destruct (Nat.eq_dec v (nv s)) as [->|N]; [right; rewrite B1, B2, B3, B4; auto|].
      destruct (Nat.eq_dec v (S (nv s))) as [->|N']; [right; rewrite A1, A2, A3, A4; auto|].
      destruct (OLD v N' N) as (K & -> & -> & -> & ->). apply OW; [lia|congruence].
  Qed.

  Theorem run_own s0 now tr s : registered s0 -> shaped s0 -> own_fronts s0 -> reach s0 now tr s ->
    (forall now1 tr1 s1 e now2 s2, reach s0 now1 tr1 s1 -> length tr1 < length tr ->
       take_next now1 s1 = Ok ((e, now2), s2) -> t_stops (ts s2 (ev_tri (es s2 e))) = None -> distinct s2 (ev_tri (es s2 e))) ->
    (forall v, nv s0 <= v < nv s -> k_inf_fast (vs s v) = false) -> own_fronts s.
  Proof.
    intros R0 SH0 L0 H. induction H as [|now tr s e now' s1 s' R IH T H]; intros DD NF; [exact L0|].
    rewrite app_length in DD. cbn [length] in DD.
    destruct (steps_base _ _ _ _ _ _ R0 R) as [Rs Fs].
    pose proof (steps_shaped _ _ _ _ _ _ R0 SH0 R) as Ss.
    assert (C : registered s1 /\ shaped s1 /\ nv s1 = nv s /\ vs s1 = vs s).
    { apply take_next_ok in T. destruct T as [(r & _ & _ & ->)|(r & _ & _ & _ & ->)];
        (split; [destruct Rs; constructor; auto|split; [destruct Ss; constructor; auto|auto]]). }
    destruct C as (R1 & SH1 & N1 & VS).
    pose proof (keeps_handle_event base_sound e (Z.of_nat (S (length tr))) s1 R1 tt s' H) as [R2 F2].
    assert (Ow : own_fronts s).
    { apply IH.
      - intros now1 tr1 s3 e1 now2 s2 Q1 Q2. apply (DD now1 tr1 s3 e1 now2 s2 Q1). clear -Q2. lia.
      - intros v Hv. pose proof (fo_nv _ _ F2) as O2.
        assert (K : v < nv s1) by (rewrite N1; apply Hv). pose proof (sm_fast _ _ (fo_motion _ _ F2 v K)) as Q.
        rewrite VS in Q. rewrite <- Q. apply NF. split; [apply Hv|]. apply (Nat.lt_le_trans _ _ _ K O2). }
    apply (event_own s1 e _ s' R1 SH1) in H; [exact H| | |].
    - unfold own_fronts in *. rewrite N1, VS. exact Ow.
    - apply (DD now tr s e now' s1 R ltac:(clear; lia) T).
    - intros v Hv. apply NF. pose proof (fo_nv _ _ Fs) as Q. rewrite N1 in Hv. split; [apply (Nat.le_trans _ _ _ Q), Hv|apply Hv].
  Qed.
End Placed.
