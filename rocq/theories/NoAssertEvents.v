(** Where the rings fit, the assertions of the handlers of edge, flip and split
    events hold (any arithmetic) *)
From Verif Require Import Base Arith Calc VectorOps Line2d Primitives Collapse CollapseProofs EventsLib
  FlipEvent ParallelEvent EdgeEvent SplitEvent EventLoop Pass OpSpec Order StopSpec RunBase RunTimed RunLoop
  Fan Decent Total FanProofs TotalRun Mesh MeshEvents MeshEdge MeshRun Rings RingEdge RingSplit RingFlip RingGone EdgeHead RingSpec RingRun
  NoAssert NoAssertProofs.
Local Open Scope nat_scope.

Section Events.
  Context {A : Arith} {E : Env A}.
  Local Open Scope M_scope.
  Ltac peel H n s1 H1 := apply bind_ok in H; destruct H as (n & s1 & H1 & H).
  Ltac eat := apply bind_rest; intros ? ? ?.
  Hypothesis Z0 : zero_self (A:=A).

  (** only the infinite vertices move along no line *)
  Definition lined (s : state) : Prop := forall v, v < nv s ->
    if k_inf (vs s v) then k_ul (vs s v) = None /\ k_ur (vs s v) = None
    else k_ul (vs s v) <> None /\ k_ur (vs s v) <> None.
  Lemma joint_left s a b : lined s -> a < nv s -> b < nv s -> joint s a b -> k_inf (vs s b) = false -> k_inf (vs s a) = false.
  Proof.
    intros L Na Nb (_ & _ & _ & J) H. pose proof (L a Na) as La. pose proof (L b Nb) as Lb. rewrite H in Lb.
    destruct (k_inf (vs s a)); [|reflexivity]. destruct La, Lb. congruence.
  Qed.
  Lemma joint_right s a b : lined s -> a < nv s -> b < nv s -> joint s a b -> k_inf (vs s a) = false -> k_inf (vs s b) = false.
  Proof.
    intros L Na Nb (_ & _ & _ & J) H. pose proof (L a Na) as La. pose proof (L b Nb) as Lb. rewrite H in La.
    destruct (k_inf (vs s b)); [|reflexivity]. destruct La, Lb. congruence.
  Qed.

  (** ** The neighbours of the two ends of a side *)
  Lemma left_of s v t i : fitting s -> shaped s -> k_inf (vs s v) = false -> active s t -> corner s t i = v ->
    (forall w k, active s w -> corner s w k = v -> left_over s w (ccw k) -> False) ->
    exists l0, kleft (vs s v) = Some l0 /\ joint s l0 v /\ l0 < nv s.
  Proof.
    intros F SH FIN Dt Ct LO. destruct (fi_star _ F v FIN) as [l ST].
    destruct (star_ends s v l t i ST) as [_ (w & k & K1 & K2)]; [apply (st_all _ _ _ ST); auto|].
    apply (st_all _ _ _ ST) in K1. destruct K1 as [Dw Cw].
    destruct (fi_ring _ F w (ccw k) Dw K2) as [Q|Q]; [destruct (LO w k Dw Cw Q)|].
    rewrite cw_ccw, ccw_ccw in Q. rewrite Cw in Q. exists (corner s w (cw k)).
    split; [apply Q|]. split; [exact Q|apply (sh_v _ SH)].
  Qed.
  Lemma right_of s v t i : fitting s -> shaped s -> k_inf (vs s v) = false -> active s t -> corner s t i = v ->
    (forall w k, active s w -> corner s w k = v -> left_over s w (cw k) -> False) ->
    exists r0, kright (vs s v) = Some r0 /\ joint s v r0 /\ r0 < nv s.
  Proof.
    intros F SH FIN Dt Ct LO. destruct (fi_star _ F v FIN) as [l ST].
    destruct (star_ends s v l t i ST) as [(w & k & K1 & K2) _]; [apply (st_all _ _ _ ST); auto|].
    apply (st_all _ _ _ ST) in K1. destruct K1 as [Dw Cw].
    destruct (fi_ring _ F w (cw k) Dw K2) as [Q|Q]; [destruct (LO w k Dw Cw Q)|].
    rewrite ccw_cw, cw_cw in Q. rewrite Cw in Q. exists (corner s w (ccw k)).
    split; [apply Q|]. split; [exact Q|apply (sh_v _ SH)].
  Qed.

  Lemma onat_refl o : onat_eqb o o = true.
  Proof. destruct o; cbn; [apply Nat.eqb_refl|reflexivity]. Qed.
  Lemma vattr_at {X} v (f : kvertex -> X) s : k_inf (vs s v) = false -> vattr v f s = Ok (f (vs s v), s).
  Proof. intros I. unfold vattr, rd, kattr. rewrite I. reflexivity. Qed.
  Lemma left_wfr_at v l s : kleft (vs s v) = Some l -> k_inf (vs s l) = false -> left_wfr v s = Ok (k_wfr (vs s l), s).
  Proof.
    intros K I. unfold left_wfr. rewrite (bind_eq (vget v) _ s (vs s v) s) by reflexivity. rewrite K. cbn [deref].
    rewrite (bind_eq (ret l) _ s l s) by reflexivity. apply vattr_at, I.
  Qed.
  Lemma right_wfl_at v l s : kright (vs s v) = Some l -> k_inf (vs s l) = false -> right_wfl v s = Ok (k_wfl (vs s l), s).
  Proof.
    intros K I. unfold right_wfl. rewrite (bind_eq (vget v) _ s (vs s v) s) by reflexivity. rewrite K. cbn [deref].
    rewrite (bind_eq (ret l) _ s l s) by reflexivity. apply vattr_at, I.
  Qed.
  Lemma left_wfr_read v l s : kleft (vs s v) = Some l -> left_wfr v s = vattr l k_wfr s.
  Proof.
    intros K. unfold left_wfr. rewrite (bind_eq (vget v) _ s (vs s v) s) by reflexivity. rewrite K. reflexivity.
  Qed.

  (** ** Edge events *)
  Lemma precheck_same s t e : fitting s -> shaped s -> active s t ->
    (forall v, v < nv s -> k_inf (vs s v) = false -> can_stop (vs s v)) ->
    edge_precheck (ts s t) e (corner s t (ccw e)) (corner s t (cw e)) s =
    bind (vattr (corner s t (ccw e)) k_stop_node) (fun _ => bind (vattr (corner s t (cw e)) k_stop_node) (fun _ => ret tt)) s.
  Proof.
    intros F SH Dt P. set (v1 := corner s t (ccw e)). set (v2 := corner s t (cw e)). unfold edge_precheck.
    apply bind_rest. intros s1 s0 H0. apply vattr_ok in H0. destruct H0 as (I1 & -> & ->).
    apply bind_rest. intros s2 s0 H0. apply vattr_ok in H0. destruct H0 as (I2 & -> & ->).
    rewrite (bind_eq (vget v1) _ s (vs s v1) s) by reflexivity. rewrite (bind_eq (vget v2) _ s (vs s v2) s) by reflexivity.
    destruct (is_none (get3 (t_n (ts s t)) e)) eqn:LN; [|reflexivity].
    destruct (is_some (k_stop_node (vs s v1))) eqn:N1; [reflexivity|].
    destruct (is_some (k_stop_node (vs s v2))) eqn:N2; [reflexivity|]. cbn [negb andb whenM].
    assert (L : link s t e = None) by (unfold link; destruct (get3 (t_n (ts s t)) e); [discriminate|reflexivity]).
    destruct (fi_ring _ F t e Dt L) as [(_ & _ & Q & _)|(Q1 & Q2 & Q3 & _)].
    - exfalso. destruct (P v1 (sh_v _ SH _ _) I1) as [P1 _]. rewrite N1 in P1. unfold stopped in Q. fold v1 in Q.
      destruct (k_stops (vs s v1)); [discriminate P1|congruence].
    - fold v1 v2 in Q1, Q2, Q3. rewrite Q1, Q2, Q3.
      rewrite !bind_assert by apply onat_refl. unfold assertM. rewrite onat_refl. reflexivity.
  Qed.

  Lemma edge_same s evt step e : fitting s -> shaped s -> lined s -> (forall u, active s u -> distinct s u) -> active s (ev_tri evt) ->
    ev_side evt = [e] -> neqb (ev_time evt) (ev_time evt) = true ->
    (forall v, v < nv s -> k_inf (vs s v) = false -> can_stop (vs s v)) ->
    (forall u j, left_over s u j -> touches s u j (corner s (ev_tri evt) (ccw e)) \/ touches s u j (corner s (ev_tri evt) (cw e)) ->
      u = ev_tri evt /\ j = e) ->
    handle_edge_event evt step s = handle_edge_event_O evt step s.
  Proof.
    intros F SH LI DI Dt SE NN P LO. unfold handle_edge_event, handle_edge_event_with, handle_edge_event_O. rewrite SE. cbv zeta.
    set (t := ev_tri evt) in *. set (now := ev_time evt) in *.
    rewrite !bind_tget.
    change (get3 (t_v (ts s t)) (ccw e)) with (corner s t (ccw e)). change (get3 (t_v (ts s t)) (cw e)) with (corner s t (cw e)).
    set (v1 := corner s t (ccw e)) in *. set (v2 := corner s t (cw e)) in *.
    match goal with |- bind _ ?k s = _ =>
      transitivity (bind (bind (vattr v1 k_stop_node) (fun _ => bind (vattr v2 k_stop_node) (fun _ => ret tt))) k s);
        [apply bind_like; [apply precheck_same; auto|reflexivity]|] end.
    rewrite bind_assoc. apply bind_rest. intros n1 s0 H0. apply vattr_ok in H0. destruct H0 as (I1 & _ & ->).
    rewrite bind_assoc. apply bind_rest. intros n2 s0 H0. apply vattr_ok in H0. destruct H0 as (I2 & _ & ->).
    rewrite (bind_eq (ret tt) _ s tt s) by reflexivity.
    apply bind_rest. intros k1 s0 H0. injection H0 as <- <-.
    apply bind_rest. intros k2 s0 H0. injection H0 as <- <-.
    apply bind_rest. intros bi s0 H0. assert (s0 = s) as -> by (revert H0; apply ro_wf_bisector). clear H0.
    apply bind_rest. intros pos s0 H0. assert (s0 = s) as -> by (revert H0; apply ro_wf_intersection_at). clear H0.
    assert (N12 : v1 <> v2) by (intros Q; apply (DI t Dt) in Q; exact (ccw_cw_ne e Q)).
    apply bind_like.
    { apply register_same; auto. constructor; [intros [Q|[]]; congruence|]. constructor; [intros []|constructor].
      intros w [<-|[<-|[]]]; apply P; apply (sh_v _ SH). }
    intros n s1 Hstop. apply stop_ring in Hstop. destruct Hstop as (SN & _ & SI & ES & SS & SO).
    apply bind_rest. intros k1 s0 H0. injection H0 as <- <-.
    apply bind_rest. intros k2 s0 H0. injection H0 as <- <-.
    apply bind_rest. intros len s0 H0. injection H0 as <- <-.
    apply bind_rest. intros kv s2 Hnew. apply newv_ring in Hnew. destruct Hnew as (KV & NV2 & NO & NW). rewrite SN in KV, NV2. subst kv.
    set (kv := nv s) in *.
    apply bind_rest. intros y3 s3 H3. apply wf_ring in H3. destruct H3 as (NV3 & WO & W1 & W2 & W3 & _).
    apply bind_rest. intros y4 s0 H0. assert (s0 = s3) as ->.
    { revert H0. destruct (kleft _); [|apply ro_ret]. apply ro_bind; auto with ro. } clear H0.
    apply bind_rest. intros y5 s0 H0. assert (s0 = s3) as ->.
    { revert H0. destruct (kright _); [|apply ro_ret]. apply ro_bind; auto with ro. } clear H0.
    apply bind_rest. intros y6 s4 H4. apply keepv_addv in H4. destruct H4 as [VS4 NV4].
    apply bind_rest. intros y7 s5 H5. apply circ_ring in H5. destruct H5 as [NV5 C5].
    apply bind_rest. intros k2 s0 H0. injection H0 as <- <-.
    apply bind_rest. intros y8 s6 H6. apply circ_ring in H6. destruct H6 as [NV6 C6].
    rewrite (bind_eq (vget kv) _ s6 (vs s6 kv) s6) by reflexivity.
    (* the neighbours *)
    assert (IV1 : k_inf (vs s v1) = false) by exact I1. assert (IV2 : k_inf (vs s v2) = false) by exact I2.
    destruct (left_of s v1 t (ccw e) F SH IV1 Dt eq_refl) as (l0 & HL & JL & LL).
    { intros w k Dw Cw Q. destruct (LO w (ccw k) Q) as [-> Q2]; [left; right; rewrite cw_ccw; congruence|].
      assert (k = ccw e) by (apply (DI t Dt); exact Cw). subst k. rewrite ccw_ccw in Q2. exact (cw_ne e Q2). }
    destruct (right_of s v2 t (cw e) F SH IV2 Dt eq_refl) as (r0 & HR & JR & LR).
    { intros w k Dw Cw Q. destruct (LO w (cw k) Q) as [-> Q2]; [right; left; rewrite ccw_cw; congruence|].
      assert (k = cw e) by (apply (DI t Dt); exact Cw). subst k. rewrite cw_cw in Q2. exact (ccw_ne e Q2). }
    assert (NK2 : v2 <> kv) by (pose proof (sh_v _ SH t (cw e)) as Q; unfold v2, corner, kv; lia).
    assert (NKl : l0 <> kv) by (unfold kv; lia). assert (NKr : r0 <> kv) by (unfold kv; lia).
    assert (EL : kleft (vs s1 v1) = Some l0) by (rewrite <- HL; apply ES).
    rewrite EL in C5.
    assert (OLD : forall w, w <> kv -> vs s4 w = vs s1 w) by (intros w Hw; rewrite VS4, WO, NO; auto).
    assert (RW : forall w, rest (vs s6 w) = rest (vs s4 w)).
    { intros w. destruct (C6 w) as (-> & _). apply C5. }
    assert (WF : forall w, w <> kv -> k_inf (vs s6 w) = k_inf (vs s w) /\ k_wfl (vs s6 w) = k_wfl (vs s w) /\ k_wfr (vs s6 w) = k_wfr (vs s w)).
    { intros w Hw. pose proof (RW w) as Q. rewrite (OLD w Hw) in Q. apply rest_eq in Q. destruct Q as (-> & -> & -> & _).
      destruct (ES w) as (? & ? & ? & _). auto. }
    pose proof (rest_eq _ _ (RW kv)) as (KI & KL & KR & _). rewrite VS4, W1 in KI. rewrite VS4, W2 in KL. rewrite VS4, W3 in KR.
    assert (KI' : k_inf (vs s6 kv) = false) by (rewrite KI; unfold rest in NW; congruence).
    destruct (ES v1) as (_ & WL1 & _). rewrite WL1 in KL. destruct (ES v2) as (_ & _ & WR2 & _ & _ & _ & ER2). rewrite WR2 in KR.
    pose proof (joint_left s l0 v1 LI LL (sh_v _ SH _ _) JL IV1) as FIl. pose proof (joint_right s v2 r0 LI (sh_v _ SH _ _) LR JR IV2) as FIr.
    destruct JL as (JL1 & JL2 & JL3 & _). destruct JR as (JR1 & JR2 & JR3 & _).
    assert (ON : forall a b : nat, a <> b -> onat_eqb (Some a) (Some b) = false) by (intros a b Q; cbn; apply Nat.eqb_neq, Q).
    set (r := kright (vs s5 v2)) in *.
    assert (RV : r = if Nat.eqb l0 v2 then Some kv else Some r0).
    { unfold r. destruct (C5 v2) as (_ & -> & _). rewrite (OLD v2 NK2), ER2, HR. cbn. destruct (Nat.eqb_spec l0 v2); reflexivity. }
    assert (KRk : kright (vs s6 kv) = r).
    { destruct (C6 kv) as (_ & -> & _). rewrite onat_refl. reflexivity. }
    assert (KLk : kleft (vs s6 kv) = if Nat.eqb l0 v2 then Some kv else Some l0).
    { destruct (C6 kv) as (_ & _ & ->). rewrite RV. destruct (Nat.eqb_spec l0 v2).
      - rewrite onat_refl. reflexivity.
      - rewrite (ON r0 kv) by auto. destruct (C5 kv) as (_ & _ & ->). rewrite onat_refl. reflexivity. }
    (* [left.wfr] and [right.wfl] *)
    assert (QL : left_wfr kv s6 = Ok (k_wfl (vs s6 kv), s6)).
    { rewrite KL. destruct (Nat.eqb_spec l0 v2) as [Q|Q].
      - rewrite (left_wfr_at kv kv s6 KLk KI'). rewrite KR. subst l0. rewrite JL3. reflexivity.
      - rewrite (left_wfr_at kv l0 s6 KLk); [|rewrite (proj1 (WF l0 NKl)); exact FIl].
        destruct (WF l0 NKl) as (_ & _ & ->). rewrite JL3. reflexivity. }
    assert (QR : right_wfl kv s6 = Ok (k_wfr (vs s6 kv), s6)).
    { rewrite KR. rewrite RV in KRk. destruct (Nat.eqb_spec l0 v2) as [Q|Q].
      - rewrite (right_wfl_at kv kv s6 KRk KI'). rewrite KL. subst l0. rewrite <- JL3. reflexivity.
      - rewrite (right_wfl_at kv r0 s6 KRk); [|rewrite (proj1 (WF r0 NKr)); exact FIr].
        destruct (WF r0 NKr) as (_ & -> & _). rewrite <- JR3. reflexivity. }
    rewrite (bind_eq _ _ _ _ _ QL). rewrite bind_assert by apply onat_refl.
    rewrite (bind_eq _ _ _ _ _ QR). rewrite bind_assert by apply onat_refl.
    apply bind_rest. intros x s0 H0. injection H0 as <- <-.
    apply bind_like.
    { destruct (get3 (t_n (ts s6 t)) (ccw e)); [|reflexivity]. eat. eat. apply bind_like; [apply tiny_same, Z0|reflexivity]. }
    intros fa s7 _. apply bind_like.
    { destruct (get3 (t_n (ts s6 t)) (cw e)); [|reflexivity]. eat. eat. apply bind_like; [apply tiny_same, Z0|reflexivity]. }
    intros fb s8 _. apply bind_like; [apply unlink_same, Z0|reflexivity].
  Qed.

  (** ** A triangle collapses *)
  Lemma three_same s evt step : shaped s -> (forall u, active s u -> distinct s u) -> active s (ev_tri evt) ->
    length (ev_side evt) = 3 -> neqb (ev_time evt) (ev_time evt) = true ->
    (forall v, v < nv s -> k_inf (vs s v) = false -> can_stop (vs s v)) ->
    handle_edge_event_3sides evt step s = handle_edge_event_3sides_O evt step s.
  Proof.
    intros SH DI Dt L3 NN P. unfold handle_edge_event_3sides, handle_edge_event_3sides_O. cbv zeta.
    rewrite bind_assert by (rewrite L3; reflexivity).
    rewrite !bind_tget. apply bind_like.
    - pose proof (DI _ Dt) as D. pose proof (sh_v _ SH (ev_tri evt)) as V. unfold distinct, corner in D.
      apply register_same; auto.
      + specialize (fun i j => D i j). clear - D. destruct (t_v (ts s (ev_tri evt))) as [a b c]. cbn.
        pose proof (D S0 S1). pose proof (D S0 S2). pose proof (D S1 S2). cbn in *.
        constructor; [intros [Q|[Q|[]]]; [specialize (H (eq_sym Q))|specialize (H0 (eq_sym Q))]; discriminate|].
        constructor; [intros [Q|[]]; specialize (H1 (eq_sym Q)); discriminate|]. constructor; [intros []|constructor].
      + intros v Hv. apply P. revert Hv. destruct (t_v (ts s (ev_tri evt))) as [a b c]. cbn.
        pose proof (V S0). pose proof (V S1). pose proof (V S2). cbn in *. intros [<-|[<-|[<-|[]]]]; assumption.
    - intros n s1 _. apply bind_like; [|reflexivity]. apply forM_same. intros. apply neighbour_same, Z0.
  Qed.

  Lemma one_same s evt step e : shaped s -> (forall u, active s u -> distinct s u) -> active s (ev_tri evt) ->
    ev_side evt = [e] -> neqb (ev_time evt) (ev_time evt) = true ->
    (forall v, v < nv s -> k_inf (vs s v) = false -> can_stop (vs s v)) ->
    handle_edge_event_1side evt step s = handle_edge_event_1side_O evt step s.
  Proof.
    intros SH DI Dt SE NN P. unfold handle_edge_event_1side, handle_edge_event_1side_O. rewrite SE. cbv zeta.
    set (t := ev_tri evt) in *. set (now := ev_time evt) in *. rewrite !bind_tget.
    change (get3 (t_v (ts s t)) e) with (corner s t e).
    change (get3 (t_v (ts s t)) (ccw e)) with (corner s t (ccw e)). change (get3 (t_v (ts s t)) (cw e)) with (corner s t (cw e)).
    set (v0 := corner s t e) in *. set (v1 := corner s t (ccw e)) in *. set (v2 := corner s t (cw e)) in *.
    assert (N12 : v1 <> v2) by (intros Q; apply (DI t Dt) in Q; exact (ccw_cw_ne e Q)).
    assert (N01 : v0 <> v1) by (intros Q; apply (DI t Dt) in Q; exact (ccw_ne e (eq_sym Q))).
    assert (N02 : v0 <> v2) by (intros Q; apply (DI t Dt) in Q; exact (cw_ne e (eq_sym Q))).
    assert (LT : v0 < nv s) by apply (sh_v _ SH).
    apply bind_like.
    { apply register_same; auto; [constructor; [intros [Q|[]]; congruence|]; constructor; [intros []|constructor]|].
      intros w [<-|[<-|[]]]; apply P; apply (sh_v _ SH). }
    intros n s1 Hstop. pose proof Hstop as HS. apply stop_ring in HS. destruct HS as (SN & _).
    assert (V0 : vs s1 v0 = vs s v0).
    { apply stop_and_register_spec in Hstop. destruct Hstop as (new & s2 & Hs & ->). apply stop_kvertices_spec in Hs. destruct Hs as (_ & _ & Hs).
      assert (MV : mem Nat.eqb v0 [v1; v2] = false).
      { destruct (mem Nat.eqb v0 [v1; v2]) eqn:Q; [|reflexivity]. apply mem_In in Q. destruct Q as [Q|[Q|[]]]; congruence. }
      destruct new.
      - destruct Hs as (_ & p & f & -> & Fv & _). cbn. rewrite Fv, MV. reflexivity.
      - destruct Hs as (f & -> & _ & Fv). cbn. rewrite Fv, MV. reflexivity. }
    apply bind_rest. intros k1 s0 H0. injection H0 as <- <-.
    apply bind_rest. intros k2 s0 H0. injection H0 as <- <-.
    apply bind_rest. intros len s0 H0. injection H0 as <- <-.
    apply bind_rest. intros kv s2 Hnew. apply newv_spec in Hnew. destruct Hnew as (k & K & -> & ->).
    apply bind_rest. intros p s0 H0. apply rd_ok in H0. destruct H0 as [_ ->].
    apply bind_rest. intros y s3 H3. apply keepv_addv in H3. destruct H3 as [VS3 _]. cbn in VS3.
    apply bind_like; [|reflexivity]. apply new_kvertex_fields in K. destruct K as (_ & _ & K1 & K2 & K3 & _).
    apply register_same; auto.
    - constructor; [intros [Q|[]]; lia|]. constructor; [intros []|constructor].
    - intros w [<-|[<-|[]]]; rewrite VS3.
      + rewrite upd_other by lia. rewrite V0. intros I. apply P; auto.
      + rewrite upd_same. intros _. unfold can_stop. rewrite K1, K2, K3. split; [reflexivity|discriminate].
  Qed.

  (** ** Split events *)
  Lemma walk_links v newv now d : forall fuel o s l s', replace_walk fuel o v newv now d s = Ok (l, s') ->
    forall u, t_n (ts s' u) = t_n (ts s u).
  Proof.
    induction fuel as [|fuel IH]; intros [t|] s l s' H u; cbn [replace_walk] in H; try discriminate; try (apply ret_ok in H; destruct H as [_ ->]; reflexivity).
    peel H x s1 H1. apply gets_ok in H1. destruct H1 as [-> ->].
    peel H sd s1 H1. unfold rdr in H1. apply rd_ok in H1. destruct H1 as [_ ->].
    peel H y s1 H1. apply modt_spec in H1.
    peel H fast s2 H2. apply vattr_ok in H2. destruct H2 as (_ & -> & ->).
    peel H z s2 H2.
    assert (Q : t_n (ts s2 u) = t_n (ts s1 u)).
    { destruct (if k_inf_fast _ then _ else None); [apply forget_spec in H2; subst s2; reflexivity|apply mesh_same_riq in H2; apply H2]. }
    peel H w s3 H3. apply gets_ok in H3. destruct H3 as [-> ->].
    peel H fan s3 H3. apply ret_ok in H. destruct H as [_ ->]. rewrite (IH _ _ _ _ H3 u), Q. subst s1. cbn.
    destruct (Nat.eq_dec t u) as [<-|N]; [rewrite upd_same; reflexivity|rewrite upd_other by auto; reflexivity].
  Qed.
  Lemma replace_links a v kv now d s fan s' : replace_kvertex a v kv now d s = Ok (fan, s') -> forall u, t_n (ts s' u) = t_n (ts s u).
  Proof.
    unfold replace_kvertex. intros H. peel H n s1 H1. apply gets_ok in H1. destruct H1 as [-> ->]. revert H. apply walk_links.
  Qed.

  Lemma split_same s evt step e : fitting s -> shaped s -> lined s -> (forall u, active s u -> distinct s u) -> active s (ev_tri evt) ->
    ev_side evt = [e] -> neqb (ev_time evt) (ev_time evt) = true ->
    (forall v, v < nv s -> k_inf (vs s v) = false -> can_stop (vs s v)) ->
    link s (ev_tri evt) e = None -> link s (ev_tri evt) (ccw e) <> None -> link s (ev_tri evt) (cw e) <> None ->
    ~ left_over s (ev_tri evt) e -> (forall u j, left_over s u j -> ~ touches s u j (corner s (ev_tri evt) e)) ->
    handle_split_event evt step s = handle_split_event_O evt step s.
  Proof.
    intros F SH LI DI Dt SE NN P TE TB TA LOe LO.
    unfold handle_split_event, handle_split_event_with, handle_split_event_O. rewrite SE. cbv zeta.
    set (t := ev_tri evt) in *. set (now := ev_time evt) in *. rewrite !bind_tget.
    change (get3 (t_v (ts s t)) e) with (corner s t e). change (get3 (t_n (ts s t)) e) with (link s t e). rewrite TE.
    change (get3 (t_v (ts s t)) (ccw e)) with (corner s t (ccw e)). change (get3 (t_v (ts s t)) (cw e)) with (corner s t (cw e)).
    set (v := corner s t e) in *. set (v1 := corner s t (ccw e)) in *. set (v2 := corner s t (cw e)) in *.
    rewrite bind_assert by reflexivity.
    assert (J12 : joint s v1 v2) by (destruct (fi_ring _ F t e Dt TE) as [Q|Q]; [contradiction|exact Q]).
    assert (N12 : v1 <> v2) by (intros Q; apply (DI t Dt) in Q; exact (ccw_cw_ne e Q)).
    assert (N01 : v <> v1) by (intros Q; apply (DI t Dt) in Q; exact (ccw_ne e (eq_sym Q))).
    assert (N02 : v <> v2) by (intros Q; apply (DI t Dt) in Q; exact (cw_ne e (eq_sym Q))).
    (* 86, 92 *)
    assert (PRE : split_precheck v v1 v2 now s = split_precheck_O v v1 now s /\
      forall u s', split_precheck_O v v1 now s = Ok (u, s') -> s' = s /\ k_inf (vs s v) = false /\ k_inf (vs s v1) = false).
    { split.
      - unfold split_precheck, split_precheck_O.
        destruct (k_inf (vs s v1)) eqn:I1.
        { unfold vattr at 1. unfold bind at 1. unfold rd at 1, kattr at 1. rewrite I1.
          unfold bind at 1. unfold vattr at 1, rd at 1, kattr at 1. destruct (k_inf (vs s v)); [reflexivity|].
          unfold bind at 1. unfold vattr at 1, rd at 1, kattr at 1. rewrite I1. reflexivity. }
        pose proof (joint_right s v1 v2 LI (sh_v _ SH _ _) (sh_v _ SH _ _) J12 I1) as I2.
        rewrite (bind_eq _ _ _ _ _ (vattr_at v1 k_wfr s I1)). rewrite (bind_eq _ _ _ _ _ (vattr_at v2 k_wfl s I2)).
        rewrite bind_assert by (destruct J12 as (_ & _ & -> & _); apply onat_refl).
        apply bind_rest. intros a s0 H0. apply vattr_ok in H0. destruct H0 as (_ & _ & ->).
        rewrite (bind_eq _ _ _ _ _ (vattr_at v1 k_wfr s I1)). reflexivity.
      - intros u s' H. unfold split_precheck_O in H.
        peel H a s0 H0. apply vattr_ok in H0. destruct H0 as (I0 & _ & ->).
        peel H w s0 H0. apply vattr_ok in H0. destruct H0 as (I1 & _ & ->). split; [|auto].
        revert H. apply ro_bind; [auto with ro|intros]. apply ro_bind; [apply ro_wf_bisector|intros]. apply ro_bind; [apply ro_wf_bisector|intros].
        do 3 (apply ro_bind; [apply ro_wf_intersection_at|intros]). apply ro_ret. }
    destruct PRE as [PRE PRE2].
    apply bind_like; [exact PRE|]. intros y0 s0 H0. rewrite PRE in H0. apply PRE2 in H0. destruct H0 as (-> & I0 & I1).
    pose proof (joint_right s v1 v2 LI (sh_v _ SH _ _) (sh_v _ SH _ _) J12 I1) as I2.
    apply bind_like.
    { apply register_same; auto; [constructor; [intros []|constructor]|]. intros w [<-|[]]; apply P; apply (sh_v _ SH). }
    intros n s1 Hstop. apply stop_ring in Hstop. destruct Hstop as (SN & STS & SI & ES & SS & SO).
    apply bind_rest. intros k s0 H0. injection H0 as <- <-.
    apply bind_rest. intros k1 s0 H0. injection H0 as <- <-.
    apply bind_rest. intros k2 s0 H0. injection H0 as <- <-.
    (* 134 *)
    rewrite bind_assert.
    2: { destruct (ES v1) as (_ & _ & _ & _ & -> & _). destruct (ES v2) as (_ & _ & _ & -> & _). destruct J12 as (_ & _ & _ & ->). apply onat_refl. }
    apply bind_rest. intros len s0 H0. injection H0 as <- <-.
    apply bind_rest. intros vb s2 H2. pose proof H2 as T2. apply newv_ring in H2. destruct H2 as (KB & NB & OB & RB). rewrite SN in KB, NB. subst vb. set (vb := nv s) in *.
    assert (TS2 : ts s2 = ts s1) by (apply newv_spec in T2; destruct T2 as (? & _ & _ & ->); reflexivity).
    apply bind_rest. intros y3 s3 H3. assert (TS3 : ts s3 = ts s2) by (apply modv_spec in H3; destruct H3 as [_ ->]; reflexivity).
    apply wf_ring in H3. destruct H3 as (N3 & O3 & B1 & B2 & B3 & _).
    apply bind_rest. intros y4 s4 H4. assert (TS4 : ts s4 = ts s3) by (injection H4 as _ <-; reflexivity).
    apply keepv_addv in H4. destruct H4 as [V4 N4].
    apply bind_rest. intros len s0 H0. injection H0 as <- <-.
    apply bind_rest. intros va s5 H5. pose proof H5 as T5. apply newv_ring in H5. destruct H5 as (KA & NA & OA & RA').
    rewrite N4, N3, NB in KA, NA. subst va. set (va := S vb) in *.
    assert (TS5 : ts s5 = ts s4) by (apply newv_spec in T5; destruct T5 as (? & _ & _ & ->); reflexivity).
    apply bind_rest. intros y6 s6 H6. assert (TS6 : ts s6 = ts s5) by (apply modv_spec in H6; destruct H6 as [_ ->]; reflexivity).
    apply wf_ring in H6. destruct H6 as (N6 & O6 & A1 & A2 & A3 & _).
    apply bind_rest. intros y7 s7 H7. assert (TS7 : ts s7 = ts s6) by (injection H7 as _ <-; reflexivity).
    apply keepv_addv in H7. destruct H7 as [V7 N7].
    assert (TC : forall l r s s' u, update_circ l r now s = Ok (u, s') -> ts s' = ts s).
    { intros l r sa sb u H. unfold update_circ in H. peel H z sc HC. transitivity (ts sc).
      - destruct r; [apply modv_spec in H; destruct H as [_ ->]; reflexivity|apply ret_ok in H; destruct H as [_ ->]; reflexivity].
      - destruct l; [apply modv_spec in HC; destruct HC as [_ ->]; reflexivity|apply ret_ok in HC; destruct HC as [_ ->]; reflexivity]. }
    apply bind_rest. intros y8 s8 H8. pose proof (TC _ _ _ _ _ H8) as TS8. apply circ_ring in H8. destruct H8 as [N8 C8].
    apply bind_rest. intros y9 s9 H9. pose proof (TC _ _ _ _ _ H9) as TS9. apply circ_ring in H9. destruct H9 as [N9 C9].
    (* the neighbours *)
    destruct (left_of s v t e F SH I0 Dt eq_refl) as (l0 & HL & JL & LL).
    { intros w k Dw Cw Q. apply (LO w (ccw k) Q). right. rewrite cw_ccw. congruence. }
    destruct (right_of s v t e F SH I0 Dt eq_refl) as (r0 & HR & JR & LR).
    { intros w k Dw Cw Q. apply (LO w (cw k) Q). left. rewrite ccw_cw. congruence. }
    pose proof (joint_left s l0 v LI LL (sh_v _ SH _ _) JL I0) as FIl. pose proof (joint_right s v r0 LI (sh_v _ SH _ _) LR JR I0) as FIr.
    assert (Nl0v : l0 <> v).
    { intros ->. destruct JL as (Q & _). destruct (fi_star _ F v I0) as [l ST].
      destruct (star_ends s v l t e ST) as [_ (w & k & K1 & K2)]; [apply (st_all _ _ _ ST); auto|].
      apply (st_all _ _ _ ST) in K1. destruct K1 as [Dw Cw].
      destruct (fi_ring _ F w (ccw k) Dw K2) as [Z|Z].
      - apply (LO w (ccw k) Z). right. rewrite cw_ccw. congruence.
      - rewrite cw_ccw, ccw_ccw, Cw in Z. destruct Z as (_ & Z & _). rewrite HL in Z. injection Z as Z. rewrite <- Cw in Z.
        symmetry in Z. apply (DI w Dw) in Z. exact (cw_ne k Z). }
    assert (LT : v < nv s /\ v1 < nv s /\ v2 < nv s) by (repeat split; apply (sh_v _ SH)).
    destruct LT as (LTv & LT1 & LT2).
    assert (OLD : forall w, w < nv s -> vs s7 w = vs s1 w).
    { intros w Hw. rewrite V7, O6, OA, V4, O3, OB; [reflexivity|unfold vb..|unfold va, vb|unfold va, vb]; lia. }
    assert (VB7 : k_inf (vs s7 vb) = false /\ k_wfl (vs s7 vb) = k_wfl (vs s v) /\ k_wfr (vs s7 vb) = k_wfl (vs s v2)).
    { rewrite V7, O6, OA, V4 by (unfold va; lia). rewrite B1, B2, B3. unfold rest in RB.
      split; [congruence|]. destruct (ES v) as (_ & -> & _). destruct (ES v2) as (_ & -> & _). auto. }
    assert (VA7 : k_inf (vs s7 va) = false /\ k_wfl (vs s7 va) = k_wfr (vs s v1) /\ k_wfr (vs s7 va) = k_wfr (vs s v)).
    { rewrite V7. rewrite A1, A2, A3. unfold rest in RA'.
      split; [congruence|]. destruct (ES v1) as (_ & _ & -> & _). destruct (ES v) as (_ & _ & -> & _). auto. }
    assert (EL : kleft (vs s1 v) = Some l0) by (rewrite <- HL; apply ES). rewrite EL in C8.
    assert (ON : forall a b : nat, a <> b -> onat_eqb (Some a) (Some b) = false) by (intros a b Q; cbn; apply Nat.eqb_neq, Q).
    assert (R9 : forall w, rest (vs s9 w) = rest (vs s7 w)) by (intros w; destruct (C9 w) as (-> & _); apply C8).
    assert (KLb : kleft (vs s9 vb) = Some l0).
    { destruct (C9 vb) as (_ & _ & ->). rewrite ON by (unfold vb; lia). destruct (C8 vb) as (_ & _ & ->). rewrite onat_refl. reflexivity. }
    assert (KRb : kright (vs s9 vb) = Some v2).
    { destruct (C9 vb) as (_ & -> & _). rewrite onat_refl. reflexivity. }
    assert (OF : forall s', (forall w, rest (vs s' w) = rest (vs s7 w)) -> forall w, w < nv s ->
      k_inf (vs s' w) = k_inf (vs s w) /\ k_wfl (vs s' w) = k_wfl (vs s w) /\ k_wfr (vs s' w) = k_wfr (vs s w)).
    { intros s' Q w Hw. specialize (Q w). rewrite (OLD w Hw) in Q. apply rest_eq in Q. destruct Q as (-> & -> & -> & _).
      destruct (ES w) as (? & ? & ? & _). auto. }
    rewrite (bind_eq (vget vb) _ s9 (vs s9 vb) s9) by reflexivity.
    destruct (rest_eq _ _ (R9 vb)) as (QI & QL & QR & _). destruct VB7 as (VI & VL & VR). rewrite VI in QI. rewrite VL in QL. rewrite VR in QR.
    (* 220, 221 *)
    destruct (OF s9 R9 l0 LL) as (P1 & _ & P3). rewrite FIl in P1. destruct (OF s9 R9 v2 LT2) as (P4 & P5 & _). rewrite I2 in P4.
    rewrite (bind_eq _ _ _ _ _ (left_wfr_at vb l0 s9 KLb P1)).
    rewrite bind_assert by (rewrite P3, QL; destruct JL as (_ & _ & -> & _); apply onat_refl).
    rewrite (bind_eq _ _ _ _ _ (right_wfl_at vb v2 s9 KRb P4)).
    rewrite bind_assert by (rewrite P5, QR; apply onat_refl).
    apply bind_rest. intros y10 s10 H10. pose proof (TC _ _ _ _ _ H10) as TS10. apply circ_ring in H10. destruct H10 as [N10 C10].
    apply bind_rest. intros k s0 H0. injection H0 as <- <-.
    apply bind_rest. intros y11 s11 H11. pose proof (TC _ _ _ _ _ H11) as TS11. apply circ_ring in H11. destruct H11 as [N11 C11].
    assert (KRv : kright (vs s10 v) = Some r0).
    { destruct (C10 v) as (_ & -> & _). rewrite ON by auto. destruct (C9 v) as (_ & -> & _). rewrite ON by (unfold vb; lia).
      destruct (C8 v) as (_ & -> & _). rewrite ON by auto. rewrite (OLD v LTv). rewrite <- HR. apply ES. }
    rewrite KRv in C11.
    assert (KRa : kright (vs s11 va) = Some r0).
    { destruct (C11 va) as (_ & -> & _). rewrite onat_refl. reflexivity. }
    assert (KLa : kleft (vs s11 va) = Some v1).
    { destruct (C11 va) as (_ & _ & ->). rewrite ON by (unfold va, vb; lia). destruct (C10 va) as (_ & _ & ->). rewrite onat_refl. reflexivity. }
    assert (R11 : forall w, rest (vs s11 w) = rest (vs s7 w)).
    { intros w. destruct (C11 w) as (-> & _). destruct (C10 w) as (-> & _). apply R9. }
    rewrite (bind_eq (vget va) _ s11 (vs s11 va) s11) by reflexivity.
    destruct (rest_eq _ _ (R11 va)) as (_ & ZL & ZR & _). destruct VA7 as (_ & UL & UR). rewrite UL in ZL. rewrite UR in ZR.
    destruct (OF s11 R11 v1 LT1) as (P6 & _ & P7). rewrite I1 in P6. destruct (OF s11 R11 r0 LR) as (P8 & P9 & _). rewrite FIr in P8.
    (* 233, 234 *)
    rewrite (bind_eq _ _ _ _ _ (left_wfr_at va v1 s11 KLa P6)).
    rewrite bind_assert by (rewrite P7, ZL; apply onat_refl).
    apply bind_like; [reflexivity|]. intros w s0 H0. rewrite (right_wfl_at va r0 s11 KRa P8) in H0. injection H0 as <- <-.
    rewrite bind_assert by (rewrite P9, ZR; destruct JR as (_ & _ & -> & _); apply onat_refl).
    (* 238, 250 *)
    rewrite !bind_tget.
    assert (TT : ts s11 = ts s) by congruence. rewrite TT.
    change (get3 (t_n (ts s t)) (ccw e)) with (link s t (ccw e)). destruct (link s t (ccw e)) as [b|] eqn:LB; [|congruence].
    cbn [deref]. rewrite (bind_eq (ret b) _ s11 b s11) by reflexivity.
    apply bind_rest. intros y12 s12 H12. apply bind_rest. intros fb s13 H13.
    rewrite !bind_tget.
    assert (LA : get3 (t_n (ts s13 t)) (cw e) <> None).
    { rewrite (replace_links _ _ _ _ _ _ _ _ H13). unfold relink in H12.
      peel H12 x s0 H0. apply gets_ok in H0. destruct H0 as [-> ->].
      peel H12 m s0 H0. unfold rdr in H0. apply rd_ok in H0. destruct H0 as [_ ->].
      assert (Nb : t <> b).
      { intros Q. rewrite <- Q in LB. destruct (fi_linked _ F t (ccw e) t Dt LB) as (_ & j & J1 & [J2 J3]).
        apply (DI t Dt) in J2, J3. destruct e, j; discriminate. }
      apply modt_spec in H12. subst s12. cbn. rewrite upd_other by auto. rewrite TT. exact TA. }
    destruct (get3 (t_n (ts s13 t)) (cw e)) as [a|]; [|congruence]. reflexivity.
  Qed.

  (** ** Events *)
  (** the kind of the event agrees with the sides of its triangle *)
  Record sited (s : state) (e : nat) : Prop := {
    si_edge : ev_tp (es s e) = Edge -> 1 <= length (ev_side (es s e)) <= 3;
    si_flip : ev_tp (es s e) = Flip -> exists i, ev_side (es s e) = [i] /\ link s (ev_tri (es s e)) i <> None;
    si_split : ev_tp (es s e) = Split -> exists i, ev_side (es s e) = [i] /\ link s (ev_tri (es s e)) i = None /\
      link s (ev_tri (es s e)) (ccw i) <> None /\ link s (ev_tri (es s e)) (cw i) <> None }.

  Theorem event_same s e step : shaped s -> fitting s -> lined s ->
    (forall v, v < nv s -> k_inf (vs s v) = false -> can_stop (vs s v)) ->
    neqb (ev_time (es s e)) (ev_time (es s e)) = true ->
    regular s e -> (t_stops (ts s (ev_tri (es s e))) = None -> tidy s e /\ sited s e) ->
    handle_event e step s = handle_event_O e step s.
  Proof.
    intros SH F LI P NN [TT DI OP _] TI. unfold handle_event, handle_event_O.
    rewrite !(bind_eq (eget e) _ s (es s e) s) by reflexivity. rewrite !bind_tget.
    set (evt := es s e) in *. set (t := ev_tri evt) in *.
    destruct (t_stops (ts s t)) eqn:ST; cbn [is_some]; [reflexivity|]. destruct (TI eq_refl) as [[T1 _ T3] [S1' S2' S3']].
    fold evt t in T1, T3, S1', S2', S3'.
    assert (Dt : active s t) by (split; [exact TT|exact ST]).
    pose proof (opposite_apart (active s) s t (fi_linked _ F) DI Dt OP) as AP.
    destruct (ev_tp evt) eqn:TP.
    - specialize (S1' eq_refl). destruct (Nat.eqb (length (ev_side evt)) 3) eqn:L3; [apply Nat.eqb_eq in L3; apply three_same; auto|].
      destruct (_ && _)%bool eqn:L1.
      + apply Bool.andb_true_iff in L1. destruct L1 as [LS TY]. apply Nat.eqb_eq in LS.
        destruct (ev_side evt) as [|sd [|]] eqn:SE; try discriminate LS. apply (one_same s evt step sd); auto.
      + destruct (Nat.eqb (length (ev_side evt)) 2) eqn:L2; [reflexivity|].
        assert (SE : exists sd, ev_side evt = [sd]).
        { destruct (ev_side evt) as [|a [|b [|c [|]]]]; try discriminate; [cbn in S1'; lia|eauto|cbn in S1'; lia]. }
        destruct SE as [sd SE]. apply (edge_same s evt step sd); auto. apply (T1 sd eq_refl SE).
        intros Q. rewrite SE, Q in L1. discriminate L1.
    - destruct (S2' eq_refl) as (i & SE & LK). destruct (link s t i) as [n|] eqn:LN; [|congruence].
      apply (flip_event_same s evt i n); auto. apply F.
    - destruct (S3' eq_refl) as (i & SE & LK & LB & LA). destruct (T3 i eq_refl SE) as [Q1 Q2].
      apply (split_same s evt step i); auto.
  Qed.

  (** ** The loop *)
  Lemma steps_start s0 now0 tr0 now tr s : registered s0 ->
    (forall v, v < nv s0 -> k_inf (vs s0 v) = false -> k_start_node (vs s0 v) <> None) ->
    steps now0 tr0 s0 now tr s ->
    forall v, v < nv s -> k_inf (vs s v) = false -> k_start_node (vs s v) <> None.
  Proof.
    intros R0 P H v Hv I. destruct (steps_base _ _ _ _ _ _ R0 H) as [_ FO].
    destruct (Nat.lt_ge_cases v (nv s0)) as [L|L].
    - pose proof (fo_motion _ _ FO v L) as M. rewrite (sm_start_node _ _ M). rewrite (sm_inf _ _ M) in I. auto.
    - destruct (fo_new _ _ FO v (conj L Hv)) as (Q & _). destruct (k_start_node (vs s v)); [discriminate|discriminate Q].
  Qed.
  Lemma steps_lined s0 now0 tr0 now tr s : registered s0 -> lined s0 -> steps now0 tr0 s0 now tr s -> lined s.
  Proof.
    intros R0 P H v Hv. destruct (steps_base _ _ _ _ _ _ R0 H) as [_ FO].
    destruct (Nat.lt_ge_cases v (nv s0)) as [L|L].
    - pose proof (fo_motion _ _ FO v L) as M. rewrite (sm_inf _ _ M), (sm_ul _ _ M), (sm_ur _ _ M). exact (P v L).
    - destruct (fo_born _ _ FO v (conj L Hv)) as (s1 & ul & ur & now1 & n & info & int & kv & K & _ & M).
      rewrite (sm_inf _ _ M), (sm_ul _ _ M), (sm_ur _ _ M).
      assert (Q : ul <> None /\ ur <> None) by (unfold new_kvertex in K; destruct ul, ur; try discriminate; split; discriminate).
      apply new_kvertex_fields in K. destruct K as (-> & _ & _ & _ & _ & -> & -> & _). exact Q.
  Qed.

  Context (O : OrdArith A).
  Context (addr_inj : forall t u : nat, addr t = addr u -> t = u).

  Lemma fitting_same s s1 : sk_triangles s1 = sk_triangles s -> ts s1 = ts s -> vs s1 = vs s -> fitting s -> fitting s1.
  Proof.
    intros T1 TS VS [P1 P2 P3 P4]. constructor.
    - unfold linked, active, shares, corner, link in *. rewrite T1, TS. exact P1.
    - intros t i. unfold left_over, joint, stopped, active, corner, link in *. rewrite T1, TS, VS. apply P2.
    - intros v Hv. rewrite VS in Hv. destruct (P3 v Hv) as [l [Q1 Q2 Q3]]. exists l. constructor; [exact Q1| |].
      + assert (CH : forall l p q, chain s p l q -> chain s1 p l q).
        { induction l0 as [|[u i] l0 IHl]; intros p q K; [exact I|]. destruct K as (K1 & K2 & K3).
          unfold link in *. cbn. unfold link. rewrite TS. auto. }
        apply CH, Q2.
      + intros u i. unfold active, corner in *. rewrite T1, TS. apply Q3.
    - intros t i. unfold left_over, touches, stopped, active, corner, link in *. rewrite T1, TS, VS. apply P4.
  Qed.

  (** the conditions under which a run is watched *)
  Record watched_run (s0 : state) : Prop := {
    wr_events : forall now1 tr1 s1 e now2 s2, reach s0 now1 tr1 s1 -> take_next now1 s1 = Ok ((e, now2), s2) ->
      regular s2 e /\ (t_stops (ts s2 (ev_tri (es s2 e))) = None -> tidy s2 e /\ sited s2 e);
    wr_distinct : forall now1 tr1 s1, reach s0 now1 tr1 s1 -> forall u, active s1 u -> distinct s1 u;
    wr_slow : forall now1 tr1 s1, reach s0 now1 tr1 s1 -> forall v, nv s0 <= v < nv s1 -> k_inf_fast (vs s1 v) = false }.

  Theorem step_same s0 now tr s e now' s1 :
    registered s0 -> shaped s0 -> fitting s0 -> timed n0 s0 -> lined s0 ->
    (forall v, v < nv s0 -> k_inf (vs s0 v) = false -> k_start_node (vs s0 v) <> None) ->
    watched_run s0 -> reach s0 now tr s -> take_next now s = Ok ((e, now'), s1) ->
    forall step, handle_event e step s1 = handle_event_O e step s1.
  Proof.
    intros R0 SH0 F0 T0 L0 ST0 [W1 W2 W3] R T step.
    pose proof (reach_timed O addr_inj _ _ _ _ T0 R) as TI.
    pose proof (steps_shaped _ _ _ _ _ _ R0 SH0 R) as Ss. pose proof (steps_lined _ _ _ _ _ _ R0 L0 R) as Ls.
    pose proof (steps_start _ _ _ _ _ _ R0 ST0 R) as Ps.
    assert (Fs : fitting s).
    { apply (run_fitting s0 now tr s R0 SH0 F0 R).
      - intros now1 tr1 s3 e1 now2 s2 Q1 _ Q2. destruct (W1 _ _ _ _ _ _ Q1 Q2) as [K1 K2]. split; [exact K1|]. intros Q. apply K2, Q.
      - intros now1 tr1 s3 Q1 _. apply (W2 _ _ _ Q1).
      - apply (W3 _ _ _ R). }
    destruct (W1 _ _ _ _ _ _ R T) as [G1 G2].
    assert (C : shaped s1 /\ nv s1 = nv s /\ sk_triangles s1 = sk_triangles s /\ ts s1 = ts s /\ vs s1 = vs s).
    { apply take_next_ok in T. destruct T as [(r & _ & _ & ->)|(r & _ & _ & _ & ->)];
        (split; [destruct Ss; constructor; auto|auto]). }
    destruct C as (SH1 & N1 & T1 & TS & VS).
    apply event_same; auto.
    - apply (fitting_same s s1); auto.
    - intros v Hv. rewrite VS. rewrite N1 in Hv. apply Ls, Hv.
    - intros v Hv I. rewrite VS in *. rewrite N1 in Hv. split; [apply (li_both _ _ (proj1 (proj2 TI)))|apply Ps; auto].
    - apply (neqb_refl O).
  Qed.

  Theorem loop_same s0 :
    registered s0 -> shaped s0 -> fitting s0 -> timed n0 s0 -> lined s0 ->
    (forall v, v < nv s0 -> k_inf (vs s0 v) = false -> k_start_node (vs s0 v) <> None) ->
    watched_run s0 -> forall guard now tr s, reach s0 now tr s ->
    loop guard (Z.of_nat (length tr)) now s = loop_O guard (Z.of_nat (length tr)) now s.
  Proof.
    intros R0 SH0 F0 T0 L0 ST0 W. induction guard as [|g IH]; intros now tr s R; cbn [loop loop_O]; [reflexivity|].
    rewrite !(bind_eq (gets immediate) _ s (immediate s) s) by reflexivity.
    rewrite !(bind_eq (gets queue) _ s (queue s) s) by reflexivity.
    assert (G : bind (take_next now) (fun en => handle_event (fst en) (Z.of_nat (length tr) + 1) ;; loop g (Z.of_nat (length tr) + 1) (snd en)) s =
                bind (take_next now) (fun en => handle_event_O (fst en) (Z.of_nat (length tr) + 1) ;; loop_O g (Z.of_nat (length tr) + 1) (snd en)) s).
    { apply bind_like; [reflexivity|]. intros [e now'] s1 T. cbn [fst snd].
      apply bind_like; [apply (step_same s0 now tr s e now' s1 R0 SH0 F0 T0 L0 ST0 W R T)|].
      intros [] s2 H. 
      assert (EQ : (Z.of_nat (length tr) + 1)%Z = Z.of_nat (S (length tr))) by lia.
      rewrite EQ in *. pose proof (reach_step _ _ _ _ _ _ _ _ _ _ R T H) as R2.
      specialize (IH _ _ _ R2). rewrite app_length in IH. cbn [length] in IH. rewrite Nat.add_1_r in IH. exact IH. }
    destruct (immediate s), (queue s); try reflexivity; exact G.
  Qed.
End Events.
