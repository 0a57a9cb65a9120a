(** Every vertex that has not ended is a corner of a triangle that is there (any arithmetic) *)
From Verif Require Import Base Arith Calc VectorOps Line2d Primitives Collapse EventsLib
  FlipEvent ParallelEvent EdgeEvent SplitEvent EventLoop Pass OpSpec StopSpec RunBase RunLoop Decent Total FanProofs TotalRun
  Mesh MeshEvents MeshEdge MeshRun Rings RingEdge RingSplit RingFlip EdgeHead RingSpec RingGone RingRun Effects Listed Properties_effects Graph GraphRun.
Local Close Scope Q_scope.
Local Open Scope nat_scope.

Section Corners.
  Context {A : Arith} {E : Env A}.
  Local Open Scope M_scope.
  Ltac peel H n s1 H1 := apply bind_ok in H; destruct H as (n & s1 & H1 & H).

  Definition busy (s : state) : Prop :=
    forall v, In v (sk_vertices s) -> k_stop_node (vs s v) = None -> exists t i, active s t /\ corner s t i = v.
  (** the triangle of an edge event is linked across a side that does not collapse *)
  Definition open (s : state) (e : nat) : Prop :=
    forall i, ev_tp (es s e) = Edge -> ev_side (es s e) = [i] -> exists k, k <> i /\ link s (ev_tri (es s e)) k <> None.

  Lemma linked_ne (s : state) t k n : linked (active s) s -> (forall u, active s u -> distinct s u) -> active s t -> link s t k = Some n -> n <> t.
  Proof.
    intros L DI Dt K ->. destruct (L t k t Dt K) as (_ & j & _ & S1 & S2). apply (DI t Dt) in S1, S2. destruct j, k; discriminate.
  Qed.
  Lemma across (s : state) t k n i : linked (active s) s -> active s t -> link s t k = Some n -> i <> k ->
    active s n /\ exists j, corner s n j = corner s t i.
  Proof.
    intros L Dt K N. destruct (L t k n Dt K) as (Dn & j & _ & S1 & S2). split; [exact Dn|].
    destruct (side_cases i k) as [->|[->| ->]]; [contradiction|eauto|eauto].
  Qed.
  Lemma fan_head (s : state) t k d l a : side_fan s t k d l -> link s t (d k) = Some a -> In a l /\ exists sd, corner s a sd = corner s t k.
  Proof.
    unfold side_fan. intros H Q. rewrite Q in H. destruct H as [H _]. inversion H; subst. split; [left; reflexivity|eauto].
  Qed.

  Theorem event_busy s e step s' : registered s -> shaped s -> linked (active s) s -> regular s e ->
    (t_stops (ts s (ev_tri (es s e))) = None -> plain s e /\ open s e) -> handle_event e step s = Ok (tt, s') ->
    (forall v, nv s <= v < nv s' -> k_inf_fast (vs s' v) = false) -> busy s -> busy s'.
  Proof.
    intros R SH L RG PO H NF B.
    pose proof (keeps_handle_event base_sound e step s R tt s' H) as [R' FO].
    assert (TR : sk_triangles s' = sk_triangles s) by apply (fo_tris _ _ FO).
    destruct (t_stops (ts s (ev_tri (es s e)))) eqn:ST.
    { assert (s' = s) as ->; [|exact B].
      unfold handle_event in H. apply bind_ok in H. destruct H as (evt & s9 & H1 & H). apply gets_ok in H1. destruct H1 as [-> ->].
      apply bind_ok in H. destruct H as (x & s9 & H1 & H). apply gets_ok in H1. destruct H1 as [-> ->].
      rewrite ST in H. cbn [is_some] in H. apply ret_ok in H. apply H. }
    destruct (PO eq_refl) as [PL OP]. unfold plain in PL. set (t := ev_tri (es s e)) in *.
    assert (At : active s t) by (split; [apply (re_tri _ _ RG)|exact ST]).
    pose proof (re_distinct _ _ RG) as DI.
    pose proof (opposite_apart (active s) s _ L DI At (re_opposite _ _ RG)) as AP.
    assert (VL : forall v, In v (sk_vertices s) -> v < nv s) by apply (rg_verts _ R).
    assert (AS : forall V W now, joins s s' t now V W -> forall u, active s u -> u <> t -> active s' u).
    { intros V W now J u [U1 U2] N. split; [rewrite TR; exact U1|]. rewrite (jo_tri _ _ _ _ _ _ J).
      rewrite (proj2 (Nat.eqb_neq t u)) by congruence. exact U2. }
    assert (OLD : forall V W now, joins s s' t now V W -> forall v, In v (sk_vertices s) -> k_stop_node (vs s' v) = None ->
      ~ In v V /\ v < nv s /\ exists u i, active s u /\ corner s u i = v).
    { intros V W now J v Hv K. assert (NI : ~ In v V) by (intros I; apply (jo_end _ _ _ _ _ _ J) in I; destruct I; congruence).
      split; [exact NI|]. split; [apply VL, Hv|]. apply B; [exact Hv|].
      rewrite <- (proj1 (jo_stop _ _ _ _ _ _ J v (VL v Hv) NI)). exact K. }
    destruct (ev_tp (es s e)) eqn:TP.
    - destruct PL as [[SE AN]|(i & SE & TY & A1 & A2)].
      + pose proof (three_joins s e step s' R SH TP SE ST (DI t At) AN H) as J.
        assert (HE : handle_edge_event_3sides (es s e) step s = Ok (tt, s')).
        { unfold handle_event in H. apply bind_ok in H. destruct H as (evt & s9 & H1 & H). apply gets_ok in H1. destruct H1 as [-> ->].
          apply bind_ok in H. destruct H as (x & s9 & H1 & H). apply gets_ok in H1. destruct H1 as [-> ->].
          fold t in H. rewrite ST, TP, SE in H. exact H. }
        apply (three_effect (active s)) in HE; auto; try (intros u [_ Hu]; exact Hu); try exact (re_events _ _ RG TP SE).
        destruct HE as (_ & _ & _ & _ & H5).
        intros v Hv K. rewrite (jo_verts _ _ _ _ _ _ J), app_nil_r in Hv.
        destruct (OLD _ _ _ J v Hv K) as (NI & _ & u & i & Hu & Q). exists u, i. split.
        * apply (AS _ _ _ J); [exact Hu|]. intros ->. apply NI. rewrite <- Q. unfold t, corner. destruct i; cbn; auto.
        * unfold corner. rewrite H5. exact Q.
      + assert (HE : handle_edge_event (es s e) step s = Ok (tt, s')).
        { unfold handle_event in H. apply bind_ok in H. destruct H as (evt & s9 & H1 & H). apply gets_ok in H1. destruct H1 as [-> ->].
          apply bind_ok in H. destruct H as (x & s9 & H1 & H). apply gets_ok in H1. destruct H1 as [-> ->].
          fold t in H. rewrite ST, TP, SE in H. cbn [is_some length Nat.eqb andb] in H. rewrite (proj2 (Nat.eqb_neq _ _) TY) in H. exact H. }
        destruct (edge_effect (active s) s (es s e) step i s' R SH L DI At AP SE HE NF) as (kv & fa & fb & KV & FA & FB & C & _).
        fold t in FA, FB, C.
        assert (NE : corner s t (ccw i) <> corner s t (cw i)) by (intros Q; apply (DI t At) in Q; destruct i; discriminate).
        pose proof (edge_joins s e i step s' R SH TP SE TY ST NE A1 A2 H ltac:(apply NF; lia)) as J. fold t in J.
        change (get3 (t_v (ts s t)) (ccw i)) with (corner s t (ccw i)) in J. change (get3 (t_v (ts s t)) (cw i)) with (corner s t (cw i)) in J.
        assert (KN : kv = nv s) by (destruct (jo_new _ _ _ _ _ _ J) as [[Q _]|[[_ Q]|[Q _]]]; [discriminate|lia|discriminate]). subst kv.
        assert (LT : forall j, corner s t j < nv s) by (intros j; apply (sh_v _ SH)).
        destruct (OP i TP SE) as (k & KI & KL). fold t in KL. destruct (link s t k) as [n|] eqn:KN; [|contradiction].
        pose proof (linked_ne s t k n L DI At KN) as NT.
        intros v Hv K. rewrite (jo_verts _ _ _ _ _ _ J) in Hv. apply in_app_iff in Hv. destruct Hv as [Hv|[<-|[]]].
        * destruct (OLD _ _ _ J v Hv K) as (NI & _ & u & j & Hu & Q). cbn in NI.
          assert (SAME : forall w m, corner s w m = v -> corner s' w m = v).
          { intros w m W. rewrite C, W. unfold sub2. rewrite (sub1_other (corner s t (cw i))) by (intros Z; apply NI; auto). apply sub1_other. intros Z; apply NI; auto. }
          destruct (Nat.eq_dec u t) as [->|N]; [|exists u, j; split; [apply (AS _ _ _ J); auto|auto]].
          assert (j = i) as -> by (destruct (side_cases j i) as [->|[->| ->]]; [reflexivity|exfalso; auto|exfalso; auto]).
          destruct (across s t k n i L At KN (not_eq_sym KI)) as (Dn & m & M). exists n, m. split; [apply (AS _ _ _ J); auto|]. apply SAME. congruence.
        * destruct (side_cases k i) as [->|[->| ->]]; [contradiction| |].
          -- rewrite <- cw_cw in KN. destruct (fan_head _ _ _ _ _ _ FA KN) as (IN & m & M). exists n, m. split; [apply (AS _ _ _ J); auto|].
             ++ apply (across s t (ccw i) n i L At); [rewrite cw_cw in KN; exact KN|destruct i; discriminate].
             ++ rewrite C, M. unfold sub2. unfold sub1 at 2. destruct (Nat.eq_dec _ _) as [_|Z]; [|congruence]. destruct (in_dec _ _ _) as [_|Z]; [|contradiction].
                apply sub1_other. pose proof (LT (ccw i)). lia.
          -- rewrite <- ccw_ccw in KN. destruct (fan_head _ _ _ _ _ _ FB KN) as (IN & m & M). exists n, m. split; [apply (AS _ _ _ J); auto|].
             ++ apply (across s t (cw i) n i L At); [rewrite ccw_ccw in KN; exact KN|destruct i; discriminate].
             ++ rewrite C, M. unfold sub2. rewrite (sub1_other (corner s t (cw i))) by exact NE. unfold sub1.
                destruct (Nat.eq_dec _ _) as [_|Z]; [|congruence]. destruct (in_dec _ _ _) as [_|Z]; [reflexivity|contradiction].
    - assert (HE : handle_flip_event (es s e) s = Ok (tt, s')).
      { unfold handle_event in H. apply bind_ok in H. destruct H as (evt & s9 & H1 & H). apply gets_ok in H1. destruct H1 as [-> ->].
        apply bind_ok in H. destruct H as (x & s9 & H1 & H). apply gets_ok in H1. destruct H1 as [-> ->].
        fold t in H. rewrite ST, TP in H. exact H. }
      destruct (C65_flip s e step s' TP ST H) as (Q1 & Q2 & Q3 & Q4 & Q5 & Q6).
      assert (SE : exists sd n, ev_side (es s e) = [sd] /\ link s t sd = Some n).
      { unfold handle_flip_event in HE. destruct (ev_side (es s e)) as [|sd [|]]; try discriminate HE.
        peel HE x s1 H1. apply gets_ok in H1. destruct H1 as [-> ->]. fold t in HE.
        destruct (get3 (t_n (ts s t)) sd) eqn:K; [|discriminate HE]. eauto. }
      destruct SE as (sd & n & SE & SN).
      destruct (flip_event_flipped s (es s e) sd n s' R L DI At AP SE SN (re_opposite _ _ RG) TR HE) as [j FL]. fold t in FL. clearbody t.
      intros v Hv K. rewrite Q3 in Hv. destruct FL.
      destruct (B v Hv) as (u & i & Hu & Q); [rewrite <- fl_vs; exact K|]. subst v. destruct fl_sh as [Sh1 Sh2].
      assert (D0 : active s' t) by (apply fl_act; auto). assert (D1 : active s' n) by (apply fl_act; auto).
      assert (V00 : corner s' t S0 = corner s t sd) by (unfold corner at 1; rewrite fl_v0; reflexivity).
      assert (V01 : corner s' t S1 = corner s t (ccw sd)) by (unfold corner at 1; rewrite fl_v0; reflexivity).
      assert (V10 : corner s' n S0 = corner s n j) by (unfold corner at 1; rewrite fl_v1; reflexivity).
      assert (V11 : corner s' n S1 = corner s n (ccw j)) by (unfold corner at 1; rewrite fl_v1; reflexivity).
      destruct (Nat.eq_dec u t) as [->|N0]; [|destruct (Nat.eq_dec u n) as [->|N1]].
      + destruct (side_cases i sd) as [->|[->| ->]]; [eauto|eauto|]. exists n, S1. split; [exact D1|congruence].
      + destruct (side_cases i j) as [->|[->| ->]]; [eauto|eauto|]. exists t, S1. split; [exact D0|congruence].
      + exists u, i. split; [apply fl_act; auto|]. apply fl_v; auto.
    - destruct PL as (i & SE & A1).
      assert (HE : handle_split_event (es s e) step s = Ok (tt, s')).
      { unfold handle_event in H. apply bind_ok in H. destruct H as (evt & s9 & H1 & H). apply gets_ok in H1. destruct H1 as [-> ->].
        apply bind_ok in H. destruct H as (x & s9 & H1 & H). apply gets_ok in H1. destruct H1 as [-> ->].
        fold t in H. rewrite ST, TP in H. exact H. }
      destruct (split_effect (active s) s (es s e) step i s' R SH L DI At AP SE HE NF) as
        (vb & va & fb & fa & B1 & B2 & B3 & TE & TB & TA & FA & FB & DJ & C & _). fold t in TE, TB, TA, FA, FB, C.
      pose proof (split_joins s e i step s' R SH TP SE ST A1 H ltac:(apply NF; lia) ltac:(apply NF; lia)) as J. fold t in J.
      change (get3 (t_v (ts s t)) i) with (corner s t i) in J.
      assert (LT : corner s t i < nv s) by apply (sh_v _ SH).
      assert (va = S (nv s) /\ vb = nv s) as [-> ->] by (destruct (jo_new _ _ _ _ _ _ J) as [[Q _]|[[Q _]|[_ Q]]]; [discriminate|discriminate|lia]).
      destruct (link s t (ccw i)) as [nb|] eqn:KB; [|contradiction]. destruct (link s t (cw i)) as [na|] eqn:KA; [|contradiction].
      pose proof (linked_ne s t _ nb L DI At KB) as NB. pose proof (linked_ne s t _ na L DI At KA) as NA.
      destruct (fan_head _ _ _ _ _ _ FA KA) as (INa & ma & Ma). destruct (fan_head _ _ _ _ _ _ FB KB) as (INb & mb & Mb).
      assert (Da : active s' na) by (apply (AS _ _ _ J); auto; apply (across s t (cw i) na i L At KA); destruct i; discriminate).
      assert (Db : active s' nb) by (apply (AS _ _ _ J); auto; apply (across s t (ccw i) nb i L At KB); destruct i; discriminate).
      intros v Hv K. rewrite (jo_verts _ _ _ _ _ _ J) in Hv. apply in_app_iff in Hv. destruct Hv as [Hv|[<-|[<-|[]]]].
      + destruct (OLD _ _ _ J v Hv K) as (NI & _ & u & j & Hu & Q). cbn in NI.
        assert (SAME : forall w m, corner s w m = v -> corner s' w m = v).
        { intros w m W. rewrite C, W. assert (VN : v <> corner s t i) by (intros Z; apply NI; auto). rewrite (sub1_other _ _ fb) by exact VN. apply sub1_other, VN. }
        destruct (Nat.eq_dec u t) as [->|N]; [|exists u, j; split; [apply (AS _ _ _ J); auto|auto]].
        destruct (side_cases j i) as [->|[->| ->]]; [exfalso; auto| |].
        * destruct (across s t (cw i) na (ccw i) L At KA) as (_ & m & M); [destruct i; discriminate|]. exists na, m. split; [exact Da|]. apply SAME. congruence.
        * destruct (across s t (ccw i) nb (cw i) L At KB) as (_ & m & M); [destruct i; discriminate|]. exists nb, m. split; [exact Db|]. apply SAME. congruence.
      + exists nb, mb. split; [exact Db|]. rewrite C, Mb. unfold sub1 at 2. destruct (Nat.eq_dec _ _) as [_|Z]; [|congruence].
        destruct (in_dec _ _ _) as [_|Z]; [|contradiction]. apply sub1_other. lia.
      + exists na, ma. split; [exact Da|]. rewrite C, Ma. unfold sub1. destruct (Nat.eq_dec (corner s t i) (corner s t i)) as [_|Z]; [|congruence].
        destruct (in_dec Nat.eq_dec na fb) as [Z|_]; [exfalso; eapply DJ; eauto|]. destruct (Nat.eq_dec _ _) as [_|Z]; [|congruence].
        destruct (in_dec _ _ _) as [_|Z]; [reflexivity|contradiction].
  Qed.

  Theorem run_busy s0 now tr s : registered s0 -> shaped s0 -> linked (active s0) s0 -> busy s0 -> reach s0 now tr s ->
    (forall now1 tr1 s1 e now2 s2, reach s0 now1 tr1 s1 -> length tr1 < length tr ->
       take_next now1 s1 = Ok ((e, now2), s2) -> regular s2 e /\ (t_stops (ts s2 (ev_tri (es s2 e))) = None -> plain s2 e /\ open s2 e)) ->
    (forall v, nv s0 <= v < nv s -> k_inf_fast (vs s v) = false) -> busy s.
  Proof.
    intros R0 SH0 L0 B0 H. induction H as [|now tr s e now' s1 s' R IH T H]; intros RG NF; [exact B0|].
    rewrite app_length in RG. cbn [length] in RG.
    destruct (steps_base _ _ _ _ _ _ R0 R) as [Rs Fs].
    pose proof (steps_shaped _ _ _ _ _ _ R0 SH0 R) as Ss.
    assert (C : registered s1 /\ shaped s1 /\ nv s1 = nv s /\ sk_triangles s1 = sk_triangles s /\ ts s1 = ts s /\ vs s1 = vs s /\
                sk_vertices s1 = sk_vertices s).
    { apply take_next_ok in T. destruct T as [(r & _ & _ & ->)|(r & _ & _ & _ & ->)];
        (split; [destruct Rs; constructor; auto|split; [destruct Ss; constructor; auto|cbn; repeat split; auto]]). }
    destruct C as (R1 & SH1 & N1 & T1 & TS & VS & SV).
    pose proof (keeps_handle_event base_sound e (Z.of_nat (S (length tr))) s1 R1 tt s' H) as [R2 F2].
    assert (NFs : forall v, nv s0 <= v < nv s -> k_inf_fast (vs s v) = false).
    { intros v Hv. pose proof (fo_nv _ _ F2) as O2.
      assert (K : v < nv s1) by (rewrite N1; apply Hv). pose proof (sm_fast _ _ (fo_motion _ _ F2 v K)) as Q.
      rewrite VS in Q. rewrite <- Q. apply NF. split; [apply Hv|]. apply (Nat.lt_le_trans _ _ _ K O2). }
    assert (RGs : forall now1 tr1 s3 e1 now2 s2, reach s0 now1 tr1 s3 -> length tr1 < length tr ->
       take_next now1 s3 = Ok ((e1, now2), s2) -> regular s2 e1 /\ (t_stops (ts s2 (ev_tri (es s2 e1))) = None -> plain s2 e1 /\ open s2 e1)).
    { intros now1 tr1 s3 e1 now2 s2 Q1 Q2. apply (RG now1 tr1 s3 e1 now2 s2 Q1). clear -Q2. lia. }
    specialize (IH RGs NFs).
    pose proof (run_mesh s0 now tr s R0 SH0 L0 R (fun a b c d f g h i j => proj1 (RGs a b c d f g h i j)) NFs) as Ls.
    destruct (RG now tr s e now' s1 R ltac:(clear; lia) T) as [G1 G2].
    apply (event_busy s1 e (Z.of_nat (S (length tr))) s' R1 SH1); auto.
    - unfold linked, active, shares, corner, link in *; rewrite T1, TS; exact Ls.
    - intros v Hv. apply NF. pose proof (fo_nv _ _ Fs) as Q. rewrite N1 in Hv. split; [apply (Nat.le_trans _ _ _ Q), Hv|apply Hv].
    - unfold busy, active, corner in *. rewrite SV, VS, T1, TS. exact IH.
  Qed.
End Corners.
