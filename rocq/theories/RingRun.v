(** The rings along an execution of the event loop (any arithmetic) *)
From Verif Require Import Base Arith Calc VectorOps Line2d Primitives Collapse CollapseProofs EventsLib
  FlipEvent ParallelEvent EdgeEvent SplitEvent EventLoop Pass OpSpec Order StopSpec RunBase RunTimed RunLoop
  Fan Decent Total FanProofs TotalRun Mesh MeshEvents MeshEdge MeshRun Rings RingEdge RingSplit RingFlip RingGone EdgeHead RingSpec.
Local Open Scope nat_scope.

Section RingRun.
  Context {A : Arith} {E : Env A}.
  Local Open Scope M_scope.
  Ltac peel H n s1 H1 := apply bind_ok in H; destruct H as (n & s1 & H1 & H).

  Lemma flip_event_flipped s evt i n s' :
    registered s -> linked (active s) s -> (forall u, active s u -> distinct s u) -> active s (ev_tri evt) -> apart s (ev_tri evt) ->
    ev_side evt = [i] -> link s (ev_tri evt) i = Some n -> opposite s (ev_tri evt) ->
    sk_triangles s' = sk_triangles s ->
    handle_flip_event evt s = Ok (tt, s') -> exists j, flipped s s' (ev_tri evt) i n j.
  Proof.
    intros R L DI Dt AP SE Hn OP TR H. unfold handle_flip_event in H. rewrite SE in H.
    set (t := ev_tri evt) in *. set (now := ev_time evt) in *.
    peel H x s1 H1. apply gets_ok in H1. destruct H1 as [-> ->].
    change (get3 (t_n (ts s t)) i) with (link s t i) in H. rewrite Hn in H.
    peel H y s1 H1. apply gets_ok in H1. destruct H1 as [-> ->].
    peel H j s1 H1. unfold rdr in H1. apply rd_ok in H1. destruct H1 as [H1 ->].
    assert (LJ : link s n j = Some t).
    { unfold link. unfold nindex in H1. apply index3_get in H1.
      destruct (get3 (t_n (ts s n)) j) as [q|]; [|discriminate]. apply Nat.eqb_eq in H1. congruence. }
    assert (Dn : active s n) by apply (L t i n Dt Hn).
    assert (SJ : shares s t i n j).
    { destruct (L n j t Dn LJ) as (_ & m0 & M1 & M2). rewrite (AP i m0 n Hn M1). apply shares_sym, M2. }
    destruct (flip_spec (active s) s t i n j L DI Dt Hn LJ SJ (OP i n j Hn LJ SJ))
      as (s2 & F1 & F2 & F3 & F4 & F5 & F6 & F7 & FL & F8 & F9 & F10).
    peel H y s3 H2. rewrite F1 in H2. injection H2 as <- <-.
    peel H y s3 H2.
    assert (VS : vs s' = vs s).
    { apply keepv_riq in H2, H. destruct H2, H. rewrite F2 in *. cbn in *. congruence. }
    apply mesh_same_riq in H2. apply mesh_same_riq in H.
    pose proof (mesh_same_trans _ _ _ H2 H) as M.
    assert (NE : t <> n).
    { intros Q. rewrite <- Q in *. destruct SJ as [Q1 Q2]. apply (DI t Dt) in Q1, Q2. destruct i, j; discriminate. }
    exists j. constructor; auto.
    - intros u. unfold active. rewrite TR. destruct (M u) as (_ & _ & ->). destruct (F8 u) as [_ ->]. tauto.
    - destruct (M t) as (-> & _). exact F3.
    - destruct (M t) as (_ & -> & _). exact F4.
    - destruct (M n) as (-> & _). rewrite F5. f_equal. symmetry. apply SJ.
    - destruct (M n) as (_ & -> & _). exact F6.
    - intros u k N1 N2. unfold corner. destruct (M u) as (-> & _).
      pose proof (F7 u N1 N2 (t_n (ts s u))) as Q. change (t_v (ts s2 u)) with (t_v (tri_n (ts s2 u) (t_n (ts s u)))). rewrite Q. reflexivity.
    - intros u k N1 N2. rewrite (mesh_same_link s2 s') by exact M.
      destruct (FL u k N1 N2) as [Q|(a & b & Q1 & Q2 & Q3 & _)]; [auto|]. right. split; [exact Q1|].
      destruct Q3 as [-> | ->]; auto.
  Qed.

  (** at this moment no other side left over from a collapse is near the event *)
  Record tidy (s : state) (e : nat) : Prop := {
    (* a side collapses: no other left-over side touches its ends *)
    ti_edge : forall i, ev_tp (es s e) = Edge -> ev_side (es s e) = [i] -> tri_type (ts s (ev_tri (es s e))) <> 3 ->
      forall u j, left_over s u j ->
        touches s u j (corner s (ev_tri (es s e)) (ccw i)) \/ touches s u j (corner s (ev_tri (es s e)) (cw i)) ->
        u = ev_tri (es s e) /\ j = i;
    (* a triangle collapses: it has at most one neighbour *)
    ti_three : ev_tp (es s e) = Edge -> length (ev_side (es s e)) = 3 ->
      exists m, forall k, k <> m -> link s (ev_tri (es s e)) k = None;
    (* a side is split: it is not left over, nor is one at the splitting vertex *)
    ti_split : forall i, ev_tp (es s e) = Split -> ev_side (es s e) = [i] ->
      ~ left_over s (ev_tri (es s e)) i /\
      forall u j, left_over s u j -> ~ touches s u j (corner s (ev_tri (es s e)) i) }.

  Theorem event_fitting s e step s' :
    registered s -> shaped s -> fitting s -> regular s e -> (t_stops (ts s (ev_tri (es s e))) = None -> tidy s e) ->
    handle_event e step s = Ok (tt, s') ->
    (forall v, nv s <= v < nv s' -> k_inf_fast (vs s' v) = false) ->
    (forall u, active s' u -> distinct s' u) -> fitting s'.
  Proof.
    intros R SH F RG TI H NF DI'. pose proof (fi_linked _ F) as L. destruct RG as [TT DI OP EV].
    assert (TR : sk_triangles s' = sk_triangles s).
    { pose proof (keeps_handle_event base_sound e step s R tt s' H) as [_ Q]. apply (fo_tris _ _ Q). }
    pose proof (event_mesh s e step s' R SH L DI TT OP H NF) as [LM SM].
    assert (L' : linked (active s') s').
    { intros u i w Du Hl. destruct (LM u i w Du Hl) as [K|(K1 & K2 & K3 & (m & K4) & K5)]; [exact K|].
      exfalso. subst w. exact (EV K2 K1 m u K4 K5). }
    clear LM.
    unfold handle_event in H. peel H evt s1 H1. apply gets_ok in H1. destruct H1 as [-> ->].
    peel H x s1 H1. apply gets_ok in H1. destruct H1 as [-> ->].
    set (evt := es s e) in *. set (t := ev_tri evt) in *.
    destruct (t_stops (ts s t)) eqn:ST; cbn [is_some] in H.
    { apply ret_ok in H. destruct H as [_ ->]. exact F. }
    assert (Dt : active s t) by (split; [exact TT|exact ST]). pose proof (opposite_apart (active s) s t L DI Dt OP) as AP. specialize (TI eq_refl). destruct TI as [T1 T2 T3].
    fold evt t in T1, T2, T3.
    assert (ACT : t_stops (ts s' t) <> None -> (forall u, u <> t -> t_stops (ts s' u) = t_stops (ts s u)) ->
      forall u, active s' u <-> active s u /\ u <> t).
    { intros Q1 Q2 u. unfold active. rewrite TR. destruct (Nat.eq_dec u t) as [->|N]; [tauto|]. rewrite (Q2 u N). tauto. }
    destruct (ev_tp evt) eqn:TP.
    - destruct (Nat.eqb (length (ev_side evt)) 3) eqn:L3.
      + apply Nat.eqb_eq in L3. destruct (T2 eq_refl L3) as [m0 M0].
        destruct (three_vertices _ _ _ _ _ H) as (V1 & V2 & V3 & V4).
        apply (three_effect (active s)) in H; auto; [|intros u [_ Hu]; exact Hu].
        fold t in H. destruct H as (H1 & H2 & H3 & H4 & H5).
        apply (gone_fitting s s' t m0); auto.
        * apply ACT; auto. rewrite H3. discriminate.
        * intros u i. unfold corner. rewrite H5. reflexivity.
        * intros u i Du Nu K. destruct (H2 u i Du Nu K) as [Q|[_ Q]]; [exact Q|].
          destruct (L u i t Du K) as (_ & m & M1 & _). destruct (EV eq_refl L3 m u M1 Q).
      + destruct (_ && _)%bool eqn:L1.
        * apply Bool.andb_true_iff in L1. destruct L1 as [LS TY]. apply Nat.eqb_eq in TY, LS.
          assert (SE : exists sd, ev_side evt = [sd]) by (destruct (ev_side evt) as [|sd [|]]; try discriminate LS; eauto).
          destruct SE as [sd SE]. destruct (one_vertices _ _ _ _ _ sd SE SH H) as (V1 & V2 & V3 & V4).
          apply (one_mesh (active s)) in H; auto. fold t in H. destruct H as (H1 & H2 & H3 & H4 & H5).
          assert (NT : forall m, link s t m = None).
          { unfold tri_type, count3 in TY. fold t in TY. unfold link. destruct (t_n (ts s t)) as [a b c].
            destruct a, b, c; try discriminate TY. intros []; reflexivity. }
          apply (gone_fitting s s' t sd); auto.
          -- apply ACT; auto. rewrite H2. discriminate.
          -- intros u i. unfold corner. rewrite H4. reflexivity.
          -- intros u i _ _ _. unfold link. rewrite H5. reflexivity.
          -- intros u i Du Nu K. destruct (L u i t Du K) as (_ & m & M1 & _). rewrite NT in M1. discriminate.
        * destruct (Nat.eqb (length (ev_side evt)) 2) eqn:L2; [discriminate|].
          assert (SE : exists sd, ev_side evt = [sd]).
          { unfold handle_edge_event, handle_edge_event_with in H. destruct (ev_side evt) as [|sd [|]]; try discriminate H. eauto. }
          destruct SE as [sd SE].
          destruct (edge_vertices evt step s tt s' sd SE H NF R SH) as
            (NV & I1 & I2 & RI & RIk & LE & LE' & LEk & OLD & NEW & ST1 & ST2 & STAY).
          destruct (edge_effect (active s) s evt step sd s' R SH L DI Dt AP SE H NF) as
            (kv & fa & fb & KV & FA & FB & C & U & S1' & S2').
          fold t in KV, FA, FB, C, U, S1', S2', I1, I2, RI, RIk, LE, LE', LEk, OLD, NEW, ST1, ST2, STAY.
          assert (K : kv = nv s) by (rewrite NV in KV; clear -KV; lia). subst kv.
          assert (TY : tri_type (ts s t) <> 3).
          { intros Q. rewrite SE in L1. cbn [length] in L1. rewrite Q in L1. discriminate L1. }
          pose proof (T1 sd eq_refl SE TY) as LO.
          apply (edge_fitting s s' t sd (nv s) fa fb); auto.
          apply ACT; auto. rewrite S1'. discriminate.
    - assert (SE : exists sd n, ev_side evt = [sd] /\ link s t sd = Some n).
      { unfold handle_flip_event in H. destruct (ev_side evt) as [|sd [|]]; try discriminate H.
        peel H x s1 H1. apply gets_ok in H1. destruct H1 as [-> ->]. fold t in H.
        destruct (get3 (t_n (ts s t)) sd) eqn:K; [|discriminate H]. eauto. }
      destruct SE as (sd & n & SE & SN).
      destruct (flip_event_flipped s evt sd n s' R L DI Dt AP SE SN OP TR H) as [j FL].
      apply (flip_fitting s s' t sd n j); auto.
    - assert (SE : exists sd, ev_side evt = [sd]).
      { unfold handle_split_event, handle_split_event_with in H. destruct (ev_side evt) as [|sd [|]]; try discriminate H. eauto. }
      destruct SE as [sd SE].
      destruct (split_vertices evt step s tt s' sd SE H NF R SH (DI t Dt)) as
        (NV & I0 & I1 & I2 & RI & RIl & RIb & RI1 & RIa & LEl & LEr & LE2 & LEb & LEa & OLD & NEWb & NEWa & ST0 & STAY).
      destruct (split_effect (active s) s evt step sd s' R SH L DI Dt AP SE H NF) as
        (vb & va & fb & fa & B1 & B2 & B3 & TE & TB & TA & FA & FB & DJ & C & U & S1' & S2').
      fold t in I0, I1, I2, RI, RIl, RIb, RI1, RIa, LEl, LEr, LE2, LEb, LEa, OLD, NEWb, NEWa, ST0, STAY.
      fold t in TE, TB, TA, FA, FB, C, U, S1', S2'.
      assert (K : vb = nv s /\ va = S (nv s)) by (rewrite NV in B3; clear -B1 B2 B3; lia). destruct K as [-> ->].
      destruct (T3 sd eq_refl SE) as [LOe LO].
      apply (split_fitting s s' t sd (S (nv s)) (nv s) fa fb); auto.
      + apply ACT; auto. rewrite S1'. discriminate.
      + apply NEWb.
      + apply NEWa.
  Qed.

  Theorem run_fitting s0 now tr s :
    registered s0 -> shaped s0 -> fitting s0 -> reach s0 now tr s ->
    (forall now1 tr1 s1 e now2 s2, reach s0 now1 tr1 s1 -> length tr1 < length tr ->
       take_next now1 s1 = Ok ((e, now2), s2) -> regular s2 e /\ (t_stops (ts s2 (ev_tri (es s2 e))) = None -> tidy s2 e)) ->
    (forall now1 tr1 s1, reach s0 now1 tr1 s1 -> length tr1 <= length tr -> forall u, active s1 u -> distinct s1 u) ->
    (forall v, nv s0 <= v < nv s -> k_inf_fast (vs s v) = false) ->
    fitting s.
  Proof.
    intros R0 SH0 L0 H. induction H as [|now tr s e now' s1 s' R IH T H]; intros RG DD NF; [exact L0|].
    rewrite app_length in RG, DD. cbn [length] in RG, DD.
    destruct (steps_base _ _ _ _ _ _ R0 R) as [Rs Fs].
    pose proof (steps_shaped _ _ _ _ _ _ R0 SH0 R) as Ss.
    assert (C : registered s1 /\ shaped s1 /\ nv s1 = nv s /\ sk_triangles s1 = sk_triangles s /\ ts s1 = ts s /\ vs s1 = vs s).
    { apply take_next_ok in T. destruct T as [(r & _ & _ & ->)|(r & _ & _ & _ & ->)];
        (split; [destruct Rs; constructor; auto|split; [destruct Ss; constructor; auto|auto]]). }
    destruct C as (R1 & SH1 & N1 & T1 & TS & VS).
    pose proof (keeps_handle_event base_sound e (Z.of_nat (S (length tr))) s1 R1 tt s' H) as [R2 F2].
    assert (Fi : fitting s).
    { apply IH.
      - intros now1 tr1 s3 e1 now2 s2 Q1 Q2. apply (RG now1 tr1 s3 e1 now2 s2 Q1). clear -Q2. lia.
      - intros now1 tr1 s3 Q1 Q2. apply (DD now1 tr1 s3 Q1). clear -Q2. lia.
      - intros v Hv. pose proof (fo_nv _ _ F2) as O2.
        assert (K : v < nv s1) by (rewrite N1; apply Hv). pose proof (sm_fast _ _ (fo_motion _ _ F2 v K)) as Q.
        rewrite VS in Q. rewrite <- Q. apply NF. split; [apply Hv|]. apply (Nat.lt_le_trans _ _ _ K O2). }
    assert (F1 : fitting s1).
    { destruct Fi as [P1 P2 P3 P4]. constructor.
      - unfold linked, active, shares, corner, link in *. rewrite T1, TS. exact P1.
      - intros t i. unfold left_over, joint, stopped, active, corner, link in *. rewrite T1, TS, VS. apply P2.
      - intros v Hv. rewrite VS in Hv. destruct (P3 v Hv) as [l [Q1 Q2 Q3]]. exists l. constructor; [exact Q1| |].
        + assert (CH : forall l p q, chain s p l q -> chain s1 p l q).
          { induction l0 as [|[u i] l0 IHl]; intros p q K; [exact I|]. destruct K as (K1 & K2 & K3).
            unfold link in *. cbn. unfold link. rewrite TS. auto. }
          apply CH, Q2.
        + intros u i. unfold active, corner in *. rewrite T1, TS. apply Q3.
      - intros t i. unfold left_over, touches, stopped, active, corner, link in *. rewrite T1, TS, VS. apply P4. }
    destruct (RG now tr s e now' s1 R ltac:(clear; lia) T) as [G1 G2].
    apply (event_fitting s1 e _ s' R1 SH1 F1 G1 G2 H).
    - intros v Hv. apply NF. pose proof (fo_nv _ _ Fs) as Q. rewrite N1 in Hv. split; [apply (Nat.le_trans _ _ _ Q), Hv|apply Hv].
    - refine (DD now' _ s' (reach_step _ _ _ _ _ _ _ _ _ _ R T H) _). rewrite app_length. apply Nat.le_refl.
  Qed.
End RingRun.
