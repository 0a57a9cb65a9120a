(** Left-over sides wait in the list of immediate events (any arithmetic) *)
From Verif Require Import Base Arith Calc VectorOps Line2d Primitives Collapse CollapseProofs EventsLib
  FlipEvent ParallelEvent EdgeEvent SplitEvent EventLoop Pass OpSpec Order StopSpec RunBase RunTimed RunLoop Fan FanProofs Decent Total TotalRun
  Mesh MeshEvents MeshEdge MeshRun Rings RingEdge RingSplit RingFlip EdgeHead RingSpec RingGone RingRun Current.
Local Open Scope nat_scope.

Section Left.
  Context {A : Arith} {E : Env A}.
  Local Open Scope M_scope.
  Ltac peel H n s1 H1 := apply bind_ok in H; destruct H as (n & s1 & H1 & H).

  (** the event of [u] is immediate *)
  Definition hot (s : state) (u : nat) : Prop := exists e, t_event (ts s u) = Some e /\ In e (immediate s).

  (** the ends of a wavefront side are kinetic vertices *)
  Definition ends (s : state) : Prop := forall u j, active s u -> link s u j = None ->
    k_inf (vs s (corner s u (ccw j))) = false /\ k_inf (vs s (corner s u (cw j))) = false.

  (** at the event [e] spokes collapse one at a time, in a simple mesh *)
  Record calm (s : state) (e : nat) : Prop := {
    (* only the side that collapses may be left over *)
    ca_left : forall u j, left_over s u j -> u = ev_tri (es s e) /\ ev_tp (es s e) = Edge /\ In j (ev_side (es s e));
    (* no wavefront side of another triangle leads from corner to corner *)
    ca_simple : forall u j k m, active s u -> u <> ev_tri (es s e) -> link s u j = None ->
      corner s u (ccw j) = corner s (ev_tri (es s e)) k -> corner s u (cw j) = corner s (ev_tri (es s e)) m -> False;
    (* a neighbour across the collapsing side has an event *)
    ca_event : forall i n, ev_tp (es s e) = Edge -> ev_side (es s e) = [i] -> link s (ev_tri (es s e)) i = Some n ->
      t_event (ts s n) <> None;
    (* a triangle that collapses has at most one neighbour *)
    ca_three : ev_tp (es s e) = Edge -> length (ev_side (es s e)) = 3 ->
      exists m, forall k, k <> m -> link s (ev_tri (es s e)) k = None }.

  Lemma calm_tidy s e : calm s e -> tidy s e.
  Proof.
    intros [C1 C3 C4 C5]. constructor.
    - intros i H1 H2 _ u j H _. destruct (C1 u j H) as (K1 & _ & K2). rewrite H2 in K2. destruct K2 as [<-|[]]. auto.
    - exact C5.
    - intros i H1 _. split; [intros H|intros u j H]; apply C1 in H; destruct H as (_ & H & _); congruence.
  Qed.

  (** the sides left over when [t] disappears are those of its neighbours *)
  Lemma left_back s s' e u j : let t := ev_tri (es s e) in
    fitting s -> ends s -> calm s e -> (forall u, active s' u <-> active s u /\ u <> t) ->
    (forall u i, stopped s' (corner s' u i) -> corner s' u i = corner s u i /\ corner s u i < nv s) ->
    (forall x, x < nv s -> stopped s' x -> stopped s x \/ exists k, x = corner s t k) ->
    (forall u i, active s u -> u <> t -> link s u i <> Some t -> link s' u i = link s u i) ->
    left_over s' u j -> link s u j = Some t.
  Proof.
    intros t F EN CA ACT C ST N (Du & H1 & H2 & H3). apply ACT in Du. destruct Du as [Du Nu].
    destruct (option_eq_dec (link s u j) (Some t)) as [T|T]; [exact T|exfalso].
    rewrite N in H1 by auto. destruct (EN u j Du H1) as [I1 I2].
    assert (K : forall i, stopped s' (corner s' u i) -> k_inf (vs s (corner s u i)) = false -> exists k, corner s u i = corner s t k).
    { intros i Hs Hi. destruct (C u i Hs) as [Q LT]. rewrite Q in Hs. destruct (ST _ LT Hs) as [Z|Z]; [|exact Z].
      destruct (fi_stop _ F u i Du Hi Z) as (w & k & P1 & P2). destruct (ca_left _ _ CA w k P1) as (-> & _).
      destruct P2 as [P2|P2]; eauto. }
    destruct (K _ H2 I1) as [k K1]. destruct (K _ H3 I2) as [m K2].
    exact (ca_simple _ _ CA u j k m Du Nu H1 K1 K2).
  Qed.

  Theorem event_left s e step s' u j :
    registered s -> shaped s -> fitting s -> ends s -> regular s e -> t_stops (ts s (ev_tri (es s e))) = None -> calm s e ->
    handle_event e step s = Ok (tt, s') ->
    (forall v, nv s <= v < nv s' -> k_inf_fast (vs s' v) = false) ->
    left_over s' u j ->
    ev_tp (es s e) = Edge /\ active s u /\ u <> ev_tri (es s e) /\ t_stops (ts s' u) = None /\
    exists m, link s (ev_tri (es s e)) m = Some u /\ (length (ev_side (es s e)) = 3 \/
      ev_side (es s e) = [m] /\ tri_type (ts s (ev_tri (es s e))) <> 3).
  Proof.
    intros R SH F EN RG ST CA H NF LO. pose proof (fi_linked _ F) as L. destruct RG as [TT DI OP EV].
    assert (TR : sk_triangles s' = sk_triangles s).
    { pose proof (keeps_handle_event base_sound e step s R tt s' H) as [_ Q]. apply (fo_tris _ _ Q). }
    unfold handle_event in H. peel H evt s1 H1. apply gets_ok in H1. destruct H1 as [-> ->].
    peel H x s1 H1. apply gets_ok in H1. destruct H1 as [-> ->].
    pose proof (left_back s s' e u j) as LB. cbn zeta in LB.
    assert (FIN : link s u j = Some (ev_tri (es s e)) -> active s u ->
      exists m, link s (ev_tri (es s e)) m = Some u /\ shares s u j (ev_tri (es s e)) m).
    { intros Q Du. destruct (L u j _ Du Q) as (_ & m & M1 & M2). exists m. auto. }
    assert (LT : forall u i, corner s u i < nv s) by (intros w i; apply (sh_v _ SH)).
    pose proof (calm_tidy s e CA) as TI.
    set (evt := es s e) in *. set (t := ev_tri evt) in *.
    rewrite ST in H; cbn [is_some] in H.
    assert (Dt : active s t) by (split; [exact TT|exact ST]).
    pose proof (opposite_apart (active s) s t L DI Dt OP) as AP.
    assert (ACT : t_stops (ts s' t) <> None -> (forall u, u <> t -> t_stops (ts s' u) = t_stops (ts s u)) ->
      forall u, active s' u <-> active s u /\ u <> t).
    { intros Q1 Q2 w. unfold active. rewrite TR. destruct (Nat.eq_dec w t) as [->|N]; [tauto|]. rewrite (Q2 w N). tauto. }
    pose proof LO as (Du' & _ & LO1 & LO2).
    destruct (ev_tp evt) eqn:TP.
    - split; [reflexivity|].
      destruct (Nat.eqb (length (ev_side evt)) 3) eqn:L3.
      + apply Nat.eqb_eq in L3.
        destruct (three_vertices _ _ _ _ _ H) as (V1 & V2 & V3 & V4).
        apply (three_effect (active s)) in H; auto; [|intros w [_ Hw]; exact Hw].
        fold t in H, V1, V2, V3, V4. destruct H as (H1 & H2 & H3 & H4 & H5).
        assert (ACT' : forall u, active s' u <-> active s u /\ u <> t) by (apply ACT; auto; rewrite H3; discriminate).
        pose proof (proj1 (ACT' u) Du') as [Du Nu]. split; [exact Du|]. split; [exact Nu|]. split; [apply Du'|].
        destruct FIN as (m & M1 & _); [|exact Du|exists m; auto]. apply LB; auto.
        * intros w i _. unfold corner. rewrite H5. split; [reflexivity|apply LT].
        * intros x Lx Sx. destruct (in_dec Nat.eq_dec x [corner s t S0; corner s t S1; corner s t S2]) as [Q|Q].
          -- right. destruct Q as [Q|[Q|[Q|[]]]]; eauto.
          -- left. unfold stopped in *. rewrite <- V4; auto. intros [] ->; apply Q; cbn; auto.
      + destruct (_ && _)%bool eqn:L1.
        * apply Bool.andb_true_iff in L1. destruct L1 as [LS TY]. apply Nat.eqb_eq in TY, LS.
          assert (SE : exists sd, ev_side evt = [sd]) by (destruct (ev_side evt) as [|sd [|]]; try discriminate LS; eauto).
          destruct SE as [sd SE]. destruct (one_vertices _ _ _ _ _ sd SE SH H) as (V1 & V2 & V3 & V4).
          apply (one_mesh (active s)) in H; auto. fold t in H, V1, V2, V3, V4. destruct H as (H1 & H2 & H3 & H4 & H5).
          assert (NT : forall m, link s t m = None).
          { unfold tri_type, count3 in TY. fold t in TY. unfold link. destruct (t_n (ts s t)) as [a b c].
            destruct a, b, c; try discriminate TY. intros []; reflexivity. }
          assert (ACT' : forall u, active s' u <-> active s u /\ u <> t) by (apply ACT; auto; rewrite H2; discriminate).
          pose proof (proj1 (ACT' u) Du') as [Du Nu]. exfalso.
          destruct FIN as (m & M1 & _); [|exact Du|rewrite NT in M1; discriminate]. apply LB; auto.
          -- intros w i _. unfold corner. rewrite H4. split; [reflexivity|apply LT].
          -- intros x Lx Sx. destruct (in_dec Nat.eq_dec x [corner s t S0; corner s t S1; corner s t S2]) as [Q|Q].
             ++ right. destruct Q as [Q|[Q|[Q|[]]]]; eauto.
             ++ left. unfold stopped in *. rewrite <- V4; auto. intros [] ->; apply Q; cbn; auto.
          -- intros w i _ _ _. unfold link. rewrite H5. reflexivity.
        * destruct (Nat.eqb (length (ev_side evt)) 2) eqn:L2; [discriminate|].
          assert (SE : exists sd, ev_side evt = [sd]).
          { unfold handle_edge_event, handle_edge_event_with in H. destruct (ev_side evt) as [|sd [|]]; try discriminate H. eauto. }
          destruct SE as [sd SE].
          destruct (edge_vertices evt step s tt s' sd SE H NF R SH) as
            (NV & I1 & I2 & RI & RIk & LE & LE' & LEk & OLD & NEW & ST1 & ST2 & STAY).
          destruct (edge_effect (active s) s evt step sd s' R SH L DI Dt AP SE H NF) as
            (kv & fa & fb & KV & FA & FB & C & U & S1' & S2').
          fold t in KV, FA, FB, C, U, S1', S2', I1, I2, RI, RIk, LE, LE', LEk, OLD, NEW, ST1, ST2, STAY.
          assert (K : kv = nv s) by (rewrite NV in KV; clear -KV; lia). subst kv.
          assert (TY : tri_type (ts s t) <> 3).
          { intros Q. rewrite SE in L1. cbn [length] in L1. rewrite Q in L1. discriminate L1. }
          assert (ACT' : forall u, active s' u <-> active s u /\ u <> t) by (apply ACT; auto; rewrite S1'; discriminate).
          pose proof (proj1 (ACT' u) Du') as [Du Nu]. split; [exact Du|]. split; [exact Nu|]. split; [apply Du'|].
          set (v1 := corner s t (ccw sd)) in *. set (v2 := corner s t (cw sd)) in *.
          assert (NK : ~ stopped s' (nv s)) by (intros Q; apply Q, NEW).
          assert (OC : forall w i, stopped s' (corner s' w i) -> corner s' w i = corner s w i /\ corner s w i < nv s).
          { intros w i Hs. split; [|apply LT]. revert Hs. rewrite C. unfold sub2, sub1.
            repeat match goal with |- context [if ?b then _ else _] => destruct b end; intros Hs; try reflexivity; contradiction. }
          assert (B : link s u j = Some t).
          { apply LB; auto.
            - intros x Lx Sx. destruct (Nat.eq_dec x v1) as [->|Q1]; [right; eexists; reflexivity|].
              destruct (Nat.eq_dec x v2) as [->|Q2]; [right; eexists; reflexivity|].
              left. unfold stopped in *. rewrite <- STAY; auto. intros ->. exact (Nat.lt_irrefl _ Lx).
            - intros w i Dw Nw Q. apply (un_other _ _ _ _ _ U); auto. }
          destruct (FIN B Du) as (m & M1 & (M2 & M3)). exists m. split; [exact M1|]. right. split; [|exact TY]. rewrite SE.
          destruct (side_cases m sd) as [->|[->| ->]]; [reflexivity|exfalso|exfalso].
          -- rewrite ccw_ccw in M2. fold v2 in M2.
             assert (IN : In u fa) by (apply (side_fan_first _ _ _ _ _ _ FA); rewrite cw_cw; exact M1).
             apply NK. rewrite C, <- M2 in LO2. unfold sub2 in LO2. rewrite (sub1_in v2 (nv s) fa u IN), sub1_other in LO2; [exact LO2|].
             intros Q. specialize (LT t (ccw sd)). fold v1 in LT. rewrite <- Q in LT. exact (Nat.lt_irrefl _ LT).
          -- rewrite cw_cw in M3. fold v1 in M3.
             assert (IN : In u fb) by (apply (side_fan_first _ _ _ _ _ _ FB); rewrite ccw_ccw; exact M1).
             assert (N12 : v1 <> v2) by (intros Q; apply (DI t Dt) in Q; destruct sd; discriminate Q).
             apply NK. rewrite C, <- M3 in LO1. unfold sub2 in LO1. rewrite (sub1_other v2 (nv s) fa u v1 N12), sub1_in in LO1; auto.
    - exfalso. assert (SE : exists sd n, ev_side evt = [sd] /\ link s t sd = Some n).
      { unfold handle_flip_event in H. destruct (ev_side evt) as [|sd [|]]; try discriminate H.
        peel H x s1 H1. apply gets_ok in H1. destruct H1 as [-> ->]. fold t in H.
        destruct (get3 (t_n (ts s t)) sd) eqn:K; [|discriminate H]. eauto. }
      destruct SE as (sd & n & SE & SN).
      destruct (flip_event_flipped s evt sd n s' R L DI Dt AP SE SN OP TR H) as [k FL].
      assert (BACK : exists u0 k, left_over s u0 k).
      { pose proof (flipped_sym _ _ _ _ _ _ FL) as GL. pose proof LO as (_ & LN & _).
        assert (Q : exists u0 k, active s u0 /\ link s u0 k = None /\
          corner s u0 (ccw k) = corner s' u (ccw j) /\ corner s u0 (cw k) = corner s' u (cw j)).
        { destruct (Nat.eq_dec u n) as [->|N].
          - apply (flip_side_back _ _ _ _ _ _ GL); auto. intros Q. exact (fl_ne _ _ _ _ _ _ GL Q).
          - apply (flip_side_back _ _ _ _ _ _ FL); auto. }
        destruct Q as (u0 & k' & K1 & K2 & K3 & K4). exists u0, k'. split; [exact K1|]. split; [exact K2|].
        unfold stopped in *. rewrite (fl_vs _ _ _ _ _ _ FL) in LO1, LO2. rewrite K3, K4. auto. }
      destruct BACK as (u0 & k' & Q). apply (ca_left _ _ CA) in Q. fold evt in Q. destruct Q as (_ & Q & _). congruence.
    - exfalso. assert (SE : exists sd, ev_side evt = [sd]).
      { unfold handle_split_event, handle_split_event_with in H. destruct (ev_side evt) as [|sd [|]]; try discriminate H. eauto. }
      destruct SE as [sd SE].
      destruct (split_vertices evt step s tt s' sd SE H NF R SH (DI t Dt)) as
        (NV & I0 & I1 & I2 & RI & RIl & RIb & RI1 & RIa & LEl & LEr & LE2 & LEb & LEa & OLD & NEWb & NEWa & ST0 & STAY).
      destruct (split_effect (active s) s evt step sd s' R SH L DI Dt AP SE H NF) as
        (vb & va & fb & fa & B1 & B2 & B3 & TE & TB & TA & FA & FB & DJ & C & U & S1' & S2').
      fold t in I0, I1, I2, OLD, NEWb, NEWa, ST0, STAY.
      fold t in TE, TB, TA, FA, FB, C, U, S1', S2'.
      assert (K : vb = nv s /\ va = S (nv s)) by (rewrite NV in B3; clear -B1 B2 B3; lia). destruct K as [-> ->].
      assert (ACT' : forall u, active s' u <-> active s u /\ u <> t) by (apply ACT; auto; rewrite S1'; discriminate).
      pose proof (proj1 (ACT' u) Du') as [Du Nu].
      set (v := corner s t sd) in *.
      assert (NKb : ~ stopped s' (nv s)) by (intros Q; apply Q, NEWb).
      assert (NKa : ~ stopped s' (S (nv s))) by (intros Q; apply Q, NEWa).
      assert (OC : forall w i, stopped s' (corner s' w i) -> corner s' w i = corner s w i /\ corner s w i < nv s).
      { intros w i Hs. split; [|apply LT]. revert Hs. rewrite C. unfold sub1.
        repeat match goal with |- context [if ?b then _ else _] => destruct b end; intros Hs; try reflexivity; contradiction. }
      assert (B : link s u j = Some t).
      { apply LB; auto.
        - intros x Lx Sx. destruct (Nat.eq_dec x v) as [->|Q1]; [right; eexists; reflexivity|].
          left. unfold stopped in *. rewrite <- STAY; auto; intros ->; clear -Lx; lia.
        - intros w i Dw Nw Q. apply (un_other _ _ _ _ _ U); auto. }
      destruct (FIN B Du) as (m & M1 & (M2 & M3)).
      assert (Nv : v <> nv s) by (specialize (LT t sd); fold v in LT; clear -LT; lia).
      destruct (side_cases m sd) as [->|[->| ->]]; [congruence| |].
      + rewrite cw_ccw in M3. fold v in M3.
        assert (IN : In u fb) by (apply (side_fan_first _ _ _ _ _ _ FB); exact M1).
        apply NKb. rewrite C, <- M3, (sub1_in v (nv s) fb u IN), sub1_other in LO1; [exact LO1|]. intros Q. exact (Nv (eq_sym Q)).
      + rewrite ccw_cw in M2. fold v in M2.
        assert (IN : In u fa) by (apply (side_fan_first _ _ _ _ _ _ FA); exact M1).
        apply NKa. rewrite C, <- M2, (sub1_out v (nv s) fb u), sub1_in in LO2; auto. intros Q. exact (DJ u IN Q).
  Qed.

  (** the neighbour across a collapsing side is dealt with at once *)
  Definition ready (s : state) (n : nat) : Prop := is_some (t_event (ts s n)) = true.

  Lemma sched_hot n now s u s' : schedule_immediately n now s = Ok (u, s') -> hot s' n.
  Proof.
    intros H. apply sched_spec in H. destruct H as (e & _ & _ & _ & _ & _ & _ & _ & _ & _ & _ & _ & _ & _ & _ & Hi & Ht & _).
    exists (ne s). rewrite Ht, Hi, upd_same. split; [reflexivity|]. apply in_or_app. right. left. reflexivity.
  Qed.
  Lemma tstops_hot n t now s u s' : set_tstops t now s = Ok (u, s') -> hot s n -> hot s' n.
  Proof.
    intros H (e & H1 & H2). apply modt_spec in H. subst s'. exists e. cbn.
    split; [|exact H2]. destruct (upd_case (ts s) t (tri_stops (ts s t) (Some now)) n) as [[<- ->]|[_ ->]]; exact H1.
  Qed.

  Lemma kept_side o t x v kv now d s fan s' : registered s ->
    match o with
    | None => ret []
    | Some a => relink a t x ;;
        let! fan := replace_kvertex a v kv now d in schedule_if_tiny fan kv now d ;; ret fan
    end s = Ok (fan, s') -> registered s' /\ kept s s'.
  Proof.
    intros R H. destruct o as [a|].
    2:{ apply ret_ok in H. destruct H as [_ ->]. split; [exact R|apply (G_refl kept_sound)]. }
    peel H y s1 H1. destruct (keeps_relink kept_sound now a t x s R y s1 H1) as [R1 K1].
    clear H1. peel H fan0 s2 H1. destruct (keeps_replace_kvertex kept_sound a v kv now d s1 R1 fan0 s2 H1) as [R2 K2].
    clear H1. peel H y3 s3 H1. destruct (keeps_tiny kept_sound fan0 kv now d s2 R2 y3 s3 H1) as [R3 K3].
    apply ret_ok in H. destruct H as [_ ->]. split; [exact R3|].
    eapply (G_trans kept_sound); [exact K1|]. eapply (G_trans kept_sound); eauto.
  Qed.

  Theorem edge_hot s evt step e n s' : registered s -> ev_side evt = [e] -> link s (ev_tri evt) e = Some n ->
    ready s n -> t_stops (ts s' n) = None ->
    handle_edge_event evt step s = Ok (tt, s') ->
    (forall v, nv s <= v < nv s' -> k_inf_fast (vs s' v) = false) ->
    hot s' n.
  Proof.
    intros R SE LN RD ST H NF. unfold handle_edge_event, handle_edge_event_with in H. rewrite SE in H.
    set (t := ev_tri evt) in *. set (now := ev_time evt) in *.
    peel H x s1 H1. apply gets_ok in H1. destruct H1 as [-> ->].
    peel H x s1 H1. apply ro_ok in H1; [|auto with ro]. subst s1.
    peel H k1 s1 H1. apply ro_ok in H1; [|auto with ro]. subst s1.
    peel H k2 s1 H1. apply ro_ok in H1; [|auto with ro]. subst s1.
    peel H bi s1 H1. apply ro_ok in H1; [|auto with ro]. subst s1.
    peel H pos s1 H1. apply ro_ok in H1; [|auto with ro]. subst s1.
    peel H nd s1 H1. destruct (s_stop base_sound _ _ _ _ _ R _ _ H1) as (R1 & F1 & N1). apply stop_same in H1. destruct H1 as (T1 & _).
    peel H k1' s2 H1. apply ro_ok in H1; [|auto with ro]. subst s2.
    peel H k2' s2 H1. apply ro_ok in H1; [|auto with ro]. subst s2.
    peel H len s2 H1. apply ro_ok in H1; [|auto with ro]. subst s2.
    peel H kv s2 H1. destruct (s_newv base_sound _ _ _ _ _ _ _ R1 N1 _ _ H1) as (R2 & F2 & KV).
    apply newv_spec in H1. destruct H1 as (kx & _ & KE & E2).
    assert (T2 : ts s2 = ts s1) by (rewrite E2; reflexivity). clear E2.
    peel H y1 s3 H1. destruct (s_wf base_sound now _ _ _ _ R2 _ _ H1) as (R3 & F3).
    assert (T3 : ts s3 = ts s2) by (apply modv_spec in H1; destruct H1 as (_ & ->); reflexivity). clear H1.
    peel H y2 s4 H1. apply ro_ok in H1; [|destruct (kleft k1'); [apply ro_bind; auto with ro|auto with ro]]. subst s4.
    peel H y3 s4 H1. apply ro_ok in H1; [|destruct (kright k2'); [apply ro_bind; auto with ro|auto with ro]]. subst s4.
    pose proof (fo_nv _ _ F3) as M3.
    peel H y4 s4 H1. destruct (s_addv base_sound now _ _ R3 (Nat.lt_le_trans _ _ _ KV M3) _ _ H1) as (R4 & F4).
    assert (T4 : ts s4 = ts s3) by (injection H1 as _ <-; reflexivity). clear H1.
    peel H y5 s5 H1. destruct (s_circ base_sound now _ _ _ R4 _ _ H1) as (R5 & F5).
    assert (T5 : ts s5 = ts s4) by (apply circ_spec in H1; destruct H1 as (f & -> & _); reflexivity). clear H1.
    peel H k2'' s6 H1. apply ro_ok in H1; [|auto with ro]. subst s6.
    peel H y6 s6 H1. destruct (s_circ base_sound now _ _ _ R5 _ _ H1) as (R6 & F6).
    assert (T6 : ts s6 = ts s5) by (apply circ_spec in H1; destruct H1 as (f & -> & _); reflexivity). clear H1.
    peel H k s7 H1. apply ro_ok in H1; [|auto with ro]. subst s7.
    peel H wl s7 H1. apply ro_ok in H1; [|auto with ro]. subst s7.
    peel H y7 s7 H1. apply ro_ok in H1; [|auto with ro]. subst s7.
    peel H wr s7 H1. apply ro_ok in H1; [|auto with ro]. subst s7.
    peel H y8 s7 H1. apply ro_ok in H1; [|auto with ro]. subst s7.
    peel H y9 s7 H1. apply gets_ok in H1. destruct H1 as [-> ->].
    assert (TS6 : ts s6 = ts s) by congruence.
    peel H fa s7 H1. apply kept_side in H1; auto. destruct H1 as (R7 & K7).
    peel H fb s8 H1. apply kept_side in H1; auto. destruct H1 as (R8 & K8).
    peel H y10 s9 H1. peel H y11 s10 H2. peel H fast s11 H3.
    destruct (keeps_unlink base_sound now _ _ s8 R8 _ _ H1) as [R9 F9].
    destruct (s_tstops base_sound now _ _ R9 _ _ H2) as (R10 & F10).
    assert (FF : forall x y, registered x -> parallel_fan_of (handle_parallel_fan reclimit) fa fb kv now step x = Ok (tt, y) ->
       registered y /\ follows x y).
    { intros x1 y1' Rx Hx. exact (keeps_fan_of base_sound _ fa fb kv now step (keeps_parallel_fan base_sound reclimit) x1 Rx tt y1' Hx). }
    assert (F10' : follows s10 s').
    { unfold vattr in H3. apply rd_ok in H3. destruct H3 as [_ ->]. unfold whenM in H. destruct fast.
      - apply (FF s10); [exact R10|exact H].
      - apply ret_ok in H. destruct H as [_ ->]. apply follows_refl. }
    pose proof (fo_nv _ _ F1) as M1. pose proof (fo_nv _ _ F4) as M4. pose proof (fo_nv _ _ F5) as M5. pose proof (fo_nv _ _ F6) as M6.
    pose proof (fo_nv _ _ (proj1 K7)) as M7. pose proof (fo_nv _ _ (proj1 K8)) as M8. pose proof (fo_nv _ _ F9) as M9.
    pose proof (fo_nv _ _ F10) as M10. pose proof (fo_nv _ _ F10') as M11.
    assert (K10 : kv < nv s10) by (clear -KV M3 M4 M5 M6 M7 M8 M9 M10; lia).
    assert (LOW : nv s <= kv) by (rewrite KE; exact M1).
    assert (s' = s10) as ->.
    { eapply fast_ok; [exact R10|exact K10|exact H3|exact H|exact FF|].
      apply NF. split; [exact LOW|apply (Nat.lt_le_trans _ _ _ K10 M11)]. }
    apply (tstops_hot n) in H2; [exact H2|].
    assert (RD8 : ready s8 n) by (apply K8, K7; rewrite TS6; exact RD).
    rewrite TS6 in H1. change (get3 (t_n (ts s t)) e) with (link s t e) in H1. rewrite LN in H1. cbn [unlink_and_schedule] in H1.
    peel H1 z s12 H4. destruct (relink_ok _ _ _ _ _ _ R8 H4) as (R12 & F12 & EQ & _).
    peel H1 z2 s13 H5. apply gets_ok in H5. destruct H5 as [-> ->].
    destruct (EQ n) as (_ & _ & EV). rewrite EV in H1. unfold ready in RD8. rewrite RD8 in H1. cbn [andb] in H1.
    destruct (t_stops (ts s12 n)) eqn:ST12; cbn [is_none whenM] in H1; [|exact (sched_hot _ _ _ _ _ H1)].
    apply ret_ok in H1. destruct H1 as [_ ->]. exfalso.
    assert (Q : is_some (t_stops (ts s10 n)) = true) by (apply (fo_tstops _ _ F10); rewrite ST12; reflexivity).
    rewrite ST in Q. discriminate.
  Qed.

  Theorem three_hot s evt step m n s' : registered s -> link s (ev_tri evt) m = Some n -> n <> ev_tri evt ->
    (forall k, k <> m -> link s (ev_tri evt) k = None) ->
    ready s n -> t_stops (ts s n) = None ->
    handle_edge_event_3sides evt step s = Ok (tt, s') -> hot s' n.
  Proof.
    intros R LN NT NO RD ST H. unfold handle_edge_event_3sides in H. set (t := ev_tri evt) in *. set (now := ev_time evt) in *.
    peel H y0 s1 H1. apply ro_ok in H1; [|auto with ro]. subst s1.
    peel H x s1 H1. apply ro_ok in H1; [|auto with ro]. subst s1.
    peel H nd s1 H1. destruct (s_stop base_sound _ _ _ _ _ R _ _ H1) as (R1 & F1 & N1). apply stop_same in H1. destruct H1 as (T1 & _).
    peel H y s5 H1. apply (tstops_hot n) in H; [exact H|]. clear H.
    assert (SKIP : forall k s2 u s3, link s2 t k = None -> schedule_neighbour t now k s2 = Ok (u, s3) -> s3 = s2).
    { intros k s2 u s3 Hk H2. unfold schedule_neighbour in H2. peel H2 z s6 H3. apply gets_ok in H3. destruct H3 as [-> ->].
      change (get3 (t_n (ts s2 t)) k) with (link s2 t k) in H2. rewrite Hk in H2. apply ret_ok in H2. apply H2. }
    assert (DO : forall u s2, schedule_neighbour t now m s1 = Ok (u, s2) -> hot s2 n /\ forall k, link s2 t k = link s t k).
    { intros u s2 H2. unfold schedule_neighbour in H2. peel H2 z s6 H3. apply gets_ok in H3. destruct H3 as [-> ->].
      rewrite T1 in H2. change (get3 (t_n (ts s t)) m) with (link s t m) in H2. rewrite LN in H2.
      peel H2 z s6 H3. apply gets_ok in H3. destruct H3 as [-> ->]. rewrite T1 in H2. unfold ready in RD. rewrite RD, ST in H2.
      cbn [andb is_none whenM] in H2. peel H2 z s6 H3. destruct (relink_ok _ _ _ _ _ _ R1 H3) as (R6 & _ & _ & i & _ & LK).
      split; [exact (sched_hot _ _ _ _ _ H2)|]. intros k. apply sched_spec in H2.
      destruct H2 as (e & _ & _ & _ & _ & _ & _ & _ & _ & _ & _ & _ & _ & _ & _ & _ & Ht & _). unfold link at 1. rewrite Ht.
      rewrite upd_other by congruence. change (get3 (t_n (ts s6 t)) k) with (link s6 t k). rewrite LK.
      apply Nat.eqb_neq in NT. rewrite NT. cbn [andb]. unfold link. rewrite T1. reflexivity. }
    assert (L1 : forall k, link s1 t k = link s t k) by (intros k; unfold link; rewrite T1; reflexivity).
    unfold sides in H1. cbn [forM] in H1.
    peel H1 z0 s2 H2. peel H1 z1 s3 H3. peel H1 z2 s4 H4. apply ret_ok in H1. destruct H1 as [_ ->].
    destruct m.
    - apply DO in H2. destruct H2 as [HH LK].
      apply SKIP in H3; [|rewrite LK; apply NO; discriminate]. subst s3.
      apply SKIP in H4; [|rewrite LK; apply NO; discriminate]. subst s4. exact HH.
    - apply SKIP in H2; [|rewrite L1; apply NO; discriminate]. subst s2. apply DO in H3. destruct H3 as [HH LK].
      apply SKIP in H4; [|rewrite LK; apply NO; discriminate]. subst s4. exact HH.
    - apply SKIP in H2; [|rewrite L1; apply NO; discriminate]. subst s2.
      apply SKIP in H3; [|rewrite L1; apply NO; discriminate]. subst s3. apply DO in H4. apply H4.
  Qed.

  (** what is left over after an event waits in the list of immediate events *)
  Theorem event_hot s e step s' u j :
    registered s -> shaped s -> fitting s -> ends s -> regular s e -> t_stops (ts s (ev_tri (es s e))) = None -> calm s e ->
    handle_event e step s = Ok (tt, s') ->
    (forall v, nv s <= v < nv s' -> k_inf_fast (vs s' v) = false) ->
    left_over s' u j -> hot s' u.
  Proof.
    intros R SH F EN RG ST CA H NF LO.
    destruct (event_left s e step s' u j R SH F EN RG ST CA H NF LO) as (TP & Du & Nu & ST' & m & LM & K).
    unfold handle_event in H. peel H evt s1 H1. apply gets_ok in H1. destruct H1 as [-> ->].
    peel H x s1 H1. apply gets_ok in H1. destruct H1 as [-> ->]. rewrite ST, TP in H. cbn [is_some] in H.
    destruct K as [K|[K TY]].
    - rewrite K in H. cbn [Nat.eqb] in H. destruct (ca_three _ _ CA TP K) as [m0 M0].
      assert (m = m0) as ->.
      { destruct (side_cases m m0) as [Q|[Q|Q]]; [exact Q| |]; (rewrite M0 in LM; [discriminate|]); rewrite Q; destruct m0; discriminate. }
      apply (three_hot s (es s e) step m0 u s'); auto; [|apply Du].
      pose proof (re_events _ _ RG TP K m0 u LM) as Q. unfold ready. destruct (t_event (ts s u)); [reflexivity|contradiction].
    - rewrite K in H. cbn [length Nat.eqb andb] in H. apply Nat.eqb_neq in TY. rewrite TY in H.
      apply (edge_hot s (es s e) step m u s'); auto.
      pose proof (ca_event _ _ CA m u TP K LM) as Q. unfold ready. destruct (t_event (ts s u)); [reflexivity|contradiction].
  Qed.

  Theorem event_ends s e step s' :
    registered s -> shaped s -> fitting s -> ends s -> regular s e -> (t_stops (ts s (ev_tri (es s e))) = None -> calm s e) ->
    handle_event e step s = Ok (tt, s') ->
    (forall v, nv s <= v < nv s' -> k_inf_fast (vs s' v) = false) -> ends s'.
  Proof.
    intros R SH F EN RG CA H NF. pose proof (fi_linked _ F) as L. destruct RG as [TT DI OP EV].
    assert (TR : sk_triangles s' = sk_triangles s).
    { pose proof (keeps_handle_event base_sound e step s R tt s' H) as [_ Q]. apply (fo_tris _ _ Q). }
    unfold handle_event in H. peel H evt s1 H1. apply gets_ok in H1. destruct H1 as [-> ->].
    peel H x s1 H1. apply gets_ok in H1. destruct H1 as [-> ->].
    assert (LT : forall u i, corner s u i < nv s) by (intros w i; apply (sh_v _ SH)).
    destruct (t_stops (ts s (ev_tri (es s e)))) eqn:ST; cbn [is_some] in H.
    { apply ret_ok in H. destruct H as [_ ->]. exact EN. }
    specialize (CA eq_refl).
    pose proof (ca_three _ _ CA) as T3.
    set (evt := es s e) in *. set (t := ev_tri evt) in *.
    assert (Dt : active s t) by (split; [exact TT|exact ST]).
    pose proof (opposite_apart (active s) s t L DI Dt OP) as AP.
    assert (ACT : t_stops (ts s' t) <> None -> (forall u, u <> t -> t_stops (ts s' u) = t_stops (ts s u)) ->
      forall u, active s' u <-> active s u /\ u <> t).
    { intros Q1 Q2 w. unfold active. rewrite TR. destruct (Nat.eq_dec w t) as [->|N]; [tauto|]. rewrite (Q2 w N). tauto. }
    destruct (ev_tp evt) eqn:TP.
    - destruct (Nat.eqb (length (ev_side evt)) 3) eqn:L3.
      + apply Nat.eqb_eq in L3. destruct (T3 eq_refl L3) as [m0 M0].
        destruct (three_vertices _ _ _ _ _ H) as (V1 & V2 & V3 & V4).
        apply (three_effect (active s)) in H; auto; [|intros w [_ Hw]; exact Hw].
        fold t in H, V1, V2, V3, V4. destruct H as (H1 & H2 & H3 & H4 & H5).
        assert (ACT' : forall u, active s' u <-> active s u /\ u <> t) by (apply ACT; auto; rewrite H3; discriminate).
        assert (FT : forall k, k_inf (vs s (corner s t k)) = false).
        { intros k. assert (N1 : ccw m0 <> m0) by (destruct m0; discriminate). assert (N2 : cw m0 <> m0) by (destruct m0; discriminate).
          destruct (EN t (ccw m0) Dt (M0 _ N1)) as [Q1 Q2]. destruct (EN t (cw m0) Dt (M0 _ N2)) as [Q3 Q4].
          rewrite ?ccw_ccw, ?cw_ccw, ?ccw_cw, ?cw_cw in *. destruct (side_cases k m0) as [->|[->| ->]]; auto. }
        intros u j Du HL. apply ACT' in Du. destruct Du as [Du Nu].
        assert (C : forall i, corner s' u i = corner s u i) by (intros i; unfold corner; rewrite H5; reflexivity).
        rewrite !C. destruct (V1 _ (LT u (ccw j))) as (-> & _). destruct (V1 _ (LT u (cw j))) as (-> & _).
        destruct (option_eq_dec (link s u j) (Some t)) as [Q|Q].
        * destruct (L u j _ Du Q) as (_ & m & _ & M2 & M3). rewrite <- M2, <- M3. auto.
        * apply EN; auto. rewrite <- HL. symmetry. apply H1; auto.
      + destruct (_ && _)%bool eqn:L1.
        * apply Bool.andb_true_iff in L1. destruct L1 as [LS TY]. apply Nat.eqb_eq in TY, LS.
          assert (SE : exists sd, ev_side evt = [sd]) by (destruct (ev_side evt) as [|sd [|]]; try discriminate LS; eauto).
          destruct SE as [sd SE]. destruct (one_vertices _ _ _ _ _ sd SE SH H) as (V1 & V2 & V3 & V4).
          apply (one_mesh (active s)) in H; auto. fold t in H, V1, V2, V3, V4. destruct H as (H1 & H2 & H3 & H4 & H5).
          assert (ACT' : forall u, active s' u <-> active s u /\ u <> t) by (apply ACT; auto; rewrite H2; discriminate).
          intros u j Du HL. apply ACT' in Du. destruct Du as [Du Nu].
          assert (C : forall i, corner s' u i = corner s u i) by (intros i; unfold corner; rewrite H4; reflexivity).
          rewrite !C. destruct (V1 _ (LT u (ccw j))) as (-> & _). destruct (V1 _ (LT u (cw j))) as (-> & _).
          apply EN; auto. unfold link in *. rewrite H5 in HL. exact HL.
        * destruct (Nat.eqb (length (ev_side evt)) 2) eqn:L2; [discriminate|].
          assert (SE : exists sd, ev_side evt = [sd]).
          { unfold handle_edge_event, handle_edge_event_with in H. destruct (ev_side evt) as [|sd [|]]; try discriminate H. eauto. }
          destruct SE as [sd SE].
          destruct (edge_vertices evt step s tt s' sd SE H NF R SH) as
            (NV & I1 & I2 & RI & RIk & LE & LE' & LEk & OLD & NEW & ST1 & ST2 & STAY).
          destruct (edge_effect (active s) s evt step sd s' R SH L DI Dt AP SE H NF) as
            (kv & fa & fb & KV & FA & FB & C & U & S1' & S2').
          fold t in KV, FA, FB, C, U, S1', S2', I1, I2, OLD, NEW, STAY.
          assert (K : kv = nv s) by (rewrite NV in KV; clear -KV; lia). subst kv.
          assert (ACT' : forall u, active s' u <-> active s u /\ u <> t) by (apply ACT; auto; rewrite S1'; discriminate).
          assert (OK : forall u i, k_inf (vs s (corner s u i)) = false -> k_inf (vs s' (corner s' u i)) = false).
          { intros u i Hi. assert (Q : corner s' u i = corner s u i \/ corner s' u i = nv s).
            { rewrite C. unfold sub2, sub1. repeat match goal with |- context [if ?b then _ else _] => destruct b end; auto. }
            destruct Q as [Q|Q]; rewrite Q; [|apply NEW]. destruct (OLD (corner s u i)) as (-> & _); [|exact Hi].
            specialize (LT u i). clear -LT. lia. }
          intros u j Du HL. apply ACT' in Du. destruct Du as [Du Nu].
          assert (G : k_inf (vs s (corner s u (ccw j))) = false /\ k_inf (vs s (corner s u (cw j))) = false).
          2:{ destruct G as [G1 G2]. split; apply OK; auto. }
          destruct (option_eq_dec (link s u j) (Some t)) as [Q|Q].
          -- destruct (L u j _ Du Q) as (_ & m & M1 & M2 & M3). rewrite <- M2, <- M3.
             destruct (side_cases m sd) as [->|[->| ->]]; [auto| |].
             ++ rewrite (un_back _ _ _ _ _ U u j (ccw sd)) in HL; auto. 2:{ split; [symmetry; exact M3|symmetry; exact M2]. }
                unfold joined in HL. assert (K : link s t (cw sd) = None) by (destruct sd; exact HL).
                apply (EN t (cw sd) Dt) in K. rewrite ccw_cw in K. rewrite cw_ccw, ccw_ccw. split; [apply K|exact I2].
             ++ rewrite (un_back _ _ _ _ _ U u j (cw sd)) in HL; auto. 2:{ split; [symmetry; exact M3|symmetry; exact M2]. }
                unfold joined in HL. assert (K : link s t (ccw sd) = None) by (destruct sd; exact HL).
                apply (EN t (ccw sd) Dt) in K. rewrite cw_ccw in K. rewrite ccw_cw, cw_cw. split; [exact I1|apply K].
          -- apply EN; auto. rewrite <- HL. symmetry. apply (un_other _ _ _ _ _ U); auto.
    - assert (SE : exists sd n, ev_side evt = [sd] /\ link s t sd = Some n).
      { unfold handle_flip_event in H. destruct (ev_side evt) as [|sd [|]]; try discriminate H.
        peel H x s1 H1. apply gets_ok in H1. destruct H1 as [-> ->]. fold t in H.
        destruct (get3 (t_n (ts s t)) sd) eqn:K; [|discriminate H]. eauto. }
      destruct SE as (sd & n & SE & SN).
      destruct (flip_event_flipped s evt sd n s' R L DI Dt AP SE SN OP TR H) as [k FL].
      pose proof (flipped_sym _ _ _ _ _ _ FL) as GL. intros u j Du LN.
      assert (Q : exists u0 k, active s u0 /\ link s u0 k = None /\
        corner s u0 (ccw k) = corner s' u (ccw j) /\ corner s u0 (cw k) = corner s' u (cw j)).
      { destruct (Nat.eq_dec u n) as [->|N].
        - apply (flip_side_back _ _ _ _ _ _ GL); auto. intros Q. exact (fl_ne _ _ _ _ _ _ GL Q).
        - apply (flip_side_back _ _ _ _ _ _ FL); auto. }
      destruct Q as (u0 & k' & K1 & K2 & K3 & K4). rewrite (fl_vs _ _ _ _ _ _ FL), <- K3, <- K4. apply EN; auto.
    - assert (SE : exists sd, ev_side evt = [sd]).
      { unfold handle_split_event, handle_split_event_with in H. destruct (ev_side evt) as [|sd [|]]; try discriminate H. eauto. }
      destruct SE as [sd SE].
      destruct (split_vertices evt step s tt s' sd SE H NF R SH (DI t Dt)) as
        (NV & I0 & I1 & I2 & RI & RIl & RIb & RI1 & RIa & LEl & LEr & LE2 & LEb & LEa & OLD & NEWb & NEWa & ST0 & STAY).
      destruct (split_effect (active s) s evt step sd s' R SH L DI Dt AP SE H NF) as
        (vb & va & fb & fa & B1 & B2 & B3 & TE & TB & TA & FA & FB & DJ & C & U & S1' & S2').
      fold t in I0, I1, I2, OLD, NEWb, NEWa, STAY.
      fold t in TE, TB, TA, FA, FB, C, U, S1', S2'.
      assert (K : vb = nv s /\ va = S (nv s)) by (rewrite NV in B3; clear -B1 B2 B3; lia). destruct K as [-> ->].
      assert (ACT' : forall u, active s' u <-> active s u /\ u <> t) by (apply ACT; auto; rewrite S1'; discriminate).
      assert (OK : forall u i, k_inf (vs s (corner s u i)) = false -> k_inf (vs s' (corner s' u i)) = false).
      { intros u i Hi. assert (Q : corner s' u i = corner s u i \/ corner s' u i = nv s \/ corner s' u i = S (nv s)).
        { rewrite C. unfold sub1. repeat match goal with |- context [if ?b then _ else _] => destruct b end; auto. }
        destruct Q as [Q|[Q|Q]]; rewrite Q; [|apply NEWb|apply NEWa]. destruct (OLD (corner s u i)) as (-> & _); [| |exact Hi];
        specialize (LT u i); clear -LT; lia. }
      intros u j Du HL. apply ACT' in Du. destruct Du as [Du Nu].
      assert (G : k_inf (vs s (corner s u (ccw j))) = false /\ k_inf (vs s (corner s u (cw j))) = false).
      2:{ destruct G as [G1 G2]. split; apply OK; auto. }
      destruct (option_eq_dec (link s u j) (Some t)) as [Q|Q].
      + destruct (L u j _ Du Q) as (_ & m & M1 & M2 & M3). rewrite <- M2, <- M3.
        assert (FT : forall k, k_inf (vs s (corner s t k)) = false).
        { intros k. destruct (side_cases k sd) as [->|[->| ->]]; auto. }
        auto.
      + apply EN; auto. rewrite <- HL. symmetry. apply (un_other _ _ _ _ _ U); auto.
  Qed.

  (** ** A whole run *)
  Variable O : OrdArith A.
  Hypothesis addr_inj : forall t u : nat, addr t = addr u -> t = u.

  Definition same_mesh (s s1 : state) : Prop := ts s1 = ts s /\ vs s1 = vs s /\ sk_triangles s1 = sk_triangles s.
  Lemma same_fitting s s1 : same_mesh s s1 -> fitting s -> fitting s1.
  Proof.
    intros (TS & VS & T1) [P1 P2 P3 P4]. constructor.
    - unfold linked, active, shares, corner, link in *. rewrite T1, TS. exact P1.
    - intros t i. unfold left_over, joint, stopped, active, corner, link in *. rewrite T1, TS, VS. apply P2.
    - intros v Hv. rewrite VS in Hv. destruct (P3 v Hv) as [l [Q1 Q2 Q3]]. exists l. constructor; [exact Q1| |].
      + assert (CH : forall l p q, chain s p l q -> chain s1 p l q).
        { induction l0 as [|[u i] l0 IHl]; intros p q K; [exact I|]. destruct K as (K1 & K2 & K3).
          unfold link in *. cbn. unfold link. rewrite TS. auto. }
        apply CH, Q2.
      + intros u i. unfold active, corner in *. rewrite T1, TS. apply Q3.
    - intros t i. unfold left_over, touches, stopped, active, corner, link in *. rewrite T1, TS, VS. apply P4.
  Qed.
  Lemma same_ends s s1 : same_mesh s s1 -> ends s -> ends s1.
  Proof. intros (TS & VS & T1). unfold ends, active, corner, link. rewrite T1, TS, VS. auto. Qed.
  Lemma same_left s s1 u j : same_mesh s s1 -> left_over s1 u j -> left_over s u j.
  Proof. intros (TS & VS & T1). unfold left_over, stopped, active, corner, link. rewrite T1, TS, VS. auto. Qed.

  Theorem run_hot s0 now tr s :
    timed n0 s0 -> shaped s0 -> fitting s0 -> ends s0 -> (forall u j, ~ left_over s0 u j) -> reach s0 now tr s ->
    (forall now1 tr1 s1 e now2 s2, reach s0 now1 tr1 s1 -> length tr1 < length tr ->
       take_next now1 s1 = Ok ((e, now2), s2) -> regular s2 e /\ (t_stops (ts s2 (ev_tri (es s2 e))) = None -> calm s2 e)) ->
    (forall now1 tr1 s1, reach s0 now1 tr1 s1 -> length tr1 <= length tr -> forall u, active s1 u -> distinct s1 u) ->
    (forall v, nv s0 <= v < nv s -> k_inf_fast (vs s v) = false) ->
    fitting s /\ ends s /\ forall u j, left_over s u j -> hot s u.
  Proof.
    intros T0 SH0 L0 E0 N0 H. pose proof (proj1 T0) as R0.
    induction H as [|now tr s e now' s1 s' R IH T H]; intros RG DD NF.
    { split; [exact L0|]. split; [exact E0|]. intros u j Q. destruct (N0 u j Q). }
    rewrite app_length in RG, DD. cbn [length] in RG, DD.
    destruct (steps_base _ _ _ _ _ _ R0 R) as [Rs Fs].
    pose proof (steps_shaped _ _ _ _ _ _ R0 SH0 R) as Ss.
    pose proof (reach_timed O addr_inj _ _ _ _ T0 R) as (_ & _ & Ps).
    assert (C : registered s1 /\ shaped s1 /\ nv s1 = nv s /\ same_mesh s s1 /\ es s1 = es s /\
      (immediate s = e :: immediate s1 \/ immediate s = [])).
    { apply take_next_ok in T. destruct T as [(r & I & _ & ->)|(r & I & _ & _ & ->)];
        (split; [destruct Rs; constructor; auto|split; [destruct Ss; constructor; auto|
         split; [reflexivity|split; [repeat split|split; [reflexivity|auto]]]]]). }
    destruct C as (R1 & SH1 & N1 & SM & ES & IM).
    pose proof (keeps_handle_event base_sound e (Z.of_nat (S (length tr))) s1 R1 tt s' H) as [R2 F2].
    destruct IH as (Fi & Es & Hs).
    - intros now1 tr1 s3 e1 now2 s2 Q1 Q2. apply (RG now1 tr1 s3 e1 now2 s2 Q1). clear -Q2. lia.
    - intros now1 tr1 s3 Q1 Q2. apply (DD now1 tr1 s3 Q1). clear -Q2. lia.
    - intros v Hv. pose proof (fo_nv _ _ F2) as O2. pose proof (proj1 (proj2 SM)) as VS.
      assert (K : v < nv s1) by (rewrite N1; apply Hv). pose proof (sm_fast _ _ (fo_motion _ _ F2 v K)) as Q.
      rewrite VS in Q. rewrite <- Q. apply NF. split; [apply Hv|]. apply (Nat.lt_le_trans _ _ _ K O2).
    - pose proof (same_fitting s s1 SM Fi) as F1. pose proof (same_ends s s1 SM Es) as E1.
      destruct (RG now tr s e now' s1 R ltac:(clear; lia) T) as [G1 G2].
      assert (NF1 : forall v, nv s1 <= v < nv s' -> k_inf_fast (vs s' v) = false).
      { intros v Hv. apply NF. pose proof (fo_nv _ _ Fs) as Q. rewrite N1 in Hv. split; [apply (Nat.le_trans _ _ _ Q), Hv|apply Hv]. }
      assert (D' : forall u, active s' u -> distinct s' u).
      { refine (DD now' _ s' (reach_step _ _ _ _ _ _ _ _ _ _ R T H) _). rewrite app_length. apply Nat.le_refl. }
      split; [|split].
      + apply (event_fitting s1 e _ s' R1 SH1 F1 G1 (fun Q => calm_tidy _ _ (G2 Q)) H NF1 D').
      + exact (event_ends s1 e _ s' R1 SH1 F1 E1 G1 G2 H NF1).
      + destruct (t_stops (ts s1 (ev_tri (es s1 e)))) eqn:ST.
        * unfold handle_event in H. peel H evt s2 H1. apply gets_ok in H1. destruct H1 as [-> ->].
          peel H x s2 H1. apply gets_ok in H1. destruct H1 as [-> ->]. rewrite ST in H. cbn [is_some] in H.
          apply ret_ok in H. destruct H as [_ ->]. intros u j LO.
          assert (Nu : u <> ev_tri (es s1 e)) by (intros ->; destruct LO as [[_ Q] _]; congruence).
          apply (same_left s s1) in LO; [|exact SM]. destruct (Hs u j LO) as (e' & Q1 & Q2).
          exists e'. rewrite (proj1 SM). split; [exact Q1|]. destruct IM as [IM|IM]; rewrite IM in Q2; [|destruct Q2].
          destruct Q2 as [<-|Q2]; [|exact Q2]. exfalso. apply Nu. rewrite ES. symmetry. apply (pe_ev _ _ Ps u e Q1).
        * intros u j. apply (event_hot s1 e _ s' u j R1 SH1 F1 E1 G1 ST (G2 eq_refl) H NF1).
  Qed.
  Corollary run_clean s0 now tr s :
    timed n0 s0 -> shaped s0 -> fitting s0 -> ends s0 -> (forall u j, ~ left_over s0 u j) -> reach s0 now tr s ->
    (forall now1 tr1 s1 e now2 s2, reach s0 now1 tr1 s1 -> length tr1 < length tr ->
       take_next now1 s1 = Ok ((e, now2), s2) -> regular s2 e /\ (t_stops (ts s2 (ev_tri (es s2 e))) = None -> calm s2 e)) ->
    (forall now1 tr1 s1, reach s0 now1 tr1 s1 -> length tr1 <= length tr -> forall u, active s1 u -> distinct s1 u) ->
    (forall v, nv s0 <= v < nv s -> k_inf_fast (vs s v) = false) ->
    immediate s = [] -> forall u j, ~ left_over s u j.
  Proof.
    intros H1 H2 H3 H4 H5 H6 H7 H8 H9 IM u j LO.
    destruct (run_hot s0 now tr s H1 H2 H3 H4 H5 H6 H7 H8 H9) as (_ & _ & Q). destruct (Q u j LO) as (e & _ & K).
    rewrite IM in K. destruct K.
  Qed.
End Left.
