(** The mesh along an execution of the event loop *)
From Verif Require Import Base Arith Calc VectorOps Line2d Primitives Collapse CollapseProofs EventsLib
  FlipEvent ParallelEvent EdgeEvent SplitEvent EventLoop Pass OpSpec Order StopSpec RunBase RunTimed RunLoop
  Decent Total FanProofs TotalRun Mesh MeshEvents MeshEdge.

Section MeshRun.
  Context {A : Arith} {E : Env A}.
  Local Open Scope M_scope.

  Ltac peel H n s1 H1 := apply bind_ok in H; destruct H as (n & s1 & H1 & H).

  (** ** Three-sided events *)
  Definition sched_sides (s : state) (t : nat) (m : side) (b : bool) : Prop :=
    forall n, link s t m = Some n -> b = is_some (t_event (ts s n)).

  Lemma sched_event t now s u s' : schedule_immediately t now s = Ok (u, s') ->
    forall w, w <> t -> t_event (ts s' w) = t_event (ts s w).
  Proof.
    intros H w Hw. apply sched_spec in H.
    destruct H as (e & _ & _ & _ & _ & _ & _ & _ & _ & _ & _ & _ & _ & _ & _ & _ & Ht & _).
    rewrite Ht, upd_other by auto. reflexivity.
  Qed.

  Lemma neighbour_ok D s t now m f s1 u s2 : linked D s -> (forall u, D u -> distinct s u) -> D t -> apart s t ->
    registered s1 -> unl D s t f s1 -> (forall w, D w -> t_stops (ts s1 w) = None) ->
    schedule_neighbour t now m s1 = Ok (u, s2) ->
    registered s2 /\ follows s1 s2 /\ (forall w, t_v (ts s2 w) = t_v (ts s1 w) /\ t_stops (ts s2 w) = t_stops (ts s1 w)) /\
    (forall w, link s t m <> Some w -> t_event (ts s2 w) = t_event (ts s1 w)) /\
    exists b, sched_sides s1 t m b /\ unl D s t (if b then put f m None else f) s2.
  Proof.
    intros L DI Dt AP R U ST H. unfold schedule_neighbour in H.
    peel H x s3 H1. apply gets_ok in H1. destruct H1 as [-> ->].
    change (get3 (t_n (ts s1 t)) m) with (link s1 t m) in H. rewrite (un_self _ _ _ _ _ U) in H.
    unfold sched_sides. rewrite (un_self _ _ _ _ _ U).
    destruct (link s t m) as [n|] eqn:Hm.
    - peel H y s3 H1. apply gets_ok in H1. destruct H1 as [-> ->].
      assert (Dn : D n) by (apply (L t m n Dt Hm)). rewrite (ST n Dn) in H. cbn [is_none] in H. rewrite Bool.andb_true_r in H.
      unfold whenM in H. destruct (is_some (t_event (ts s1 n))) eqn:EV.
      + peel H y s3 H1. apply relink_ok in H1; [|exact R]. destruct H1 as (R3 & F3 & V3 & i & I1 & I2).
        pose proof (sched_event _ _ _ _ _ H) as SE. apply quiet_sched in H; [|exact R3]. destruct H as (R4 & F4 & M4).
        split; [exact R4|]. split; [apply (G_trans base_sound _ _ _ F3 F4)|]. split.
        { intros w. destruct (M4 w) as (-> & _ & ->). destruct (V3 w) as (-> & -> & _). auto. }
        split.
        { intros w Hw. rewrite SE by congruence. destruct (V3 w) as (_ & _ & ->). reflexivity. }
        exists true. split; [intros k Hk; injection Hk as <-; auto|].
        assert (LK : lk s1 s3 (link s t m) t None) by (rewrite Hm; exists i; auto).
        pose proof (unl_step D s t f s1 m None s3 L DI Dt AP U LK) as U3.
        apply (unl_quiet D s t _ s3); [exact U3|exact M4].
      + apply ret_ok in H. destruct H as [_ ->]. split; [exact R|]. split; [apply follows_refl|]. split; [auto|]. split; [auto|].
        exists false. split; [intros k Hk; injection Hk as <-; auto|exact U].
    - apply ret_ok in H. destruct H as [_ ->]. split; [exact R|]. split; [apply follows_refl|]. split; [auto|]. split; [auto|].
      exists false. split; [discriminate|exact U].
  Qed.

  (** what remains of the mesh when [t] goes *)
  Definition linked_but (D : nat -> Prop) (t : nat) (idle : nat -> Prop) (s' : state) : Prop :=
    forall u i w, D u -> u <> t -> link s' u i = Some w ->
      (D w /\ w <> t /\ exists j, link s' w j = Some u /\ shares s' u i w j) \/ (w = t /\ idle u).

  Theorem three_effect D s evt step s' :
    registered s -> linked D s -> (forall u, D u -> distinct s u) -> D (ev_tri evt) -> apart s (ev_tri evt) ->
    (forall u, D u -> t_stops (ts s u) = None) ->
    handle_edge_event_3sides evt step s = Ok (tt, s') ->
    (forall u i, D u -> u <> ev_tri evt -> link s u i <> Some (ev_tri evt) -> link s' u i = link s u i) /\
    (forall u i, D u -> u <> ev_tri evt -> link s u i = Some (ev_tri evt) ->
       link s' u i = None \/ link s' u i = Some (ev_tri evt) /\ t_event (ts s u) = None) /\
    t_stops (ts s' (ev_tri evt)) = Some (ev_time evt) /\
    (forall u, u <> ev_tri evt -> t_stops (ts s' u) = t_stops (ts s u)) /\
    (forall u, t_v (ts s' u) = t_v (ts s u)).
  Proof.
    intros R L DI Dt AP ST H. unfold handle_edge_event_3sides in H.
    set (t := ev_tri evt) in *. set (now := ev_time evt) in *.
    peel H y0 s1 H1. apply ro_ok in H1; [|auto with ro]. subst s1.
    peel H x s1 H1. apply gets_ok in H1. destruct H1 as [-> ->].
    peel H nd s1 H1.
    assert (TS : ts s1 = ts s) by (apply stop_same in H1; apply H1).
    apply quiet_stop in H1; [|exact R]. destruct H1 as [(R1 & F1 & M1) _].
    peel H y s5 H1. unfold sides in H1. cbn [forM] in H1.
    peel H1 z0 s2 H2. peel H1 z1 s3 H3. peel H1 z2 s4 H4. apply ret_ok in H1. destruct H1 as [_ ->].
    pose proof (unl_same D s t s1 M1) as U1.
    apply (neighbour_ok D s t now S0 (fun _ => None)) in H2; auto; [|intros w Dw; rewrite TS; auto].
    destruct H2 as (R2 & F2 & V2 & E2 & b0 & B0 & U2).
    apply (neighbour_ok D s t now S1 (if b0 then put (fun _ => None) S0 None else (fun _ => None))) in H3; auto.
    2:{ intros w Dw. destruct (V2 w) as [_ ->]. rewrite TS. auto. }
    destruct H3 as (R3 & F3 & V3 & E3 & b1 & B1 & U3).
    apply (neighbour_ok D s t now S2 (if b1 then put (if b0 then put (fun _ => None) S0 None else (fun _ => None)) S1 None
       else (if b0 then put (fun _ => None) S0 None else (fun _ => None)))) in H4; auto.
    2:{ intros w Dw. destruct (V3 w) as [_ ->], (V2 w) as [_ ->]. rewrite TS. auto. }
    destruct H4 as (R4 & F4 & V4 & E4 & b2 & B2 & U4).
    apply tstops_ok in H; [|exact R4]. destruct H as (R5 & F5 & V5 & S5 & S5').
    assert (C : forall u, t_v (ts s' u) = t_v (ts s u)).
    { intros u. destruct (V5 u) as [-> _], (V4 u) as [-> _], (V3 u) as [-> _], (V2 u) as [-> _]. rewrite TS. reflexivity. }
    assert (L5 : forall w j, link s' w j = link s4 w j) by (intros w j; unfold link; destruct (V5 w) as [_ ->]; reflexivity).
    set (f := if b2 then _ else _) in U4.
    split; [|split; [|split; [exact S5|split; [|exact C]]]].
    3:{ intros u Hu. rewrite (S5' u Hu). destruct (V4 u) as [_ ->], (V3 u) as [_ ->], (V2 u) as [_ ->]. rewrite TS. reflexivity. }
    { intros u i Du Nu K. rewrite L5. apply (un_other _ _ _ _ _ U4); auto. }
    intros u i Du Nu K. rewrite L5. destruct (L u i t Du K) as (_ & m & M2 & M3). apply shares_sym in M3.
    rewrite (un_back _ _ _ _ _ U4 u i m); auto.
    assert (Q : link s1 t m = Some u) by (rewrite (un_self _ _ _ _ _ U1); exact M2).
    assert (Q2 : link s2 t m = Some u) by (rewrite (un_self _ _ _ _ _ U2); exact M2).
    assert (Q3 : link s3 t m = Some u) by (rewrite (un_self _ _ _ _ _ U3); exact M2).
    assert (NE : forall k, k <> m -> link s t k <> Some u) by (intros k Hk He; apply Hk, (AP k m u); auto).
    destruct m; unfold f.
    + specialize (B0 u Q). rewrite TS in B0. destruct b2, b1, b0; cbn; auto;
        (right; split; [reflexivity|]; destruct (t_event (ts s u)); [discriminate B0|reflexivity]).
    + specialize (B1 u Q2). rewrite E2, TS in B1 by (apply NE; discriminate). destruct b2, b1, b0; cbn; auto;
        (right; split; [reflexivity|]; destruct (t_event (ts s u)); [discriminate B1|reflexivity]).
    + specialize (B2 u Q3). rewrite E3, E2, TS in B2 by (apply NE; discriminate). destruct b2, b1, b0; cbn; auto;
        (right; split; [reflexivity|]; destruct (t_event (ts s u)); [discriminate B2|reflexivity]).
  Qed.

  Theorem three_mesh D s evt step s' :
    registered s -> linked D s -> (forall u, D u -> distinct s u) -> D (ev_tri evt) -> apart s (ev_tri evt) ->
    (forall u, D u -> t_stops (ts s u) = None) ->
    handle_edge_event_3sides evt step s = Ok (tt, s') ->
    linked_but D (ev_tri evt) (fun u => (exists m, link s (ev_tri evt) m = Some u) /\ t_event (ts s u) = None) s' /\
    t_stops (ts s' (ev_tri evt)) = Some (ev_time evt) /\
    (forall u, u <> ev_tri evt -> t_stops (ts s' u) = t_stops (ts s u)) /\
    (forall u, t_v (ts s' u) = t_v (ts s u)).
  Proof.
    intros R L DI Dt AP ST H. destruct (three_effect D s evt step s' R L DI Dt AP ST H) as (H1 & H2 & H3 & H4 & H5).
    set (t := ev_tri evt) in *. split; [|auto].
    intros u i w Du Nu Hl. destruct (option_eq_dec (link s u i) (Some t)) as [K|K].
    - right. destruct (L u i t Du K) as (_ & m & M1 & _).
      destruct (H2 u i Du Nu K) as [Q|[Q Q2]]; [congruence|]. split; [congruence|]. split; eauto.
    - left. rewrite (H1 u i Du Nu K) in Hl. destruct (L u i w Du Hl) as (Dw & j & J1 & J2).
      assert (Nw : w <> t) by (intros ->; congruence).
      split; [exact Dw|]. split; [exact Nw|]. exists j. split.
      + rewrite (H1 w j Dw Nw); [exact J1|congruence].
      + unfold shares, corner in *. rewrite !H5. exact J2.
  Qed.

  (** ** A triangle with three wavefront sides *)
  Theorem one_mesh D s evt step s' :
    registered s -> linked D s -> tri_type (ts s (ev_tri evt)) = 3 ->
    handle_edge_event_1side evt step s = Ok (tt, s') ->
    linked (fun u => D u /\ u <> ev_tri evt) s' /\
    t_stops (ts s' (ev_tri evt)) = Some (ev_time evt) /\
    (forall u, u <> ev_tri evt -> t_stops (ts s' u) = t_stops (ts s u)) /\
    (forall u, t_v (ts s' u) = t_v (ts s u)) /\ (forall u, t_n (ts s' u) = t_n (ts s u)).
  Proof.
    intros R L TY H. unfold handle_edge_event_1side in H.
    set (t := ev_tri evt) in *. set (now := ev_time evt) in *.
    destruct (ev_side evt) as [|e [|]]; try discriminate H.
    peel H x s1 H1. apply gets_ok in H1. destruct H1 as [-> ->].
    peel H nd s1 H1. apply quiet_stop in H1; [|exact R]. destruct H1 as [Q1 N1].
    peel H k1 s2 H1. apply ro_ok in H1; [|auto with ro]. subst s2.
    peel H k2 s2 H1. apply ro_ok in H1; [|auto with ro]. subst s2.
    peel H len s2 H1. apply ro_ok in H1; [|auto with ro]. subst s2.
    peel H kv s2 H1. apply quiet_newv in H1; [|apply Q1|exact N1]. destruct H1 as (Q2 & KV & KVlt).
    peel H pos s3 H1. apply ro_ok in H1; [|auto with ro]. subst s3.
    peel H y s3 H1. apply quiet_addv in H1; [|apply Q2|exact KVlt]. rename H1 into Q3.
    peel H nd2 s4 H1. apply quiet_stop in H1; [|apply Q3]. destruct H1 as [Q4 _].
    apply tstops_ok in H; [|apply Q4]. destruct H as (R5 & F5 & V5 & S5 & S5').
    assert (M : mesh_same s s4).
    { eapply mesh_same_trans; [apply Q1|]. eapply mesh_same_trans; [apply Q2|]. eapply mesh_same_trans; [apply Q3|]. apply Q4. }
    assert (C : forall u, t_v (ts s' u) = t_v (ts s u)) by (intros u; destruct (V5 u) as [-> _]; apply M).
    assert (N : forall u, t_n (ts s' u) = t_n (ts s u)) by (intros u; destruct (V5 u) as [_ ->]; apply M).
    split; [|split; [exact S5|split; [intros u Hu; rewrite (S5' u Hu); apply M|split; [exact C|exact N]]]].
    assert (NT : forall m, link s t m = None).
    { unfold tri_type, count3 in TY. unfold link. destruct (t_n (ts s t)) as [a b c].
      destruct a, b, c; try discriminate TY. intros []; reflexivity. }
    intros u i w [Du Nu] Hl. unfold link in Hl. rewrite N in Hl.
    destruct (L u i w Du Hl) as (Dw & j & J1 & J2).
    assert (Nw : w <> t) by (intros ->; rewrite NT in J1; discriminate).
    split; [auto|]. exists j. unfold shares, corner, link in *. rewrite !C, N. auto.
  Qed.

  (** ** Flip events *)
  Theorem flip_event_mesh D s evt i n s' :
    registered s -> linked D s -> (forall u, D u -> distinct s u) -> D (ev_tri evt) -> apart s (ev_tri evt) ->
    ev_side evt = [i] -> link s (ev_tri evt) i = Some n ->
    (forall j, link s n j = Some (ev_tri evt) -> shares s (ev_tri evt) i n j -> corner s (ev_tri evt) i <> corner s n j) ->
    handle_flip_event evt s = Ok (tt, s') ->
    linked D s' /\ (forall u, D u -> distinct s' u) /\ (forall u, t_stops (ts s' u) = t_stops (ts s u)).
  Proof.
    intros R L DI Dt AP SE Hn OP H. unfold handle_flip_event in H. rewrite SE in H.
    set (t := ev_tri evt) in *. set (now := ev_time evt) in *.
    peel H x s1 H1. apply gets_ok in H1. destruct H1 as [-> ->].
    change (get3 (t_n (ts s t)) i) with (link s t i) in H. rewrite Hn in H.
    peel H y s1 H1. apply gets_ok in H1. destruct H1 as [-> ->].
    peel H j s1 H1. unfold rdr in H1. apply rd_ok in H1. destruct H1 as [H1 ->].
    assert (LJ : link s n j = Some t).
    { unfold link. unfold nindex in H1. apply index3_get in H1.
      destruct (get3 (t_n (ts s n)) j) as [q|]; [|discriminate]. apply Nat.eqb_eq in H1. congruence. }
    assert (SJ : shares s t i n j).
    { destruct (L t i n Dt Hn) as (Dn & _). destruct (L n j t Dn LJ) as (_ & m0 & M1 & M2).
      rewrite (AP i m0 n Hn M1). apply shares_sym, M2. }
    destruct (flip_spec D s t i n j L DI Dt Hn LJ SJ (OP j LJ SJ)) as (s2 & F1 & F2 & _ & _ & _ & _ & _ & _ & F8 & F9 & F10).
    peel H y s3 H2. rewrite F1 in H2. injection H2 as <- <-.
    peel H y s3 H2. apply mesh_same_riq in H2. apply mesh_same_riq in H.
    pose proof (mesh_same_trans _ _ _ H2 H) as M.
    split; [|split].
    - intros u k w Du. rewrite (mesh_same_link s2 s') by exact M. intros Hl.
      destruct (F9 u k w Du Hl) as (Dw & q & J1 & J2). split; [exact Dw|]. exists q.
      rewrite (mesh_same_link s2 s') by exact M. split; [exact J1|].
      unfold shares. rewrite !(mesh_same_corner s2 s') by exact M. exact J2.
    - intros u Du a b. rewrite !(mesh_same_corner s2 s') by exact M. apply (F10 u Du).
    - intros u. destruct (M u) as (_ & _ & ->). apply F8.
  Qed.

  (** ** Any event *)
  (** the triangles of the skeleton that are not yet stopped *)
  Definition active (s : state) (u : nat) : Prop := In u (sk_triangles s) /\ t_stops (ts s u) = None.

  (** across no side of [t] lies a triangle with the same three vertices *)
  Definition opposite (s : state) (t : nat) : Prop :=
    forall i n j, link s t i = Some n -> link s n j = Some t -> shares s t i n j -> corner s t i <> corner s n j.

  Lemma opposite_apart D s t : linked D s -> (forall u, D u -> distinct s u) -> D t -> opposite s t -> apart s t.
  Proof.
    intros L DI Dt OP i j x Hi Hj. destruct (L t i x Dt Hi) as (Dx & p & P1 & P2).
    destruct (L t j x Dt Hj) as (_ & q & Q1 & Q2).
    pose proof (OP i x p Hi P1 P2) as NE. destruct P2 as [P2 P3]. destruct Q2 as [Q2 Q3].
    pose proof (DI t Dt) as DT. pose proof (DI x Dx) as DX. unfold distinct in DT, DX.
    destruct i, j; try reflexivity; exfalso; destruct p, q; cbn [cw ccw] in *;
      try congruence;
      match goal with
      | H1 : corner s x ?a = ?r, H2 : corner s x ?b = ?r |- _ => assert (a = b) by (apply DX; congruence); discriminate
      | H1 : ?r = corner s t ?a, H2 : ?r = corner s t ?b |- _ => assert (a = b) by (apply DT; congruence); discriminate
      end.
  Qed.

  Theorem event_mesh s e step s' :
    registered s -> shaped s -> linked (active s) s -> (forall u, active s u -> distinct s u) ->
    In (ev_tri (es s e)) (sk_triangles s) -> opposite s (ev_tri (es s e)) ->
    handle_event e step s = Ok (tt, s') ->
    (forall v, nv s <= v < nv s' -> k_inf_fast (vs s' v) = false) ->
    (forall u i w, active s' u -> link s' u i = Some w ->
       (active s' w /\ exists j, link s' w j = Some u /\ shares s' u i w j) \/
       (length (ev_side (es s e)) = 3 /\ ev_tp (es s e) = Edge /\ w = ev_tri (es s e) /\
        (exists m, link s w m = Some u) /\ t_event (ts s u) = None)) /\
    (forall u, t_stops (ts s' u) = t_stops (ts s u) \/ u = ev_tri (es s e) /\ t_stops (ts s' u) = Some (ev_time (es s e))).
  Proof.
    intros R SH L DI TT OP H NF.
    assert (NTF : sk_triangles s' = sk_triangles s /\ nt s' = nt s).
    { pose proof (keeps_handle_event base_sound e step s R tt s' H) as [_ F]. split; [apply (fo_tris _ _ F)|apply (fo_nt _ _ F)]. }
    destruct NTF as [NT NT0].
    unfold handle_event in H. peel H evt s1 H1. apply gets_ok in H1. destruct H1 as [-> ->].
    peel H x s1 H1. apply gets_ok in H1. destruct H1 as [-> ->].
    set (evt := es s e) in *. set (t := ev_tri evt) in *.
    assert (LB : forall x y, sk_triangles y = sk_triangles x -> (forall u, t_stops (ts y u) = t_stops (ts x u)) -> forall u, active y u <-> active x u).
    { intros x y Hn Hs u. unfold active. rewrite Hn, Hs. tauto. }
    assert (FIN : t_stops (ts s' t) <> None -> (forall u, u <> t -> t_stops (ts s' u) = t_stops (ts s u)) ->
       linked (fun u => active s u /\ u <> t) s' -> linked (active s') s').
    { intros ST1 ST2 LL u i w [Du1 Du2] Hl. rewrite NT in Du1.
      assert (Nu : u <> t) by (intros ->; congruence). rewrite ST2 in Du2 by exact Nu.
      destruct (LL u i w (conj (conj Du1 Du2) Nu) Hl) as ((Dw & Nw) & J). split; [|exact J].
      destruct Dw as [Dw1 Dw2]. split; [rewrite NT; exact Dw1|rewrite ST2; auto]. }
    destruct (is_some (t_stops (ts s t))) eqn:STt.
    { apply ret_ok in H. destruct H as [_ ->]. split; [|auto]. intros u i w Du Hl. left. apply (L u i w Du Hl). }
    assert (Dt : active s t) by (split; [exact TT|destruct (t_stops (ts s t)); [discriminate|reflexivity]]).
    pose proof (opposite_apart (active s) s t L DI Dt OP) as AP.
    destruct (ev_tp evt) eqn:TP.
    - destruct (Nat.eqb (length (ev_side evt)) 3) eqn:L3.
      + apply (three_mesh (active s)) in H; auto; [|intros u [_ Hu]; exact Hu].
        fold t in H. destruct H as (H1 & H2 & H3 & H4). split.
        * intros u i w [Du1 Du2] Hl. rewrite NT in Du1.
          assert (Nu : u <> t) by (intros ->; congruence). rewrite H3 in Du2 by exact Nu.
          destruct (H1 u i w (conj Du1 Du2) Nu Hl) as [([Dw1 Dw2] & Nw & J)|[-> K]].
          -- left. split; [split; [rewrite NT; exact Dw1|rewrite H3; auto]|]. auto.
          -- right. apply Nat.eqb_eq in L3. auto.
        * intros u. destruct (Nat.eq_dec u t) as [->|Nu]; [right; auto|left; auto].
      + destruct (_ && _)%bool eqn:L1.
        * apply Bool.andb_true_iff in L1. destruct L1 as [_ TY]. apply Nat.eqb_eq in TY.
          apply (one_mesh (active s)) in H; auto. fold t in H. destruct H as (H1 & H2 & H3 & H4). split.
          -- intros u i w Du Hl. left. apply FIN; auto. rewrite H2. discriminate.
          -- intros u. destruct (Nat.eq_dec u t) as [->|Nu]; [right; auto|left; auto].
        * destruct (Nat.eqb (length (ev_side evt)) 2) eqn:L2; [discriminate|].
          assert (SE : exists sd, ev_side evt = [sd]).
          { unfold handle_edge_event, handle_edge_event_with in H. destruct (ev_side evt) as [|sd [|]]; try discriminate H. eauto. }
          destruct SE as [sd SE].
          apply (edge_mesh (active s) s evt step sd) in H; auto. fold t in H. destruct H as (H1 & H2 & H3 & H4). split.
          -- intros u i w Du Hl. left. apply FIN; auto. rewrite H2. discriminate.
          -- intros u. destruct (Nat.eq_dec u t) as [->|Nu]; [right; auto|left; auto].
    - assert (SE : exists sd n, ev_side evt = [sd] /\ link s t sd = Some n).
      { unfold handle_flip_event in H. destruct (ev_side evt) as [|sd [|]]; try discriminate H.
        peel H x s1 H1. apply gets_ok in H1. destruct H1 as [-> ->]. fold t in H.
        destruct (get3 (t_n (ts s t)) sd) eqn:K; [|discriminate H]. eauto. }
      destruct SE as (sd & n & SE & SN).
      apply (flip_event_mesh (active s) s evt sd n) in H; auto.
      destruct H as (H1 & H2 & H3). split; [|auto].
      intros u i w Du Hl. left. apply (LB s s' NT H3) in Du.
      destruct (H1 u i w Du Hl) as (Dw & J). split; [apply (LB s s' NT H3), Dw|exact J].
    - assert (SE : exists sd, ev_side evt = [sd]).
      { unfold handle_split_event, handle_split_event_with in H. destruct (ev_side evt) as [|sd [|]]; try discriminate H. eauto. }
      destruct SE as [sd SE].
      apply (split_mesh (active s) s evt step sd) in H; auto. fold t in H. destruct H as (H1 & H2 & H3 & H4). split.
      + intros u i w Du Hl. left. apply FIN; auto. rewrite H2. discriminate.
      + intros u. destruct (Nat.eq_dec u t) as [->|Nu]; [right; auto|left; auto].
  Qed.

  (** ** Runs *)
  (** at this moment the triangles are proper and the event is about one of them *)
  Record regular (s : state) (e : nat) : Prop := {
    re_tri : In (ev_tri (es s e)) (sk_triangles s);
    re_distinct : forall u, active s u -> distinct s u;
    re_opposite : opposite s (ev_tri (es s e));
    re_events : ev_tp (es s e) = Edge -> length (ev_side (es s e)) = 3 ->
      forall i n, link s (ev_tri (es s e)) i = Some n -> t_event (ts s n) <> None }.

  Theorem run_mesh s0 now tr s :
    registered s0 -> shaped s0 -> linked (active s0) s0 -> reach s0 now tr s ->
    (forall now1 tr1 s1 e now2 s2, reach s0 now1 tr1 s1 -> length tr1 < length tr ->
       take_next now1 s1 = Ok ((e, now2), s2) -> regular s2 e) ->
    (forall v, nv s0 <= v < nv s -> k_inf_fast (vs s v) = false) ->
    linked (active s) s.
  Proof.
    intros R0 SH0 L0 H. induction H as [|now tr s e now' s1 s' R IH T H]; intros RG NF; [exact L0|].
    rewrite app_length in RG. cbn [length] in RG.
    destruct (steps_base _ _ _ _ _ _ R0 R) as [Rs Fs].
    pose proof (steps_shaped _ _ _ _ _ _ R0 SH0 R) as Ss.
    assert (C : registered s1 /\ shaped s1 /\ nv s1 = nv s /\ sk_triangles s1 = sk_triangles s /\ ts s1 = ts s /\ vs s1 = vs s).
    { apply take_next_ok in T. destruct T as [(r & _ & _ & ->)|(r & _ & _ & _ & ->)];
        (split; [destruct Rs; constructor; auto|split; [destruct Ss; constructor; auto|auto]]). }
    destruct C as (R1 & SH1 & N1 & T1 & TS & VS).
    pose proof (keeps_handle_event base_sound e (Z.of_nat (S (length tr))) s1 R1 tt s' H) as [R2 F2].
    assert (Ls : linked (active s) s).
    { apply IH.
      - intros now1 tr1 s3 e1 now2 s2 Q1 Q2. apply (RG now1 tr1 s3 e1 now2 s2 Q1). lia.
      - intros v Hv. pose proof (fo_nv _ _ F2) as O2.
        assert (K : v < nv s1) by lia. pose proof (sm_fast _ _ (fo_motion _ _ F2 v K)) as Q.
        rewrite VS in Q. rewrite <- Q. apply NF. lia. }
    assert (L1 : linked (active s1) s1).
    { unfold linked, active, shares, corner, link in *. rewrite T1, TS. exact Ls. }
    destruct (RG now tr s e now' s1 R ltac:(lia) T) as [G1 G2 G4 G5].
    pose proof (event_mesh s1 e _ s' R1 SH1 L1 G2 G1 G4 H) as [K1 _].
    { intros v Hv. apply NF. pose proof (fo_nv _ _ Fs). lia. }
    intros u i w Du Hl. destruct (K1 u i w Du Hl) as [K|(K2 & K3 & K4 & (m & K5) & K6)]; [exact K|].
    exfalso. subst w. exact (G5 K3 K2 m u K5 K6).
  Qed.
End MeshRun.
