(** The graph of the skeleton: how the events join arcs in nodes (any arithmetic) *)
From Coq Require Import Permutation.
From Verif Require Import Base Arith Calc VectorOps Line2d Primitives Collapse EventsLib
  FlipEvent ParallelEvent EdgeEvent SplitEvent EventLoop Pass OpSpec StopSpec RunBase RunLoop Decent Total FanProofs TotalRun
  Mesh MeshEvents MeshEdge MeshRun Rings RingEdge RingSplit RingFlip EdgeHead RingSpec RingGone RingRun Effects Listed Properties_effects PlacedNode.
Local Close Scope Q_scope.
Local Open Scope nat_scope.

Section Graph.
  Context {A : Arith} {E : Env A}.
  Local Open Scope M_scope.
  Ltac peel H n s1 H1 := apply bind_ok in H; destruct H as (n & s1 & H1 & H).

  (** vertices that move, and did not begin just now, are stopped in a new node *)
  Lemma stop_new V step now pos s n s1 : NoDup V -> (forall v, In v V -> anchored now (vs s v) = false) ->
    stop_and_register V step now pos s = Ok (n, s1) ->
    n = nn s /\ nn s1 = S (nn s) /\ sk_nodes s1 = sk_nodes s ++ [nn s] /\ forall v, In v V -> k_inf (vs s v) = false.
  Proof.
    intros ND RU H. apply stop_and_register_spec in H. destruct H as (new & s0 & H & Es1).
    apply stop_kvertices_spec in H. destruct H as (KI & An & H). specialize (An ND).
    assert (NA : forall W acc, (forall v, In v W -> In v V) -> last_anchor now s W acc = acc).
    { induction W as [|v W IH]; intros acc HW; [reflexivity|]. unfold last_anchor in *. cbn [fold_left].
      rewrite (RU v) by (apply HW; left; reflexivity). apply IH. intros w Hw. apply HW. right. exact Hw. }
    rewrite NA in An by auto. destruct new; [|discriminate].
    destruct H as (-> & q & f & -> & _). subst s1. repeat split; auto.
  Qed.

  (** the event of triangle [t] at time [now] ends the vertices [V] in the new node [nn s], where the vertices [W] begin *)
  Record joins (s s' : state) (t : nat) (now : num) (V W : list nat) : Prop := {
    jo_three : length V + length W = 3;
    jo_nodup : NoDup V;
    jo_old : forall v, In v V -> v < nv s /\ k_inf (vs s v) = false /\ k_stops (vs s v) = None;
    jo_new : W = [] /\ nv s' = nv s \/ W = [nv s] /\ nv s' = S (nv s) \/ W = [nv s; S (nv s)] /\ nv s' = S (S (nv s));
    jo_nodes : sk_nodes s' = sk_nodes s ++ [nn s];
    jo_verts : sk_vertices s' = sk_vertices s ++ W;
    jo_end : forall v, In v V -> k_stop_node (vs s' v) = Some (nn s) /\ k_stops (vs s' v) <> None;
    jo_begin : forall w, In w W -> k_start_node (vs s' w) = Some (nn s) /\ k_stop_node (vs s' w) = None /\ k_inf (vs s' w) = false;
    jo_start : forall v, v < nv s -> k_start_node (vs s' v) = k_start_node (vs s v);
    jo_stop : forall v, v < nv s -> ~ In v V -> k_stop_node (vs s' v) = k_stop_node (vs s v) /\ k_stops (vs s' v) = k_stops (vs s v);
    jo_tri : forall u, t_stops (ts s' u) = if Nat.eqb t u then Some now else t_stops (ts s u) }.

  Lemma nodes_new s s' n : registered s -> nn s = n -> In n (sk_nodes s') -> nodes_with s s' n -> sk_nodes s' = sk_nodes s ++ [nn s].
  Proof.
    intros R <- I [[_ H]|H]; [exact H|]. rewrite H in I. apply (rg_nodes _ R) in I. lia.
  Qed.
  Lemma not_anchored now kv : anchored now kv = false -> k_stops kv = None.
  Proof. unfold anchored. destruct (k_stops kv); [discriminate|reflexivity]. Qed.

  Theorem edge_joins s e i step s' : registered s -> shaped s ->
    let now := ev_time (es s e) in let t := ev_tri (es s e) in
    let v1 := get3 (t_v (ts s t)) (ccw i) in let v2 := get3 (t_v (ts s t)) (cw i) in
    ev_tp (es s e) = Edge -> ev_side (es s e) = [i] -> tri_type (ts s t) <> 3 -> t_stops (ts s t) = None -> v1 <> v2 ->
    anchored now (vs s v1) = false -> anchored now (vs s v2) = false ->
    handle_event e step s = Ok (tt, s') -> k_inf_fast (vs s' (nv s)) = false ->
    joins s s' t now [v1; v2] [nv s].
  Proof.
    intros R SH now t v1 v2 TP SE TY ST NE A1 A2 H NF.
    assert (L1 : v1 < nv s) by apply (sh_v _ SH). assert (L2 : v2 < nv s) by apply (sh_v _ SH).
    assert (NN : t_n (ts s t) <> mk3 None None None) by (intros Q; apply TY; unfold tri_type; rewrite Q; reflexivity).
    destruct (C65_edge s e i step s' R TP SE NN ST L1 L2 H NF) as (n & B1 & B2 & B3 & B4 & B5 & B6 & B7 & B8).
    fold t now v1 v2 in B1, B2, B3, B4, B7.
    pose proof (keeps_handle_event base_sound e step s R tt s' H) as [R' FO].
    assert (HE : handle_edge_event (es s e) step s = Ok (tt, s')).
    { unfold handle_event in H. apply bind_ok in H. destruct H as (evt & s9 & H1 & H). apply gets_ok in H1. destruct H1 as [-> ->].
      apply bind_ok in H. destruct H as (x & s9 & H1 & H). apply gets_ok in H1. destruct H1 as [-> ->].
      fold t in H. rewrite ST, TP, SE in H. cbn [is_some length Nat.eqb andb] in H.
      rewrite (proj2 (Nat.eqb_neq _ _) TY) in H. exact H. }
    destruct (edge_head _ _ _ _ _ _ SE R HE) as (pos & n' & s1 & info & int & s2 & _ & Hs & Hk & F & _). fold now t v1 v2 in Hs, Hk.
    assert (Nv : nv s1 = nv s) by (apply stop_ends in Hs; apply Hs).
    apply stop_new in Hs; [|constructor; [intros [Q|[]]; congruence|constructor; [intros []|constructor]]|intros v [<-|[<-|[]]]; assumption].
    destruct Hs as (-> & Nn & Sn & KI).
    apply new_starts in Hk. destruct Hk as (_ & K1 & K2).
    assert (KS : k_start_node (vs s2 (nv s)) = Some (nn s) /\ k_inf (vs s2 (nv s)) = false).
    { split; apply K2. }
    pose proof (fo_motion _ _ F (nv s) ltac:(rewrite K1, Nv; apply Nat.lt_succ_diag_r)) as M.
    destruct KS as [KS KF]. rewrite <- (sm_start_node _ _ M) in KS. rewrite <- (sm_inf _ _ M) in KF.
    assert (n = nn s) as -> by (destruct B3; congruence).
    constructor.
    - reflexivity.
    - constructor; [intros [Q|[]]; congruence|constructor; [intros []|constructor]].
    - intros v [<-|[<-|[]]]; (split; [assumption|]; split; [apply KI; cbn; auto|]; eapply not_anchored; eassumption).
    - right. left. auto.
    - apply (nodes_new s s' (nn s)); auto. apply (rg_start _ R' _ _ KS).
    - exact B6.
    - intros v [<-|[<-|[]]]; [destruct B1 as (Q1 & z & Q2 & _)|destruct B2 as (Q1 & z & Q2 & _)]; split; congruence.
    - intros w [<-|[]]. destruct B3 as (Q1 & _ & _ & _ & Q2 & _). auto.
    - intros v Hv. apply (sm_start_node _ _ (fo_motion _ _ FO v Hv)).
    - exact B4.
    - exact B7.
  Qed.

  Theorem split_joins s e i step s' : registered s -> shaped s ->
    let now := ev_time (es s e) in let t := ev_tri (es s e) in let v := get3 (t_v (ts s t)) i in
    ev_tp (es s e) = Split -> ev_side (es s e) = [i] -> t_stops (ts s t) = None ->
    anchored now (vs s v) = false ->
    handle_event e step s = Ok (tt, s') -> k_inf_fast (vs s' (nv s)) = false -> k_inf_fast (vs s' (S (nv s))) = false ->
    joins s s' t now [v] [nv s; S (nv s)].
  Proof.
    intros R SH now t v TP SE ST A1 H NF NF2.
    destruct (C65_split s e i step s' R TP SE ST (sh_v _ SH _ _) (sh_v _ SH _ _) (sh_v _ SH _ _) H NF NF2) as (n & B1 & B2 & B3 & B4 & B5 & B6 & B7 & B8).
    fold t now v in B1, B2, B3, B4, B7.
    pose proof (keeps_handle_event base_sound e step s R tt s' H) as [R' FO].
    assert (HE : handle_split_event (es s e) step s = Ok (tt, s')).
    { unfold handle_event in H. apply bind_ok in H. destruct H as (evt & s9 & H1 & H). apply gets_ok in H1. destruct H1 as [-> ->].
      apply bind_ok in H. destruct H as (x & s9 & H1 & H). apply gets_ok in H1. destruct H1 as [-> ->].
      fold t in H. rewrite ST, TP in H. exact H. }
    assert (KG : forall w, nv s <= w < nv s' -> k_inf (vs s' w) = false).
    { intros w Hw. apply (gr_new _ _ (lists_event [] e step s tt s' ltac:(intros ? []) H) w Hw). }
    destruct (split_stop _ _ _ _ _ _ SE R HE) as (n' & s1 & ul & ur & info & int & s2 & Hs & Hk & F). fold now t v in Hs, Hk.
    assert (Nv : nv s1 = nv s) by (apply stop_ends in Hs; apply Hs).
    apply stop_new in Hs; [|constructor; [intros []|constructor]|intros w [<-|[]]; assumption].
    destruct Hs as (-> & Nn & Sn & KI).
    apply new_starts in Hk. destruct Hk as (_ & K1 & K2).
    assert (KS : k_start_node (vs s2 (nv s)) = Some (nn s)) by apply K2.
    pose proof (fo_motion _ _ F (nv s) ltac:(rewrite K1, Nv; apply Nat.lt_succ_diag_r)) as M.
    rewrite <- (sm_start_node _ _ M) in KS.
    assert (n = nn s) as -> by (destruct B2; congruence).
    constructor.
    - reflexivity.
    - constructor; [intros []|constructor].
    - intros w [<-|[]]. split; [apply (sh_v _ SH)|]. split; [apply KI; cbn; auto|]. eapply not_anchored; eassumption.
    - right. right. auto.
    - apply (nodes_new s s' (nn s)); auto. apply (rg_start _ R' _ _ KS).
    - exact B6.
    - intros w [<-|[]]. destruct B1 as (Q1 & z & Q2 & _). split; congruence.
    - intros w [<-|[<-|[]]]; [destruct B2 as (Q1 & _ & _ & _ & Q2 & _)|destruct B3 as (Q1 & _ & _ & _ & Q2 & _)];
        (split; [exact Q1|]; split; [exact Q2|]; apply KG; lia).
    - intros w Hw. apply (sm_start_node _ _ (fo_motion _ _ FO w Hw)).
    - exact B4.
    - exact B7.
  Qed.

  Theorem three_joins s e step s' : registered s -> shaped s ->
    let now := ev_time (es s e) in let t := ev_tri (es s e) in let c i := get3 (t_v (ts s t)) i in
    ev_tp (es s e) = Edge -> length (ev_side (es s e)) = 3 -> t_stops (ts s t) = None -> distinct s t ->
    (forall i, anchored now (vs s (c i)) = false) ->
    handle_event e step s = Ok (tt, s') -> joins s s' t now [c S0; c S1; c S2] [].
  Proof.
    intros R SH now t c TP SE ST DI AN H.
    destruct (C65_three s e step s' TP SE ST H) as (n & B1 & B2 & B3 & B4 & B5 & B6). fold t now in B1, B2, B5.
    assert (L : list3 (t_v (ts s t)) = [c S0; c S1; c S2]) by (unfold c; destruct (t_v (ts s t)); reflexivity). rewrite L in B1, B2.
    pose proof (keeps_handle_event base_sound e step s R tt s' H) as [R' FO].
    assert (HE : handle_edge_event_3sides (es s e) step s = Ok (tt, s')).
    { unfold handle_event in H. apply bind_ok in H. destruct H as (evt & s9 & H1 & H). apply gets_ok in H1. destruct H1 as [-> ->].
      apply bind_ok in H. destruct H as (x & s9 & H1 & H). apply gets_ok in H1. destruct H1 as [-> ->].
      fold t in H. rewrite ST, TP, SE in H. exact H. }
    destruct (three_stop _ _ _ _ _ R HE) as (n' & s1 & Hs & F & VS). fold now t in Hs. rewrite L in Hs.
    assert (ND : NoDup [c S0; c S1; c S2]).
    { constructor; [|constructor; [|constructor; [intros []|constructor]]].
      + intros [K|[K|[]]]; apply DI in K; discriminate.
      + intros [K|[]]; apply DI in K; discriminate. }
    pose proof Hs as Hs'. apply stop_ends in Hs'. destruct Hs' as [EN _].
    apply stop_new in Hs; [|exact ND|intros w [<-|[<-|[<-|[]]]]; apply AN].
    destruct Hs as (-> & Nn & Sn & KI).
    assert (n = nn s) as ->.
    { destruct (B1 (c S0) (or_introl eq_refl)) as (Q & _). destruct (EN (c S0) (or_introl eq_refl)) as (Q' & _). rewrite VS in Q. congruence. }
    constructor.
    - reflexivity.
    - exact ND.
    - intros v Hv. split; [destruct Hv as [<-|[<-|[<-|[]]]]; apply (sh_v _ SH)|]. split; [apply KI, Hv|].
      destruct Hv as [<-|[<-|[<-|[]]]]; eapply not_anchored; apply AN.
    - left. auto.
    - apply (nodes_new s s' (nn s)); auto. apply (rg_stop _ R' (c S0)). apply (B1 _ (or_introl eq_refl)).
    - rewrite app_nil_r. exact B4.
    - intros v Hv. destruct (B1 v Hv) as (Q1 & z & Q2 & _). split; congruence.
    - intros w [].
    - intros v Hv. apply (sm_start_node _ _ (fo_motion _ _ FO v Hv)).
    - exact B2.
    - exact B5.
  Qed.

  (** ** Which vertices the triangles have *)
  Theorem event_corners s e step s' :
    registered s -> shaped s -> linked (active s) s -> regular s e -> handle_event e step s = Ok (tt, s') ->
    (forall v, nv s <= v < nv s' -> k_inf_fast (vs s' v) = false) ->
    forall u i, active s' u -> nv s <= corner s' u i < nv s' \/ exists w j, active s w /\ corner s' u i = corner s w j.
  Proof.
    intros R SH L RG H NF. destruct RG as [TT DI OP EV].
    pose proof (keeps_handle_event base_sound e step s R tt s' H) as [_ FO].
    assert (TR : sk_triangles s' = sk_triangles s) by apply (fo_tris _ _ FO).
    assert (AC : forall u, active s' u -> active s u).
    { intros u [U1 U2]. split; [rewrite <- TR; exact U1|]. destruct (t_stops (ts s u)) eqn:Q; [|reflexivity].
      pose proof (fo_tstops _ _ FO u) as K. rewrite Q, U2 in K. discriminate (K eq_refl). }
    unfold handle_event in H. peel H evt s1 H1. apply gets_ok in H1. destruct H1 as [-> ->].
    peel H x s1 H1. apply gets_ok in H1. destruct H1 as [-> ->].
    set (evt := es s e) in *. set (t := ev_tri evt) in *.
    destruct (t_stops (ts s t)) eqn:ST; cbn [is_some] in H.
    { apply ret_ok in H. destruct H as [_ ->]. intros u i Hu. right. eauto. }
    assert (Dt : active s t) by (split; [exact TT|exact ST]). pose proof (opposite_apart (active s) s t L DI Dt OP) as AP.
    destruct (ev_tp evt) eqn:TP.
    - destruct (Nat.eqb (length (ev_side evt)) 3) eqn:L3.
      + apply (three_effect (active s)) in H; auto; [|intros u [_ Hu]; exact Hu].
        destruct H as (_ & _ & _ & _ & H5). intros u i Hu. right. exists u, i. split; [auto|]. unfold corner. rewrite H5. reflexivity.
      + destruct (_ && _)%bool eqn:L1.
        * apply Bool.andb_true_iff in L1. destruct L1 as [LS TY]. apply Nat.eqb_eq in TY, LS.
          apply (one_mesh (active s)) in H; auto. destruct H as (_ & _ & _ & H4 & _).
          intros u i Hu. right. exists u, i. split; [auto|]. unfold corner. rewrite H4. reflexivity.
        * destruct (Nat.eqb (length (ev_side evt)) 2) eqn:L2; [discriminate|].
          assert (SE : exists sd, ev_side evt = [sd]).
          { unfold handle_edge_event, handle_edge_event_with in H. destruct (ev_side evt) as [|sd [|]]; try discriminate H. eauto. }
          destruct SE as [sd SE].
          destruct (edge_effect (active s) s evt step sd s' R SH L DI Dt AP SE H NF) as
            (kv & fa & fb & KV & FA & FB & C & U & S1' & S2').
          intros u i Hu. rewrite C. unfold sub2, sub1. repeat destruct (Nat.eq_dec _ _); repeat destruct (in_dec _ _ _); eauto 6.
    - assert (SE : exists sd n, ev_side evt = [sd] /\ link s t sd = Some n).
      { unfold handle_flip_event in H. destruct (ev_side evt) as [|sd [|]]; try discriminate H.
        peel H x s1 H1. apply gets_ok in H1. destruct H1 as [-> ->]. fold t in H.
        destruct (get3 (t_n (ts s t)) sd) eqn:K; [|discriminate H]. eauto. }
      destruct SE as (sd & n & SE & SN).
      destruct (flip_event_flipped s evt sd n s' R L DI Dt AP SE SN OP TR H) as [j FL].
      fold t in FL. clearbody t. intros u i Hu. right. destruct FL. destruct (Nat.eq_dec u t) as [->|N0]; [|destruct (Nat.eq_dec u n) as [->|N1]].
      + unfold corner at 1. rewrite fl_v0. destruct i; cbn [get3 x0 x1 x2]; eauto.
      + unfold corner at 1. rewrite fl_v1. destruct i; cbn [get3 x0 x1 x2]; eauto.
      + exists u, i. split; [auto|]. apply fl_v; auto.
    - assert (SE : exists sd, ev_side evt = [sd]).
      { unfold handle_split_event, handle_split_event_with in H. destruct (ev_side evt) as [|sd [|]]; try discriminate H. eauto. }
      destruct SE as [sd SE].
      destruct (split_effect (active s) s evt step sd s' R SH L DI Dt AP SE H NF) as
        (vb & va & fb & fa & B1 & B2 & B3 & TE & TB & TA & FA & FB & DJ & C & U & S1' & S2').
      intros u i Hu. rewrite C. unfold sub1. 
      assert (P1 : nv s <= va < nv s') by lia. assert (P2 : nv s <= vb < nv s') by lia. clear B1 B2 B3.
      repeat destruct (Nat.eq_dec _ _); repeat destruct (in_dec _ _ _); eauto 6.
  Qed.

  (** ** Counting *)
  Lemma nodup_app {X} (l m : list X) : NoDup l -> NoDup m -> (forall x, In x l -> ~ In x m) -> NoDup (l ++ m).
  Proof.
    induction l as [|a l IH]; intros N1 N2 D; [exact N2|]. inversion N1; subst. cbn. constructor.
    - rewrite in_app_iff. intros [Q|Q]; [contradiction|]. apply (D a); cbn; auto.
    - apply IH; auto. intros x Hx. apply D. right. exact Hx.
  Qed.
  Definition count {X} (f : X -> bool) (l : list X) : nat := length (filter f l).
  Lemma count_app {X} (f : X -> bool) l r : count f (l ++ r) = count f l + count f r.
  Proof. unfold count. rewrite filter_app, app_length. reflexivity. Qed.
  Lemma count_ext {X} (f g : X -> bool) l : (forall x, In x l -> f x = g x) -> count f l = count g l.
  Proof. intros H. unfold count. rewrite (filter_ext_in f g l H). reflexivity. Qed.
  Lemma count_none {X} (f : X -> bool) l : (forall x, In x l -> f x = false) -> count f l = 0.
  Proof. intros H. rewrite (count_ext f (fun _ => false) l H). clear. unfold count. induction l; auto. Qed.
  Lemma count_all {X} (f : X -> bool) l : (forall x, In x l -> f x = true) -> count f l = length l.
  Proof. intros H. rewrite (count_ext f (fun _ => true) l H). clear. unfold count. induction l; cbn; auto. Qed.
  Lemma count_or {X} (f g : X -> bool) l : (forall x, In x l -> f x = true -> g x = false) ->
    count (fun x => f x || g x) l = count f l + count g l.
  Proof.
    unfold count. induction l as [|a l IH]; intros H; [reflexivity|]. cbn [filter].
    specialize (IH (fun x Hx => H x (or_intror Hx))). specialize (H a (or_introl eq_refl)).
    destruct (f a); cbn [orb]; [rewrite (H eq_refl); cbn [length]; lia|]. destruct (g a); cbn [length]; lia.
  Qed.
  Lemma count_mem V l : NoDup V -> NoDup l -> incl V l -> count (fun x => mem Nat.eqb x V) l = length V.
  Proof.
    intros NV NL IN. apply Permutation_length, NoDup_Permutation; [apply NoDup_filter, NL|exact NV|].
    intros x. rewrite filter_In, mem_In. split; [tauto|]. intros H. split; [apply IN, H|exact H].
  Qed.

  Definition at_node (o : option nat) (n : nat) : bool := match o with Some m => Nat.eqb m n | None => false end.
  (** arcs that begin or end in node [n]; arcs that have ended; triangles that are gone *)
  Definition degree (s : state) (n : nat) : nat :=
    count (fun v => at_node (k_start_node (vs s v)) n) (sk_vertices s) + count (fun v => at_node (k_stop_node (vs s v)) n) (sk_vertices s).
  Definition ended (s : state) : nat := count (fun v => is_some (k_stop_node (vs s v))) (sk_vertices s).
  Definition gone (s : state) : nat := count (fun t => is_some (t_stops (ts s t))) (sk_triangles s).

  (** *** one event *)
  Section Joins.
    Context (s s' : state) (t : nat) (now : num) (V W : list nat).
    Context (R : registered s) (ND : NoDup (sk_vertices s)) (SN : forall v, v < nv s -> k_stops (vs s v) = None -> k_stop_node (vs s v) = None).
    Context (IV : incl V (sk_vertices s)) (J : joins s s' t now V W).
    Lemma w_new w : In w W -> nv s <= w < nv s'.
    Proof.
      destruct (jo_new _ _ _ _ _ _ J) as [[-> _]|[[-> Q]|[-> Q]]]; rewrite ?Q; [intros []| |].
      - intros [<-|[]]. lia.
      - intros [<-|[<-|[]]]; lia.
    Qed.
    Lemma joins_nodup : NoDup (sk_vertices s').
    Proof.
      rewrite (jo_verts _ _ _ _ _ _ J). apply nodup_app; [exact ND| |].
      - destruct (jo_new _ _ _ _ _ _ J) as [[-> _]|[[-> _]|[-> _]]].
        + constructor.
        + constructor; [intros []|constructor].
        + constructor; [intros [Q|[]]; lia|constructor; [intros []|constructor]].
      - intros v Hv Hw. apply w_new in Hw. apply (rg_verts _ R) in Hv. lia.
    Qed.
    Lemma joins_degree n : degree s' n = if Nat.eqb n (nn s) then 3 else degree s n.
    Proof.
      assert (LT : forall v, In v (sk_vertices s) -> v < nv s) by apply (rg_verts _ R).
      unfold degree. rewrite (jo_verts _ _ _ _ _ _ J), !count_app.
      assert (C1 : count (fun v => at_node (k_start_node (vs s' v)) n) (sk_vertices s) =
                   count (fun v => at_node (k_start_node (vs s v)) n) (sk_vertices s)).
      { apply count_ext. intros v Hv. rewrite (jo_start _ _ _ _ _ _ J v (LT v Hv)). reflexivity. }
      assert (C2 : count (fun v => at_node (k_stop_node (vs s' v)) n) W = 0).
      { apply count_none. intros v Hv. destruct (jo_begin _ _ _ _ _ _ J v Hv) as (_ & Q & _). rewrite Q. reflexivity. }
      assert (C3 : count (fun v => at_node (k_start_node (vs s' v)) n) W = if Nat.eqb n (nn s) then length W else 0).
      { destruct (Nat.eqb_spec n (nn s)) as [->|N]; [apply count_all|apply count_none]; intros v Hv;
          destruct (jo_begin _ _ _ _ _ _ J v Hv) as (Q & _); rewrite Q; cbn [at_node]; [apply Nat.eqb_refl|apply Nat.eqb_neq; congruence]. }
      assert (C4 : count (fun v => at_node (k_stop_node (vs s' v)) n) (sk_vertices s) =
                   (if Nat.eqb n (nn s) then length V else 0) + count (fun v => at_node (k_stop_node (vs s v)) n) (sk_vertices s)).
      { transitivity (count (fun v => (Nat.eqb n (nn s) && mem Nat.eqb v V) || at_node (k_stop_node (vs s v)) n) (sk_vertices s)).
        - apply count_ext. intros v Hv. destruct (in_dec Nat.eq_dec v V) as [I|I].
          + destruct (jo_end _ _ _ _ _ _ J v I) as [Q _]. rewrite Q. destruct (jo_old _ _ _ _ _ _ J v I) as (_ & _ & Q2).
            rewrite (SN v (LT v Hv) Q2). rewrite (proj2 (mem_In v V) I). cbn [at_node]. rewrite Bool.andb_true_r, Bool.orb_false_r. apply Nat.eqb_sym.
          + destruct (jo_stop _ _ _ _ _ _ J v (LT v Hv) I) as [Q _]. rewrite Q.
            destruct (mem Nat.eqb v V) eqn:M; [apply mem_In in M; contradiction|]. rewrite Bool.andb_false_r. reflexivity.
        - rewrite count_or.
          + f_equal. destruct (Nat.eqb n (nn s)); cbn [andb]; [|apply count_none; reflexivity].
            apply count_mem; [apply (jo_nodup _ _ _ _ _ _ J)|exact ND|exact IV].
          + intros v Hv Q. apply Bool.andb_true_iff in Q. destruct Q as [_ Q]. apply mem_In in Q.
            destruct (jo_old _ _ _ _ _ _ J v Q) as (_ & _ & Q2). rewrite (SN v (LT v Hv) Q2). reflexivity. }
      rewrite C1, C2, C3, C4. pose proof (jo_three _ _ _ _ _ _ J). destruct (Nat.eqb_spec n (nn s)) as [->|N]; [|lia].
      assert (Z1 : count (fun v => at_node (k_start_node (vs s v)) (nn s)) (sk_vertices s) = 0).
      { apply count_none. intros v Hv. destruct (k_start_node (vs s v)) as [m|] eqn:Q; [|reflexivity].
        apply (rg_start _ R), (rg_nodes _ R) in Q. apply Nat.eqb_neq. lia. }
      assert (Z2 : count (fun v => at_node (k_stop_node (vs s v)) (nn s)) (sk_vertices s) = 0).
      { apply count_none. intros v Hv. destruct (k_stop_node (vs s v)) as [m|] eqn:Q; [|reflexivity].
        apply (rg_stop _ R), (rg_nodes _ R) in Q. apply Nat.eqb_neq. lia. }
      lia.
    Qed.
    Lemma joins_ended : ended s' = ended s + length V.
    Proof.
      assert (LT : forall v, In v (sk_vertices s) -> v < nv s) by apply (rg_verts _ R).
      unfold ended. rewrite (jo_verts _ _ _ _ _ _ J), count_app.
      assert (C2 : count (fun v => is_some (k_stop_node (vs s' v))) W = 0).
      { apply count_none. intros v Hv. destruct (jo_begin _ _ _ _ _ _ J v Hv) as (_ & Q & _). rewrite Q. reflexivity. }
      rewrite C2, Nat.add_0_r, Nat.add_comm. rewrite <- (count_mem V (sk_vertices s) (jo_nodup _ _ _ _ _ _ J) ND IV), <- count_or.
      - apply count_ext. intros v Hv. destruct (in_dec Nat.eq_dec v V) as [I|I].
        + destruct (jo_end _ _ _ _ _ _ J v I) as [Q _]. rewrite Q, (proj2 (mem_In v V) I). reflexivity.
        + destruct (jo_stop _ _ _ _ _ _ J v (LT v Hv) I) as [Q _]. rewrite Q.
          destruct (mem Nat.eqb v V) eqn:M; [apply mem_In in M; contradiction|]. reflexivity.
      - intros v Hv Q. apply mem_In in Q. destruct (jo_old _ _ _ _ _ _ J v Q) as (_ & _ & Q2). rewrite (SN v (LT v Hv) Q2). reflexivity.
    Qed.
    Lemma joins_stop_node v : v < nv s' -> k_stops (vs s' v) = None -> k_stop_node (vs s' v) = None.
    Proof.
      intros Hv Q. destruct (Nat.lt_ge_cases v (nv s)) as [L|L].
      - destruct (in_dec Nat.eq_dec v V) as [I|I]; [destruct (jo_end _ _ _ _ _ _ J v I); contradiction|].
        destruct (jo_stop _ _ _ _ _ _ J v L I) as [Q1 Q2]. rewrite Q1. apply SN; [exact L|congruence].
      - apply (jo_begin _ _ _ _ _ _ J). destruct (jo_new _ _ _ _ _ _ J) as [[-> K]|[[-> K]|[-> K]]]; cbn; lia.
    Qed.
    Lemma joins_gone : NoDup (sk_triangles s) -> sk_triangles s' = sk_triangles s -> In t (sk_triangles s) -> t_stops (ts s t) = None -> gone s' = S (gone s).
    Proof.
      intros NT TR IT ST. unfold gone. rewrite TR.
      transitivity (count (fun u => mem Nat.eqb u [t] || is_some (t_stops (ts s u))) (sk_triangles s)).
      - apply count_ext. intros u _. rewrite (jo_tri _ _ _ _ _ _ J). cbn [mem existsb]. rewrite Bool.orb_false_r, (Nat.eqb_sym u t).
        destruct (Nat.eqb t u); reflexivity.
      - rewrite count_or.
        + rewrite count_mem; [reflexivity|repeat constructor; intros []|exact NT|intros u [<-|[]]; exact IT].
        + intros u _ Q. apply mem_In in Q. destruct Q as [<-|[]]. rewrite ST. reflexivity.
    Qed.
  End Joins.
End Graph.
