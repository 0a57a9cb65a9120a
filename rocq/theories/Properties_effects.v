(** What each event does to the vertices, nodes and triangles (C65), and the
    one-sided collapse of a triangle bounded by three wavefronts (C66) *)
From Verif Require Import Base Arith ArithQ Calc VectorOps Line2d Primitives Collapse EventsLib
  FlipEvent ParallelEvent EdgeEvent SplitEvent EventLoop Pass OpSpec Order StopSpec RunBase RunTimed RunLoop
  Scenario ScenarioRun Effects Properties_bisect.
Local Close Scope Q_scope.

Section C65.
  Context {A : Arith} {E : Env A}.

  (** ** Specification *)
  (** vertex [v] has ended in node [n] at time [now] (up to the arithmetic's own [==]) *)
  Definition ended_at (s : state) (v n : nat) (now : num) : Prop :=
    k_stop_node (vs s v) = Some n /\ exists z, k_stops (vs s v) = Some z /\ (z = now \/ neqb z now = true).
  (** vertex [v] starts in node [n] at time [now], between the wavefronts [l] and [r] *)
  Definition begun_at (s : state) (v n : nat) (now : num) (l r : option nat) : Prop :=
    k_start_node (vs s v) = Some n /\ k_starts (vs s v) = Some now /\
    k_ul (vs s v) = l /\ k_ur (vs s v) = r /\ k_stop_node (vs s v) = None /\ k_stops (vs s v) = None.
  (** nothing ends except the old vertices [l] *)
  Definition only_ends (s s' : state) (l : list nat) : Prop :=
    forall v, v < nv s -> ~ In v l ->
      k_stop_node (vs s' v) = k_stop_node (vs s v) /\ k_stops (vs s' v) = k_stops (vs s v).
  (** exactly triangle [t] is removed, at time [now] *)
  Definition removes (s s' : state) (t : nat) (now : num) : Prop :=
    forall u, t_stops (ts s' u) = if Nat.eqb t u then Some now else t_stops (ts s u).
  (** the list of nodes grows by at most the node [n], and then [n] is a new one *)
  Definition nodes_with (s s' : state) (n : nat) : Prop :=
    (n = nn s /\ sk_nodes s' = sk_nodes s ++ [n]) \/ sk_nodes s' = sk_nodes s.

  (** ** C65: whatever an event changes, it changes at its own time *)
  Theorem C65_times s e step s' : registered s -> handle_event e step s = Ok (tt, s') ->
    let now := ev_time (es s e) in
    (forall t, t_stops (ts s' t) = t_stops (ts s t) \/ t_stops (ts s' t) = Some now) /\
    (forall v, v < nv s -> k_stops (vs s' v) = k_stops (vs s v) \/ k_stops (vs s' v) = Some now) /\
    (forall v, nv s <= v < nv s' -> k_starts (vs s' v) = Some now /\
       (k_stops (vs s' v) = None \/ k_stops (vs s' v) = Some now)).
  Proof.
    intros R H now. destruct (event_stamps _ _ _ _ R H) as (H1 & _ & H2 & H3). fold now in H1, H2, H3. auto.
  Qed.

  (** three sides: the three vertices end in one node, the triangle is removed *)
  Theorem C65_three s e step s' :
    ev_tp (es s e) = Edge -> length (ev_side (es s e)) = 3 -> t_stops (ts s (ev_tri (es s e))) = None ->
    handle_event e step s = Ok (tt, s') ->
    let now := ev_time (es s e) in let t := ev_tri (es s e) in
    exists n, (forall v, In v (list3 (t_v (ts s t))) -> ended_at s' v n now) /\
      only_ends s s' (list3 (t_v (ts s t))) /\ nv s' = nv s /\ sk_vertices s' = sk_vertices s /\
      removes s s' t now /\ nodes_with s s' n.
  Proof.
    intros Tp L N H now t. unfold handle_event in H. do 2 ro_next H. rewrite N, Tp, L in H. simpl in H.
    apply three_effects in H. fold t now in H. destruct H as (n & H1 & H2 & H3).
    exists n. split; [exact H1|]. split; [intros v _; apply H2|exact H3].
  Qed.

  (** one side of a triangle bounded by three wavefronts: all three vertices and
      the new one end in the same node *)
  Theorem C65_one s e side0 step s' :
    let now := ev_time (es s e) in let t := ev_tri (es s e) in
    let v0 := get3 (t_v (ts s t)) side0 in
    let v1 := get3 (t_v (ts s t)) (ccw side0) in
    let v2 := get3 (t_v (ts s t)) (cw side0) in
    ev_tp (es s e) = Edge -> ev_side (es s e) = [side0] -> t_n (ts s t) = mk3 None None None ->
    t_stops (ts s t) = None ->
    near_zero (nsub now now) = true -> v0 <> v1 -> v0 <> v2 -> v0 < nv s -> v1 < nv s -> v2 < nv s ->
    handle_event e step s = Ok (tt, s') ->
    exists n, (forall v, In v [v0; v1; v2; nv s] -> ended_at s' v n now) /\
      k_start_node (vs s' (nv s)) = Some n /\ k_starts (vs s' (nv s)) = Some now /\
      only_ends s s' [v0; v1; v2] /\ nv s' = S (nv s) /\ sk_vertices s' = sk_vertices s ++ [nv s] /\
      removes s s' t now /\ nodes_with s s' n.
  Proof.
    intros now t v0 v1 v2 Tp Sd T3 N NZ D1 D2 L0 L1 L2 H. unfold handle_event in H. do 2 ro_next H.
    fold t in H. rewrite N, Tp, Sd in H. unfold tri_type in H. rewrite T3 in H. cbn in H.
    apply (one_effects _ _ side0) in H; auto. fold t now v0 v1 v2 in H.
    destruct H as (n & H1 & H2 & H3 & H4 & H5 & H6 & H7 & H8 & H9 & H10 & H11).
    exists n. split; [intros v [<-|[<-|[<-|[<-|[]]]]]; assumption|]. repeat (split; [assumption|]). exact H11.
  Qed.

  (** one side of another triangle: its two vertices end in one node where one new
      vertex begins, between the outer wavefronts of the two *)
  Theorem C65_edge s e side0 step s' :
    let now := ev_time (es s e) in let t := ev_tri (es s e) in
    let v1 := get3 (t_v (ts s t)) (ccw side0) in
    let v2 := get3 (t_v (ts s t)) (cw side0) in
    registered s ->
    ev_tp (es s e) = Edge -> ev_side (es s e) = [side0] -> t_n (ts s t) <> mk3 None None None ->
    t_stops (ts s t) = None -> v1 < nv s -> v2 < nv s ->
    handle_event e step s = Ok (tt, s') -> k_inf_fast (vs s' (nv s)) = false ->
    exists n, ended_at s' v1 n now /\ ended_at s' v2 n now /\
      begun_at s' (nv s) n now (k_ul (vs s v1)) (k_ur (vs s v2)) /\
      only_ends s s' [v1; v2] /\ nv s' = S (nv s) /\ sk_vertices s' = sk_vertices s ++ [nv s] /\
      removes s s' t now /\ nodes_with s s' n.
  Proof.
    intros now t v1 v2 R Tp Sd T3 N L1 L2 H NF. unfold handle_event in H. do 2 ro_next H.
    fold t in H. rewrite N, Tp, Sd in H. unfold tri_type in H. cbn in H.
    assert (B : Nat.eqb (tri_type (ts s t)) 3 = false).
    { apply Nat.eqb_neq. intros Q. apply T3. unfold tri_type in Q. destruct (t_n (ts s t)) as [[|] [|] [|]]; cbn in Q; try discriminate. reflexivity. }
    unfold tri_type in B. rewrite B in H.
    apply (edge_effects _ _ side0) in H; auto. fold t now v1 v2 in H.
    destruct H as (n & s6 & H1 & H2 & H3 & H4 & H5 & H6 & H7 & H8 & H9 & H10 & H11 & H12 & H13 & H14 & H15 & H16 & H17).
    rewrite (H17 NF). exists n. repeat (split; [assumption|]). split; [repeat split; assumption|]. repeat (split; [assumption|]). exact H13.
  Qed.

  (** if the new vertex is infinitely fast, the parallel handler runs afterwards;
      what was done before stays done *)
  Theorem C65_edge_fast s e side0 step s' :
    let now := ev_time (es s e) in let t := ev_tri (es s e) in
    let v1 := get3 (t_v (ts s t)) (ccw side0) in
    let v2 := get3 (t_v (ts s t)) (cw side0) in
    registered s ->
    ev_tp (es s e) = Edge -> ev_side (es s e) = [side0] -> t_n (ts s t) <> mk3 None None None ->
    t_stops (ts s t) = None -> v1 < nv s -> v2 < nv s ->
    handle_event e step s = Ok (tt, s') ->
    is_some (k_stops (vs s' v1)) = true /\ is_some (k_stop_node (vs s' v1)) = true /\
    is_some (k_stops (vs s' v2)) = true /\ is_some (k_stop_node (vs s' v2)) = true /\
    (exists n, k_start_node (vs s' (nv s)) = Some n /\ In n (sk_nodes s')) /\
    k_starts (vs s' (nv s)) = Some now /\ k_ul (vs s' (nv s)) = k_ul (vs s v1) /\ k_ur (vs s' (nv s)) = k_ur (vs s v2) /\
    In (nv s) (sk_vertices s') /\ t_stops (ts s' t) = Some now.
  Proof.
    intros now t v1 v2 R Tp Sd T3 N L1 L2 H.
    pose proof (event_stamps _ _ _ _ R H) as (ST & _).
    unfold handle_event in H. do 2 ro_next H.
    fold t in H. rewrite N, Tp, Sd in H. unfold tri_type in H. cbn in H.
    assert (B : Nat.eqb (tri_type (ts s t)) 3 = false).
    { apply Nat.eqb_neq. intros Q. apply T3. unfold tri_type in Q. destruct (t_n (ts s t)) as [[|] [|] [|]]; cbn in Q; try discriminate. reflexivity. }
    unfold tri_type in B. rewrite B in H.
    apply (edge_effects _ _ side0) in H; auto. fold t now v1 v2 in H.
    destruct H as (n & s6 & (A1 & z1 & A2 & _) & (B1 & z2 & B2 & _) & H3 & H4 & H5 & H6 & H7 & H8 & H9 & H10 & H11 & H12 & H13 & H14 & H15 & F & _).
    pose proof (fo_motion _ _ F (nv s) ltac:(lia)) as [_ _ _ M1 M2 M3 M4 _ _ _].
    split; [apply (fo_stops _ _ F); [lia|rewrite A2; reflexivity]|].
    split; [apply (fo_stopped _ _ F); [lia|rewrite A1; reflexivity]|].
    split; [apply (fo_stops _ _ F); [lia|rewrite B2; reflexivity]|].
    split; [apply (fo_stopped _ _ F); [lia|rewrite B1; reflexivity]|].
    destruct (fo_nodes _ _ F) as [ln En]. destruct (fo_verts _ _ F) as [lv Ev].
    split; [exists n; split; [congruence|rewrite En; apply in_or_app; auto]|].
    repeat (split; [congruence|]).
    split; [rewrite Ev, H10; apply in_or_app; left; apply in_or_app; right; left; reflexivity|].
    destruct (ST t) as [Q|Q]; [|exact Q].
    pose proof (fo_tstops _ _ F t) as X. rewrite (H12 t), Nat.eqb_refl in X. specialize (X eq_refl).
    rewrite Q, N in X. discriminate.
  Qed.

  (** a split: the vertex ends in a node where two new vertices begin *)
  Theorem C65_split s e side0 step s' :
    let now := ev_time (es s e) in let t := ev_tri (es s e) in
    let v := get3 (t_v (ts s t)) side0 in
    let v1 := get3 (t_v (ts s t)) (ccw side0) in
    let v2 := get3 (t_v (ts s t)) (cw side0) in
    registered s -> ev_tp (es s e) = Split -> ev_side (es s e) = [side0] -> t_stops (ts s t) = None ->
    v < nv s -> v1 < nv s -> v2 < nv s -> handle_event e step s = Ok (tt, s') ->
    k_inf_fast (vs s' (nv s)) = false -> k_inf_fast (vs s' (S (nv s))) = false ->
    exists n, ended_at s' v n now /\
      begun_at s' (nv s) n now (k_ul (vs s v)) (k_ul (vs s v2)) /\
      begun_at s' (S (nv s)) n now (k_ur (vs s v1)) (k_ur (vs s v)) /\
      only_ends s s' [v] /\ nv s' = S (S (nv s)) /\ sk_vertices s' = sk_vertices s ++ [nv s; S (nv s)] /\
      removes s s' t now /\ nodes_with s s' n.
  Proof.
    intros now t v v1 v2 R Tp Sd N L L1 L2 H NB NA. unfold handle_event in H. do 2 ro_next H.
    fold t in H. rewrite N, Tp in H. cbn in H.
    apply (split_effects _ _ side0) in H; auto. fold t now v v1 v2 in H.
    destruct H as (n & s6 & H1 & H2 & H3 & H4 & H5 & H6 & H7 & H8 & H9 & H10 & H11 & H12 & H13 & H14 & H15).
    rewrite (H15 NB NA). exists n. split; [exact H1|].
    destruct (H2 (nv s) (or_introl eq_refl)) as (P1 & P2 & P3 & P4).
    destruct (H2 (S (nv s)) (or_intror eq_refl)) as (Q1 & Q2 & Q3 & Q4).
    split; [repeat split; assumption|]. split; [repeat split; assumption|].
    split. { intros w Lw Nw. apply H9; [exact Lw|]. intros ->. apply Nw. left. reflexivity. }
    repeat (split; [assumption|]). exact H11.
  Qed.

  (** a flip ends nothing, begins nothing and removes nothing *)
  Theorem C65_flip s e step s' :
    ev_tp (es s e) = Flip -> t_stops (ts s (ev_tri (es s e))) = None -> handle_event e step s = Ok (tt, s') ->
    only_ends s s' [] /\ nv s' = nv s /\ sk_vertices s' = sk_vertices s /\ sk_nodes s' = sk_nodes s /\
    (forall n, ns s' n = ns s n) /\ (forall t, t_stops (ts s' t) = t_stops (ts s t)).
  Proof.
    intros Tp N H. unfold handle_event in H. do 2 ro_next H. rewrite N, Tp in H. cbn in H.
    apply flip_effects in H. destruct H.
    split; [intros v _ _; auto|]. repeat (split; [assumption|]). split; [congruence|assumption].
  Qed.
End C65.
Print Assumptions C65_times.
Print Assumptions C65_three.
Print Assumptions C65_one.
Print Assumptions C65_edge.
Print Assumptions C65_edge_fast.
Print Assumptions C65_split.
Print Assumptions C65_flip.

(** ** Cases: the event handled after [k] others in a run *)
Definition next_k (k : nat) (s : state (A:=QA)) (P : state (A:=QA) -> nat -> state (A:=QA) -> bool) : bool :=
  match run_k k s with
  | Ok (now, _, s) =>
      match take_next now s with
      | Ok ((e, _), s1) => match handle_event e 7 s1 with Ok (_, s') => P s1 e s' | Err _ => false end
      | Err _ => false
      end
  | Err _ => false
  end.
Lemma next_ok k s P : next_k k s P = true ->
  exists s0 now tr sk e now' s1 s', started s s0 /\ reach s0 now tr sk /\ length tr = k /\
    take_next now sk = Ok ((e, now'), s1) /\ handle_event e 7 s1 = Ok (tt, s') /\ P s1 e s' = true.
Proof.
  intros H.
  assert (X : exists s0 now tr sk, started s s0 /\ reach s0 now tr sk /\ length tr = k /\
     (fun now (_ : list (handled (A:=QA))) sk => match take_next now sk with
      | Ok ((e, _), s1) => match handle_event e 7 s1 with Ok (_, s') => P s1 e s' | Err _ => false end
      | Err _ => false end) now tr sk = true).
  { apply example_k. unfold next_k in H. unfold holds_k. destruct (run_k k s) as [[[now tr] sk]|]; [exact H|discriminate]. }
  clear H. destruct X as (s0 & now & tr & sk & X1 & X2 & X3 & X4). cbv beta in X4.
  destruct (take_next now sk) as [[[e n1] s1]|] eqn:T; [|discriminate].
  destruct (handle_event e 7 s1) as [[[] s']|] eqn:D; [|discriminate].
  exists s0, now, tr, sk, e, n1, s1, s'. repeat (split; [assumption|]). exact X4.
Qed.
Definition endsb (s : state (A:=QA)) (v n : nat) (now : Q) : bool :=
  onat_eqb (k_stop_node (vs s v)) (Some n) && match k_stops (vs s v) with Some z => Qeq_bool z now | None => false end.
Definition kindb (s : state (A:=QA)) (e : nat) (tp : evtype) (sd : list side) (now : Q) (k : nat) : bool :=
  match ev_tp (es s e), tp with Edge, Edge | Flip, Flip | Split, Split => true | _, _ => false end &&
  (length (ev_side (es s e)) =? length sd) && forallb (fun p => side_eqb (fst p) (snd p)) (combine (ev_side (es s e)) sd) && Qeq_bool (ev_time (es s e)) now &&
  Nat.eqb (tri_type (ts s (ev_tri (es s e)))) k && is_none (t_stops (ts s (ev_tri (es s e)))).
Definition beginsb (s : state (A:=QA)) (v n : nat) (now : Q) : bool :=
  onat_eqb (k_start_node (vs s v)) (Some n) && is_none (k_stops (vs s v)) && negb (k_inf_fast (vs s v)) &&
  match k_starts (vs s v) with Some z => Qeq_bool z now | None => false end.

(** the right triangle: three vertices end in node 3 at time 1 *)
Example C65_three_case : next_k 0 rt2 (fun s e s' => kindb s e Edge sides 1%Q 3 &&
  forallb (fun v => endsb s' v 3 1%Q) [0; 1; 2] && (nv s' =? 3) && (length (sk_nodes s') =? 4) &&
  is_some (t_stops (ts s' 0))) = true.
Proof. vm_compute. reflexivity. Qed.
(** the quadrilateral: vertices 0 and 3 end in node 4 at time 3/2, vertex 4 begins there *)
Example C65_edge_case : next_k 0 quad (fun s e s' => kindb s e Edge [S1] (3#2)%Q 2 &&
  endsb s' 0 4 (3#2)%Q && endsb s' 3 4 (3#2)%Q && beginsb s' 4 4 (3#2)%Q && (nv s' =? 5) &&
  is_none (k_stops (vs s' 1)) && is_none (k_stops (vs s' 2)) && is_some (t_stops (ts s' 1)) && is_none (t_stops (ts s' 0))) = true.
Proof. vm_compute. reflexivity. Qed.
(** the rectangle: the new vertex is infinitely fast *)
Example C65_edge_fast_case : next_k 0 rect (fun s e s' => kindb s e Edge [S0] 1%Q 2 &&
  k_inf_fast (vs s' 4) && is_some (t_stops (ts s' 0)) && is_some (k_stops (vs s' 1)) && is_some (k_stops (vs s' 2))) = true.
Proof. vm_compute. reflexivity. Qed.
(** the notch: vertex 3 ends in node 5 at time 4/3, vertices 5 and 6 begin there *)
Example C65_split_case : next_k 0 notch (fun s e s' => kindb s e Split [S2] (4#3)%Q 1 &&
  endsb s' 3 5 (4#3)%Q && beginsb s' 5 5 (4#3)%Q && beginsb s' 6 5 (4#3)%Q && (nv s' =? 7) &&
  forallb (fun v => is_none (k_stops (vs s' v))) [0; 1; 2; 4] && is_some (t_stops (ts s' 0))) = true.
Proof. vm_compute. reflexivity. Qed.
(** vertex 0 crosses the opposite side of its triangle at time 1 *)
Definition cross : state (A:=QA) :=
  st [mv (0, 1) (0, -1) 0 0 0; mv (-2, 0) (0, 0) 1 0 0; mv (2, 0) (0, 0) 2 0 0;
      mv (0, -5) (1, -2) 3 0 0; mv (4, 4) (1, 1) 4 0 0; mv (-4, 4) (-1, 2) 5 0 0]%Q
     [tr 0 1 2 (Some 1%nat) (Some 2%nat) (Some 3%nat); tr 3 2 1 (Some 0%nat) None None;
      tr 4 0 2 (Some 0%nat) None None; tr 5 1 0 (Some 0%nat) None None]
     [nd 0 1; nd (-2) 0; nd 2 0; nd 0 (-5); nd 4 4; nd (-4) 4]%Q []
     [wf (0, 1) 0]%Q [] [].
Example C65_flip_case : next_k 0 cross (fun s e s' => kindb s e Flip [S0] 1%Q 0 &&
  forallb (fun v => is_none (k_stops (vs s' v))) (seq 0 6) && forallb (fun t => is_none (t_stops (ts s' t))) (seq 0 4)) = true.
Proof. vm_compute. reflexivity. Qed.
(** all of these states satisfy [registered] *)
Example C65_registered : registered rt2 /\ registered quad /\ registered rect /\ registered notch.
Proof. repeat split; first [apply rt2_fresh|apply quad_fresh|apply rect_fresh|apply notch_fresh]. Qed.

(** ** C66: the one-sided collapse of a triangle bounded by three wavefronts *)
(** Claimed: every vertex that an event ends, ends in a node that lies where the
    vertex is at that time.  The docstring of handle_edge_event_1side has the
    triangle collapse to a line segment, so that a segment remains to be drawn.
    Its second call of stop_kvertices however gets a vertex that starts at [now],
    so the node of the first call is used again ([C65_one]).  In [wedge] the
    vertex 0 stays at (0,0), but its skeleton edge leads from (0,0) to (4,0). *)
Definition wedge : state (A:=QA) :=
  st [lnk (mv (0, 0) (0, 0) 0 2 0) 2 1; lnk (mv (4, -1) (0, 1) 1 0 1) 0 2; lnk (mv (4, 1) (0, -1) 2 1 2) 1 0]%Q
     [tr 0 1 2 None None None] [nd 0 0; nd 4 (-1); nd 4 1]%Q []
     [wf (-(3#5), (4#5)) 0; wf (-1, 0) 4; wf (-(3#5), -(4#5)) 0]%Q [] [].
Lemma wedge_fresh : fresh wedge.
Proof. apply st_fresh; fresh_list. Qed.
Definition ends_in_place {A : Arith} (s' : state (A:=A)) (v : nat) : Prop :=
  forall n t p, k_stop_node (vs s' v) = Some n -> k_stops (vs s' v) = Some t -> position_at s' v t = Ok p ->
    neqb (fst p) (fst (sn_pos (ns s' n))) = true /\ neqb (snd p) (snd (sn_pos (ns s' n))) = true.
Theorem C66_in_place_refuted : exists s : state (A:=QA), fresh s /\
  exists s0 now tr sk e now' s1 s', started s s0 /\ reach s0 now tr sk /\
    take_next now sk = Ok ((e, now'), s1) /\ handle_event e 7 s1 = Ok (tt, s') /\
    exists v, v < nv s1 /\ k_stops (vs s1 v) = None /\ ~ ends_in_place s' v.
Proof.
  exists wedge. split; [exact wedge_fresh|].
  destruct (next_ok 0 wedge (fun s1 e s' => (0 <? nv s1) && is_none (k_stops (vs s1 0)) &&
     match k_stop_node (vs s' 0), k_stops (vs s' 0) with
     | Some n, Some t => match position_at s' 0 t with
         | Ok p => negb (Qeq_bool (fst p) (fst (sn_pos (ns s' n)))) | Err _ => false end
     | _, _ => false end)) as (s0 & now & tr & sk & e & now' & s1 & s' & H1 & H2 & _ & H3 & H4 & H5).
  { vm_compute. reflexivity. }
  exists s0, now, tr, sk, e, now', s1, s'. repeat (split; [assumption|]). clear - H5.
  apply Bool.andb_true_iff in H5. destruct H5 as [H5 H6]. apply Bool.andb_true_iff in H5. destruct H5 as [H5 H7].
  exists 0. split; [apply Nat.ltb_lt; exact H5|]. split; [destruct (k_stops (vs s1 0)); [discriminate|reflexivity]|].
  intros P. destruct (k_stop_node (vs s' 0)) as [n|] eqn:B1; [|discriminate].
  destruct (k_stops (vs s' 0)) as [t|] eqn:B2; [|discriminate].
  destruct (position_at s' 0 t) as [p|] eqn:B3; [|discriminate].
  destruct (P n t p B1 B2 B3) as [Q _].
  match type of H6 with negb ?b = true => assert (Z : b = true) by exact Q; rewrite Z in H6 end. discriminate.
Qed.
Print Assumptions C66_in_place_refuted.
(** the edge between the two ends of the segment has no length *)
Theorem C66_segment_empty {A : Arith} {E : Env A} s e side0 step s' :
  let now := ev_time (es s e) in let t := ev_tri (es s e) in
  let v0 := get3 (t_v (ts s t)) side0 in
  let v1 := get3 (t_v (ts s t)) (ccw side0) in
  let v2 := get3 (t_v (ts s t)) (cw side0) in
  ev_tp (es s e) = Edge -> ev_side (es s e) = [side0] -> t_n (ts s t) = mk3 None None None ->
  t_stops (ts s t) = None ->
  near_zero (nsub now now) = true -> v0 <> v1 -> v0 <> v2 -> v0 < nv s -> v1 < nv s -> v2 < nv s ->
  handle_event e step s = Ok (tt, s') ->
  k_start_node (vs s' (nv s)) = k_stop_node (vs s' (nv s)) /\ k_stop_node (vs s' v0) = k_stop_node (vs s' v1).
Proof.
  intros now t v0 v1 v2 H1 H2 H3 H4 H5 H6 H7 H8 H9 H10 H.
  destruct (C65_one s e side0 step s' H1 H2 H3 H4 H5 H6 H7 H8 H9 H10 H) as (n & K & K1 & _).
  destruct (K (nv s)) as [X _]; [right; right; right; left; reflexivity|].
  destruct (K v0) as [X0 _]; [left; reflexivity|]. destruct (K v1) as [X1 _]; [right; left; reflexivity|].
  split; congruence.
Qed.
Print Assumptions C66_segment_empty.
Example C65_one_case : next_k 0 wedge (fun s e s' => kindb s e Edge [S0] 1%Q 3 &&
  forallb (fun v => endsb s' v 3 1%Q) [0; 1; 2; 3] && (nv s' =? 4) &&
  onat_eqb (k_start_node (vs s' 3)) (Some 3) && Qeq_bool (fst (sn_pos (ns s' 3))) 4%Q) = true.
Proof. vm_compute. reflexivity. Qed.
