(** Theorems about the triangulation: flips (C44) and the events (C45) *)
From Coq Require Import Reals Lra.
From Verif Require Import Base Arith ArithQ Calc VectorOps Line2d Primitives Collapse CollapseProofs EventsLib
  FlipEvent ParallelEvent EdgeEvent SplitEvent EventLoop Pass OpSpec Order StopSpec RunBase RunTimed RunLoop
  Decent Total FanProofs TotalRun Mesh MeshEvents MeshEdge MeshRun Scenario ScenarioRun Properties_total.
Local Close Scope Q_scope.

(** ** Deciding the conditions, for the examples *)
Section Decide.
  Context {A : Arith} {E : Env A}.
  Definition activeb (s : state) (u : nat) : bool := mem Nat.eqb u (sk_triangles s) && is_none (t_stops (ts s u)).
  Definition distinctb (s : state) (u : nat) : bool :=
    forallb (fun i => forallb (fun j => side_eqb i j || negb (corner s u i =? corner s u j)) sides) sides.
  Definition sharesb (s : state) (t : nat) (i : side) (n : nat) (j : side) : bool :=
    (corner s n (ccw j) =? corner s t (cw i)) && (corner s n (cw j) =? corner s t (ccw i)).
  Definition linkedb (s : state) : bool :=
    forallb (fun t => negb (activeb s t) || forallb (fun i => match link s t i with
      | None => true
      | Some n => activeb s n && existsb (fun j => onat_eqb (link s n j) (Some t) && sharesb s t i n j) sides
      end) sides) (sk_triangles s).
  Definition oppositeb (s : state) (t : nat) : bool :=
    forallb (fun i => match link s t i with
      | None => true
      | Some n => forallb (fun j => negb (corner s t i =? corner s n j)) sides
      end) sides.
  Definition regularb (s : state) (e : nat) : bool :=
    let t := ev_tri (es s e) in
    mem Nat.eqb t (sk_triangles s) && forallb (fun u => negb (activeb s u) || distinctb s u) (sk_triangles s) &&
    oppositeb s t &&
    (negb (length (ev_side (es s e)) =? 3) ||
     forallb (fun i => match link s t i with None => true | Some n => is_some (t_event (ts s n)) end) sides).

  Lemma side_in i : In i sides. Proof. destruct i; simpl; auto. Qed.
  Lemma mem_nat u l : mem Nat.eqb u l = true <-> In u l.
  Proof.
    unfold mem. rewrite existsb_exists. split.
    - intros (x & H & K). apply Nat.eqb_eq in K. subst x. exact H.
    - intros H. exists u. split; [exact H|apply Nat.eqb_refl].
  Qed.
  Lemma activeb_ok s u : activeb s u = true <-> active s u.
  Proof.
    unfold activeb, active. rewrite Bool.andb_true_iff, mem_nat.
    destruct (t_stops (ts s u)); simpl; split; intros [? ?]; split; auto; discriminate.
  Qed.
  Lemma distinctb_ok s u : distinctb s u = true -> distinct s u.
  Proof.
    unfold distinctb. rewrite forallb_forall. intros H i j K. specialize (H i (side_in i)).
    rewrite forallb_forall in H. specialize (H j (side_in j)). rewrite K, Nat.eqb_refl in H.
    destruct (side_eqb_spec i j); [assumption|discriminate].
  Qed.
  Lemma sharesb_ok s t i n j : sharesb s t i n j = true <-> shares s t i n j.
  Proof. unfold sharesb, shares. rewrite Bool.andb_true_iff, !Nat.eqb_eq. tauto. Qed.
  Lemma onat_eqb_ok a b : onat_eqb a b = true -> a = b.
  Proof. destruct a, b; simpl; try discriminate; auto. rewrite Nat.eqb_eq. congruence. Qed.
  Lemma linkedb_ok s : linkedb s = true -> linked (active s) s.
  Proof.
    unfold linkedb. rewrite forallb_forall. intros H t i n Dt Hl.
    destruct Dt as [D1 D2]. specialize (H t D1).
    assert (Q : activeb s t = true) by (apply activeb_ok; split; auto). rewrite Q in H. cbn [negb orb] in H.
    rewrite forallb_forall in H. specialize (H i (side_in i)). rewrite Hl in H.
    apply Bool.andb_true_iff in H. destruct H as [H1 H2]. split; [apply activeb_ok, H1|].
    apply existsb_exists in H2. destruct H2 as (j & _ & H2). apply Bool.andb_true_iff in H2. destruct H2 as [H2 H3].
    exists j. split; [apply onat_eqb_ok, H2|apply sharesb_ok, H3].
  Qed.
  Lemma oppositeb_ok s t : oppositeb s t = true -> opposite s t.
  Proof.
    unfold oppositeb. rewrite forallb_forall. intros H i n j H1 _ _ K. specialize (H i (side_in i)). rewrite H1 in H.
    rewrite forallb_forall in H. specialize (H j (side_in j)). rewrite K, Nat.eqb_refl in H. discriminate.
  Qed.
  Lemma regularb_ok s e : regularb s e = true -> regular s e.
  Proof.
    unfold regularb. rewrite !Bool.andb_true_iff. intros (((H1 & H2) & H4) & H5). constructor.
    - apply mem_nat, H1.
    - intros u Du. rewrite forallb_forall in H2. pose proof Du as [D1 _]. specialize (H2 u D1). apply activeb_ok in Du. rewrite Du in H2. apply distinctb_ok, H2.
    - apply oppositeb_ok, H4.
    - intros _ L i n Hl. rewrite L in H5. simpl in H5. pose proof (side_in i) as Hi.
      assert (Q : (match link s (ev_tri (es s e)) i with None => true | Some n => is_some (t_event (ts s n)) end) = true).
      { destruct i; unfold link in *; repeat (apply Bool.andb_true_iff in H5; destruct H5 as [? H5]); assumption. }
      rewrite Hl in Q. destruct (t_event (ts s n)); discriminate.
  Qed.
End Decide.

(** the loop is deterministic *)
Lemma go_snoc : forall k now tr s now1 tr1 s1 e now2 s2 s3,
  go k now tr s = Ok (now1, tr1, s1) -> take_next now1 s1 = Ok ((e, now2), s2) ->
  handle_event e (Z.of_nat (S (length tr1))) s2 = Ok (tt, s3) ->
  go (S k) now tr s = Ok (now2, tr1 ++ [mkH (match immediate s1 with [] => true | _ => false end) e (ev_time (es s1 e))], s3).
Proof.
  induction k as [|k IH]; intros now tr s now1 tr1 s1 e now2 s2 s3 H T K.
  - cbn [go] in H. injection H as <- <- <-. cbn [go]. rewrite T, K. reflexivity.
  - cbn [go] in H.
    remember (S k) as k'. cbn [go]. subst k'.
    destruct (take_next now s) as [[[e0 n0'] s0]|]; [|discriminate].
    destruct (handle_event e0 _ s0) as [[[] s4]|]; [|discriminate].
    apply (IH _ _ _ _ _ _ _ _ _ _ H T K).
Qed.
Lemma reach_go s0 now tr s : reach s0 now tr s -> go (length tr) 0%Q [] s0 = Ok (now, tr, s).
Proof.
  unfold reach. intros R. induction R as [|now tr s e now' s1 s' R IH T H]; [reflexivity|].
  rewrite app_length. cbn [length]. rewrite Nat.add_1_r. eapply go_snoc; eauto.
Qed.

(** every event of the first [k] is regular *)
Definition regular_at (s0 : state (A := QA)) (j : nat) : bool :=
  match go j 0%Q [] s0 with
  | Ok (now, _, s1) => match take_next now s1 with Ok ((e, _), s2) => regularb s2 e | Err _ => true end
  | Err _ => true
  end.
Lemma regular_run s0 k : forallb (regular_at s0) (seq 0 k) = true ->
  forall now1 tr1 s1 e now2 s2, reach s0 now1 tr1 s1 -> length tr1 < k ->
    take_next now1 s1 = Ok ((e, now2), s2) -> regular s2 e.
Proof.
  intros H now1 tr1 s1 e now2 s2 R L T. rewrite forallb_forall in H. specialize (H (length tr1)).
  rewrite in_seq in H. specialize (H ltac:(lia)). unfold regular_at in H.
  rewrite (reach_go _ _ _ _ R), T in H. apply regularb_ok, H.
Qed.

(** ** C44: the flip *)
(** Two triangles that share a side are changed into the two triangles on the
    other diagonal of the quadrilateral they form. *)
Theorem C44_flip :
  forall (A : Arith) (E : Env A) (D : nat -> Prop) s t0 i0 t1 i1,
  linked D s -> (forall u, D u -> distinct s u) -> D t0 ->
  link s t0 i0 = Some t1 -> link s t1 i1 = Some t0 -> shares s t0 i0 t1 i1 ->
  corner s t0 i0 <> corner s t1 i1 ->
  let pA := corner s t0 i0 in let pB := corner s t0 (ccw i0) in
  let pC := corner s t1 i1 in let pD := corner s t0 (cw i0) in
  exists s', flip t0 i0 t1 i1 s = Ok (tt, s') /\
    (* only triangles change *)
    s' = with_ts s (ts s') /\
    (* the quadrilateral A B C D with diagonal A C *)
    t_v (ts s' t0) = mk3 pA pB pC /\ t_v (ts s' t1) = mk3 pC pD pA /\
    link s' t0 S1 = Some t1 /\ link s' t1 S1 = Some t0 /\
    (* the outer sides keep their neighbours *)
    link s' t0 S2 = link s t0 (cw i0) /\ link s' t0 S0 = link s t1 (ccw i1) /\
    link s' t1 S2 = link s t1 (cw i1) /\ link s' t1 S0 = link s t0 (ccw i0) /\
    (* other triangles: at most links to the two triangles change *)
    (forall u, u <> t0 -> u <> t1 -> t_v (ts s' u) = t_v (ts s u) /\ t_event (ts s' u) = t_event (ts s u) /\
       t_stops (ts s' u) = t_stops (ts s u) /\ t_info (ts s' u) = t_info (ts s u) /\ t_internal (ts s' u) = t_internal (ts s u)) /\
    (forall u j, u <> t0 -> u <> t1 -> link s u j <> Some t0 -> link s u j <> Some t1 -> link s' u j = link s u j) /\
    (forall u, t_event (ts s' u) = t_event (ts s u) /\ t_stops (ts s' u) = t_stops (ts s u)) /\
    (* the triangulation is again consistent *)
    linked D s' /\ (forall u, D u -> distinct s' u).
Proof.
  intros A E D s t0 i0 t1 i1 L DI D0 H1 H2 H3 H4 pA pB pC pD.
  destruct (flip_spec D s t0 i0 t1 i1 L DI D0 H1 H2 H3 H4) as (s' & F1 & F2 & F3 & F4 & F5 & F6 & F7 & F8 & F9 & F10 & F11).
  exists s'. split; [exact F1|]. split; [exact F2|]. split; [exact F3|]. split; [exact F5|].
  unfold link at 1 2 3 5 7 9. rewrite F4, F6. repeat (split; [reflexivity|]).
  split; [|split; [|split; [exact F9|split; [exact F10|exact F11]]]].
  - intros u N0 N1. specialize (F7 u N0 N1 (t_n (ts s u))).
    assert (Q : forall X (f : ktri -> X), (forall a y, f (tri_n a y) = f a) -> f (ts s' u) = f (ts s u)).
    { intros X f Hf. rewrite <- (Hf (ts s' u) (t_n (ts s u))), F7. apply Hf. }
    repeat split; apply Q; reflexivity.
  - intros u j N0 N1 K0 K1. destruct (F8 u j N0 N1) as [K|(i & t & [K|K] & _)]; [exact K|congruence|congruence].
Qed.
Print Assumptions C44_flip.

(** with positions [p] of the vertices, twice the signed area of the two
    triangles together does not change *)
Definition area2 (p : nat -> R * R) (v : triple nat) : R :=
  let a := p (x0 v) in let b := p (x1 v) in let c := p (x2 v) in
  ((fst b - fst a) * (snd c - snd a) - (snd b - snd a) * (fst c - fst a))%R.
Theorem C44_flip_area :
  forall (A : Arith) (E : Env A) s t0 i0 t1 i1 s' (p : nat -> R * R),
  t0 <> t1 -> flip t0 i0 t1 i1 s = Ok (tt, s') ->
  (area2 p (t_v (ts s' t0)) + area2 p (t_v (ts s' t1)) = area2 p (t_v (ts s t0)) + area2 p (t_v (ts s t1)))%R.
Proof.
  intros A E s t0 i0 t1 i1 s' p N H. unfold flip in H.
  apply bind_ok in H. destruct H as (x & q1 & K & H). apply gets_ok in K. destruct K as [-> ->].
  apply bind_ok in H. destruct H as (y & q1 & K & H). apply gets_ok in K. destruct K as [-> ->].
  apply bind_ok in H. destruct H as (u1 & q1 & K & H). apply assertM_ok in K. destruct K as [A1 ->].
  apply bind_ok in H. destruct H as (u2 & q1 & K & H). apply assertM_ok in K. destruct K as [A2 ->].
  apply Nat.eqb_eq in A1, A2.
  apply bind_ok in H. destruct H as (u3 & q1 & K & H). apply assertM_ok in K. destruct K as [_ ->].
  apply bind_ok in H. destruct H as (u4 & q1 & K & H). apply assertM_ok in K. destruct K as [_ ->].
  apply bind_ok in H. destruct H as (a & q1 & K & H). apply ro_ok in K; [|auto with ro]. subst q1.
  apply bind_ok in H. destruct H as (b & q1 & K & H). apply ro_ok in K; [|auto with ro]. subst q1.
  apply bind_ok in H. destruct H as (c & q1 & K & H). apply ro_ok in K; [|auto with ro]. subst q1.
  apply bind_ok in H. destruct H as (d & q1 & K & H). apply ro_ok in K; [|auto with ro]. subst q1.
  apply bind_ok in H. destruct H as (u5 & q1 & _ & H).
  apply bind_ok in H. destruct H as (u6 & q2 & _ & H).
  apply bind_ok in H. destruct H as (u7 & q3 & _ & H).
  apply bind_ok in H. destruct H as (u8 & q4 & _ & H).
  apply bind_ok in H. destruct H as (u9 & q5 & K5 & H). apply modt_spec in K5.
  apply bind_ok in H. destruct H as (u10 & q6 & K6 & H). apply modt_spec in K6.
  apply bind_ok in H. destruct H as (u11 & q7 & K7 & H). apply modt_spec in K7.
  apply modt_spec in H.
  assert (V0 : t_v (ts s' t0) = mk3 (get3 (t_v (ts s t0)) i0) (get3 (t_v (ts s t0)) (ccw i0)) (get3 (t_v (ts s t1)) i1)).
  { subst s' q7 q6 q5. cbn. rewrite !upd_other by auto. rewrite !upd_same. reflexivity. }
  assert (V1 : t_v (ts s' t1) = mk3 (get3 (t_v (ts s t1)) i1) (get3 (t_v (ts s t0)) (cw i0)) (get3 (t_v (ts s t0)) i0)).
  { subst s' q7 q6 q5. cbn. rewrite !upd_same. reflexivity. }
  rewrite V0, V1. clear - A1 A2. unfold area2. cbn [x0 x1 x2].
  destruct (t_v (ts s t0)) as [a0 a1 a2], (t_v (ts s t1)) as [b0 b1 b2].
  destruct i0, i1; cbn in *; subst; ring.
Qed.
Print Assumptions C44_flip_area.

(** the two triangles of [quad] share the diagonal 0-2; the flip gives 1-3 *)
Example C44_example :
  linkedb quad && regularb quad 0 &&
  onat_eqb (link quad 0 S1) (Some 1) && onat_eqb (link quad 1 S2) (Some 0) && sharesb quad 0 S1 1 S2 &&
  negb (corner quad 0 S1 =? corner quad 1 S2) &&
  match flip 0 S1 1 S2 quad with
  | Ok (_, s') => linkedb s' &&
      (corner s' 0 S0 =? 1) && (corner s' 0 S1 =? 2) && (corner s' 0 S2 =? 3) &&
      (corner s' 1 S0 =? 3) && (corner s' 1 S1 =? 0) && (corner s' 1 S2 =? 1)
  | Err _ => false
  end = true.
Proof. vm_compute. reflexivity. Qed.
(** ... and with three more triangles around, links are redirected *)
Example C44_example_around :
  linkedb notch && onat_eqb (link notch 0 S0) (Some 1) && onat_eqb (link notch 1 S1) (Some 0) &&
  match flip 0 S0 1 S1 notch with
  | Ok (_, s') => linkedb s' && onat_eqb (link notch 2 S2) (Some 0) && onat_eqb (link s' 2 S2) (Some 1)
  | Err _ => false
  end = true.
Proof. vm_compute. reflexivity. Qed.

(** ** C45: events keep the active triangles consistently linked *)
(** One event, in any state.  [active] triangles are those not yet stopped.  The
    only links that may be left inconsistent are those of a neighbour without
    an event of a triangle that collapsed to a point (see [C45_idle_refuted]). *)
Theorem C45_event :
  forall (A : Arith) (E : Env A) s e step s',
  registered s -> shaped s -> linked (active s) s -> (forall u, active s u -> distinct s u) ->
  In (ev_tri (es s e)) (sk_triangles s) -> opposite s (ev_tri (es s e)) ->
  handle_event e step s = Ok (tt, s') ->
  (forall v, nv s <= v < nv s' -> k_inf_fast (vs s' v) = false) ->
  (forall u i w, active s' u -> link s' u i = Some w ->
     (active s' w /\ exists j, link s' w j = Some u /\ shares s' u i w j) \/
     (length (ev_side (es s e)) = 3 /\ ev_tp (es s e) = Edge /\ w = ev_tri (es s e) /\
      (exists m, link s w m = Some u) /\ t_event (ts s u) = None)) /\
  (forall u, t_stops (ts s' u) = t_stops (ts s u) \/ u = ev_tri (es s e) /\ t_stops (ts s' u) = Some (ev_time (es s e))).
Proof. intros A E. apply event_mesh. Qed.
Print Assumptions C45_event.

(** A whole run: if every event is [regular] and no infinitely fast vertex is
    created, the active triangles stay consistently linked. *)
Theorem C45_run :
  forall (A : Arith) (E : Env A) s0 now tr s,
  registered s0 -> shaped s0 -> linked (active s0) s0 -> reach s0 now tr s ->
  (forall now1 tr1 s1 e now2 s2, reach s0 now1 tr1 s1 -> length tr1 < length tr ->
     take_next now1 s1 = Ok ((e, now2), s2) -> regular s2 e) ->
  (forall v, nv s0 <= v < nv s -> k_inf_fast (vs s v) = false) ->
  linked (active s) s.
Proof. intros A E. apply run_mesh. Qed.
Print Assumptions C45_run.

(** the hypotheses of [C45_run] for the first [k] events of a run *)
Definition slowb (s : state (A := QA)) : bool := forallb (fun v => negb (k_inf_fast (vs s v))) (seq 0 (nv s)).
Definition mesh_run (k : nat) (s0 s' : state (A := QA)) : bool :=
  linkedb s0 && forallb (regular_at s0) (seq 0 k) && slowb s'.
Lemma mesh_example k s : fresh s -> shaped s ->
  holds_k k s (fun _ _ s' => match init_event_list s with
     | Ok (_, s1) => mesh_run k (with_qi s1 (queue s1) []) s' | Err _ => false end) = true ->
  exists s0 now tr s', started s s0 /\ reach s0 now tr s' /\ length tr = k /\ linked (active s') s'.
Proof.
  intros F SH H. apply example_k in H. destruct H as (s0 & now & tr & s' & S & R & L & H).
  exists s0, now, tr, s'. split; [exact S|]. split; [exact R|]. split; [exact L|].
  pose proof S as (s1 & I & ->). rewrite I in H. unfold mesh_run in H. rewrite !Bool.andb_true_iff in H. destruct H as [[H1 H2] H3].
  destruct (init_timed QA_ord QE_addr _ _ F S) as ((RG & _) & _).
  apply (C45_run QA QE _ now tr s' RG (started_shaped QA_ord QE_addr _ _ F SH S) (linkedb_ok _ H1) R).
  - rewrite L. apply regular_run, H2.
  - intros v Hv. unfold slowb in H3. rewrite forallb_forall in H3. specialize (H3 v). rewrite in_seq in H3.
    specialize (H3 ltac:(lia)). destruct (k_inf_fast (vs s' v)); [discriminate|reflexivity].
Qed.
(** a split event and an edge event *)
Example C45_example_split : exists s0 now tr s', started notch s0 /\ reach s0 now tr s' /\ length tr = 3 /\ linked (active s') s'.
Proof. apply (mesh_example 3 notch notch_fresh notch_shaped). vm_compute. reflexivity. Qed.
Example C45_example_edge : exists s0 now tr s', started quad s0 /\ reach s0 now tr s' /\ length tr = 2 /\ linked (active s') s'.
Proof. apply (mesh_example 2 quad quad_fresh quad_shaped). vm_compute. reflexivity. Qed.
(** two triangles of the square: a triangle that collapses to a point, and its
    neighbour, which then has an immediate event *)
Lemma square_shaped : shaped square.
Proof. apply st_shaped; [discriminate| |]; shape_list. Qed.
Example C45_example_point : exists s0 now tr s', started square s0 /\ reach s0 now tr s' /\ length tr = 2 /\ linked (active s') s'.
Proof. apply (mesh_example 2 square square_fresh square_shaped). vm_compute. reflexivity. Qed.

(** Without the restriction on neighbours that have no event the claim is false:
    such a neighbour stays active and keeps its link to the stopped triangle. *)
Definition idle : state (A:=QA) :=
  st [lnk (mv (0, 0) (1, 1) 0 3 0) 3 1; lnk (mv (2, 0) (-1, 1) 1 0 1) 0 2;
      lnk (mv (2, 2) (-1, -1) 2 1 2) 1 3; lnk (mv (0, 2) (1, -1) 3 2 3) 2 0]%Q
     [tr 0 1 2 None (Some 1%nat) None; tr 0 2 3 None None (Some 0%nat)]
     [nd 0 0; nd 2 0; nd 2 2; nd 0 2]%Q [mkEv (A:=QA) 1%Q 0 sides Edge 2]
     [wf (0, 1) 0; wf (-1, 0) 2; wf (0, -1) 2; wf (1, 0) 0]%Q [] [].
Theorem C45_idle_refuted : exists (s : state (A:=QA)) e s',
  registered s /\ shaped s /\ linked (active s) s /\ (forall u, active s u -> distinct s u) /\
  In (ev_tri (es s e)) (sk_triangles s) /\ opposite s (ev_tri (es s e)) /\
  handle_event e 1 s = Ok (tt, s') /\ (forall v, nv s <= v < nv s' -> k_inf_fast (vs s' v) = false) /\
  ~ linked (active s') s'.
Proof.
  assert (R : registered idle).
  { pose proof (fr_reg _ square_fresh) as [R1 R2 R3 R4]. constructor; assumption. }
  assert (SH : shaped idle) by (apply st_shaped; [discriminate| |]; shape_list).
  assert (LK : linked (active idle) idle) by (apply linkedb_ok; vm_compute; reflexivity).
  assert (DI : forall u, active idle u -> distinct idle u).
  { intros u [U _]. apply distinctb_ok. change (sk_triangles idle) with [0; 1] in U.
    destruct U as [<-|[<-|[]]]; vm_compute; reflexivity. }
  assert (T : In (ev_tri (es idle 0)) (sk_triangles idle)) by (left; reflexivity).
  assert (OP : opposite idle (ev_tri (es idle 0))) by (apply oppositeb_ok; vm_compute; reflexivity).
  assert (G : forall s' : state (A := QA),
     slowb s' && activeb s' 1 && onat_eqb (link s' 1 S2) (Some 0) && negb (activeb s' 0) = true ->
     (forall v, nv idle <= v < nv s' -> k_inf_fast (vs s' v) = false) /\ ~ linked (active s') s').
  { intros s' H. rewrite !Bool.andb_true_iff in H. destruct H as [[[H1 H2] H3] H4]. split.
    - intros v Hv. unfold slowb in H1. rewrite forallb_forall in H1. specialize (H1 v). rewrite in_seq in H1.
      specialize (H1 ltac:(lia)). destruct (k_inf_fast (vs s' v)); [discriminate|reflexivity].
    - intros L. apply activeb_ok in H2. apply onat_eqb_ok in H3. destruct (L 1 S2 0 H2 H3) as [Q _].
      apply activeb_ok in Q. rewrite Q in H4. discriminate. }
  assert (H : match handle_event 0 1 idle with
    | Ok (_, s') => slowb s' && activeb s' 1 && onat_eqb (link s' 1 S2) (Some 0) && negb (activeb s' 0)
    | Err _ => false end = true) by (vm_compute; reflexivity).
  destruct (handle_event 0 1 idle) as [[[] s']|] eqn:K; [|discriminate H].
  apply G in H. destruct H as [H1 H2].
  exists idle, 0, s'. exact (conj R (conj SH (conj LK (conj DI (conj T (conj OP (conj K (conj H1 H2)))))))).
Qed.
Print Assumptions C45_idle_refuted.
