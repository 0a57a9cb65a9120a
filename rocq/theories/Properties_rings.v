(** Theorems about the rings of kinetic vertices around the active triangles (C71)
    and the consistency checks of check.py (C72) *)
From Verif Require Import Base Arith ArithQ Calc VectorOps Line2d Primitives Collapse CollapseProofs EventsLib
  FlipEvent ParallelEvent EdgeEvent SplitEvent EventLoop Check Pass OpSpec Order StopSpec RunBase RunTimed RunLoop
  Decent Total FanProofs TotalRun Mesh MeshEvents MeshEdge MeshRun Rings RingEdge RingSplit RingFlip EdgeHead
  RingSpec RingGone RingRun Current RingLeft Scenario ScenarioRun Properties_total Properties_mesh Properties_effects.
Local Close Scope Q_scope.
Local Open Scope nat_scope.

(** ** Deciding the conditions, for the examples *)
Section Decide.
  Context {A : Arith} {E : Env A}.
  Definition stoppedb (s : state) (v : nat) : bool := is_some (k_stops (vs s v)).
  Definition left_overb (s : state) (t : nat) (i : side) : bool :=
    activeb s t && is_none (link s t i) && stoppedb s (corner s t (ccw i)) && stoppedb s (corner s t (cw i)).
  Definition touchesb (s : state) (t : nat) (i : side) (v : nat) : bool :=
    (v =? corner s t (ccw i)) || (v =? corner s t (cw i)).
  Definition jointb (s : state) (a b : nat) : bool :=
    onat_eqb (kright (vs s a)) (Some b) && onat_eqb (kleft (vs s b)) (Some a) &&
    onat_eqb (k_wfr (vs s a)) (k_wfl (vs s b)) && onat_eqb (k_ur (vs s a)) (k_ul (vs s b)).
  Definition pairs (s : state) : list (nat * side) := list_prod (sk_triangles s) sides.
  Definition at_vertex (s : state) (v : nat) : list (nat * side) :=
    filter (fun p => activeb s (fst p) && (corner s (fst p) (snd p) =? v)) (pairs s).
  (** walk from a triangle to the left *)
  Fixpoint walk_star (k : nat) (s : state) (v : nat) (o : option nat) : list (nat * side) :=
    match k, o with
    | S k, Some t => match find (fun i => corner s t i =? v) sides with
                     | Some i => (t, i) :: walk_star k s v (link s t (ccw i))
                     | None => [] end
    | _, _ => []
    end.
  Definition star_of (s : state) (v : nat) : list (nat * side) :=
    match find (fun p => is_none (link s (fst p) (cw (snd p)))) (at_vertex s v) with
    | Some (t, _) => walk_star (length (sk_triangles s)) s v (Some t)
    | None => []
    end.
  Definition pair_eqb (p q : nat * side) : bool := (fst p =? fst q) && side_eqb (snd p) (snd q).
  Fixpoint nodupb (l : list (nat * side)) : bool :=
    match l with [] => true | x :: r => negb (mem pair_eqb x r) && nodupb r end.
  Fixpoint chainb (s : state) (p : option nat) (l : list (nat * side)) : bool :=
    match l with
    | [] => true
    | (t, i) :: r => onat_eqb (link s t (cw i)) p && onat_eqb (link s t (ccw i)) (hd_t r None) && chainb s (Some t) r
    end.
  Definition starb (s : state) (v : nat) : bool :=
    let l := star_of s v in
    nodupb l && chainb s None l && forallb (fun p => mem pair_eqb p (at_vertex s v)) l &&
    forallb (fun p => mem pair_eqb p l) (at_vertex s v).
  Definition fittingb (s : state) : bool :=
    linkedb s &&
    forallb (fun p => let '(t, i) := p in negb (activeb s t) || is_some (link s t i) || left_overb s t i ||
      jointb s (corner s t (ccw i)) (corner s t (cw i))) (pairs s) &&
    forallb (fun p => let '(t, i) := p in negb (activeb s t) || starb s (corner s t i)) (pairs s) &&
    forallb (fun p => let '(t, i) := p in negb (activeb s t) || negb (stoppedb s (corner s t i)) ||
      existsb (fun q => left_overb s (fst q) (snd q) && touchesb s (fst q) (snd q) (corner s t i)) (pairs s)) (pairs s).
  Definition tidyb (s : state) (e : nat) : bool :=
    let t := ev_tri (es s e) in
    match ev_tp (es s e), ev_side (es s e) with
    | Edge, [i] => (tri_type (ts s t) =? 3) ||
        forallb (fun q => let '(u, j) := q in negb (left_overb s u j) ||
          negb (touchesb s u j (corner s t (ccw i)) || touchesb s u j (corner s t (cw i))) || pair_eqb q (t, i)) (pairs s)
    | Edge, [_; _; _] => existsb (fun m => forallb (fun k => side_eqb k m || is_none (link s t k)) sides) sides
    | Split, [i] => forallb (fun q => let '(u, j) := q in negb (left_overb s u j) ||
          (negb (pair_eqb q (t, i)) && negb (touchesb s u j (corner s t i)))) (pairs s)
    | _, _ => true
    end.

  Lemma stoppedb_ok s v : stoppedb s v = true <-> stopped s v.
  Proof. unfold stoppedb, stopped. destruct (k_stops (vs s v)); cbn; split; congruence. Qed.
  Lemma is_none_ok {X} (o : option X) : is_none o = true <-> o = None.
  Proof. destruct o; cbn; split; congruence. Qed.
  Lemma left_overb_ok s t i : left_overb s t i = true <-> left_over s t i.
  Proof.
    unfold left_overb, left_over. rewrite !Bool.andb_true_iff, activeb_ok, !stoppedb_ok, is_none_ok. tauto.
  Qed.
  Lemma touchesb_ok s t i v : touchesb s t i v = true <-> touches s t i v.
  Proof. unfold touchesb, touches. rewrite Bool.orb_true_iff, !Nat.eqb_eq. tauto. Qed.
  Lemma jointb_ok s a b : jointb s a b = true -> joint s a b.
  Proof. unfold jointb, joint. rewrite !Bool.andb_true_iff. intros (((H1 & H2) & H3) & H4). repeat split; apply onat_eqb_ok; assumption. Qed.
  Lemma pair_eqb_ok p q : pair_eqb p q = true <-> p = q.
  Proof.
    destruct p as [t i], q as [u j]. unfold pair_eqb. cbn. rewrite Bool.andb_true_iff, Nat.eqb_eq.
    destruct (side_eqb_spec i j); split; intros H; try (split; congruence); destruct H; congruence.
  Qed.
  Lemma mem_pair p l : mem pair_eqb p l = true <-> In p l.
  Proof.
    unfold mem. rewrite existsb_exists. split.
    - intros (x & H & K). apply pair_eqb_ok in K. subst x. exact H.
    - intros H. exists p. split; [exact H|apply pair_eqb_ok; reflexivity].
  Qed.
  Lemma pairs_in s t i : In t (sk_triangles s) -> In (t, i) (pairs s).
  Proof. intros H. apply in_prod; [exact H|apply side_in]. Qed.
  Lemma nodupb_ok l : nodupb l = true -> NoDup l.
  Proof.
    induction l as [|x l IH]; cbn; [constructor|]. rewrite Bool.andb_true_iff, Bool.negb_true_iff. intros [H1 H2]. constructor; [|auto].
    rewrite <- mem_pair, H1. discriminate.
  Qed.
  Lemma chainb_ok s : forall l p, chainb s p l = true -> chain s p l None.
  Proof.
    induction l as [|[t i] l IH]; intros p; cbn; [auto|]. rewrite !Bool.andb_true_iff. intros [[H1 H2] H3].
    split; [apply onat_eqb_ok, H1|]. split; [apply onat_eqb_ok, H2|apply IH, H3].
  Qed.
  Lemma at_vertex_in s v t i : In (t, i) (at_vertex s v) <-> active s t /\ corner s t i = v.
  Proof.
    unfold at_vertex. rewrite filter_In. cbn [fst snd]. rewrite Bool.andb_true_iff, activeb_ok, Nat.eqb_eq.
    split; [tauto|]. intros [H K]. split; [|auto]. apply pairs_in, H.
  Qed.
  Lemma starb_ok s v : starb s v = true -> star s v (star_of s v).
  Proof.
    unfold starb. rewrite !Bool.andb_true_iff, !forallb_forall. intros (((H1 & H2) & H3) & H4). constructor.
    - apply nodupb_ok, H1.
    - apply chainb_ok, H2.
    - intros t i. rewrite <- at_vertex_in. split; intros K; [apply H3 in K|apply H4 in K]; apply mem_pair, K.
  Qed.
  Lemma fittingb_ok s : fittingb s = true -> fitting s.
  Proof.
    unfold fittingb. rewrite !Bool.andb_true_iff, !forallb_forall. intros (((H1 & H2) & H3) & H4).
    constructor.
    - apply linkedb_ok, H1.
    - intros t i At Hl. pose proof (proj1 At) as T. specialize (H2 (t, i) (pairs_in s t i T)). cbv beta iota in H2.
      apply activeb_ok in At. rewrite At, Hl in H2. cbn [negb is_some is_none orb] in H2.
      apply Bool.orb_true_iff in H2. destruct H2 as [H2|H2]; [left; apply left_overb_ok, H2|right; apply jointb_ok, H2].
    - intros v _. destruct (at_vertex s v) as [|[t i] r] eqn:Q.
      + exists []. constructor; [constructor|exact I|]. intros t i. rewrite <- at_vertex_in, Q. tauto.
      + exists (star_of s v). apply starb_ok.
        assert (K : In (t, i) (at_vertex s v)) by (rewrite Q; left; reflexivity).
        apply at_vertex_in in K. destruct K as [At <-]. pose proof (proj1 At) as T.
        specialize (H3 (t, i) (pairs_in s t i T)). cbv beta iota in H3. apply activeb_ok in At. rewrite At in H3. exact H3.
    - intros t i At _ St. pose proof (proj1 At) as T. specialize (H4 (t, i) (pairs_in s t i T)). cbv beta iota in H4.
      apply activeb_ok in At. apply stoppedb_ok in St. rewrite At, St in H4. cbn [negb orb] in H4.
      apply existsb_exists in H4. destruct H4 as ([u j] & _ & H4). apply Bool.andb_true_iff in H4. destruct H4 as [K1 K2].
      exists u, j. split; [apply left_overb_ok, K1|apply touchesb_ok, K2].
  Qed.
  Lemma tidyb_ok s e : tidyb s e = true -> tidy s e.
  Proof.
    unfold tidyb. intros H. constructor.
    - intros i H1 H2 H3 u j LO TC. rewrite H1, H2 in H. apply Nat.eqb_neq in H3. rewrite H3 in H. cbn [orb] in H.
      rewrite forallb_forall in H. specialize (H (u, j) (pairs_in s u j (proj1 (proj1 LO)))). cbv beta iota in H.
      apply left_overb_ok in LO. rewrite LO in H. cbn [negb orb] in H. apply Bool.orb_true_iff in H. destruct H as [H|H].
      + rewrite Bool.negb_true_iff, Bool.orb_false_iff in H. destruct H as [K1 K2].
        destruct TC as [TC|TC]; apply touchesb_ok in TC; congruence.
      + apply pair_eqb_ok in H. split; congruence.
    - intros H1 H2. rewrite H1 in H. destruct (ev_side (es s e)) as [|a [|b [|c [|]]]]; try discriminate.
      apply existsb_exists in H. destruct H as (m & _ & H). exists m. intros k N. rewrite forallb_forall in H.
      specialize (H k (side_in k)). destruct (side_eqb_spec k m); [contradiction|]. apply is_none_ok, H.
    - intros i H1 H2. rewrite H1, H2 in H. rewrite forallb_forall in H.
      assert (K : forall u j, left_over s u j -> (u, j) <> (ev_tri (es s e), i) /\ ~ touches s u j (corner s (ev_tri (es s e)) i)).
      { intros u j LO. specialize (H (u, j) (pairs_in s u j (proj1 (proj1 LO)))). cbv beta iota in H.
        apply left_overb_ok in LO. rewrite LO in H. cbn [negb orb] in H. rewrite Bool.andb_true_iff, !Bool.negb_true_iff in H.
        destruct H as [K1 K2]. split.
        - intros Q. apply pair_eqb_ok in Q. congruence.
        - intros Q. apply touchesb_ok in Q. congruence. }
      split; [|intros u j LO; apply K, LO]. intros LO. exact (proj1 (K _ _ LO) eq_refl).
  Qed.
End Decide.

(** ** C71: the rings fit the active triangles *)
(** One event, in any state. *)
Theorem C71_event :
  forall (A : Arith) (E : Env A) s e step s',
  registered s -> shaped s -> fitting s -> regular s e -> (t_stops (ts s (ev_tri (es s e))) = None -> tidy s e) ->
  handle_event e step s = Ok (tt, s') ->
  (forall v, nv s <= v < nv s' -> k_inf_fast (vs s' v) = false) ->
  (forall u, active s' u -> distinct s' u) -> fitting s'.
Proof. intros A E. apply event_fitting. Qed.
Print Assumptions C71_event.

(** A whole run. *)
Theorem C71_run :
  forall (A : Arith) (E : Env A) s0 now tr s,
  registered s0 -> shaped s0 -> fitting s0 -> reach s0 now tr s ->
  (forall now1 tr1 s1 e now2 s2, reach s0 now1 tr1 s1 -> length tr1 < length tr ->
     take_next now1 s1 = Ok ((e, now2), s2) -> regular s2 e /\ (t_stops (ts s2 (ev_tri (es s2 e))) = None -> tidy s2 e)) ->
  (forall now1 tr1 s1, reach s0 now1 tr1 s1 -> length tr1 <= length tr -> forall u, active s1 u -> distinct s1 u) ->
  (forall v, nv s0 <= v < nv s -> k_inf_fast (vs s v) = false) ->
  fitting s.
Proof. intros A E. apply run_fitting. Qed.
Print Assumptions C71_run.

(** the hypotheses of [C71_run] for the first [k] events of a run *)
Definition tidy_at (s0 : state (A := QA)) (j : nat) : bool :=
  match go j 0%Q [] s0 with
  | Ok (now, _, s1) => forallb (fun u => negb (activeb s1 u) || distinctb s1 u) (sk_triangles s1) &&
      match take_next now s1 with
      | Ok ((e, _), s2) => regularb s2 e && (is_some (t_stops (ts s2 (ev_tri (es s2 e)))) || tidyb s2 e)
      | Err _ => true end
  | Err _ => true
  end.
Definition ring_run (k : nat) (s0 s' : state (A := QA)) : bool :=
  fittingb s0 && forallb (tidy_at s0) (seq 0 (S k)) && slowb s'.
Lemma ring_example k s P : fresh s -> shaped s ->
  holds_k k s (fun _ _ s' => match init_event_list s with
     | Ok (_, s1) => ring_run k (with_qi s1 (queue s1) []) s' | Err _ => false end && P s') = true ->
  exists s0 now tr s', started s s0 /\ reach s0 now tr s' /\ length tr = k /\ fitting s' /\ P s' = true.
Proof.
  intros F SH H. apply example_k in H. destruct H as (s0 & now & tr & s' & S & R & L & H).
  apply Bool.andb_true_iff in H. destruct H as [H HP].
  exists s0, now, tr, s'. split; [exact S|]. split; [exact R|]. split; [exact L|]. split; [|exact HP].
  pose proof S as (s1 & I & ->). rewrite I in H. unfold ring_run in H. rewrite !Bool.andb_true_iff in H. destruct H as [[H1 H2] H3].
  destruct (init_timed QA_ord QE_addr _ _ F S) as ((RG & _) & _).
  rewrite forallb_forall in H2.
  assert (TA : forall now1 tr1 s2, reach (with_qi s1 (queue s1) []) now1 tr1 s2 -> length tr1 <= k ->
     forallb (fun u => negb (activeb s2 u) || distinctb s2 u) (sk_triangles s2) &&
      match take_next now1 s2 with
      | Ok ((e, _), s2) => regularb s2 e && (is_some (t_stops (ts s2 (ev_tri (es s2 e)))) || tidyb s2 e)
      | Err _ => true end = true).
  { intros now1 tr1 s2 R1 L1. specialize (H2 (length tr1)). rewrite in_seq in H2. specialize (H2 ltac:(lia)).
    unfold tidy_at in H2. rewrite (reach_go _ _ _ _ R1) in H2. exact H2. }
  clear H2. rewrite <- L in TA.
  apply (C71_run QA QE _ now tr s' RG (started_shaped QA_ord QE_addr _ _ F SH S) (fittingb_ok _ H1) R).
  - intros now1 tr1 s2 e now2 s3 R1 L1 T. specialize (TA now1 tr1 s2 R1 ltac:(lia)).
    apply Bool.andb_true_iff in TA. destruct TA as [_ TA]. rewrite T in TA.
    apply Bool.andb_true_iff in TA. destruct TA as [T1 T2]. split; [apply regularb_ok, T1|].
    intros Q. rewrite Q in T2. cbn [is_some is_none negb orb] in T2. apply tidyb_ok, T2.
  - intros now1 tr1 s2 R1 L1 u Au. specialize (TA now1 tr1 s2 R1 L1).
    apply Bool.andb_true_iff in TA. destruct TA as [TA _]. rewrite forallb_forall in TA. specialize (TA u (proj1 Au)).
    apply activeb_ok in Au. rewrite Au in TA. apply distinctb_ok, TA.
  - intros v Hv. unfold slowb in H3. rewrite forallb_forall in H3. specialize (H3 v). rewrite in_seq in H3.
    specialize (H3 ltac:(lia)). destruct (k_inf_fast (vs s' v)); [discriminate|reflexivity].
Qed.
(** whether some side is left over *)
Definition has_left (s : state (A := QA)) : bool := existsb (fun q => left_overb s (fst q) (snd q)) (pairs s).
(** the vertices of [cross] in a ring *)
Definition ring6 : state (A:=QA) :=
  st [lnk (mv (0, 1) (0, -1) 0 0 0) 4 5; lnk (mv (-2, 0) (0, 0) 1 0 0) 5 3; lnk (mv (2, 0) (0, 0) 2 0 0) 3 4;
      lnk (mv (0, -5) (1, -2) 3 0 0) 1 2; lnk (mv (4, 4) (1, 1) 4 0 0) 2 0; lnk (mv (-4, 4) (-1, 2) 5 0 0) 0 1]%Q
     [tr 0 1 2 (Some 1%nat) (Some 2%nat) (Some 3%nat); tr 3 2 1 (Some 0%nat) None None;
      tr 4 0 2 (Some 0%nat) None None; tr 5 1 0 (Some 0%nat) None None]
     [nd 0 1; nd (-2) 0; nd 2 0; nd 0 (-5); nd 4 4; nd (-4) 4]%Q []
     [wf (0, 1) 0]%Q [] [].
(** an hourglass: the reflex vertices (0,-1) and (0,1) meet, which ends the side
    between them from both sides, and leaves two triangles *)
Definition hour : state (A:=QA) :=
  st [lnk (mv (-4, -4) (1, 2) 0 5 0) 5 1; lnk (mv (0, -1) (0, (5#4)) 1 0 1) 0 2; lnk (mv (4, -4) (-1, 2) 2 1 2) 1 3;
      lnk (mv (4, 4) (-1, -2) 3 2 3) 2 4; lnk (mv (0, 1) (0, -(5#4)) 4 3 4) 3 5; lnk (mv (-4, 4) (1, -2) 5 4 5) 4 0]%Q
     [tr 0 1 4 (Some 2%nat) (Some 1%nat) None; tr 0 4 5 None None (Some 0%nat);
      tr 1 2 4 (Some 3%nat) (Some 0%nat) None; tr 2 3 4 None (Some 2%nat) None]
     [nd (-4) (-4); nd 0 (-1); nd 4 (-4); nd 4 4; nd 0 1; nd (-4) 4]%Q []
     [wf (-(3#5), (4#5)) (4#5); wf ((3#5), (4#5)) (4#5); wf (-1, 0) 4; wf ((3#5), -(4#5)) (4#5); wf (-(3#5), -(4#5)) (4#5); wf (1, 0) 4]%Q [] [].
Lemma ring6_fresh : fresh ring6. Proof. apply st_fresh; fresh_list. Qed.
Lemma ring6_shaped : shaped ring6. Proof. apply st_shaped; [discriminate| |]; shape_list. Qed.
Lemma hour_fresh : fresh hour. Proof. apply st_fresh; fresh_list. Qed.
Lemma hour_shaped : shaped hour. Proof. apply st_shaped; [discriminate| |]; shape_list. Qed.
(** an edge event; a split event; a flip event; a triangle that collapses to a point,
    after which a side of its neighbour is left over *)
Example C71_example_edge : exists s0 now tr s', started quad s0 /\ reach s0 now tr s' /\ length tr = 1 /\ fitting s' /\
  jointb s' 4 1 && jointb s' 2 4 && negb (has_left s') = true.
Proof. apply (ring_example 1 quad _ quad_fresh quad_shaped). vm_compute. reflexivity. Qed.
Example C71_example_split : exists s0 now tr s', started notch s0 /\ reach s0 now tr s' /\ length tr = 1 /\ fitting s' /\
  activeb s' 1 && activeb s' 2 && jointb s' 0 6 && jointb s' 5 1 && negb (has_left s') = true.
Proof. apply (ring_example 1 notch _ notch_fresh notch_shaped). vm_compute. reflexivity. Qed.
Example C71_example_flip : exists s0 now tr s', started ring6 s0 /\ reach s0 now tr s' /\ length tr = 1 /\ fitting s' /\
  activeb s' 0 && (corner s' 0 S0 =? 0) && (corner s' 0 S1 =? 1) && (corner s' 0 S2 =? 3) = true.
Proof. apply (ring_example 1 ring6 _ ring6_fresh ring6_shaped). vm_compute. reflexivity. Qed.
Example C71_example_point : exists s0 now tr s', started square s0 /\ reach s0 now tr s' /\ length tr = 1 /\ fitting s' /\
  activeb s' 1 && has_left s' = true.
Proof. apply (ring_example 1 square _ square_fresh square_shaped). vm_compute. reflexivity. Qed.
(** the hourglass: after its first event a side is left over, after the second the
    two rings are closed, after all four nothing is active any more *)
Example C71_example_spoke : exists s0 now tr s', started hour s0 /\ reach s0 now tr s' /\ length tr = 1 /\ fitting s' /\
  activeb s' 2 && left_overb s' 2 S1 = true.
Proof. apply (ring_example 1 hour _ hour_fresh hour_shaped). vm_compute. reflexivity. Qed.
Example C71_example_closed : exists s0 now tr s', started hour s0 /\ reach s0 now tr s' /\ length tr = 2 /\ fitting s' /\
  activeb s' 1 && activeb s' 3 && negb (has_left s') = true.
Proof. apply (ring_example 2 hour _ hour_fresh hour_shaped). vm_compute. reflexivity. Qed.
Example C71_example_end : exists s0 now tr s', started hour s0 /\ reach s0 now tr s' /\ length tr = 4 /\ fitting s' /\
  forallb (fun t => negb (activeb s' t)) (seq 0 4) = true.
Proof. apply (ring_example 4 hour _ hour_fresh hour_shaped). vm_compute. reflexivity. Qed.

(** ** C72: the consistency checks *)
Section Checks.
  Context {A : Arith} {E : Env A}.
  Lemma rforall_ok {X} (f : X -> res unit) l : rforall f l = Ok tt <-> forall x, In x l -> f x = Ok tt.
  Proof.
    induction l as [|a l IH]; cbn; [tauto|]. unfold rbind. destruct (f a) as [[]|] eqn:Q.
    - rewrite IH. split; [intros H x [<-|K]; auto|auto].
    - split; [discriminate|intros H; specialize (H a (or_introl eq_refl)); congruence].
  Qed.
  Lemma rassert_ok b : rassert b = Ok tt <-> b = true.
  Proof. destruct b; cbn; split; congruence. Qed.
End Checks.

(** In a state whose rings fit, the neighbours of active triangles are active. *)
Theorem C72_active :
  forall (A : Arith) (E : Env A) s, fitting s -> check_active_triangles s (sk_triangles s) = Ok tt.
Proof.
  intros A E s F. unfold check_active_triangles. apply rforall_ok. intros t Ht. destruct (t_stops (ts s t)) eqn:ST; [reflexivity|].
  cbn [is_none]. apply rforall_ok. intros sd _. destruct (get3 (t_n (ts s t)) sd) as [n|] eqn:LN; [|reflexivity].
  apply rassert_ok. destruct (fi_linked _ F t sd n (conj Ht ST) LN) as ((_ & Q) & _). rewrite Q. reflexivity.
Qed.
Print Assumptions C72_active.

(** No side is left over exactly if the check of the kinetic vertices succeeds. *)
Theorem C72_kinetic :
  forall (A : Arith) (E : Env A) s, fitting s -> ends s ->
  (check_kinetic_vertices s (sk_triangles s) = Ok tt <-> forall u j, ~ left_over s u j).
Proof.
  intros A E s F EN. unfold check_kinetic_vertices. rewrite rforall_ok. split.
  - intros H u j (Du & LN & S1 & _). specialize (H u (proj1 Du)). rewrite (proj2 Du) in H. cbn [is_none] in H.
    rewrite rforall_ok in H. specialize (H (ccw j) (side_in _)). destruct (EN u j Du LN) as [Q _].
    unfold corner in Q, S1. cbv zeta in H. rewrite Q in H. apply rassert_ok in H. unfold stopped in S1.
    destruct (k_stops _); [discriminate|contradiction].
  - intros H t Ht. destruct (t_stops (ts s t)) eqn:ST; [reflexivity|]. cbn [is_none]. apply rforall_ok. intros sd _. cbv zeta.
    destruct (k_inf _) eqn:K; [reflexivity|]. apply rassert_ok. destruct (k_stops _) eqn:Q; [|reflexivity]. exfalso.
    destruct (fi_stop _ F t sd (conj Ht ST) K) as (u & j & LO & _); [|exact (H u j LO)].
    unfold stopped, corner. rewrite Q. discriminate.
Qed.
Print Assumptions C72_kinetic.

(** If no side is left over, the ends of every wavefront side point to each other. *)
Theorem C72_links :
  forall (A : Arith) (E : Env A) s, fitting s -> ends s -> (forall u j, ~ left_over s u j) ->
  check_wavefront_links s (sk_triangles s) = Ok tt.
Proof.
  intros A E s F EN N. unfold check_wavefront_links. apply rforall_ok. intros t Ht. destruct (t_stops (ts s t)) eqn:ST; [reflexivity|].
  cbn [is_none]. apply rforall_ok. intros sd _. destruct (get3 (t_n (ts s t)) sd) as [n|] eqn:LN; [reflexivity|]. cbn [is_none].
  destruct (EN t sd (conj Ht ST) LN) as [E1 E2].
  destruct (fi_ring _ F t sd (conj Ht ST) LN) as [Q|(J1 & J2 & _)]; [destruct (N t sd Q)|].
  unfold point_to_each_other. unfold corner in *. rewrite E2. cbn zeta. rewrite J2, J1, E1. cbn [onat_eqb]. rewrite !Nat.eqb_refl. reflexivity.
Qed.
Print Assumptions C72_links.

(** Whenever no immediate event waits, all three checks succeed. *)
Theorem C72_run :
  forall (A : Arith) (E : Env A), OrdArith A -> (forall t u : nat, addr t = addr u -> t = u) ->
  forall s s0 now tr s', fresh s -> shaped s -> started s s0 ->
  fitting s0 -> ends s0 -> (forall u j, ~ left_over s0 u j) -> reach s0 now tr s' ->
  (forall now1 tr1 s1 e now2 s2, reach s0 now1 tr1 s1 -> length tr1 < length tr ->
     take_next now1 s1 = Ok ((e, now2), s2) -> regular s2 e /\ (t_stops (ts s2 (ev_tri (es s2 e))) = None -> calm s2 e)) ->
  (forall now1 tr1 s1, reach s0 now1 tr1 s1 -> length tr1 <= length tr -> forall u, active s1 u -> distinct s1 u) ->
  (forall v, nv s0 <= v < nv s' -> k_inf_fast (vs s' v) = false) ->
  immediate s' = [] ->
  check_active_triangles s' (sk_triangles s') = Ok tt /\
  check_kinetic_vertices s' (sk_triangles s') = Ok tt /\
  check_wavefront_links s' (sk_triangles s') = Ok tt.
Proof.
  intros A E O addr_inj s s0 now tr s' F SH ST FI EN NL R RG DD NF IM.
  destruct (init_timed O addr_inj _ _ F ST) as (T0 & _). pose proof (started_shaped O addr_inj _ _ F SH ST) as SH0.
  destruct (run_hot O addr_inj s0 now tr s' T0 SH0 FI EN NL R RG DD NF) as (F' & E' & _).
  pose proof (run_clean O addr_inj s0 now tr s' T0 SH0 FI EN NL R RG DD NF IM) as N'.
  split; [exact (C72_active A E s' F')|]. split; [exact (proj2 (C72_kinetic A E s' F' E') N')|exact (C72_links A E s' F' E' N')].
Qed.
Print Assumptions C72_run.

(** Between two events the sides left over are those of triangles whose events are immediate. *)
Theorem C72_left :
  forall (A : Arith) (E : Env A), OrdArith A -> (forall t u : nat, addr t = addr u -> t = u) ->
  forall s s0 now tr s', fresh s -> shaped s -> started s s0 ->
  fitting s0 -> ends s0 -> (forall u j, ~ left_over s0 u j) -> reach s0 now tr s' ->
  (forall now1 tr1 s1 e now2 s2, reach s0 now1 tr1 s1 -> length tr1 < length tr ->
     take_next now1 s1 = Ok ((e, now2), s2) -> regular s2 e /\ (t_stops (ts s2 (ev_tri (es s2 e))) = None -> calm s2 e)) ->
  (forall now1 tr1 s1, reach s0 now1 tr1 s1 -> length tr1 <= length tr -> forall u, active s1 u -> distinct s1 u) ->
  (forall v, nv s0 <= v < nv s' -> k_inf_fast (vs s' v) = false) ->
  forall u j, left_over s' u j -> exists e, t_event (ts s' u) = Some e /\ In e (immediate s').
Proof.
  intros A E O addr_inj s s0 now tr s' F SH ST FI EN NL R RG DD NF u j LO.
  destruct (init_timed O addr_inj _ _ F ST) as (T0 & _). pose proof (started_shaped O addr_inj _ _ F SH ST) as SH0.
  destruct (run_hot O addr_inj s0 now tr s' T0 SH0 FI EN NL R RG DD NF) as (_ & _ & Q). exact (Q u j LO).
Qed.
Print Assumptions C72_left.

(** the hypotheses of [C72_run] for the first [k] events of a run *)
Section DecideCalm.
  Context {A : Arith} {E : Env A}.
  Definition front_endsb (s : state) : bool :=
    forallb (fun p => let '(u, j) := p in negb (activeb s u) || is_some (link s u j) ||
      negb (k_inf (vs s (corner s u (ccw j)))) && negb (k_inf (vs s (corner s u (cw j))))) (pairs s).
  Definition no_left (s : state) : bool := forallb (fun q => negb (left_overb s (fst q) (snd q))) (pairs s).
  Definition calmb (s : state) (e : nat) : bool :=
    let t := ev_tri (es s e) in
    forallb (fun p => let '(u, j) := p in negb (left_overb s u j) || (u =? t) &&
      match ev_tp (es s e) with Edge => true | _ => false end && mem side_eqb j (ev_side (es s e))) (pairs s) &&
    forallb (fun p => let '(u, j) := p in negb (activeb s u) || (u =? t) || is_some (link s u j) ||
      negb (existsb (fun k => corner s u (ccw j) =? corner s t k) sides) ||
      negb (existsb (fun k => corner s u (cw j) =? corner s t k) sides)) (pairs s) &&
    match ev_tp (es s e), ev_side (es s e) with
    | Edge, [i] => match link s t i with Some n => is_some (t_event (ts s n)) | None => true end
    | Edge, [_; _; _] => existsb (fun m => forallb (fun k => side_eqb k m || is_none (link s t k)) sides) sides
    | _, _ => true
    end.
  Lemma mem_side j l : mem side_eqb j l = true -> In j l.
  Proof.
    unfold mem. intros H. apply existsb_exists in H. destruct H as (x & H1 & H2).
    destruct (side_eqb_spec j x); [subst; exact H1|discriminate].
  Qed.
  Lemma front_endsb_ok s : front_endsb s = true -> ends s.
  Proof.
    unfold front_endsb. rewrite forallb_forall. intros H u j Du LN. specialize (H (u, j) (pairs_in s u j (proj1 Du))). cbv beta iota in H.
    apply activeb_ok in Du. rewrite Du, LN in H. cbn [negb orb is_some is_none] in H. apply Bool.andb_true_iff in H.
    rewrite !Bool.negb_true_iff in H. exact H.
  Qed.
  Lemma no_left_ok s : no_left s = true -> forall u j, ~ left_over s u j.
  Proof.
    unfold no_left. rewrite forallb_forall. intros H u j LO. specialize (H (u, j) (pairs_in s u j (proj1 (proj1 LO)))).
    cbn [fst snd] in H. apply left_overb_ok in LO. rewrite LO in H. discriminate.
  Qed.
  Lemma calmb_ok s e : calmb s e = true -> calm s e.
  Proof.
    unfold calmb. rewrite !Bool.andb_true_iff, !forallb_forall. intros [[H1 H2] H3]. constructor.
    - intros u j LO. specialize (H1 (u, j) (pairs_in s u j (proj1 (proj1 LO)))). cbv beta iota in H1.
      apply left_overb_ok in LO. rewrite LO in H1. cbn [negb orb] in H1. rewrite !Bool.andb_true_iff in H1.
      destruct H1 as [[K1 K2] K3]. apply Nat.eqb_eq in K1. apply mem_side in K3. destruct (ev_tp (es s e)); try discriminate. auto.
    - intros u j k m Du Nu LN C1 C2. specialize (H2 (u, j) (pairs_in s u j (proj1 Du))). cbv beta iota in H2.
      apply activeb_ok in Du. apply Nat.eqb_neq in Nu. rewrite Du, Nu, LN in H2. cbn [negb orb is_some is_none] in H2.
      apply Bool.orb_true_iff in H2. rewrite !Bool.negb_true_iff in H2. destruct H2 as [H2|H2].
      + assert (K : existsb (fun k => corner s u (ccw j) =? corner s (ev_tri (es s e)) k) sides = true).
        { apply existsb_exists. exists k. split; [apply side_in|apply Nat.eqb_eq, C1]. }
        congruence.
      + assert (K : existsb (fun k => corner s u (cw j) =? corner s (ev_tri (es s e)) k) sides = true).
        { apply existsb_exists. exists m. split; [apply side_in|apply Nat.eqb_eq, C2]. }
        congruence.
    - intros i n TP SE LN. rewrite TP, SE, LN in H3. destruct (t_event (ts s n)); discriminate.
    - intros TP L3. rewrite TP in H3. destruct (ev_side (es s e)) as [|a [|b [|c [|]]]]; try discriminate.
      apply existsb_exists in H3. destruct H3 as (m & _ & H). exists m. intros k N. rewrite forallb_forall in H.
      specialize (H k (side_in k)). destruct (side_eqb_spec k m); [contradiction|]. apply is_none_ok, H.
  Qed.
End DecideCalm.
Definition calm_at (s0 : state (A := QA)) (j : nat) : bool :=
  match go j 0%Q [] s0 with
  | Ok (now, _, s1) => forallb (fun u => negb (activeb s1 u) || distinctb s1 u) (sk_triangles s1) &&
      match take_next now s1 with
      | Ok ((e, _), s2) => regularb s2 e && (is_some (t_stops (ts s2 (ev_tri (es s2 e)))) || calmb s2 e)
      | Err _ => true end
  | Err _ => true
  end.
Definition calm_run (k : nat) (s0 s' : state (A := QA)) : bool :=
  fittingb s0 && front_endsb s0 && no_left s0 && forallb (calm_at s0) (seq 0 (S k)) && slowb s'.
Definition all_checks (s : state (A := QA)) : Prop :=
  check_active_triangles s (sk_triangles s) = Ok tt /\ check_kinetic_vertices s (sk_triangles s) = Ok tt /\
  check_wavefront_links s (sk_triangles s) = Ok tt.
Lemma calm_example k s P : fresh s -> shaped s ->
  holds_k k s (fun _ _ s' => match init_event_list s with
     | Ok (_, s1) => calm_run k (with_qi s1 (queue s1) []) s' | Err _ => false end && P s') = true ->
  exists s0 now tr s', started s s0 /\ reach s0 now tr s' /\ length tr = k /\ (immediate s' = [] -> all_checks s') /\
    (forall u j, left_over s' u j -> exists e, t_event (ts s' u) = Some e /\ In e (immediate s')) /\ P s' = true.
Proof.
  intros F SH H. apply example_k in H. destruct H as (s0 & now & tr & s' & S & R & L & H).
  apply Bool.andb_true_iff in H. destruct H as [H HP].
  exists s0, now, tr, s'. split; [exact S|]. split; [exact R|]. split; [exact L|].
  pose proof S as (s1 & I & E0). rewrite I in H. rewrite <- E0 in H. unfold calm_run in H. rewrite !Bool.andb_true_iff in H.
  destruct H as [[[[H1 H0] HL] H2] H3]. clear I E0 s1.
  rewrite forallb_forall in H2.
  assert (TA : forall now1 tr1 s2, reach s0 now1 tr1 s2 -> length tr1 <= k ->
     forallb (fun u => negb (activeb s2 u) || distinctb s2 u) (sk_triangles s2) &&
      match take_next now1 s2 with
      | Ok ((e, _), s2) => regularb s2 e && (is_some (t_stops (ts s2 (ev_tri (es s2 e)))) || calmb s2 e)
      | Err _ => true end = true).
  { intros now1 tr1 s2 R1 L1. specialize (H2 (length tr1)). rewrite in_seq in H2. specialize (H2 ltac:(lia)).
    unfold calm_at in H2. rewrite (reach_go _ _ _ _ R1) in H2. exact H2. }
  clear H2. rewrite <- L in TA.
  assert (RG : forall now1 tr1 s1 e now2 s2, reach s0 now1 tr1 s1 -> length tr1 < length tr ->
     take_next now1 s1 = Ok ((e, now2), s2) -> regular s2 e /\ (t_stops (ts s2 (ev_tri (es s2 e))) = None -> calm s2 e)).
  { intros now1 tr1 s2 e now2 s3 R1 L1 T. specialize (TA now1 tr1 s2 R1 ltac:(lia)).
    apply Bool.andb_true_iff in TA. destruct TA as [_ TA]. rewrite T in TA.
    apply Bool.andb_true_iff in TA. destruct TA as [T1 T2]. split; [apply regularb_ok, T1|].
    intros Q. rewrite Q in T2. cbn [is_some is_none negb orb] in T2. apply calmb_ok, T2. }
  assert (DD : forall now1 tr1 s1, reach s0 now1 tr1 s1 -> length tr1 <= length tr -> forall u, active s1 u -> distinct s1 u).
  { intros now1 tr1 s2 R1 L1 u Au. specialize (TA now1 tr1 s2 R1 L1).
    apply Bool.andb_true_iff in TA. destruct TA as [TA _]. rewrite forallb_forall in TA. specialize (TA u (proj1 Au)).
    apply activeb_ok in Au. rewrite Au in TA. apply distinctb_ok, TA. }
  assert (NF : forall v, nv s0 <= v < nv s' -> k_inf_fast (vs s' v) = false).
  { intros v Hv. unfold slowb in H3. rewrite forallb_forall in H3. specialize (H3 v). rewrite in_seq in H3.
    specialize (H3 ltac:(lia)). destruct (k_inf_fast (vs s' v)); [discriminate|reflexivity]. }
  split; [|split; [|exact HP]].
  - intros IM. exact (C72_run QA QE QA_ord QE_addr s s0 now tr s' F SH S (fittingb_ok _ H1) (front_endsb_ok _ H0) (no_left_ok _ HL) R RG DD NF IM).
  - exact (C72_left QA QE QA_ord QE_addr s s0 now tr s' F SH S (fittingb_ok _ H1) (front_endsb_ok _ H0) (no_left_ok _ HL) R RG DD NF).
Qed.
Definition passes (r : res unit) : bool := match r with Ok _ => true | Err _ => false end.
Definition empty {X} (l : list X) : bool := match l with [] => true | _ => false end.
(** the hourglass: while its second event is immediate the check of the vertices fails;
    after that all checks succeed, as they do at the end *)
Example C72_example_pending : exists s0 now tr s', started hour s0 /\ reach s0 now tr s' /\ length tr = 1 /\
  (immediate s' = [] -> all_checks s') /\
  (forall u j, left_over s' u j -> exists e, t_event (ts s' u) = Some e /\ In e (immediate s')) /\
  left_overb s' 2 S1 && negb (empty (immediate s')) && negb (passes (check_kinetic_vertices s' (sk_triangles s'))) = true.
Proof. apply (calm_example 1 hour _ hour_fresh hour_shaped). vm_compute. reflexivity. Qed.
Example C72_example_closed : exists s0 now tr s', started hour s0 /\ reach s0 now tr s' /\ length tr = 2 /\
  (immediate s' = [] -> all_checks s') /\
  (forall u j, left_over s' u j -> exists e, t_event (ts s' u) = Some e /\ In e (immediate s')) /\
  activeb s' 1 && activeb s' 3 && empty (immediate s') = true.
Proof. apply (calm_example 2 hour _ hour_fresh hour_shaped). vm_compute. reflexivity. Qed.
Example C72_example_split : exists s0 now tr s', started notch s0 /\ reach s0 now tr s' /\ length tr = 1 /\
  (immediate s' = [] -> all_checks s') /\
  (forall u j, left_over s' u j -> exists e, t_event (ts s' u) = Some e /\ In e (immediate s')) /\
  activeb s' 1 && activeb s' 2 && empty (immediate s') = true.
Proof. apply (calm_example 1 notch _ notch_fresh notch_shaped). vm_compute. reflexivity. Qed.
Example C72_example_point : exists s0 now tr s', started square s0 /\ reach s0 now tr s' /\ length tr = 2 /\
  (immediate s' = [] -> all_checks s') /\
  (forall u j, left_over s' u j -> exists e, t_event (ts s' u) = Some e /\ In e (immediate s')) /\
  empty (immediate s') = true.
Proof. apply (calm_example 2 square _ square_fresh square_shaped). vm_compute. reflexivity. Qed.
