(** C78: neighbours on the wavefront share a front of the input, and the offset
    segments between them run along it, at the distance of their time *)
From Coq Require Import Reals Lra.
From Verif Require Import Base Arith ArithR ArithQ Calc CalcProofs VectorOps Line2d Line2dProofs Primitives Collapse CollapseProofs CollapseR
  EventsLib FlipEvent ParallelEvent EdgeEvent SplitEvent EventLoop Pass OpSpec Order StopSpec RunBase RunTimed RunLoop Bisect
  Decent Total TotalRun Scenario ScenarioRun Properties_loop RingSpec Initialize StarProofs InitProofs InitState InitCirc InitBisect InitChecks RSquared
  Properties_geometry Mesh Properties_current Properties_fronts Shared InitShared Main Properties_init TriExample InitMesh Properties_start InitRing Properties_ringstart Properties_main.
Local Close Scope Q_scope.
Local Open Scope nat_scope.

(** ** Specification *)
Section Spec.
  Context {A : Arith}.
  (** at some time [w] was, or is, the left (the right) neighbour of [v] *)
  Definition was_left (s : state (A:=A)) (v w : nat) : Prop := exists a b, In (a, b, Some w) (k_left (vs s v)).
  Definition was_right (s : state (A:=A)) (v w : nat) : Prop := exists a b, In (a, b, Some w) (k_right (vs s v)).
  (** the front number [x] is the line through the ends of a constrained side of
      the triangulation [d] *)
  Definition front_of_input (d : dtriang (A:=A)) (s : state (A:=A)) (x : nat) : Prop :=
    exists t i a b, t < dt_nt d /\ constrained d t i = true /\
      get3 (d_v (dt_t d t)) (ccw i) = Some a /\ get3 (d_v (dt_t d t)) (cw i) = Some b /\
      from_points (dv_pos (dt_v d a)) (dv_pos (dt_v d b)) = Ok (wf_line (wfs s x)).
  (** every kinetic vertex has two fronts, of the input, and shares them with its neighbours *)
  Definition neighbourly (d : dtriang (A:=A)) (s : state (A:=A)) : Prop :=
    forall v, k_inf (vs s v) = false -> exists x y,
      k_ul (vs s v) = Some x /\ k_ur (vs s v) = Some y /\ front_of_input d s x /\ front_of_input d s y /\
      (forall w, was_left s v w -> w < nv s /\ k_inf (vs s w) = false /\ k_ur (vs s w) = Some x) /\
      (forall w, was_right s v w -> w < nv s /\ k_inf (vs s w) = false /\ k_ul (vs s w) = Some y).
End Spec.

Lemma input_front_of {A : Arith} (d : dtriang (A:=A)) s s' x : wfs s' = wfs s -> input_front d s x <-> front_of_input d s' x.
Proof.
  intros W. unfold input_front, input_side, front_of_input. rewrite W. split.
  - intros (p & q & (t & i & a & b & L & C & A1 & A2 & -> & ->) & F). exists t, i, a, b. auto 6.
  - intros (t & i & a & b & L & C & A1 & A2 & F). eexists _, _. split; [exists t, i, a, b; repeat split; eauto|exact F].
Qed.

Lemma shared_neighbourly {A : Arith} (d : dtriang (A:=A)) s0 s : wfs s = wfs s0 -> shared (input_front d s0) s -> neighbourly d s.
Proof.
  intros W [P1 P2 P3 P4 P5] v I. pose proof (P5 v) as Q. rewrite I in Q. destruct Q as [Q1 Q2].
  destruct (k_ul (vs s v)) as [x|] eqn:UL; [|congruence]. destruct (k_ur (vs s v)) as [y|] eqn:UR; [|congruence].
  exists x, y. do 2 (split; [reflexivity|]). split; [apply (input_front_of _ s0 s _ W), (P3 v), UL|].
  split; [apply (input_front_of _ s0 s _ W), (P4 v), UR|]. split; intros w H.
  - destruct (P1 v w H) as [L1 L2]. rewrite UL in L2. split; [exact L1|]. split; [|exact L2].
    pose proof (P5 w) as K. destruct (k_inf (vs s w)); [|reflexivity]. destruct K. congruence.
  - destruct (P2 v w H) as [L1 L2]. rewrite UR in L2. split; [exact L1|]. split; [|exact L2].
    pose proof (P5 w) as K. destruct (k_inf (vs s w)); [|reflexivity]. destruct K. congruence.
Qed.

Lemma start_registered {A : Arith} io (s : state (A:=A)) : registered s -> registered (start_of io s).
Proof.
  destruct io; [|auto]. intros [R1 R2 R3 R4]. constructor; cbn; auto. intros v Hv. apply filter_In in Hv. apply R4, Hv.
Qed.

(** ** C78, neighbours (any arithmetic): whatever the events, and whatever the rounding, two vertices that are ever neighbours
    on the wavefront share one front, which is that of a constrained side of the input *)
Theorem C78_neighbours :
  forall (A : Arith) (E : Env A) (d : dtriang) s0 io s1 now tr s,
  init_skeleton d = Ok s0 -> stars_right d -> started (start_of io s0) s1 -> reach s1 now tr s -> neighbourly d s.
Proof.
  intros A E d s0 io s1 now tr s HI SR ST RE.
  pose proof (init_shared d s0 HI SR) as S0. pose proof (started_same _ _ ST) as Q.
  destruct (start_heap io s0) as (P1 & P2 & P3 & P4 & P5).
  destruct (same_start_shaped _ _ Q) as [R1 H1].
  specialize (R1 (start_registered io s0 (init_registered d s0 HI))). specialize (H1 (start_shaped io s0 (init_shaped d s0 HI))).
  assert (S1 : shared (input_front d s0) s1).
  { apply (same_start_shared _ _ _ Q). apply (same_shared _ s0); [|exact S0]. split; [exact P3|]. rewrite P1. auto. }
  apply (shared_neighbourly d s0).
  - destruct (steps_base _ _ _ _ _ _ R1 RE) as [_ FO]. rewrite (fo_wfs _ _ FO). destruct Q as (_ & _ & _ & _ & -> & _). exact P5.
  - exact (run_shared _ _ _ _ _ _ _ R1 H1 S1 RE).
Qed.
Print Assumptions C78_neighbours.

(** ... and so it is when calc_skel returns *)
Theorem C78_calc_skel :
  forall (A : Arith) (E : Env A) triangulate points shrink io s tr,
  calc_skel triangulate points shrink io = Ok (s, tr) ->
  (forall pts d, triangulate pts = Ok d -> stars_right d) ->
  exists pts d, triangulate pts = Ok d /\ neighbourly d s.
Proof.
  intros A E tri points shrink io s tr H SR. unfold calc_skel in H. apply calc_skel_ok in H.
  destruct H as (pts & d & s0 & now & H1 & H2 & H3 & _ & H4).
  destruct (C33_normal_return A E _ _ _ H4) as (_ & _ & _ & s1 & trc & S & R & _).
  exists pts, d. split; [exact H2|]. exact (C78_neighbours A E d s0 io s1 now trc s H3 (SR _ _ H2) S R).
Qed.
Print Assumptions C78_calc_skel.

(** ** The items of calc_offsets and output_offsets *)
Section Items.
  Context {A : Arith}.
  (** an item between [o_v o] and a vertex that was its left (right) neighbour *)
  Definition item_between (was : state (A:=A) -> nat -> nat -> Prop) (s : state (A:=A)) (o : offset (A:=A)) : Prop :=
    In (o_v o) (sk_vertices s) /\ k_inf (vs s (o_v o)) = false /\ was s (o_v o) (o_left o) /\
    position_at s (o_v o) (o_t o) = Ok (o_p o) /\ position_at s (o_left o) (o_t o) = Ok (o_q o).

  Lemma yields_in {X Y} (f : X -> res (option Y)) l y : In y (fst (yields f l)) -> exists x, In x l /\ f x = Ok (Some y).
  Proof.
    induction l as [|x l IH]; cbn [yields]; [intros []|]. destruct (f x) as [[z|]|e] eqn:F.
    - intros [<-|H]; [exists x; cbn; auto|]. destruct (IH H) as (x' & H1 & H2). exists x'. cbn. auto.
    - intros H. destruct (IH H) as (x' & H1 & H2). exists x'. cbn. auto.
    - intros [].
  Qed.
  Lemma hist_at_in (h : list (hitem (A:=A))) t w : hist_at h t = Some w -> exists a b, In (a, b, Some w) h.
  Proof.
    induction h as [|[[a b] r] h IH]; [discriminate|]. cbn [hist_at]. destruct (_ || _)%bool.
    - intros ->. exists a, b. left. reflexivity.
    - intros H. destruct (IH H) as (a' & b' & K). exists a', b'. right. exact K.
  Qed.
  Lemma offset_item_in (s : state (A:=A)) t v h o : offset_item s t v (hist_at h t) = Ok (Some o) ->
    o_v o = v /\ o_t o = t /\ (exists a b, In (a, b, Some (o_left o)) h) /\ position_at s v t = Ok (o_p o) /\ position_at s (o_left o) t = Ok (o_q o).
  Proof.
    unfold offset_item. destruct (position_at s v t) as [p|e] eqn:P; [|destruct e; discriminate].
    destruct (hist_at h t) as [l|] eqn:H; [|discriminate]. destruct (position_at s l t) as [q|e] eqn:Q; [|destruct e; discriminate].
    intros K. injection K as <-. cbn. do 2 (split; [reflexivity|]). split; [exact (hist_at_in _ _ _ H)|auto].
  Qed.
  Lemma started_finite (s : state (A:=A)) v t b : started_at s v t = Ok b -> k_inf (vs s v) = false.
  Proof. unfold started_at. destruct (k_inf (vs s v)); [discriminate|reflexivity]. Qed.

  Lemma calc_items (s : state (A:=A)) now ct o : In o (fst (calc_offsets s now ct)) -> item_between was_left s o.
  Proof.
    unfold calc_offsets. destruct (pdiv now (nofnat ct)) as [inc|]; [|intros []]. intros H. apply yields_in in H.
    destruct H as ([t v] & H & K). apply in_prod_iff in H. cbn [fst snd] in K. unfold offset_at in K.
    apply rbind_ok in K. destruct K as (b & Hb & K). apply started_finite in Hb. destruct (_ || _)%bool; [|discriminate].
    apply offset_item_in in K. destruct K as (<- & <- & K1 & K2 & K3).
    split; [apply H|]. split; [exact Hb|]. split; [exact K1|]. auto.
  Qed.
  Lemma output_item (s : state (A:=A)) nb t v o : output_offset s nb t v = Ok (Some o) ->
    o_v o = v /\ k_inf (vs s v) = false /\ (exists a b, In (a, b, Some (o_left o)) (nb (vs s v))) /\
    position_at s v (o_t o) = Ok (o_p o) /\ position_at s (o_left o) (o_t o) = Ok (o_q o).
  Proof.
    unfold output_offset. intros K. apply rbind_ok in K. destruct K as (b & Hb & K). apply started_finite in Hb. destruct b; [|discriminate].
    destruct (k_stops (vs s v)); [|discriminate]. destruct (nltb _ _); [|discriminate].
    apply offset_item_in in K. destruct K as (<- & <- & K1 & K2 & K3). repeat split; auto.
  Qed.
  Lemma output_items (s : state (A:=A)) now ct l r e : output_offsets s now ct = (l, r, e) ->
    (forall o, In o l -> item_between was_left s o) /\ (forall o, In o r -> item_between was_right s o).
  Proof.
    unfold output_offsets. destruct (pdiv now (nofnat ct)) as [inc|].
    2:{ intros H. injection H as <- <- _. split; intros o []. }
    destruct (yields (fun tv => output_offset s k_left (fst tv) (snd tv)) _) as [l' e'] eqn:Y1.
    assert (L : forall o, In o l' -> item_between was_left s o).
    { intros o H. assert (H' : In o (fst (l', e'))) by exact H. rewrite <- Y1 in H'. apply yields_in in H'.
      destruct H' as ([t v] & H1 & K). apply in_prod_iff in H1. cbn [fst snd] in K. apply output_item in K.
      destruct K as (<- & K1 & K2 & K3 & K4). split; [apply H1|]. auto. }
    destruct e'; intros H; injection H as <- <- _; (split; [exact L|]); [intros o []|].
    intros o H. apply yields_in in H. destruct H as ([t v] & H1 & K). apply in_prod_iff in H1. cbn [fst snd] in K. apply output_item in K.
    destruct K as (<- & K1 & K2 & K3 & K4). split; [apply H1|]. auto.
  Qed.
End Items.

(** ** C78, geometry (exact reals): offset segments *)
(** vertex [v] is not infinitely fast, and its two fronts are clearly not parallel *)
Definition moves_well (s : state (A:=RA)) (v : nat) : Prop :=
  k_inf_fast (vs s v) = false /\ exists l r, k_ul (vs s v) = Some l /\ k_ur (vs s v) = Some r /\
    (Rabs (det (wf_line (wfs s l)) (wf_line (wfs s r))) > / 10^10)%R.
(** the segment of the item runs along the front [x], at the distance of its time *)
Definition runs_along (s : state (A:=RA)) (x : nat) (o : offset (A:=RA)) : Prop :=
  signed_distance (A:=RA) (wf_line (wfs s x)) (o_p o) = o_t o /\ signed_distance (A:=RA) (wf_line (wfs s x)) (o_q o) = o_t o.
(** all items, of calc_offsets and of output_offsets, for any sampling *)
Definition offsets_run_along (W : nat -> Prop) (s : state (A:=RA)) : Prop :=
  forall (now : R) ct,
    (forall o, In o (fst (calc_offsets (A:=RA) s now ct)) \/ In o (fst (fst (output_offsets (A:=RA) s now ct))) ->
     moves_well s (o_v o) -> moves_well s (o_left o) ->
     exists x, W x /\ k_ul (vs s (o_v o)) = Some x /\ k_ur (vs s (o_left o)) = Some x /\ runs_along s x o) /\
    (forall o, In o (snd (fst (output_offsets (A:=RA) s now ct))) -> moves_well s (o_v o) -> moves_well s (o_left o) ->
     exists x, W x /\ k_ur (vs s (o_v o)) = Some x /\ k_ul (vs s (o_left o)) = Some x /\ runs_along s x o).

Lemma tracked_items (W : nat -> Prop) (s : state (A:=RA)) :
  registered s -> shared W s -> (forall v, v < nv s -> tracks s v) -> offsets_run_along W s.
Proof.
  intros RG [P1 P2 P3 P4 P5] TR.
  assert (FIN : forall w, moves_well s w -> k_inf (vs s w) = false).
  { intros w (_ & l & r & Hl & _). pose proof (P5 w) as K. destruct (k_inf (vs s w)); [destruct K; congruence|reflexivity]. }
  assert (ON : forall v (t : R) p l r, v < nv s -> moves_well s v -> k_ul (vs s v) = Some l -> k_ur (vs s v) = Some r -> position_at s v t = Ok p ->
     signed_distance (A:=RA) (wf_line (wfs s l)) p = t /\ signed_distance (A:=RA) (wf_line (wfs s r)) p = t).
  { intros v t p l r L MW Hl Hr P. pose proof (FIN v MW) as I. destruct MW as (F & l' & r' & Hl' & Hr' & D).
    rewrite Hl in Hl'. injection Hl' as <-. rewrite Hr in Hr'. injection Hr' as <-.
    destruct (TR v L I F l r Hl Hr D t p P) as [K1 K2]. rewrite !signed_distance_R. auto. }
  assert (LEFT : forall o, item_between was_left s o -> moves_well s (o_v o) -> moves_well s (o_left o) ->
     exists x, W x /\ k_ul (vs s (o_v o)) = Some x /\ k_ur (vs s (o_left o)) = Some x /\ runs_along s x o).
  { intros o (V & I & N & Pp & Pq) M1 M2. destruct (P1 _ _ N) as [L1 L2]. pose proof M1 as (_ & l & r & Hl & Hr & _).
    pose proof M2 as (_ & l2 & r2 & Hl2 & Hr2 & _). rewrite Hl, Hr2 in L2. injection L2 as ->.
    exists l. split; [exact (P3 _ _ Hl)|]. do 2 (split; [assumption|]). split.
    - apply (ON (o_v o) (o_t o) (o_p o) l r); auto. apply (rg_verts _ RG), V.
    - apply (ON (o_left o) (o_t o) (o_q o) l2 l); auto. }
  assert (RIGHT : forall o, item_between was_right s o -> moves_well s (o_v o) -> moves_well s (o_left o) ->
     exists x, W x /\ k_ur (vs s (o_v o)) = Some x /\ k_ul (vs s (o_left o)) = Some x /\ runs_along s x o).
  { intros o (V & I & N & Pp & Pq) M1 M2. destruct (P2 _ _ N) as [L1 L2]. pose proof M1 as (_ & l & r & Hl & Hr & _).
    pose proof M2 as (_ & l2 & r2 & Hl2 & Hr2 & _). rewrite Hr, Hl2 in L2. injection L2 as ->.
    exists r. split; [exact (P4 _ _ Hr)|]. do 2 (split; [assumption|]). split.
    - apply (ON (o_v o) (o_t o) (o_p o) l r); auto. apply (rg_verts _ RG), V.
    - apply (ON (o_left o) (o_t o) (o_q o) r r2); auto. }
  intros now ct. destruct (output_offsets s now ct) as [[l r] e] eqn:OO. destruct (output_items _ _ _ _ _ _ OO) as [K1 K2]. cbn [fst snd].
  split.
  - intros o [H|H]; apply LEFT; [exact (calc_items _ _ _ _ H)|auto].
  - intros o H. apply RIGHT. auto.
Qed.

(** a start as init_skeleton makes it; [W] says which fronts there are *)
Definition sets_out (W : nat -> Prop) (s : state (A:=RA)) : Prop :=
  registered s /\ shaped s /\ shared W s /\ units s /\ (forall v, v < nv s -> tracks s v).

(** From such a start, after any events, every offset segment runs along a
    front: the one its two vertices share. *)
Theorem C78_offsets :
  forall (E : Env RA) W s s1 now tr s', sets_out W s -> started s s1 -> reach s1 now tr s' -> offsets_run_along W s'.
Proof.
  intros E W s s1 now tr s' (R0 & H0 & S0 & U0 & T0) ST RE. pose proof (started_same _ _ ST) as Q.
  destruct (same_start_shaped _ _ Q) as [R1 H1]. specialize (R1 R0). specialize (H1 H0).
  pose proof (same_start_shared W _ _ Q S0) as S1. pose proof Q as (Q1 & Q2 & _ & _ & Q3 & _).
  assert (U1 : units s1) by (intros w; rewrite Q3; apply U0).
  assert (T1 : forall v, v < nv s1 -> tracks s1 v).
  { intros v L. rewrite Q2 in L. pose proof (T0 v L) as K. unfold tracks, position_at in *. rewrite Q1, Q3.
    intros I' F'. rewrite I', F' in *. apply K; reflexivity. }
  destruct (run_tracks E _ _ _ _ _ _ R1 U1 T1 RE) as [_ T']. destruct (steps_base _ _ _ _ _ _ R1 RE) as [R' _].
  apply tracked_items; [exact R'|exact (run_shared _ _ _ _ _ _ _ R1 H1 S1 RE)|exact T'].
Qed.
Print Assumptions C78_offsets.

(** The initial skeleton is such a start, its fronts being those of the input. *)
Theorem C78_sets_out :
  forall (d : dtriang (A:=RA)) s0 io, init_skeleton d = Ok s0 -> stars_right d ->
  sets_out (front_of_input d s0) (start_of io s0).
Proof.
  intros d s0 io HI SR. destruct (start_heap io s0) as (P1 & P2 & P3 & P4 & P5).
  split; [apply start_registered, (init_registered d s0 HI)|]. split; [apply start_shaped, (init_shaped d s0 HI)|].
  split.
  { apply (same_shared _ s0); [split; [exact P3|rewrite P1; auto]|].
    destruct (init_shared d s0 HI SR) as [K1 K2 K3 K4 K5]. constructor; auto; intros v x H.
    - apply (input_front_of d s0 s0 x eq_refl), (K3 v x H).
    - apply (input_front_of d s0 s0 x eq_refl), (K4 v x H). }
  split; [intros w; rewrite P5; apply (init_units d s0 HI)|].
  intros v _. pose proof (init_tracks d s0 HI SR v) as K. unfold tracks, position_at in *. rewrite P1, P5.
  intros I' F'. rewrite I', F' in *. apply K; reflexivity.
Qed.
Print Assumptions C78_sets_out.

(** Together: the offsets of the skeleton that calc_skel returns. *)
Theorem C78_calc_skel_offsets :
  forall (E : Env RA) triangulate points shrink io s tr,
  calc_skel triangulate points shrink io = Ok (s, tr) ->
  (forall pts d, triangulate pts = Ok d -> stars_right d) ->
  exists pts d, triangulate pts = Ok d /\ offsets_run_along (front_of_input d s) s.
Proof.
  intros E tri points shrink io s tr H SR. unfold calc_skel in H. apply calc_skel_ok in H.
  destruct H as (pts & d & s0 & now & H1 & H2 & H3 & _ & H4).
  destruct (C33_normal_return RA E _ _ _ H4) as (_ & _ & _ & s1 & trc & S & R & _).
  exists pts, d. split; [exact H2|].
  pose proof (C78_sets_out d s0 io H3 (SR _ _ H2)) as SO.
  pose proof (C78_offsets E _ _ s1 now trc s SO S R) as K.
  assert (W : wfs s = wfs s0).
  { pose proof (started_same _ _ S) as Q. destruct (same_start_shaped _ _ Q) as [R1 _]. destruct SO as (R0 & _). specialize (R1 R0).
    destruct (steps_base _ _ _ _ _ _ R1 R) as [_ FO]. rewrite (fo_wfs _ _ FO). destruct Q as (_ & _ & _ & _ & -> & _).
    apply (start_heap io s0). }
  assert (F : forall x, front_of_input d s0 x -> front_of_input d s x).
  { intros x. unfold front_of_input. rewrite W. auto. }
  intros t ct. destruct (K t ct) as [K1 K2]. split; intros o Ho M1 M2.
  - destruct (K1 o Ho M1 M2) as (x & X & Y). exists x. split; [auto|exact Y].
  - destruct (K2 o Ho M1 M2) as (x & X & Y). exists x. split; [auto|exact Y].
Qed.
Print Assumptions C78_calc_skel_offsets.

(** *** Cases *)
(** the right triangle (0,0) (4,0) (0,3) of Properties_fronts, its vertices listed in the skeleton *)
Definition trio_full : state (A:=RA) :=
  mkSt (A:=RA) (vs trio) 3 (ts trio) 1 (ns trio) 0 (es trio) 0 (wfs trio) [] [0; 1; 2] [0] [] [].
Lemma trio_sets_out : sets_out (fun x => x < 3) trio_full.
Proof.
  destruct trio_set_out as (FR & SH & _ & U & T).
  split; [|split; [|split; [|split; [exact U|intros v _; exact (T v)]]]].
  - constructor; cbn; try tauto; try (intros [|[|v]] n H; discriminate). intros v [<-|[<-|[<-|[]]]]; lia.
  - destruct SH as [X Y]. constructor; [exact X|exact Y].
  - constructor.
    + intros [|[|v]] w (a & b & [K|[]]); injection K as _ _ <-; split; cbn; auto.
    + intros [|[|v]] w (a & b & [K|[]]); injection K as _ _ <-; split; cbn; auto.
    + intros [|[|v]] x K; cbn in K; injection K as <-; lia.
    + intros [|[|v]] x K; cbn in K; injection K as <-; lia.
    + intros [|[|v]]; cbn; split; discriminate.
Qed.
Definition trio_full_started : state (A:=RA) :=
  with_qi (with_event trio_full 0 (mkEv (A:=RA) 1%R 0 [S0; S1; S2] Edge 3)) [0] [].
Lemma trio_full_starts (E : Env RA) : started trio_full trio_full_started.
Proof.
  exists trio_full_started. split; [|reflexivity]. unfold init_event_list, compute_collapse_time, rd, bind, gets.
  cbn [setq sk_triangles trio_full forM]. unfold bind.
  match goal with |- context [collapse_event ?a 0 ?w FindGt] =>
    change (collapse_event a 0 w FindGt) with (collapse_event trio 0 (n0 (A:=RA)) FindGt) end.
  rewrite trio_event. reflexivity.
Qed.
Lemma trio_moves_well v : moves_well trio_full_started v.
Proof.
  pose proof small_one as Q. split; [destruct v as [|[|v]]; reflexivity|]. destruct v as [|[|v]].
  - exists 1, 2. split; [reflexivity|]. split; [reflexivity|]. unfold det; cbn [trio_full_started trio_full with_event with_qi wfs]; in_R3; unfold ln; cbn [lw fst snd].
    match goal with |- (Rabs ?x > _)%R => replace x with 1%R by lra end. rewrite Rabs_R1. lra.
  - exists 2, 0. split; [reflexivity|]. split; [reflexivity|]. unfold det; cbn [trio_full_started trio_full with_event with_qi wfs]; in_R3; unfold ln; cbn [lw fst snd].
    match goal with |- (Rabs ?x > _)%R => replace x with (3/5)%R by lra end. rewrite Rabs_right by lra. lra.
  - exists 0, 1. split; [reflexivity|]. split; [reflexivity|]. unfold det; cbn [trio_full_started trio_full with_event with_qi wfs]; in_R3; unfold ln; cbn [lw fst snd].
    match goal with |- (Rabs ?x > _)%R => replace x with (4/5)%R by lra end. rewrite Rabs_right by lra. lra.
Qed.
Lemma trio_item (t : R) v : (0 <= t)%R -> exists o, offset_at trio_full_started t v = Ok (Some o).
Proof.
  intros L. assert (K : nleb (Arith:=RA) 0%R t = true) by (apply le_R; exact L).
  unfold offset_at, started_at, offset_item, position_at.
  destruct v as [|[|v]]; eexists; cbn - [nleb nadd nmul]; rewrite K; cbn - [nleb nadd nmul]; rewrite ?K; reflexivity.
Qed.
Lemma yields_all {X Y} (f : X -> res (option Y)) l : (forall x, In x l -> exists y, f x = Ok (Some y)) -> length (fst (yields f l)) = length l.
Proof.
  induction l as [|x l IH]; intros H; [reflexivity|]. cbn [yields]. destruct (H x (or_introl eq_refl)) as [y ->].
  cbn [fst length]. f_equal. apply IH. intros z K. apply H. right. exact K.
Qed.

(** four samples of the three sides until time 1: twelve segments, each along the front of its side *)
Example C78_offsets_case : forall (E : Env RA),
  sets_out (fun x => x < 3) trio_full /\ started trio_full trio_full_started /\ reach trio_full_started (n0 (A:=RA)) [] trio_full_started /\
  length (fst (calc_offsets (A:=RA) trio_full_started 1%R 4)) = 12 /\
  forall o, In o (fst (calc_offsets (A:=RA) trio_full_started 1%R 4)) ->
    moves_well trio_full_started (o_v o) /\ moves_well trio_full_started (o_left o) /\
    exists x, x < 3 /\ runs_along trio_full_started x o.
Proof.
  intros E. assert (RE : reach trio_full_started (n0 (A:=RA)) [] trio_full_started) by constructor.
  split; [exact trio_sets_out|]. split; [apply trio_full_starts|]. split; [exact RE|]. split.
  - unfold calc_offsets. assert (N : @nofnat RA 4 = 4%R) by (rewrite nofnat_INR; cbn; lra).
    rewrite N, pdiv_R by lra. rewrite yields_all; [reflexivity|].
    intros [t v] H. apply in_prod_iff in H. destruct H as [H _]. apply trio_item.
    apply in_map_iff in H. destruct H as (k & <- & _). ra_simp. apply Rmult_le_pos; [|lra].
    rewrite nofnat_INR. apply pos_INR.
  - intros o Ho. pose proof (trio_moves_well (o_v o)) as M1. pose proof (trio_moves_well (o_left o)) as M2.
    split; [exact M1|]. split; [exact M2|].
    destruct (C78_offsets E _ _ _ _ _ _ trio_sets_out (trio_full_starts E) RE 1%R 4) as [K _].
    destruct (K o (or_introl Ho) M1 M2) as (x & L & _ & _ & RA'). exists x. auto.
Qed.

(** a quadrilateral run to the end of its events (rationals): the fronts are shared; the vertex 0
    has had two neighbours at its right, the second of them made by an event *)
Definition ever (h : list (hitem (A:=QA))) : list nat := flat_map (fun i => match snd i with Some w => [w] | None => [] end) h.
Definition sharedb (s : state (A:=QA)) : bool :=
  forallb (fun v => k_inf (vs s v) ||
     (is_some (k_ul (vs s v)) && is_some (k_ur (vs s v)) &&
      forallb (fun w => Nat.ltb w (nv s) && onat_eqb (k_ur (vs s w)) (k_ul (vs s v))) (ever (k_left (vs s v))) &&
      forallb (fun w => Nat.ltb w (nv s) && onat_eqb (k_ul (vs s w)) (k_ur (vs s v))) (ever (k_right (vs s v))))) (seq 0 (nv s)).
Example C78_neighbours_case :
  stars_right quad_dt /\
  match init_skeleton quad_dt with
  | Ok s0 => match run s0 with
             | Ok (_, s) => sharedb s0 && sharedb s && Nat.eqb (length (ever (k_right (vs s 0)))) 2 && Nat.ltb (nv s0) (nv s) &&
                            Nat.leb (nv s0) (last (ever (k_right (vs s 0))) 0)
             | Err _ => false
             end
  | Err _ => false
  end = true.
Proof.
  split; [apply tg_stars_right, triangulationb_ok; vm_compute; reflexivity|]. vm_compute. reflexivity.
Qed.
