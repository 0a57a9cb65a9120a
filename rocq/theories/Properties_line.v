(** Property theorems about line2d.py.  Specification vocabulary (Line2dProofs.v):
    [unit_line] normal of length one, [on l p] the point satisfies the equation,
    [eval l p] value of the linear form, [orient] cross product, [det] of normals. *)
From Coq Require Import Reals Lra Psatz.
From Verif Require Import Base Arith ArithR ArithQ Calc CalcProofs VectorOps Line2d Line2dProofs.
Local Open Scope R_scope.

(** ** C11 *)
Theorem C11_from_points :
  forall p q : R * R, p <> q ->
  exists l, from_points p q = Ok l /\ unit_line l /\ on l p /\ on l q /\
    forall r, signed_distance l r = orient p q r / len (fst q - fst p) (snd q - snd p).
Proof. exact from_points_spec. Qed.
Print Assumptions C11_from_points.

(** left of the directed line is the positive side *)
Theorem C11_left_positive :
  forall (p q r : R * R) l, from_points p q = Ok l ->
  (0 < signed_distance l r <-> 0 < orient p q r).
Proof.
  intros p q r l H.
  assert (Hne : p <> q).
  { intros ->. rewrite from_points_eq in H. discriminate. }
  destruct (from_points_spec p q Hne) as (l' & H' & _ & _ & _ & Hd).
  rewrite H in H'. injection H' as <-. rewrite Hd.
  assert (HL : 0 < len (fst q - fst p) (snd q - snd p)).
  { apply len_pos. destruct p as [px py], q as [qx qy]. cbn [fst snd].
    destruct (Req_dec qx px) as [->|]; [|left; lra].
    destruct (Req_dec qy py) as [->|]; [congruence|right; lra]. }
  split; intros K.
  - apply Rmult_lt_reg_r with (/ len (fst q - fst p) (snd q - snd p)).
    + apply Rinv_0_lt_compat, HL.
    + rewrite Rmult_0_l. exact K.
  - apply Rdiv_lt_0_compat; assumption.
Qed.
Print Assumptions C11_left_positive.

Example C11_case :
  match from_points (A:=QA) (0, 0)%Q (3, 4)%Q with
  | Ok l => lw l = ((-4#5), (3#5))%Q /\ signed_distance l (0, 5)%Q = 3%Q
  | Err _ => False
  end.
Proof. vm_compute. split; reflexivity. Qed.

(** ** C12 *)
Theorem C12_from_points_raises_iff :
  forall p q : R * R,
  ((exists e, from_points p q = Err e) <-> p = q) /\
  (forall e, from_points p q = Err e -> e = ZeroDivisionError).
Proof.
  intros p q.
  assert (D : p = q \/ p <> q).
  { destruct p as [a b], q as [c d]. destruct (Req_dec a c) as [->|], (Req_dec b d) as [->|];
      auto; right; intros E; injection E; congruence. }
  destruct D as [->|Hne].
  - rewrite from_points_eq. split; [split; eauto|]. intros e H. injection H. auto.
  - destruct (from_points_spec p q Hne) as (l & -> & _).
    split; [split; [intros [e H]; discriminate|contradiction]|discriminate].
Qed.
Print Assumptions C12_from_points_raises_iff.

(** ** C13 *)
Theorem C13_at_time_unit_speed :
  forall l (t : R), unit_line l ->
  exists l', at_time l t = Ok l' /\ lw l' = lw l /\ unit_line l' /\
    forall p, signed_distance l' p = signed_distance l p - t.
Proof.
  intros l t H. rewrite at_time_unit by exact H. eexists. split; [reflexivity|].
  split; [reflexivity|]. split; [exact H|].
  intros p. rewrite !signed_distance_R. unfold eval. cbn [lw lb]. ra_simp. lra.
Qed.
Print Assumptions C13_at_time_unit_speed.

Theorem C13_at_time_zero : forall l, unit_line l -> at_time l 0 = Ok l.
Proof.
  intros [w b] H. rewrite at_time_unit by exact H. cbn [lw lb]. do 2 f_equal. ra_simp. lra.
Qed.
Print Assumptions C13_at_time_zero.

Theorem C13_at_time_additive :
  forall l (s t : R), unit_line l ->
  exists l1, at_time l s = Ok l1 /\ at_time l1 t = at_time l (s + t).
Proof.
  intros l s t H. rewrite at_time_unit by exact H. eexists. split; [reflexivity|].
  rewrite !at_time_unit by exact H. cbn [lw lb]. do 2 f_equal. ra_simp. lra.
Qed.
Print Assumptions C13_at_time_additive.

(** translating by any vector moves the line by the component along its normal *)
Theorem C13_translated :
  forall l (v : R * R), unit_line l ->
  exists l', translated l v = Ok l' /\ lw l' = lw l /\
    forall p, signed_distance l' (fst p + fst v, snd p + snd v) = signed_distance l p.
Proof.
  intros l v H. rewrite translated_unit by exact H. eexists. split; [reflexivity|].
  split; [reflexivity|]. intros p. rewrite !signed_distance_R. unfold eval. cbn [lw lb fst snd].
  ra_simp. lra.
Qed.
Print Assumptions C13_translated.

Example C13_case : unit_line (mkLine (3/5, 4/5) 7).
Proof. unfold unit_line. cbn [lw fst snd]. lra. Qed.

(** ** C14 *)
Theorem C14_perpendicular :
  forall l (p : R * R), unit_line l ->
  exists m, perpendicular l p = Ok m /\ lw m = (- snd (lw l), fst (lw l)) /\ on m p.
Proof. exact perpendicular_R. Qed.
Print Assumptions C14_perpendicular.

Theorem C14_through_is_nearest :
  forall l, unit_line l ->
  on l (through l) /\
  forall p, on l p ->
    fst (through l) * fst (through l) + snd (through l) * snd (through l)
    <= fst p * fst p + snd p * snd p.
Proof. exact through_nearest. Qed.
Print Assumptions C14_through_is_nearest.

Theorem C14_ends :
  forall l, unit_line l ->
  on l (fst (ends l)) /\ on l (snd (ends l)) /\
  fst (snd (ends l)) - fst (fst (ends l)) = 2000 * snd (lw l) /\
  snd (snd (ends l)) - snd (fst (ends l)) = - 2000 * fst (lw l) /\
  len (fst (snd (ends l)) - fst (fst (ends l))) (snd (snd (ends l)) - snd (fst (ends l))) = 2000.
Proof. exact ends_R. Qed.
Print Assumptions C14_ends.

Theorem C14_y_at_x :
  forall (l : line2 (A:=RA)) (x : R),
  (snd (lw l) <> 0 -> exists y, y_at_x l x = Ok y /\ forall y', on l (x, y') <-> y' = y) /\
  (snd (lw l) = 0 -> y_at_x l x = Err ZeroDivisionError).
Proof.
  intros l x. unfold y_at_x. split.
  - intros H. rewrite pdiv_R by exact H. eexists. split; [reflexivity|].
    intros y'. unfold on, eval. cbn [fst snd]. ra_simp.
    destruct (lw l) as [a b]. cbn [fst snd] in *. split.
    + intros E. field_simplify_eq; [lra|exact H].
    + intros ->. field. exact H.
  - intros H. unfold pdiv. ra_simp. rewrite H.
    replace (Reqb 0 _) with true; [reflexivity|]. symmetry. apply Reqb_true. qlit. reflexivity.
Qed.
Print Assumptions C14_y_at_x.
Example C14_case_y : y_at_x (A:=QA) (mkLine (3#5, 4#5)%Q 1%Q) 3%Q = Ok (-7 # 2)%Q.
Proof. vm_compute. reflexivity. Qed.

(** ** C15 *)
Theorem C15_bisector_equidistant :
  forall l m, unit_line l -> unit_line m ->
  exists k, bisector_line l m = Ok k /\ unit_line k /\
    forall p, on k p -> Rabs (signed_distance l p) = Rabs (signed_distance m p).
Proof.
  intros l m Hl Hm. destruct (bisector_line_R l m Hl Hm) as [H K].
  destruct (Req_dec (fst (lw l) + fst (lw m)) 0) as [Ea|Ea];
  [destruct (Req_dec (snd (lw l) + snd (lw m)) 0) as [Eb|Eb]|].
  - destruct (K Ea Eb) as (k & Hk & Hu & Hp). exists k. repeat split; auto.
    intros p Hop. rewrite !signed_distance_R. f_equal. apply Hp, Hop.
  - destruct (H (or_intror Eb)) as (k & Hk & Hu & Hp). exists k. repeat split; auto.
    intros p Hop. rewrite !signed_distance_R. apply Hp in Hop.
    rewrite <- Rabs_Ropp. f_equal. lra.
  - destruct (H (or_introl Ea)) as (k & Hk & Hu & Hp). exists k. repeat split; auto.
    intros p Hop. rewrite !signed_distance_R. apply Hp in Hop.
    rewrite <- Rabs_Ropp. f_equal. lra.
Qed.
Print Assumptions C15_bisector_equidistant.

(** which of the two bisectors: opposite signed distances in general, equal ones
    when the normals cancel *)
Theorem C15_bisector_sides :
  forall l m, unit_line l -> unit_line m ->
  let a := fst (lw l) + fst (lw m) in
  let b := snd (lw l) + snd (lw m) in
  (a <> 0 \/ b <> 0 ->
     exists k, bisector_line l m = Ok k /\ unit_line k /\
       forall p, on k p <-> eval l p + eval m p = 0) /\
  (a = 0 -> b = 0 ->
     exists k, bisector_line l m = Ok k /\ unit_line k /\
       forall p, on k p <-> eval l p = eval m p).
Proof. exact bisector_line_R. Qed.
Print Assumptions C15_bisector_sides.

(** ** C16 *)
Theorem C16_point_iff :
  forall l m p, intersection l m = Ok (POINT p) <->
  Rabs (det l m) > / 10^10 /\ on l p /\ on m p.
Proof. exact intersection_point. Qed.
Print Assumptions C16_point_iff.

Theorem C16_only_common_point :
  forall l m p q, intersection l m = Ok (POINT p) -> on l q -> on m q -> q = p.
Proof.
  intros l m p q H Hl Hm. apply intersection_point in H. destruct H as (Hd & H1 & H2).
  apply (intersection_unique l m); auto.
  intros K. rewrite K, Rabs_R0 in Hd. lra.
Qed.
Print Assumptions C16_only_common_point.

(** exactly three outcomes; POINT exactly when the lines are not nearly parallel *)
Theorem C16_classification :
  forall l m : line2 (A:=RA),
  (Rabs (det l m) > / 10^10 /\ exists p, intersection l m = Ok (POINT p)) \/
  (Rabs (det l m) <= / 10^10 /\
     (intersection l m = Ok (LINE l) \/ intersection l m = Ok NO_INTERSECTION)).
Proof.
  intros l m. rewrite intersection_R. destruct (Rltb _ _) eqn:E; rb2p.
  - left. split; [lra|eauto].
  - right. split; [lra|]. destruct (near_zero _ && near_zero _); auto.
Qed.
Print Assumptions C16_classification.

Theorem C16_identical_lines : forall l : line2 (A:=RA), intersection l l = Ok (LINE l).
Proof. exact intersection_same. Qed.
Print Assumptions C16_identical_lines.

Theorem C16_symmetric :
  forall l m : line2 (A:=RA), rmap kind_of (intersection l m) = rmap kind_of (intersection m l).
Proof. exact intersection_sym. Qed.
Print Assumptions C16_symmetric.

Example C16_case :
  match intersection (A:=QA) (mkLine (0, 1) (-2))%Q (mkLine (1, 0) (-3))%Q with
  | Ok (POINT p) => p = (3, 2)%Q
  | _ => False
  end /\
  match intersection (A:=QA) (mkLine (0, 1) 0)%Q (mkLine (0, 1) 1)%Q with
  | Ok NO_INTERSECTION => True
  | _ => False
  end.
Proof. vm_compute. split; [reflexivity|exact I]. Qed.

(** ** C17 *)
Theorem C17_velocity :
  forall l m, unit_line l -> unit_line m -> Rabs (det l m) > / 10^10 ->
  exists v, get_bisector l m = Ok v /\
    fst (lw l) * fst v + snd (lw l) * snd v = 1 /\
    fst (lw m) * fst v + snd (lw m) * snd v = 1.
Proof. exact get_bisector_R. Qed.
Print Assumptions C17_velocity.

(** so the moving point stays on both moving lines, at all times *)
Theorem C17_stays_on_both :
  forall l m v o, unit_line l -> unit_line m -> Rabs (det l m) > / 10^10 ->
  get_bisector l m = Ok v -> on l o -> on m o ->
  forall (t : R) l' m', at_time l t = Ok l' -> at_time m t = Ok m' ->
    on l' (fst o + fst v * t, snd o + snd v * t) /\ on m' (fst o + fst v * t, snd o + snd v * t).
Proof.
  intros l m v o Hl Hm Hd Hv Ho1 Ho2 t l' m' E1 E2.
  destruct (get_bisector_R l m Hl Hm Hd) as (v' & Hv' & K1 & K2).
  rewrite Hv in Hv'. injection Hv' as <-.
  rewrite at_time_unit in E1, E2 by assumption. injection E1 as <-. injection E2 as <-.
  unfold on, eval in *. cbn [lw lb fst snd]. ra_simp.
  assert (J1 := f_equal (fun z => z * t) K1). assert (J2 := f_equal (fun z => z * t) K2).
  cbv beta in *. split; lra.
Qed.
Print Assumptions C17_stays_on_both.

Theorem C17_identical : forall l : line2 (A:=RA), get_bisector l l = Ok (lw l).
Proof. exact get_bisector_same. Qed.
Print Assumptions C17_identical.

Theorem C17_opposite :
  forall l (c : R), get_bisector l (mkLine (- fst (lw l), - snd (lw l)) c) = Ok (0, 0).
Proof. exact get_bisector_opposite. Qed.
Print Assumptions C17_opposite.

Theorem C17_parallel_same_direction :
  forall l (c : R), unit_line l -> Rabs (c - lb l) > 2 * / 10^10 ->
  get_bisector l (mkLine (lw l) c) = Ok (2 * fst (lw l), 2 * snd (lw l)).
Proof. exact get_bisector_parallel_same. Qed.
Print Assumptions C17_parallel_same_direction.

Example C17_case :
  unit_line (mkLine (0, 1) 0) /\ unit_line (mkLine (1, 0) 0) /\
  Rabs (det (mkLine (0, 1) 0) (mkLine (1, 0) 0)) > / 10^10 /\
  get_bisector (A:=QA) (mkLine (0, 1) 0)%Q (mkLine (1, 0) 0)%Q = Ok (1, 1)%Q.
Proof.
  unfold unit_line, det. cbn [lw fst snd]. repeat split; try lra.
  rewrite Rabs_left by lra. lra.
Qed.

(** ** C19 *)
Theorem C19_intersection_at_t :
  forall l m (t : R), unit_line l -> unit_line m ->
  forall p, get_intersection_at_t l m t = Ok p <->
    Rabs (det l m) > / 10^10 /\ signed_distance l p = t /\ signed_distance m p = t.
Proof. exact get_intersection_at_t_R. Qed.
Print Assumptions C19_intersection_at_t.

Theorem C19_raises_iff_parallel :
  forall l m (t : R), unit_line l -> unit_line m ->
  get_intersection_at_t l m t = Err ValueError <-> Rabs (det l m) <= / 10^10.
Proof. exact get_intersection_at_t_err. Qed.
Print Assumptions C19_raises_iff_parallel.

Example C19_case :
  get_intersection_at_t (A:=QA) (mkLine (0, 1) 0)%Q (mkLine (1, 0) 0)%Q 3%Q = Ok (3, 3)%Q.
Proof. vm_compute. reflexivity. Qed.

(** ** C20 *)
Theorem C20_bevel_never_returns_refuted :
  forall (A : Arith) (first last : wavefront),
  exists e, create_bevel_wavefront first last = Err e.
Proof.
  intros A f l. unfold create_bevel_wavefront.
  destruct (rassert _); simpl; eauto.
  destruct (perpendicular _ _) as [p|]; simpl; eauto.
  destruct (get_bisector _ _); simpl; eauto.
Qed.
Print Assumptions C20_bevel_never_returns_refuted.

(** on well-formed input it is the TypeError of get_intersection *)
Theorem C20_bevel_type_error :
  forall first last : wavefront (A:=RA), unit_line (wf_line first) ->
  wf_start first = wf_end last ->
  create_bevel_wavefront first last = Err TypeError.
Proof.
  intros f l Hu He. unfold create_bevel_wavefront.
  assert (pt_eqb (wf_start f) (wf_end l) = true) as ->.
  { rewrite He. unfold pt_eqb. ra_simp. apply andb_true_iff. rewrite !Reqb_true. auto. }
  cbn [rassert rbind].
  destruct (perpendicular_R (wf_line f) (wf_start f) Hu) as (m & -> & Em & _).
  cbn [rbind WaveFront wf_line].
  assert (Hm : unit_line m).
  { unfold unit_line in *. rewrite Em. cbn [fst snd]. ra_simp. lra. }
  assert (Hd : Rabs (det (wf_line f) m) > / 10^10).
  { unfold det. rewrite Em. cbn [fst snd]. unfold unit_line in Hu. ra_simp.
    replace (_ - _) with 1 by lra. rewrite Rabs_R1. lra. }
  destruct (get_bisector_R (wf_line f) m Hu Hm Hd) as (v & -> & _). reflexivity.
Qed.
Print Assumptions C20_bevel_type_error.

Example C20_case :
  match from_points (A:=QA) (10, 0)%Q (0, 0)%Q, from_points (A:=QA) (0, 0)%Q (10, 0)%Q with
  | Ok a, Ok b =>
      match create_bevel_wavefront (mkWF a (10, 0)%Q (0, 0)%Q) (mkWF b (0, 0)%Q (10, 0)%Q) with
      | Err TypeError => True
      | _ => False
      end
  | _, _ => False
  end.
Proof. vm_compute. exact I. Qed.
