(** Property theorems about collapse.py.  Specification vocabulary
    (CollapseR.v): [moving o v t] a point moving uniformly, [path kv t] where a
    vertex is at time t by its origin and velocity, [sqdist], [area2] twice the
    signed area, [quad a b c x] the polynomial's value. *)
From Coq Require Import Reals Lra Psatz Permutation Sorting.Sorted.
From Verif Require Import Base Arith ArithR ArithQ Calc CalcProofs VectorOps Line2d Line2dProofs
  Primitives Collapse CollapseProofs CollapseR Scenario.
Local Open Scope R_scope.

(** ** C21 *)

(** [v] is a least element of [a] among those admitted by [P] *)
Definition least_such {A : Arith} (P : num -> Prop) (a : list (option num)) (v : num) : Prop :=
  In (Some v) a /\ P v /\ forall w, In (Some w) a -> P w -> nleb v w = true.

Theorem C21_find_gte :
  forall (A : Arith), OrdArith A -> forall (a : list (option num)) (x : num),
  match find_gte a x with
  | Some v => least_such (fun w => nleb x w = true) a v
  | None => forall w, In (Some w) a -> nltb w x = true
  end.
Proof.
  intros A O a x. destruct (find_gte a x) as [v|] eqn:E.
  - apply (find_gte_some O) in E. exact E.
  - apply find_gte_none; assumption.
Qed.
Print Assumptions C21_find_gte.

Theorem C21_find_gt :
  forall (a : list (option R)) (x : R),
  match find_gt (A:=RA) a x with
  | Some v => least_such (A:=RA) (fun w : R => w > x + / 10^10) a v
  | None => forall w : R, In (Some w) a -> w <= x + / 10^10
  end.
Proof.
  intros a x. destruct (find_gt a x) as [v|] eqn:E.
  - apply (find_gt_some RA_ord) in E. destruct E as (H1 & H2 & H3).
    split; [exact H1|]. split; [apply clearly_after_R, H2|].
    intros w Hw Hx. apply H3; [exact Hw|]. apply clearly_after_R, Hx.
  - intros w Hw. apply Rnot_gt_le. intros K.
    rewrite find_gt_none in E. apply (E w Hw). apply clearly_after_R, K.
Qed.
Print Assumptions C21_find_gt.

(** for every arithmetic: admissible means greater and not nearly equal *)
Theorem C21_find_gt_any :
  forall (A : Arith), OrdArith A -> forall (a : list (option num)) (x : num),
  let admissible w := nltb x w = true /\ near_zero (nsub w x) = false in
  match find_gt a x with
  | Some v => least_such admissible a v
  | None => forall w, In (Some w) a -> ~ admissible w
  end.
Proof.
  intros A O a x adm. destruct (find_gt a x) as [v|] eqn:E.
  - apply (find_gt_some O) in E. exact E.
  - apply find_gt_none; assumption.
Qed.
Print Assumptions C21_find_gt_any.

(** the order of the candidates and None entries do not matter *)
Theorem C21_order_irrelevant :
  forall (a b : list (option R)) (x : R),
  (forall w : R, In (Some w) a <-> In (Some w) b) ->
  find_gte (A:=RA) a x = find_gte (A:=RA) b x /\ find_gt (A:=RA) a x = find_gt (A:=RA) b x.
Proof.
  intros a b x H.
  assert (U : forall P (v w : R), least_such (A:=RA) P a v -> least_such (A:=RA) P b w -> v = w).
  { intros P v w (A1 & A2 & A3) (B1 & B2 & B3).
    assert (nleb v w = true) by (apply A3; [apply H, B1|exact B2]).
    assert (nleb w v = true) by (apply B3; [apply H, A1|exact A2]).
    ra_simp. rb2p. lra. }
  split.
  - pose proof (C21_find_gte RA RA_ord a x) as Ha. pose proof (C21_find_gte RA RA_ord b x) as Hb.
    destruct (find_gte a x) as [v|], (find_gte b x) as [w|]; [f_equal; eapply U; eauto| | |reflexivity].
    + destruct Ha as (A1 & A2 & _). apply H, Hb in A1. ra_simp. rb2p. lra.
    + destruct Hb as (B1 & B2 & _). apply H, Ha in B1. ra_simp. rb2p. lra.
  - pose proof (C21_find_gt a x) as Ha. pose proof (C21_find_gt b x) as Hb.
    destruct (find_gt a x) as [v|], (find_gt b x) as [w|]; [f_equal; eapply U; eauto| | |reflexivity].
    + destruct Ha as (A1 & A2 & _). apply H, Hb in A1. ra_simp. lra.
    + destruct Hb as (B1 & B2 & _). apply H, Ha in B1. ra_simp. lra.
Qed.
Print Assumptions C21_order_irrelevant.

Example C21_case :
  find_gte (A:=QA) [Some 3; None; Some 1; Some 2]%Q 2%Q = Some 2%Q /\
  find_gt (A:=QA) [Some 3; None; Some 1; Some (2 + (1#100000000000))]%Q 2%Q = Some 3%Q /\
  find_gt (A:=QA) [Some 1; None]%Q 2%Q = None.
Proof. vm_compute. auto. Qed.

(** ** C22 *)

(** signed distance at time [t] of the moving vertex to the line moved by [t]
    along its normal *)
Definition gap (l : line2 (A:=RA)) (kv : kvertex (A:=RA)) (t : R) : R :=
  let p := path kv t in fst (lw l) * fst p + snd (lw l) * snd p + lb l - t.

(** org and dst are finite vertices sharing the unit support line [l], on which
    org starts *)
Definition shares_front (s : state (A:=RA)) (org dst : nat) (l : line2 (A:=RA)) : Prop :=
  k_inf (vs s org) = false /\ k_inf (vs s dst) = false /\
  unit_line l /\ on l (k_origin (vs s org)) /\
  exists u u', k_ur (vs s org) = Some u /\ k_ul (vs s dst) = Some u' /\
    wf_line (wfs s u) = l /\ wf_line (wfs s u') = l.

Lemma line_eqb_refl (l : line2 (A:=RA)) : line_eqb l l = true.
Proof.
  unfold line_eqb, pt_eqb. rewrite !(neqb_refl RA_ord). reflexivity.
Qed.
Lemma line_eqb_eq (l m : line2 (A:=RA)) : line_eqb l m = true -> l = m.
Proof.
  destruct l as [[a b] c], m as [[a' b'] c']. unfold line_eqb, pt_eqb. cbn [lw lb fst snd].
  ra_simp. intros H. rb2p. subst. reflexivity.
Qed.

Lemma crash_value (s : state (A:=RA)) org dst apx l : shares_front s org dst l ->
  let d := 1 - (fst (k_velocity (vs s apx)) * fst (lw l) + snd (k_velocity (vs s apx)) * snd (lw l)) in
  (forall t, gap l (vs s apx) t = gap l (vs s apx) 0 - t * d) /\
  (Rabs d <= / 10^10 /\ vertex_crash_time s org dst apx = Ok None \/
   Rabs d > / 10^10 /\ vertex_crash_time s org dst apx = Ok (Some (gap l (vs s apx) 0 / d))).
Proof.
  intros (Io & Id & Hu & Ho & u & u' & H1 & H2 & H3 & H4) d. split.
  { intros t. unfold gap, path, moving, d.
    destruct (k_origin (vs s apx)), (k_velocity (vs s apx)), (lw l). ra_simp. cbn [fst snd]. ring. }
  unfold vertex_crash_time, kattr. rewrite Io, Id, H1, H2. cbn [rbind].
  rewrite H3, H4, line_eqb_refl. cbn [rbind rassert].
  rewrite !dot2_R. unfold sub2. cbn [fst snd]. ra_simp. rewrite !q1.
  fold d.
  assert (G : (fst (k_origin (vs s apx)) - fst (k_origin (vs s org))) * fst (lw l) +
              (snd (k_origin (vs s apx)) - snd (k_origin (vs s org))) * snd (lw l)
              = gap l (vs s apx) 0).
  { unfold on, eval in Ho. unfold gap, path, moving.
    destruct (k_origin (vs s apx)), (k_velocity (vs s apx)), (k_origin (vs s org)), l as [[la lc] ld].
    cbn [lw lb fst snd] in *. ra_simp. lra. }
  destruct (Rle_dec (Rabs d) (/ 10^10)) as [L|L].
  - left. split; [exact L|]. replace (near_zero d) with true; [reflexivity|].
    symmetry. apply near_zero_R. revert L. unfold Rabs. destruct (Rcase_abs d); lra.
  - right. split; [lra|]. replace (near_zero d) with false.
    + rewrite pdiv_R.
      * cbn [rbind]. do 3 f_equal. exact G.
      * intros E. rewrite E, Rabs_R0 in L. lra.
    + symmetry. apply near_zero_false_R. lra.
Qed.

Theorem C22_crash_time_is_contact_time :
  forall (s : state (A:=RA)) org dst apx l t0, shares_front s org dst l ->
  vertex_crash_time s org dst apx = Ok (Some t0) ->
  forall t, gap l (vs s apx) t = 0 <-> t = t0.
Proof.
  intros s org dst apx l t0 H E t. destruct (crash_value s org dst apx l H) as [G [[L K]|[L K]]];
    rewrite K in E; [discriminate|]. injection E as <-.
  set (d := 1 - _) in *.
  assert (d <> 0) by (intros D; rewrite D, Rabs_R0 in L; lra).
  rewrite G. split; intros X.
  - apply Rmult_eq_reg_r with d; [|assumption]. field_simplify; [lra|assumption].
  - rewrite X. field. assumption.
Qed.
Print Assumptions C22_crash_time_is_contact_time.

Theorem C22_no_crash_iff_constant_distance :
  forall (s : state (A:=RA)) org dst apx l, shares_front s org dst l ->
  (vertex_crash_time s org dst apx = Ok None <->
   forall t1 t2, Rabs (gap l (vs s apx) t1 - gap l (vs s apx) t2) <= / 10^10 * Rabs (t1 - t2)).
Proof.
  intros s org dst apx l H.
  destruct (crash_value s org dst apx l H) as [G C]. set (d := 1 - _) in *.
  assert (E : forall t1 t2, Rabs (gap l (vs s apx) t1 - gap l (vs s apx) t2) = Rabs d * Rabs (t1 - t2)).
  { intros t1 t2. rewrite (G t1), (G t2).
    replace (_ - _) with (d * (- (t1 - t2))) by lra. rewrite Rabs_mult, Rabs_Ropp. reflexivity. }
  split.
  - intros K t1 t2. rewrite E. destruct C as [[L _]|[_ K']]; [|congruence].
    apply Rmult_le_compat_r; [apply Rabs_pos|exact L].
  - intros K. destruct C as [[_ K']|[L _]]; [exact K'|].
    specialize (K 1 0). rewrite E in K. replace (1 - 0) with 1 in K by lra. rewrite Rabs_R1 in K. lra.
Qed.
Print Assumptions C22_no_crash_iff_constant_distance.

(** it raises AssertionError unless the two vertices share the line *)
Theorem C22_asserts_common_line :
  forall (s : state (A:=RA)) org dst apx,
  k_inf (vs s org) = false -> k_inf (vs s dst) = false ->
  (k_ur (vs s org) = None -> vertex_crash_time s org dst apx = Err AssertionError) /\
  (forall u u', k_ur (vs s org) = Some u -> k_ul (vs s dst) = Some u' ->
   (wf_line (wfs s u) <> wf_line (wfs s u') <->
    vertex_crash_time s org dst apx = Err AssertionError)).
Proof.
  intros s org dst apx Io Id. unfold vertex_crash_time, kattr. rewrite Io, Id. cbn [rbind]. split.
  - intros ->. reflexivity.
  - intros u u' -> ->.
    destruct (line_eqb (wf_line (wfs s u)) (wf_line (wfs s u'))) eqn:E; cbn [rassert rbind].
    + split; [intros H; apply line_eqb_eq in E; contradiction|].
      destruct (near_zero _); [discriminate|].
      unfold pdiv. destruct (neqb _ _); cbn [rbind]; discriminate.
    + split; [reflexivity|]. intros _ H. rewrite H, line_eqb_refl in E. discriminate.
Qed.
Print Assumptions C22_asserts_common_line.

(** apex of the right triangle over its bottom side: (0,3) moving with (1,-2)
    meets the bottom front y = t at time 1 *)
Example C22_case : vertex_crash_time rt_triangle 0 1 2 = Ok (Some 1%Q).
Proof. vm_compute. reflexivity. Qed.
Example C22_case_front :
  let l := mkLine (A:=RA) (0, 1) 0 in unit_line l /\ on l (0, 0).
Proof. unfold unit_line, on, eval. simpl. split; lra. Qed.

(** ** C23 *)
Theorem C23_time_of_closest_approach :
  forall (s : state (A:=RA)) v1 v2 (t0 : R),
  let D t := sqdist (path (vs s v1) t) (path (vs s v2) t) in
  collapse_time_edge s v1 v2 = Ok t0 ->
  sqdist (k_velocity (vs s v1)) (k_velocity (vs s v2)) > / 10^10 ->
  (forall t, D t0 <= D t) /\ (forall t, D t = D t0 -> t = t0) /\
  (forall t, path (vs s v1) t = path (vs s v2) t -> t = t0).
Proof.
  intros s v1 v2 t0 D H V. rewrite collapse_time_edge_R in H. fold (dv2 (vs s v1) (vs s v2)) in V.
  destruct (Rle_dec _ _) as [L|L]; [lra|]. injection H as H. symmetry in H.
  assert (P : 0 < dv2 (vs s v1) (vs s v2)) by lra.
  assert (Q : forall t, D t = D t0 + dv2 (vs s v1) (vs s v2) * (t - t0)^2).
  { intros t. apply closest_is_min; assumption. }
  set (K := dv2 (vs s v1) (vs s v2)) in *. clearbody K.
  assert (U : forall t, D t <= D t0 -> t = t0).
  { intros t E. rewrite Q in E.
    assert (Z : (t - t0)^2 = 0).
    { destruct (pow2_ge_0 (t - t0)) as [X|X]; [|auto].
      pose proof (Rmult_lt_0_compat _ _ P X).
      lra. }
    apply Rminus_diag_uniq. destruct (Req_dec (t - t0) 0) as [X|X]; [exact X|].
    apply pow_nonzero with (n := 2%nat) in X. contradiction. }
  split; [|split].
  - intros t. rewrite (Q t). pose proof (Rmult_le_pos _ _ (Rlt_le _ _ P) (pow2_ge_0 (t - t0))).
    lra.
  - intros t E. apply U. lra.
  - intros t E. apply U. unfold D at 1, sqdist. rewrite E.
    replace (_ + _) with 0 by ring. unfold D, sqdist.
    apply Rplus_le_le_0_compat; apply pow2_ge_0.
Qed.
Print Assumptions C23_time_of_closest_approach.

Theorem C23_parallel_gives_minus_one :
  forall (s : state (A:=RA)) v1 v2,
  sqdist (k_velocity (vs s v1)) (k_velocity (vs s v2)) <= / 10^10 ->
  collapse_time_edge s v1 v2 = Ok (-1).
Proof.
  intros s v1 v2 H. rewrite collapse_time_edge_R. fold (dv2 (vs s v1) (vs s v2)) in H.
  destruct (Rle_dec _ _); [reflexivity|contradiction].
Qed.
Print Assumptions C23_parallel_gives_minus_one.

Theorem C23_symmetric_and_total :
  forall (s : state (A:=RA)) v1 v2,
  collapse_time_edge s v1 v2 = collapse_time_edge s v2 v1 /\
  exists t, collapse_time_edge s v1 v2 = Ok t.
Proof.
  intros s v1 v2. rewrite !collapse_time_edge_R. split; [|eauto].
  replace (dv2 (vs s v2) (vs s v1)) with (dv2 (vs s v1) (vs s v2)).
  2:{ unfold dv2, sqdist. ring. }
  destruct (Rle_dec _ _); [reflexivity|]. do 2 f_equal.
  destruct (k_origin (vs s v1)), (k_velocity (vs s v1)), (k_origin (vs s v2)), (k_velocity (vs s v2)).
  cbn [fst snd]. ra_simp. ring.
Qed.
Print Assumptions C23_symmetric_and_total.

(** vertices (4,0) moving (-3,1) and (0,3) moving (1,-2) meet in (1,1) at time 1 *)
Example C23_case : collapse_time_edge rt_triangle 1 2 = Ok 1%Q.
Proof. vm_compute. reflexivity. Qed.
(** skew paths: closest approach without meeting *)
Example C23_case_skew :
  collapse_time_edge (st [mv (0, 0)%Q (1, 0)%Q 0 0 0; mv (2, 2)%Q (-1, 0)%Q 0 0 0] [] [] [] [] [] []) 0 1
  = Ok 1%Q.
Proof. vm_compute. reflexivity. Qed.

(** ** C24 *)
Theorem C24_area_polynomial :
  forall (a b c : kvertex (A:=RA)) (t : R),
  let '(ca, cb, cc) := area_collapse_time_coeff a b c in
  ca * t^2 + cb * t + cc = area2 (path a t) (path b t) (path c t).
Proof. exact area_coeff_R. Qed.
Print Assumptions C24_area_polynomial.

Theorem C24_rotation_and_swap :
  forall (a b c : kvertex (A:=RA)),
  let neg (x : R * R * R) := (- fst (fst x), - snd (fst x), - snd x) in
  area_collapse_time_coeff b c a = area_collapse_time_coeff a b c /\
  area_collapse_time_coeff b a c = neg (area_collapse_time_coeff a b c).
Proof.
  intros a b c neg. unfold neg, area_collapse_time_coeff.
  destruct (k_origin a) as [xa ya], (k_velocity a) as [dxa dya],
    (k_origin b) as [xb yb], (k_velocity b) as [dxb dyb],
    (k_origin c) as [xc yc], (k_velocity c) as [dxc dyc].
  ra_simp. cbn [fst snd]. split; (apply f_equal2; [apply f_equal2|]); ring.
Qed.
Print Assumptions C24_rotation_and_swap.

Example C24_case :
  area_collapse_time_coeff (A:=QA) (vs rt_triangle 0) (vs rt_triangle 1) (vs rt_triangle 2)
  = (12, -24, 12)%Q.
Proof. vm_compute. reflexivity. Qed.

(** ** C25 *)
Theorem C25_never_raises :
  forall a b c : R, exists l, solve_quadratic a b c = Ok l /\ StronglySorted Rlt l /\ (length l <= 2)%nat.
Proof.
  intros a b c. rewrite solve_quadratic_R. cbv zeta.
  set (u := _ - c / a).
  assert (P : forall x : R, StronglySorted Rlt [x]) by (intros x; repeat constructor).
  destruct (Rle_dec (Rabs a) _); [destruct (Rle_dec (Rabs b) _)|destruct (Rle_dec (Rabs u) _) as [|Lu];
    [|destruct (Rlt_dec u 0)]]; eexists; (split; [reflexivity|]); split; auto;
    try (repeat constructor; fail).
  constructor; [apply P|]. constructor; [|constructor].
  assert (0 < sqrt u).
  { apply sqrt_lt_R0. destruct (Rtotal_order u 0) as [H|[H|H]]; [lra| |lra].
    rewrite H, Rabs_R0 in Lu. exfalso. apply Lu. lra. }
  lra.
Qed.
Print Assumptions C25_never_raises.

Theorem C25_sound :
  forall a b c l x, solve_quadratic (A:=RA) a b c = Ok l -> In x l ->
  Rabs (quad a b c x) <= / 10^10 * Rmax (x^2) (Rabs a) /\
  (length l = 2%nat -> quad a b c x = 0).
Proof.
  intros a b c l x H Hx. rewrite solve_quadratic_R in H. injection H as <-. cbv zeta in *.
  assert (E10 : 0 < / 10^10) by lra.
  assert (MX : 0 <= Rmax (x^2) (Rabs a)).
  { apply Rle_trans with (Rabs a); [apply Rabs_pos|apply Rmax_r]. }
  destruct (Rle_dec (Rabs a) _) as [La|La].
  - destruct (Rle_dec (Rabs b) _) as [Lb|Lb]; [contradiction|].
    destruct Hx as [<-|[]]. split; [|discriminate].
    assert (b <> 0) by (intros ->; rewrite Rabs_R0 in Lb; lra).
    set (x := - c / b) in *.
    replace (quad a b c x) with (a * x^2) by (unfold quad, x; field; assumption).
    rewrite Rabs_mult, (Rabs_pos_eq (x^2)) by apply pow2_ge_0.
    apply Rmult_le_compat; [apply Rabs_pos|apply pow2_ge_0|exact La|apply Rmax_l].
  - assert (Ha : a <> 0) by (intros ->; rewrite Rabs_R0 in La; lra).
    rewrite (under_id a b c x Ha). set (u := _ - c / a) in *. set (m := - b / a * / 2) in *.
    destruct (Rle_dec (Rabs u) _) as [Lu|Lu].
    + destruct Hx as [<-|[]]. split; [|discriminate].
      replace (a * ((m - m)^2 - u)) with (- u * a) by ring.
      rewrite Rabs_mult, Rabs_Ropp.
      apply Rmult_le_compat; [apply Rabs_pos|apply Rabs_pos|exact Lu|apply Rmax_r].
    + destruct (Rlt_dec u 0) as [K|K]; [contradiction|].
      assert (S : sqrt u * sqrt u = u) by (apply sqrt_sqrt; lra).
      assert (Z : a * ((x - m)^2 - u) = 0).
      { destruct Hx as [<-|[<-|[]]]; rewrite <- S at 2; ring. }
      rewrite Z, Rabs_R0. split; [nra|reflexivity].
Qed.
Print Assumptions C25_sound.

Theorem C25_complete_quadratic :
  forall a b c l x, solve_quadratic (A:=RA) a b c = Ok l ->
  Rabs a > / 10^10 -> quad a b c x = 0 ->
  exists y, In y l /\ Rabs (x - y) <= / 10^5.
Proof.
  intros a b c l x H La Hx. rewrite solve_quadratic_R in H. injection H as <-. cbv zeta.
  assert (Ha : a <> 0) by (intros ->; rewrite Rabs_R0 in La; lra).
  destruct (Rle_dec (Rabs a) _); [lra|].
  rewrite (under_id a b c x Ha) in Hx. set (u := _ - c / a) in *. set (m := - b / a * / 2) in *.
  assert (E : (x - m)^2 = u).
  { apply Rmult_integral in Hx. destruct Hx; [contradiction|lra]. }
  assert (P : 0 <= u) by (rewrite <- E; apply pow2_ge_0).
  assert (T : forall y, y = x -> Rabs (x - y) <= / 10^5).
  { intros y ->. replace (x - x) with 0 by lra. rewrite Rabs_R0. lra. }
  destruct (Rle_dec (Rabs u) _) as [Lu|Lu].
  - exists m. split; [left; reflexivity|].
    rewrite Rabs_pos_eq in Lu by exact P.
    apply Rabs_le. split; nra.
  - destruct (Rlt_dec u 0); [lra|].
    assert (S : sqrt u = Rabs (x - m)) by (rewrite <- E; rewrite <- Rsqr_pow2; apply sqrt_Rsqr_abs).
    rewrite S. unfold Rabs at 1 2. destruct (Rcase_abs (x - m)).
    + exists (m - - (x - m)). split; [left; reflexivity|]. apply T. lra.
    + exists (m + (x - m)). split; [right; left; reflexivity|]. apply T. lra.
Qed.
Print Assumptions C25_complete_quadratic.

Theorem C25_complete_linear :
  forall b c x, Rabs b > / 10^10 ->
  exists y, solve_quadratic (A:=RA) 0 b c = Ok [y] /\ (quad 0 b c x = 0 <-> x = y).
Proof.
  intros b c x Lb. rewrite solve_quadratic_R. rewrite Rabs_R0.
  destruct (Rle_dec 0 _) as [_|K]; [|exfalso; apply K; lra].
  destruct (Rle_dec (Rabs b) _); [lra|]. eexists. split; [reflexivity|].
  assert (b <> 0) by (intros ->; rewrite Rabs_R0 in Lb; lra).
  unfold quad. split; intros E.
  - apply Rmult_eq_reg_l with b; [|assumption]. field_simplify; [|assumption]. lra.
  - rewrite E. field. assumption.
Qed.
Print Assumptions C25_complete_linear.

Example C25_case :
  solve_quadratic (A:=QA) 1%Q (-5)%Q 6%Q = Ok [2; 3]%Q /\ solve_quadratic (A:=QA) 0%Q 2%Q (-4)%Q = Ok [2]%Q /\
  solve_quadratic (A:=QA) 12%Q (-24)%Q 12%Q = Ok [1]%Q /\ solve_quadratic (A:=QA) 1%Q 0%Q 1%Q = Ok [].
Proof. vm_compute. auto. Qed.

(** ** C26 *)
Theorem C26_never_in_the_past :
  forall (A : Arith), OrdArith A -> forall (s : state) t now sv r s' i,
  compute_collapse_time t now sv s = Ok (r, s') -> r = Some i ->
  nleb now (ev_time (es s' i)) = true /\
  (sv = FindGt -> ev_time (es s' i) = now \/
     (nltb now (ev_time (es s' i)) = true /\ near_zero (nsub (ev_time (es s' i)) now) = false)).
Proof.
  intros A O s t now sv r s' i H Hr. subst r.
  unfold compute_collapse_time, bind, rd in H.
  destruct (collapse_event s t now sv) as [[e|]|] eqn:E; cbn in H; try discriminate.
  injection H as <- <-. cbn. unfold upd. rewrite Nat.eqb_refl.
  apply (collapse_event_good O) in E. destruct E as [_ [->|E]].
  - split; [apply (nleb_refl O)|]. auto.
  - destruct sv; cbn in E.
    + split; [apply (nltb_leb O); apply E|]. intros _. right. exact E.
    + split; [apply (nltb_false_leb O), E|discriminate].
Qed.
Print Assumptions C26_never_in_the_past.

(** over exact reals the gap is more than 1e-10 *)
Theorem C26_initial_gap :
  forall (s : state (A:=RA)) t (now : R) s' i,
  compute_collapse_time t now FindGt s = Ok (Some i, s') ->
  ev_time (es s' i) = now \/ ev_time (es s' i) > now + / 10^10.
Proof.
  intros s t now s' i H.
  destruct (C26_never_in_the_past RA RA_ord _ _ _ _ _ _ _ H eq_refl) as [_ K].
  destruct (K eq_refl) as [|K']; [auto|]. right. apply clearly_after_R, K'.
Qed.
Print Assumptions C26_initial_gap.

Definition run_collapse (s : state (A:=QA)) t now sv : option (Q * list side * evtype * nat) :=
  match compute_collapse_time t now sv s with
  | Ok (Some i, s') => Some (ev_time (es s' i), ev_side (es s' i), ev_tp (es s' i), ev_tritp (es s' i))
  | _ => None
  end.
Example C26_case : run_collapse rt_triangle 0 0%Q FindGt = Some (1%Q, [S0; S1; S2], Edge, 3%nat).
Proof. vm_compute. reflexivity. Qed.

(** ** C27 *)
Theorem C27_well_formed :
  forall (A : Arith), OrdArith A -> forall (s : state) t now sv s' i,
  compute_collapse_time t now sv s = Ok (Some i, s') ->
  let e := es s' i in
  ev_tri e = t /\
  ev_tritp e = length (filter is_none (list3 (t_n (ts s t)))) /\
  NoDup (ev_side e) /\
  (length (ev_side e) = 1 \/ length (ev_side e) = 3)%nat /\
  (length (ev_side e) = 3%nat -> ev_tp e = Edge) /\
  (ev_tp e = Split ->
   (forall v, In v (list3 (t_v (ts s t))) -> k_inf (vs s v) = false) /\
   length (filter is_none (list3 (t_n (ts s t)))) = 1%nat /\
   exists sd, ev_side e = [sd] /\ get3 (t_n (ts s t)) sd = None).
Proof.
  intros A O s t now sv s' i H e. subst e.
  unfold compute_collapse_time, bind, rd in H.
  destruct (collapse_event s t now sv) as [[e|]|] eqn:E; cbn in H; try discriminate.
  injection H as <- <-. cbn. unfold upd. rewrite Nat.eqb_refl.
  apply (collapse_event_good O) in E. destruct E as [[W1 W2 W3 W4 W5 W6] _].
  assert (C : forall (n : triple (option nat)), count3 is_none n =
    length (if is_none (x0 n) then x0 n :: (if is_none (x1 n) then x1 n :: (if is_none (x2 n) then [x2 n] else [])
       else (if is_none (x2 n) then [x2 n] else []))
     else (if is_none (x1 n) then x1 n :: (if is_none (x2 n) then [x2 n] else [])
       else (if is_none (x2 n) then [x2 n] else [])))).
  { intros n. unfold count3. destruct (x0 n), (x1 n), (x2 n); reflexivity. }
  split; [exact W1|]. rewrite W2, C. split; [reflexivity|].
  split; [exact W3|]. split; [exact W4|]. split; [exact W5|].
  intros S. destruct (W6 S) as (F & T & i & I1 & I2). split; [|split; [|eauto]].
  - intros v Hv. unfold is_finite in F. rewrite forallb_forall in F.
    apply negb_true_iff, F. exact Hv.
  - rewrite <- C. exact T.
Qed.
Print Assumptions C27_well_formed.

(** a reflex vertex (2,4) moving down over the wavefront (0,0)-(4,0) moving up *)
Definition split_state : state (A:=QA) :=
  st [mv (2, 4) (0, -1) 0 1 2; mv (0, 0) (0, 1) 1 2 0; mv (4, 0) (0, 1) 2 0 1]%Q
     [tr 0 1 2 None (Some 0%nat) (Some 0%nat)]
     [nd 2 4; nd 0 0; nd 4 0]%Q [] [wf (0, 1) 0; wf (1, 0) 0; wf (-1, 0) 4]%Q [] [].
Example C27_case_split : run_collapse split_state 0 0%Q FindGt = Some (2%Q, [S0], Split, 1%nat).
Proof. vm_compute. reflexivity. Qed.

(** ** C28 *)
Theorem C28_frame :
  forall (A : Arith) (s : state) t now sv r s',
  compute_collapse_time t now sv s = Ok (r, s') ->
  (t_stops (ts s t) <> None -> r = None) /\
  match r with
  | None => s' = s
  | Some i =>
      t_event (ts s' t) = Some i /\ i = ne s /\
      (t_v (ts s' t) = t_v (ts s t) /\ t_n (ts s' t) = t_n (ts s t) /\ t_info (ts s' t) = t_info (ts s t) /\
       t_stops (ts s' t) = t_stops (ts s t) /\ t_internal (ts s' t) = t_internal (ts s t)) /\
      (forall t', t' <> t -> ts s' t' = ts s t') /\ (forall e, e <> i -> es s' e = es s e) /\
      vs s' = vs s /\ nv s' = nv s /\ nt s' = nt s /\ ns s' = ns s /\ nn s' = nn s /\ wfs s' = wfs s /\
      sk_nodes s' = sk_nodes s /\ sk_vertices s' = sk_vertices s /\ sk_triangles s' = sk_triangles s /\
      queue s' = queue s /\ immediate s' = immediate s
  end.
Proof.
  intros A s t now sv r s' H.
  unfold compute_collapse_time, bind, rd in H.
  destruct (collapse_event s t now sv) as [[e|]|] eqn:E; cbn in H; try discriminate.
  - injection H as <- <-. apply collapse_event_active in E. split; [intros; contradiction|].
    cbn. unfold upd. rewrite Nat.eqb_refl. cbn.
    split; [reflexivity|]. split; [reflexivity|]. split; [repeat split|].
    split; [|split; [|repeat split]].
    + intros t' N. destruct (Nat.eqb t t') eqn:Q; [apply Nat.eqb_eq in Q; congruence|reflexivity].
    + intros e' N. destruct (Nat.eqb (ne s) e') eqn:Q; [apply Nat.eqb_eq in Q; congruence|reflexivity].
  - injection H as <- <-. split; auto.
Qed.
Print Assumptions C28_frame.

(** ** C56 *)

(** the claim: a triangle with three wavefront sides whose earliest edge
    collapse time from now on is [time] gets an edge event at that time *)
Definition three_collapse_claim {A : Arith} (s : state) (t : nat) (now time : num) : Prop :=
  t_stops (ts s t) = None ->
  (forall v, In v (list3 (t_v (ts s t))) -> k_inf (vs s v) = false) ->
  t_n (ts s t) = mk3 None None None ->
  forall ta tb tc,
  let v := t_v (ts s t) in
  collapse_time_edge s (x1 v) (x2 v) = Ok ta ->
  collapse_time_edge s (x2 v) (x0 v) = Ok tb ->
  collapse_time_edge s (x0 v) (x1 v) = Ok tc ->
  least_such (fun w => nleb now w = true) [Some ta; Some tb; Some tc] time ->
  forall r, collapse_event s t now FindGte = Ok r ->
  exists e, r = Some e /\ ev_tp e = Edge /\ neqb (ev_time e) time = true.

Theorem C56_nonzero_times :
  forall (A : Arith), OrdArith A -> forall (s : state) t now time,
  neqb time n0 = false -> three_collapse_claim s t now time.
Proof.
  intros A O s t now time Z St Fin N ta tb tc v Ha Hb Hc L r H.
  unfold collapse_event in H. rewrite St in H. cbn [is_some] in H.
  replace (is_finite s t) with true in H.
  2:{ symmetry. unfold is_finite. apply forallb_forall. intros x Hx. rewrite Fin by exact Hx. reflexivity. }
  unfold tri_type in H. rewrite N in H. cbn [count3 x0 x1 x2 is_none Nat.add] in H.
  rinv H. unfold compute_event_3triangle in Hx. fold v in Hx. cbn zeta in Hx.
  rewrite Ha, Hb, Hc in Hx. cbn [rbind] in Hx. rinv Hx.
  cbn [run_sieve] in Hx.
  destruct L as (L1 & L2 & L3).
  destruct (find_gte [Some ta; Some tb; Some tc] now) as [te|] eqn:E.
  2:{ rewrite find_gte_none in E. apply E in L1.
      rewrite (oa_ltb A O), L2 in L1. discriminate. }
  apply (find_gte_some O) in E. destruct E as (E1 & E2 & E3).
  assert (Q : neqb te time = true).
  { rewrite (oa_eqb A O), (E3 _ L1 L2), (L3 _ E1 E2). reflexivity. }
  assert (neqb te n0 = false) as Z'.
  { destruct (neqb te n0) eqn:W; [|reflexivity].
    rewrite (neqb_trans O time te n0) in Z; [discriminate| |exact W].
    rewrite (neqb_sym O). exact Q. }
  cbn [truthy] in Hx. rewrite Z' in Hx. injection Hx as <-. injection H as <-.
  eexists. split; [reflexivity|]. split; [reflexivity|]. exact Q.
Qed.
Print Assumptions C56_nonzero_times.

(** at time zero it fails: vertices 0 and 1 coincide at time 0 = now *)
Definition zero_state : state (A:=QA) :=
  st [mv (0, 0) (1, 0) 0 0 1; mv (0, 0) (-1, 0) 0 1 2; mv (0, 4) (0, 1) 0 2 0]%Q
     [tr 0 1 2 None None None] [nd 0 0]%Q [] [] [] [].
Lemma zero_state_times :
  collapse_time_edge zero_state 1 2 = Ok (-2)%Q /\ collapse_time_edge zero_state 2 0 = Ok (-2)%Q /\
  collapse_time_edge zero_state 0 1 = Ok 0%Q /\
  match collapse_event zero_state 0 0%Q FindGte with Ok None => true | _ => false end = true.
Proof. vm_compute. auto. Qed.
Lemma zero_state_least : least_such (A:=QA) (fun w => nleb (0%Q : @num QA) w = true)
  [Some (-2); Some (-2); Some 0]%Q 0%Q.
Proof.
  split; [right; right; left; reflexivity|]. split; [reflexivity|].
  intros w [E|[E|[E|[]]]]; injection E as <-; intros W; [discriminate W|discriminate W|reflexivity].
Qed.
Theorem C56_time_zero_refuted :
  exists (s : state (A:=QA)) t, ~ three_collapse_claim s t 0%Q 0%Q.
Proof.
  exists zero_state, 0%nat. intros C.
  destruct zero_state_times as (H1 & H2 & H3 & H4).
  specialize (C eq_refl).
  assert (F : forall v, In v (list3 (t_v (ts zero_state 0))) -> k_inf (vs zero_state v) = false).
  { intros v [<-|[<-|[<-|[]]]]; reflexivity. }
  specialize (C F eq_refl _ _ _ H1 H2 H3 zero_state_least).
  destruct (collapse_event zero_state 0 0%Q FindGte) as [[e|]|]; try discriminate H4.
  destruct (C _ eq_refl) as (e & E & _). discriminate.
Qed.
Print Assumptions C56_time_zero_refuted.

(** ** C57 *)
Definition flip_executable {A : Arith} (s : state) (t : nat) (now : num) (sv : sieve) : Prop :=
  forall e sd, collapse_event s t now sv = Ok (Some e) -> ev_tp e = Flip -> ev_side e = [sd] ->
  get3 (t_n (ts s t)) sd <> None.

(** triangles with two or three sides on the wavefront never flip *)
Theorem C57_two_and_three_never_flip :
  forall (A : Arith) (s : state) t now sv e,
  (forall v, In v (list3 (t_v (ts s t))) -> k_inf (vs s v) = false) ->
  collapse_event s t now sv = Ok (Some e) -> ev_tp e = Flip ->
  forall i j, get3 (t_n (ts s t)) i = None -> get3 (t_n (ts s t)) j = None -> i = j.
Proof.
  intros A s t now sv e FIN H TP i j NI NJ.
  unfold collapse_event in H.
  destruct (is_some (t_stops (ts s t))); [discriminate|].
  replace (is_finite s t) with true in H.
  2:{ symmetry. unfold is_finite. apply forallb_forall. intros v Hv. rewrite (FIN v Hv). reflexivity. }
  apply rbind_ok in H as ([e'|] & H & K).
  2:{ apply rbind_ok in K as (? & _ & K). discriminate K. }
  injection K as ->.
  assert (TY : (tri_type (ts s t) <= 1)%nat -> i = j).
  { unfold tri_type, count3. intros TY.
    destruct i, j; try reflexivity; exfalso; cbn [get3] in NI, NJ; rewrite NI, NJ in TY; cbn in TY; lia. }
  destruct (tri_type (ts s t)) as [|[|[|n]]] eqn:TE; try (apply TY; lia).
  - exfalso. unfold compute_event_2triangle in H. rewrite TE in H. cbn [Nat.eqb] in H.
    apply rbind_ok in H as (? & _ & H). apply rbind_ok in H as (? & _ & H).
    apply rbind_ok in H as (? & _ & H). apply rbind_ok in H as (? & _ & H).
    apply rbind_ok in H as (? & _ & H). apply rbind_ok in H as ([time|] & _ & H); [|discriminate].
    unfold event2_at in H. apply rbind_ok in H as (ds & _ & H).
    destruct (count3 _ _) as [|[|[|[|]]]]; try discriminate.
    + apply rbind_ok in H as (? & _ & H). injection H as <-. discriminate TP.
    + injection H as <-. discriminate TP.
  - exfalso. unfold compute_event_3triangle in H.
    do 9 (apply rbind_ok in H as (? & _ & H)).
    destruct (truthy _). { injection H as <-. discriminate TP. }
    destruct (truthy _). { injection H as <-. discriminate TP. }
    discriminate.
Qed.
Print Assumptions C57_two_and_three_never_flip.

(** a wavefront side of length 1e-11 whose ends move in parallel *)
Definition tiny_state : state (A:=QA) :=
  st [mv (0, 2) (0, -1) 0 1 2; mv (0, 0) (0, 1) 1 2 0; mv ((1#100000000000), 0) (0, 1) 2 0 1]%Q
     [tr 0 1 2 None (Some 0%nat) (Some 0%nat)]
     [nd 0 2; nd 0 0; nd (1#100000000000) 0]%Q [] [wf (0, 1) 0; wf (1, 0) 0; wf (-1, 0) (1#100000000000)]%Q [] [].
Lemma tiny_state_event :
  match collapse_event tiny_state 0 0%Q FindGt with
  | Ok (Some e) => ev_tp e = Flip /\ ev_side e = [S0]
  | _ => False
  end.
Proof. vm_compute. auto. Qed.
Theorem C57_one_triangles_refuted :
  exists (s : state (A:=QA)) t, ~ flip_executable s t 0%Q FindGt.
Proof.
  exists tiny_state, 0%nat. intros C. pose proof tiny_state_event as H.
  unfold flip_executable in C.
  destruct (collapse_event tiny_state 0 0%Q FindGt) as [[e|]|]; try contradiction.
  destruct H as [H1 H2]. apply (C e S0 eq_refl H1 H2). reflexivity.
Qed.
Print Assumptions C57_one_triangles_refuted.

(** Over exact reals the claim fails for finite triangles in no other way than
    this one: the flip names a wavefront side although another side has, up to
    1e-10, the same length at that time. *)
Definition side_length (s : state (A:=RA)) (t : nat) (sd : side) (time L : R) : Prop :=
  exists p q, position_at s (get3 (t_v (ts s t)) (ccw sd)) time = Ok p /\
              position_at s (get3 (t_v (ts s t)) (cw sd)) time = Ok q /\
              L = sqrt (sqdist p q).

Lemma distance2_at_inv (s : state (A:=RA)) v w (time x : R) : distance2_at s v w time = Ok x ->
  exists p q, position_at s v time = Ok p /\ position_at s w time = Ok q /\ x = sqdist p q.
Proof.
  unfold distance2_at. intros H. apply rbind_ok in H as ([a b] & P & H).
  apply rbind_ok in H as ([c d] & Q & H). injection H as <-.
  exists (a, b), (c, d). split; [exact P|]. split; [exact Q|].
  unfold sqdist. ra_simp. cbn [fst snd]. ring.
Qed.
Lemma sqdist_nonneg p q : (0 <= sqdist p q)%R.
Proof. unfold sqdist. apply Rplus_le_le_0_compat; apply pow2_ge_0. Qed.
Lemma psqrt_R (x : R) : (0 <= x)%R -> psqrt (A:=RA) x = Ok (sqrt x).
Proof.
  intros H. unfold psqrt. ra_simp. replace (Rltb x _) with false; [reflexivity|].
  symmetry. apply Rltb_false. qlit. lra.
Qed.
Lemma dists_lengths (s : state (A:=RA)) t (time : R) ds :
  dists s (x0 (t_v (ts s t))) (x1 (t_v (ts s t))) (x2 (t_v (ts s t))) time = Ok ds ->
  forall sd, side_length s t sd time (get3 ds sd).
Proof.
  unfold dists, dists2, sqrt3. intros H.
  apply rbind_ok in H as (q & H0 & H).
  apply rbind_ok in H0 as (x & X & H0). apply rbind_ok in H0 as (y & Y & H0).
  apply rbind_ok in H0 as (z & Z & H0). injection H0 as <-.
  cbn [x0 x1 x2] in H.
  apply distance2_at_inv in X as (p1 & q1 & P1 & Q1 & ->).
  apply distance2_at_inv in Y as (p2 & q2 & P2 & Q2 & ->).
  apply distance2_at_inv in Z as (p3 & q3 & P3 & Q3 & ->).
  rewrite !psqrt_R in H by apply sqdist_nonneg. cbn in H. injection H as <-.
  intros []; unfold side_length; cbn [ccw cw get3 x0 x1 x2]; eauto 8.
Qed.
Lemma max3_R (ds : triple R) (sd : side) : (get3 ds sd <= max3 (A:=RA) ds)%R.
Proof.
  unfold max3, nmax. ra_simp.
  destruct (Rltb (x0 ds) (x1 ds)) eqn:E.
  - apply Rltb_true in E. destruct (Rltb (x1 ds) (x2 ds)) eqn:F;
      [apply Rltb_true in F|apply Rltb_false in F]; destruct sd; cbn [get3]; lra.
  - apply Rltb_false in E. destruct (Rltb (x0 ds) (x2 ds)) eqn:F;
      [apply Rltb_true in F|apply Rltb_false in F]; destruct sd; cbn [get3]; lra.
Qed.
Lemma argmax3_R (ds : triple R) sd : argmax3 (A:=RA) ds = Ok sd -> get3 ds sd = max3 (A:=RA) ds.
Proof. intros H. apply index3_get in H. apply Reqb_true in H. exact H. Qed.

Lemma side_eq_dec (i j : side) : {i = j} + {i <> j}.
Proof. decide equality. Qed.
Theorem C57_only_ties :
  forall (s : state (A:=RA)) t (now : R) sv e sd,
  (forall v, In v (list3 (t_v (ts s t))) -> k_inf (vs s v) = false) ->
  collapse_event s t now sv = Ok (Some e) -> ev_tp e = Flip -> ev_side e = [sd] ->
  get3 (t_n (ts s t)) sd = None ->
  exists other L M, other <> sd /\
    side_length s t sd (ev_time e) L /\ side_length s t other (ev_time e) M /\
    (Rabs (M - L) <= / 10^10)%R.
Proof.
  intros s t now sv e sd FIN H TP SD NB.
  unfold collapse_event in H.
  destruct (is_some (t_stops (ts s t))); [discriminate|].
  replace (is_finite s t) with true in H.
  2:{ symmetry. unfold is_finite. apply forallb_forall. intros v Hv. rewrite (FIN v Hv). reflexivity. }
  apply rbind_ok in H as ([e'|] & H & K).
  2:{ apply rbind_ok in K as (? & _ & K). discriminate K. }
  injection K as ->.
  destruct (tri_type (ts s t)) as [|[|[|n]]] eqn:TY.
  - (* type 0 *)
    exfalso. unfold tri_type, count3 in TY.
    destruct sd; cbn [get3] in NB; rewrite NB in TY; cbn in TY; lia.
  - unfold compute_event_1triangle in H. rewrite TY in H. cbn [Nat.eqb] in H.
    apply rbind_ok in H as (? & _ & H).
    apply rbind_ok in H as (wf & W & H). apply index3_none_nb in W.
    assert (U : forall i, i <> wf -> get3 (t_n (ts s t)) i <> None).
    { intros i NE E. unfold tri_type, count3 in TY.
      destruct i, wf; cbn [get3] in W, E; try congruence; rewrite W, E in TY; cbn in TY; lia. }
    assert (sd = wf) as -> by (destruct (side_eq_dec sd wf) as [|NE]; [assumption|destruct (U _ NE NB)]).
    apply rbind_ok in H as (crash & _ & H). apply rbind_ok in H as (early & EA & H).
    destruct early as [e'|].
    + injection H as ->. exfalso. unfold event1_degenerate in EA.
      destruct crash as [tv|]; [|discriminate].
      destruct (near_zero _); [|discriminate].
      apply rbind_ok in EA as (ds & _ & EA).
      assert (G : (sd <-- argmax3 ds;;
          Ok (Some (mkevent s t now [sd] (if side_eqb sd wf then Split else Flip))))%res = Ok (Some e) -> False).
      { intros G. apply rbind_ok in G as (i & _ & G). injection G as <-. cbn in TP, SD.
        injection SD as ->. replace (side_eqb wf wf) with true in TP by (destruct wf; reflexivity).
        discriminate. }
      destruct (where3 near_zero ds) as [|? [|? ?]]; auto. injection EA as <-. discriminate TP.
    + apply rbind_ok in H as (areas & _ & H). apply rbind_ok in H as (te & _ & H).
      destruct (run_sieve sv [Some te] now) as [te'|], (run_sieve sv [crash] now) as [tv|].
      * (* case D *)
        exfalso. unfold event1_caseD in H. destruct (_ || _)%bool.
        -- apply rbind_ok in H as (q & _ & H). apply rbind_ok in H as (i & _ & H).
           injection H as <-. discriminate TP.
        -- destruct (_ <? _)%num; [|discriminate].
           apply rbind_ok in H as (ds & _ & H).
           assert (G : (sd <-- argmax3 ds;;
              Ok (Some (mkevent s t tv [sd] (if is_none (get3 (t_n (ts s t)) sd) then Split else Flip))))%res = Ok (Some e) -> False).
           { intros G. apply rbind_ok in G as (i & _ & G). injection G as <-. cbn in TP, SD.
             injection SD as ->. rewrite NB in TP. discriminate. }
           destruct (where3 near_zero ds) as [|? [|? [|? [|]]]]; auto; injection H as <-; discriminate TP.
      * injection H as <-. discriminate TP.
      * (* case B *)
        unfold event1_caseB in H. set (time := match run_sieve sv (map Some areas) now with
          | Some ta => if (ta <? tv)%num then ta else tv | None => tv end) in H.
        apply rbind_ok in H as (ds & D & H). pose proof (dists_lengths _ _ _ _ D) as LE.
        set (longest := where3 _ ds) in H.
        destruct (match longest with [i] => side_eqb wf i | _ => false end) eqn:LO.
        { injection H as <-. discriminate TP. }
        destruct (Nat.eqb _ 1).
        { apply rbind_ok in H as (i & _ & H). injection H as <-. discriminate TP. }
        apply rbind_ok in H as (i & I & H). injection H as <-. cbn in SD. injection SD as ->.
        cbn [ev_time mkevent]. apply argmax3_R in I.
        assert (IN : forall j, In j longest <-> (Rabs (get3 ds j - get3 ds wf) <= / 10^10)%R).
        { intros j. unfold longest. rewrite where3_In. rewrite near_zero_R.
          change (@get3 (@num RA) ds wf = max3 ds) in I. rewrite <- I. ra_simp.
          unfold Rabs. destruct (Rcase_abs _); split; intros; lra. }
        assert (WI : In wf longest).
        { apply IN. rewrite Rminus_diag_eq by reflexivity. rewrite Rabs_R0. lra. }
        assert (exists j, j <> wf /\ In j longest) as (j & NE & J).
        { pose proof (where3_NoDup (fun x => near_zero (x - max3 ds)%num) ds) as ND. fold longest in ND.
          clearbody longest. destruct longest as [|j [|k r]]; [destruct WI| |].
          - destruct WI as [->|[]]. destruct wf; discriminate LO.
          - destruct (side_eq_dec j wf) as [->|NE].
            + exists k. split; [|right; left; reflexivity]. intros ->.
              inversion ND as [|? ? NI]; subst. apply NI. left; reflexivity.
            + exists j. split; [exact NE|left; reflexivity]. }
        exists j, (get3 ds wf), (get3 ds j). split; [exact NE|]. split; [apply LE|]. split; [apply LE|].
        apply IN, J.
      * (* case A *)
        exfalso. unfold event1_caseA in H.
        destruct (area_collapse_time_coeff _ _ _) as [[ca cb] cc].
        apply rbind_ok in H as (sol & _ & H).
        destruct (run_sieve sv (map Some sol) now) as [time|]; [|discriminate].
        destruct (near_zero _). { injection H as <-. discriminate TP. }
        apply rbind_ok in H as (dx & X & H). apply rbind_ok in H as (dy & Y & H).
        apply rbind_ok in H as (dz & Z & H). apply rbind_ok in H as (i & I & H).
        injection H as <-. cbn in SD. injection SD as ->. apply argmax3_R in I.
        set (ds := mk3 dx dy dz) in I.
        assert (V : forall j v w u, get3 ds j = u ->
          (if is_some (get3 (t_n (ts s t)) j) then distance2_at s v w time else Ok (lit (-1))) = Ok u ->
          (get3 (t_n (ts s t)) j = None -> u = -1) /\ (get3 (t_n (ts s t)) j <> None -> 0 <= u)).
        { intros j v w u _ E. destruct (get3 (t_n (ts s t)) j); cbn in E; split; try congruence.
          - intros _. apply distance2_at_inv in E as (p & q & _ & _ & ->). apply sqdist_nonneg.
          - intros _. injection E as <-. qlit. reflexivity. }
        assert (V' : forall j, (get3 (t_n (ts s t)) j = None -> get3 ds j = -1) /\
                               (get3 (t_n (ts s t)) j <> None -> 0 <= get3 ds j)).
        { intros []; [apply (V S0 _ _ _ eq_refl X)|apply (V S1 _ _ _ eq_refl Y)|apply (V S2 _ _ _ eq_refl Z)]. }
        assert (exists j, j <> wf) as (j & NE) by (destruct wf; [exists S1|exists S0|exists S0]; discriminate).
        pose proof (max3_R ds j) as MX. pose proof (proj1 (V' wf) NB) as E1.
        pose proof (proj2 (V' j) (U j NE)) as E2.
        assert (E3 : max3 (A:=RA) ds = -1) by (rewrite <- I; exact E1).
        clear - MX E2 E3. ra_simp. cbn [num RA] in *. lra.
  - exfalso. unfold compute_event_2triangle in H. rewrite TY in H. cbn [Nat.eqb] in H.
    apply rbind_ok in H as (? & _ & H). apply rbind_ok in H as (? & _ & H).
    apply rbind_ok in H as (? & _ & H). apply rbind_ok in H as (? & _ & H).
    apply rbind_ok in H as (? & _ & H). apply rbind_ok in H as ([time|] & _ & H); [|discriminate].
    unfold event2_at in H. apply rbind_ok in H as (ds & _ & H).
    destruct (count3 _ _) as [|[|[|[|]]]]; try discriminate.
    + apply rbind_ok in H as (i & _ & H). injection H as <-. discriminate TP.
    + injection H as <-. discriminate TP.
  - exfalso. unfold compute_event_3triangle in H.
    do 7 (apply rbind_ok in H as (? & _ & H)). apply rbind_ok in H as (? & _ & H).
    apply rbind_ok in H as (? & _ & H).
    destruct (truthy _). { injection H as <-. discriminate TP. }
    destruct (truthy _). { injection H as <-. discriminate TP. }
    discriminate.
Qed.
Print Assumptions C57_only_ties.

(** the longest side (0,0)-(10,0) is on the wavefront, the flip names another *)
Definition slack_state : state (A:=QA) :=
  st [mv (4, 2) (0, 1) 0 1 2; mv (0, 0) (0, 2) 1 2 0; mv (10, 0) (0, 2) 2 0 1]%Q
     [tr 0 1 2 None (Some 0%nat) (Some 0%nat)]
     [nd 4 2; nd 0 0; nd 10 0]%Q [] [wf (0, 1) 0; wf (1, 0) 0; wf (0, 1) 0]%Q [] [].
Example C57_case : run_collapse slack_state 0 0%Q FindGt = Some (2%Q, [S1], Flip, 1%nat).
Proof. vm_compute. reflexivity. Qed.
