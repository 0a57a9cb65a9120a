(** The computations of collapse.py over exact reals. *)
From Coq Require Import Reals Lra Psatz Permutation Sorting.Sorted.
From Verif Require Import Base Arith ArithR Calc CalcProofs VectorOps Line2d Line2dProofs
  Primitives Collapse CollapseProofs.
Local Open Scope R_scope.

(** Specification: a point moving on a straight line, squared distance, twice
    the signed area. *)
Definition moving (o v : R * R) (t : R) : R * R := (fst o + t * fst v, snd o + t * snd v).
Definition sqdist (p q : R * R) : R := (fst p - fst q)^2 + (snd p - snd q)^2.
Definition path (kv : kvertex (A:=RA)) (t : R) : R * R := moving (k_origin kv) (k_velocity kv) t.

Lemma clearly_after_R (x w : R) : clearly_after x w <-> w > x + / 10^10.
Proof.
  unfold clearly_after. rewrite near_zero_false_R. ra_simp. rewrite Rltb_true. split.
  - intros [H K]. rewrite Rabs_pos_eq in K by lra. lra.
  - intros H. assert (0 < / 10^10) by lra. split; [lra|]. rewrite Rabs_pos_eq; lra.
Qed.

(** ** Closest approach *)
Definition dv2 (k1 k2 : kvertex (A:=RA)) : R := sqdist (k_velocity k1) (k_velocity k2).

Lemma collapse_time_edge_R (s : state (A:=RA)) v1 v2 :
  let k1 := vs s v1 in let k2 := vs s v2 in
  collapse_time_edge s v1 v2 =
  Ok (if Rle_dec (dv2 k1 k2) (/ 10^10) then -1
      else ((fst (k_velocity k1) - fst (k_velocity k2)) * (fst (k_origin k2) - fst (k_origin k1)) +
            (snd (k_velocity k1) - snd (k_velocity k2)) * (snd (k_origin k2) - snd (k_origin k1)))
           / dv2 k1 k2).
Proof.
  intros k1 k2. unfold collapse_time_edge. fold k1 k2. rewrite !dot2_R.
  unfold sub2. cbn [fst snd]. ra_simp.
  destruct (k_origin k1) as [ox1 oy1] eqn:E1, (k_origin k2) as [ox2 oy2] eqn:E2,
    (k_velocity k1) as [vx1 vy1] eqn:E3, (k_velocity k2) as [vx2 vy2] eqn:E4.
  unfold dv2, sqdist. rewrite E3, E4. cbn [fst snd].
  clearbody k1 k2. clear s v1 v2 E1 E2 E3 E4 k1 k2. ra_simp.
  assert (G : (vx1 - vx2) * (vx1 - vx2) + (vy1 - vy2) * (vy1 - vy2)
              = (vx1 - vx2) ^ 2 + (vy1 - vy2) ^ 2) by lra.
  rewrite G. set (D := (vx1 - vx2)^2 + _) in *.
  assert (HD : 0 <= D) by (apply Rplus_le_le_0_compat; apply pow2_ge_0). clearbody D.
  destruct (Rle_dec _ _) as [L|L].
  - replace (near_zero _) with true; [f_equal; rewrite qm1; reflexivity|].
    symmetry. apply near_zero_R. lra.
  - replace (near_zero _) with false.
    + rewrite pdiv_R by lra. reflexivity.
    + symmetry. apply near_zero_false_R. rewrite Rabs_pos_eq; lra.
Qed.

Lemma closest_is_min (o1 v1 o2 v2 : R * R) (t0 t : R) :
  let D := sqdist v1 v2 in
  0 < D ->
  t0 = ((fst v1 - fst v2) * (fst o2 - fst o1) + (snd v1 - snd v2) * (snd o2 - snd o1)) / D ->
  sqdist (moving o1 v1 t) (moving o2 v2 t)
  = sqdist (moving o1 v1 t0) (moving o2 v2 t0) + D * (t - t0)^2.
Proof.
  intros D HD ->. unfold sqdist, moving in *. cbn [fst snd]. subst D.
  destruct o1 as [a b], v1 as [c d], o2 as [e f], v2 as [g h]. cbn [fst snd] in *.
  field. nra.
Qed.

(** ** Area *)
Definition area2 (p q r : R * R) : R :=
  (fst q - fst p) * (snd r - snd p) - (snd q - snd p) * (fst r - fst p).

Lemma area_coeff_R (a b c : kvertex (A:=RA)) (t : R) :
  let '(ca, cb, cc) := area_collapse_time_coeff a b c in
  ca * t^2 + cb * t + cc = area2 (path a t) (path b t) (path c t).
Proof.
  unfold area_collapse_time_coeff, area2, path, moving.
  destruct (k_origin a) as [xa ya], (k_velocity a) as [dxa dya],
    (k_origin b) as [xb yb], (k_velocity b) as [dxb dyb],
    (k_origin c) as [xc yc], (k_velocity c) as [dxc dyc].
  ra_simp. cbn [fst snd]. ring.
Qed.

(** ** Quadratic equations *)
Definition quad (a b c x : R) : R := a * x^2 + b * x + c.

Lemma under_id (a b c x : R) : a <> 0 ->
  quad a b c x = a * ((x - - b / a * / 2)^2 - (/ 4 * (- b / a * (- b / a)) - c / a)).
Proof. intros H. unfold quad. field. exact H. Qed.

Lemma solve_quadratic_R (a b c : R) :
  solve_quadratic a b c = Ok (
    if Rle_dec (Rabs a) (/ 10^10) then
      if Rle_dec (Rabs b) (/ 10^10) then [] else [ - c / b ]
    else
      let u := / 4 * (- b / a * (- b / a)) - c / a in
      let m := - b / a * / 2 in
      if Rle_dec (Rabs u) (/ 10^10) then [m]
      else if Rlt_dec u 0 then []
      else [m - sqrt u; m + sqrt u]).
Proof.
  assert (NZ : forall v : R, near_zero v = if Rle_dec (Rabs v) (/ 10^10) then true else false).
  { intros v. destruct (Rle_dec _ _) as [L|L].
    - apply near_zero_R. revert L. unfold Rabs. destruct (Rcase_abs v); lra.
    - apply near_zero_false_R. lra. }
  unfold solve_quadratic. rewrite !NZ. ra_simp. qlit.
  assert (E : 0 < / 10^10) by lra.
  destruct (Rle_dec (Rabs a) _) as [La|La].
  - destruct (Rle_dec (Rabs b) _) as [Lb|Lb]; cbn [andb negb]; [reflexivity|].
    rewrite pdiv_R; [reflexivity|].
    intros ->. rewrite Rabs_R0 in Lb. lra.
  - cbn [andb].
    assert (Ha : a <> 0) by (intros ->; rewrite Rabs_R0 in La; lra).
    rewrite !pdiv_R by exact Ha. cbn [rbind].
    replace (Q2R (1#4)) with (/ 4) by q2r. rewrite NZ.
    set (u := _ - _). cbn zeta.
    destruct (Rle_dec (Rabs u) _) as [Lu|Lu]; [reflexivity|].
    unfold Rltb. destruct (Rlt_dec u 0) as [K|K]; [reflexivity|].
    unfold psqrt. ra_simp. rewrite q0. unfold Rltb.
    destruct (Rlt_dec u 0); [contradiction|]. reflexivity.
Qed.
