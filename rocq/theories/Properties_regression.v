(** Regression: properties C53, C54, C61 *)
From Coq Require Import Reals Lra Psatz.
From Verif Require Import Base Arith ArithR ArithQ Calc CalcProofs VectorOps RSquared Regression.
Local Open Scope R_scope.
Local Existing Instance RA.

(** ** C53 *)
(** [v] is an eigenvector of ((a,b),(c,d)) for the eigenvalue [L] *)
Definition eigen (a b c d L : R) (v : R * R) : Prop :=
  v <> (0, 0) /\ a * fst v + b * snd v = L * fst v /\ c * fst v + d * snd v = L * snd v.

Lemma eig_value (a b c d : R) : 0 <= (a + d) * (a + d) / 4 - (a * d - b * c) ->
  exists L1 L2, L1 >= L2 /\ L1 + L2 = a + d /\ L1 * L2 = a * d - b * c /\
  eig_2x2 a b c d =
    Ok ([Rabs L1; Rabs L2],
        if negb (near_zero c) then ((L1 - d, c), (L2 - d, c))
        else if negb (near_zero b) then ((b, L1 - a), (b, L2 - a))
        else ((1, 0), (0, 1))).
Proof.
  intros H. unfold eig_2x2, nmax, psqrt. ra_simp. qlit.
  replace (Q2R (1 # 4)) with (1 / 4) by (unfold Q2R; cbn; lra).
  set (tmp := 1 / 4 * ((a + d) * (a + d)) - (a * d - b * c)).
  assert (Ht : 0 <= tmp) by (unfold tmp; lra).
  assert (Hm : (if Rltb 0 tmp then tmp else 0) = tmp).
  { destruct (Rltb 0 tmp) eqn:E; rb2p; lra. }
  rewrite Hm. destruct (Rltb tmp 0) eqn:E; rb2p; [lra|]. cbn [rbind].
  pose proof (sqrt_pos tmp) as S0. pose proof (sqrt_sqrt tmp Ht) as SS.
  exists (/ 2 * (a + d) + sqrt tmp), (/ 2 * (a + d) - sqrt tmp).
  split; [lra|]. split; [lra|]. split; [|reflexivity].
  replace (a * d - b * c) with (1 / 4 * ((a + d) * (a + d)) - tmp) by (unfold tmp; lra). nra.
Qed.

(** For every matrix with real eigenvalues whose off-diagonal entries are not
    both tiny the result is the two eigenvalues (absolute values, the larger
    one first) and an eigenvector of each. *)
Theorem C53_eig_2x2 :
  forall a b c d : R, 0 <= (a + d) * (a + d) / 4 - (a * d - b * c) ->
  Rabs c > / 10^10 \/ Rabs b > / 10^10 ->
  exists L1 L2 v1 v2, eig_2x2 a b c d = Ok ([Rabs L1; Rabs L2], (v1, v2)) /\
    L1 >= L2 /\ L1 + L2 = a + d /\ L1 * L2 = a * d - b * c /\
    eigen a b c d L1 v1 /\ eigen a b c d L2 v2.
Proof.
  intros a b c d H O. destruct (eig_value a b c d H) as (L1 & L2 & HO & HS & HP & ->).
  exists L1, L2.
  assert (C1 : L1 * L1 - (a + d) * L1 + (a * d - b * c) = 0) by (rewrite <- HS, <- HP; ring).
  assert (C2 : L2 * L2 - (a + d) * L2 + (a * d - b * c) = 0) by (rewrite <- HS, <- HP; ring).
  assert (Nz : forall x, near_zero x = false -> x <> 0).
  { intros x E. apply near_zero_false_R in E. intros ->. rewrite Rabs_R0 in E. lra. }
  destruct (near_zero c) eqn:Ec; cbn [negb]; [|].
  - destruct (near_zero b) eqn:Eb; cbn [negb].
    + exfalso. destruct O as [O|O]; apply near_zero_false_R in O; congruence.
    + apply Nz in Eb. do 2 eexists. split; [reflexivity|]. do 3 (split; [assumption|]).
      unfold eigen; cbn [fst snd]; split; (split; [|split; lra]); intros K; injection K; auto.
  - apply Nz in Ec. do 2 eexists. split; [reflexivity|]. do 3 (split; [assumption|]).
    unfold eigen; cbn [fst snd]; split; (split; [|split; lra]); intros K; injection K; auto.
Qed.
Print Assumptions C53_eig_2x2.

(** A symmetric matrix always has real eigenvalues; if its off-diagonal entry is
    tiny the vectors are the axes, which belong to the eigenvalues in the order
    given only if a >= d (and then up to that entry). *)
Theorem C53_symmetric :
  forall a b d : R, Rabs b > / 10^10 \/ d <= a ->
  exists L1 L2 v1 v2, eig_2x2 a b b d = Ok ([Rabs L1; Rabs L2], (v1, v2)) /\
    L1 >= L2 /\ L1 + L2 = a + d /\ L1 * L2 = a * d - b * b /\
    (b = 0 \/ Rabs b > / 10^10 -> eigen a b b d L1 v1 /\ eigen a b b d L2 v2) /\
    (Rabs b <= / 10^10 -> v1 = (1, 0) /\ v2 = (0, 1) /\ Rabs (L1 - a) <= Rabs b /\ Rabs (L2 - d) <= Rabs b).
Proof.
  intros a b d H.
  assert (Re : 0 <= (a + d) * (a + d) / 4 - (a * d - b * b)).
  { pose proof (pow2_ge_0 (a - d)). pose proof (pow2_ge_0 b). lra. }
  destruct (Rle_lt_dec (Rabs b) (/ 10^10)) as [S|S].
  - destruct H as [H|H]; [lra|]. destruct (eig_value a b b d Re) as (L1 & L2 & HO & HS & HP & ->).
    assert (Z : near_zero b = true).
    { destruct (near_zero b) eqn:E; [reflexivity|]. apply near_zero_false_R in E. lra. }
    rewrite Z. cbn [negb]. exists L1, L2, (1, 0), (0, 1). split; [reflexivity|]. do 3 (split; [assumption|]).
    (* L1 - a = d - L2 =: x >= 0 and x * (x + a - d) = b^2 *)
    assert (X : (L1 - a) * (L1 - d) = b * b).
    { replace d with (L1 + L2 - a) in HP |- * by lra. nra. }
    assert (X0 : 0 <= L1 - a).
    { destruct (Rlt_le_dec (L1 - a) 0) as [N|N]; [|lra]. exfalso.
      assert (L1 - d < 0) by nra. assert (L1 < d) by lra. lra. }
    assert (X1 : L1 - a <= Rabs b).
    { destruct (Rle_lt_dec (L1 - a) (Rabs b)) as [N|N]; [exact N|]. exfalso.
      pose proof (Rabs_pos b). assert (Rabs b * Rabs b = b * b) by (rewrite <- Rabs_mult; apply Rabs_right; nra). nra. }
    split.
    + intros [-> |K]; [|lra]. rewrite Rabs_R0 in X1. assert (L1 = a) by lra. assert (L2 = d) by lra. subst.
      unfold eigen; cbn [fst snd]; split; (split; [|split; lra]); intros K; injection K; lra.
    + intros _. split; [reflexivity|]. split; [reflexivity|]. split.
      * rewrite Rabs_right; lra.
      * rewrite Rabs_left1; lra.
  - destruct (C53_eig_2x2 a b b d Re (or_introl S)) as (L1 & L2 & v1 & v2 & E & HO & HS & HP & V1 & V2).
    exists L1, L2, v1, v2. split; [exact E|]. do 3 (split; [assumption|]). split; [auto|lra].
Qed.
Print Assumptions C53_symmetric.

(** Claimed: the i-th vector belongs to the i-th eigenvalue for every symmetric
    matrix.  For ((1,0),(0,2)) the eigenvalues are (2,1), the vectors (1,0), (0,1). *)
Theorem C53_order_refuted :
  exists a b d : R, exists L1 L2 v1 v2, eig_2x2 a b b d = Ok ([Rabs L1; Rabs L2], (v1, v2)) /\
    L1 >= L2 /\ L1 + L2 = a + d /\ L1 * L2 = a * d - b * b /\
    ~ eigen a b b d L1 v1 /\ ~ eigen a b b d L2 v2.
Proof.
  exists 1, 0, 2. destruct (eig_value 1 0 0 2) as (L1 & L2 & HO & HS & HP & ->); [lra|].
  assert (Z : near_zero 0 = true) by (apply near_zero_R; lra).
  rewrite Z. cbn [negb].
  assert (L1 = 2) by nra. assert (L2 = 1) by lra. subst L1 L2.
  do 4 eexists. split; [reflexivity|]. do 3 (split; [assumption|]).
  unfold eigen; cbn [fst snd]; split; intros (_ & K1 & K2); lra.
Qed.
Print Assumptions C53_order_refuted.

Example C53_example :
  0 <= (2 + 5) * (2 + 5) / 4 - (2 * 5 - 2 * 2) /\ (Rabs 2 > / 10^10) /\
  eig_2x2 2 2 2 5 = Ok ([6; 1], ((1, 2), (-4, 2))).
Proof.
  assert (H : 0 <= (2 + 5) * (2 + 5) / 4 - (2 * 5 - 2 * 2)) by lra.
  assert (B : Rabs 2 > / 10^10) by (rewrite Rabs_right; lra).
  split; [exact H|]. split; [exact B|].
  destruct (eig_value 2 2 2 5 H) as (L1 & L2 & HO & HS & HP & ->).
  rewrite (proj2 (near_zero_false_R 2) B). cbn [negb].
  assert (L1 = 6) by nra. assert (L2 = 1) by lra. subst L1 L2.
  rewrite !Rabs_right by lra.
  replace (6 - 5) with 1 by lra. replace (1 - 5) with (-4) by lra. reflexivity.
Qed.

(** ** C54 *)
(** regress, and so are_residuals_near_zero, raises for every input: in any
    arithmetic and whatever follows the call of cov. *)
Section Fails.
  Context {A : Arith}.
  Variable rest : num -> num -> num -> pyseq num -> pyseq num -> res (pyseq num * pyseq num).

  Lemma mean_list_ok (l : list num) : l <> [] -> (exists m, mean (PyList l) = Ok m) \/ mean (PyList l) = Err ZeroDivisionError.
  Proof.
    intros H. unfold mean, generalised_sum, pdiv. cbn. destruct l; [congruence|]. cbn [length Nat.eqb].
    destruct (_ =? _)%num; eauto.
  Qed.

  Lemma regress_empty : regress rest [] = Err ValueError.
  Proof. reflexivity. Qed.
  Lemma regress_raises pts : pts <> [] -> neqb (nofnat (length pts)) n0 = false -> regress rest pts = Err TypeError.
  Proof.
    intros H Z. unfold regress, split. rewrite !map_length, Nat.eqb_refl. cbn [rbind].
    unfold adjust, mean, generalised_sum, pdiv. cbn [py_len py_items rbind]. rewrite !map_length.
    destruct pts as [|p r]; [congruence|]. set (pts := p :: r) in *.
    replace (Nat.eqb (length pts) 0) with false by reflexivity. rewrite Z. reflexivity.
  Qed.
End Fails.

(** [nofnat n] is not zero for positive n: a fact about the conversion of an int *)
Definition counts (A : Arith) : Prop := forall n : nat, (0 < n)%nat -> neqb (nofnat (A:=A) n) n0 = false.
Lemma RA_counts : counts RA.
Proof.
  intros n Hn. ra_simp. qlit. apply Reqb_false. pose proof (nofnat_INR n) as E. unfold nofnat in *.
  rewrite E. apply not_0_INR. lia.
Qed.
Lemma QA_counts : counts QA.
Proof.
  intros n Hn. unfold nofnat, n0. cbn [neqb lit QA]. apply not_true_iff_false. rewrite Qeq_bool_iff, !Qred_correct.
  unfold Qeq, inject_Z. cbn [Qnum Qden]. lia.
Qed.

Theorem C54_always_raises :
  forall (A : Arith) rest (pts : list pt), counts A ->
  regress rest pts = Err (match pts with [] => ValueError | _ => TypeError end) /\
  are_residuals_near_zero rest pts = Err (match pts with [] => ValueError | _ => TypeError end).
Proof.
  intros A rest pts C.
  assert (R : regress rest pts = Err (match pts with [] => ValueError | _ => TypeError end)).
  { destruct pts as [|p r]; [reflexivity|]. apply regress_raises; [discriminate|]. apply C. cbn. lia. }
  split; [exact R|]. unfold are_residuals_near_zero. rewrite R. reflexivity.
Qed.
Print Assumptions C54_always_raises.

(** Claimed: are_residuals_near_zero(pts) is true exactly for points on a
    straight line.  It has no value for the points (0,0), (1,1), (2,2). *)
Definition on_a_line (pts : list (R * R)) : Prop :=
  exists a b c : R, (a, b) <> (0, 0) /\ forall p, In p pts -> a * fst p + b * snd p = c.
Theorem C54_residuals_refuted :
  exists pts : list (R * R), on_a_line pts /\ forall rest b, are_residuals_near_zero rest pts <> Ok b.
Proof.
  exists [(0, 0); (1, 1); (2, 2)]. split.
  - exists 1, (-1), 0. split; [intros K; injection K; lra|].
    intros p [<-|[<-|[<-|[]]]]; cbn; lra.
  - intros rest b. rewrite (proj2 (C54_always_raises RA rest [(0, 0); (1, 1); (2, 2)] RA_counts)). discriminate.
Qed.
Print Assumptions C54_residuals_refuted.
Example C54_instances : counts QA /\ counts RA.
Proof. split; [exact QA_counts|exact RA_counts]. Qed.

(** ** C61 *)
(** mean, variance: their textbook values on lists with enough points, an
    error otherwise; covariances have no value at all *)
Theorem C61_mean :
  forall l : list R, mean (PyList l) = match l with [] => Err ValueError | _ => Ok (rsum l / INR (length l)) end.
Proof.
  intros [|x r]; [reflexivity|]. unfold mean, generalised_sum. cbn [py_len py_items rbind].
  rewrite map_id. pose proof (RA_counts (length (x :: r)) ltac:(cbn; lia)) as C. unfold pdiv.
  change (Nat.eqb (length (x :: r)) 0) with false. cbv iota. ra_simp. rewrite C.
  pose proof (nofnat_INR (length (x :: r))) as NI. ra_simp. rewrite NI.
  rewrite fold_left_rsum. do 2 f_equal. lra.
Qed.
Print Assumptions C61_mean.

Theorem C61_variance :
  forall l : list R, variance (PyList l) None =
  if Nat.ltb (length l) 2 then Err ValueError
  else Ok (rsum (map (fun x => (x - rsum l / INR (length l)) * (x - rsum l / INR (length l))) l)
           / (INR (length l) - 1)).
Proof.
  intros l. unfold variance, SS, mean_or. rewrite C61_mean. destruct l as [|x r]; [reflexivity|].
  cbn [rbind]. set (l := x :: r). unfold generalised_sum. cbn [py_len py_items rbind].
  destruct (Nat.ltb (length l) 2) eqn:E; cbn [num RA] in *; rewrite E; [reflexivity|]. apply Nat.ltb_ge in E.
  pose proof (RA_counts (length l - 1)%nat ltac:(lia)) as C. pose proof (nofnat_INR (length l - 1)%nat) as NI.
  rewrite minus_INR in NI by lia. unfold pdiv. ra_simp. rewrite C, NI.
  rewrite fold_left_rsum. f_equal. replace (INR 1) with 1 by reflexivity. f_equal. lra.
Qed.
Print Assumptions C61_variance.

(** what follows from it: a variance is never negative, and zero only if all
    values are equal *)
Theorem C61_variance_zero :
  forall (l : list R) v, variance (PyList l) None = Ok v ->
  0 <= v /\ (v = 0 <-> forall x y, In x l -> In y l -> x = y).
Proof.
  intros l v H. rewrite C61_variance in H. destruct (Nat.ltb (length l) 2) eqn:E; [discriminate|].
  apply Nat.ltb_ge in E. injection H as <-. set (m := rsum l / INR (length l)).
  assert (L1 : 0 < INR (length l) - 1). { assert (2 <= INR (length l)) by (apply (le_INR 2); exact E). lra. }
  pose proof (rsum_sq_nonneg (fun x => x - m) l) as N. cbv beta in N. unfold sq in N.
  split. { apply Rmult_le_pos; [exact N|]. apply Rlt_le, Rinv_0_lt_compat, L1. }
  split.
  - intros Z. assert (Z' : rsum (map (fun x => sq (x - m)) l) = 0).
    { unfold sq. apply Rmult_eq_reg_r with (/ (INR (length l) - 1)); [|apply Rinv_neq_0_compat; lra].
      unfold Rdiv in Z. rewrite Z. lra. }
    intros x y Hx Hy. pose proof (rsum_sq_zero (fun x => x - m) l Z' x Hx) as Zx.
    pose proof (rsum_sq_zero (fun x => x - m) l Z' y Hy) as Zy. cbv beta in Zx, Zy. lra.
  - intros Eq. destruct l as [|x r]; [cbn in E; lia|].
    assert (M : rsum (x :: r) = INR (length (x :: r)) * x).
    { clear -Eq. assert (K : forall l, (forall y, In y l -> y = x) -> rsum l = INR (length l) * x).
      { induction l as [|y l IH]; intros H; [cbn; lra|]. cbn [rsum length]. rewrite S_INR.
        rewrite IH by (intros; apply H; right; assumption). rewrite (H y) by (left; reflexivity). lra. }
      apply K. intros y Hy. apply Eq; [exact Hy|left; reflexivity]. }
    assert (Hm : m = x). { unfold m. rewrite M. field. lra. }
    assert (K : forall l, (forall y, In y l -> y = x) -> rsum (map (fun x0 => (x0 - m) * (x0 - m)) l) = 0).
    { induction l as [|y l IH]; intros H; [reflexivity|]. cbn [map rsum].
      rewrite IH by (intros; apply H; right; assumption). rewrite (H y), Hm by (left; reflexivity). lra. }
    rewrite K; [lra|]. intros y Hy. apply Eq; [exact Hy|left; reflexivity].
Qed.
Print Assumptions C61_variance_zero.

(** Claimed: cov (and pcov) give the covariance.  They raise for all arguments,
    since they take the length of a zip object. *)
Theorem C61_cov_refuted :
  forall (A : Arith) (xs ys : pyseq num) mx my,
  (forall v, cov xs ys mx my <> Ok v) /\ (forall v, pcov xs ys mx my <> Ok v) /\
  forall m n, cov xs ys (Some m) (Some n) = Err TypeError /\ pcov xs ys (Some m) (Some n) = Err TypeError.
Proof.
  intros A xs ys mx my.
  assert (S : forall r, SP xs mx ys my <> Ok r).
  { intros r. unfold SP. destruct (mean_or mx xs); cbn; [|discriminate]. destruct (mean_or my ys); cbn; discriminate. }
  split; [|split; [|intros m n; split; reflexivity]].
  - intros v. unfold cov. destruct (SP xs mx ys my) eqn:E; cbn; [destruct (S _ eq_refl)|discriminate].
  - intros v. unfold pcov. destruct (SP xs mx ys my) eqn:E; cbn; [destruct (S _ eq_refl)|discriminate].
Qed.
Print Assumptions C61_cov_refuted.
Example C61_example :
  (match mean (A:=QA) (PyList [1; 2; 6]%Q), variance (A:=QA) (PyList [1; 2; 6]%Q) None with
   | Ok m, Ok v => Qeq_bool m 3 && Qeq_bool v 7 | _, _ => false end)%bool = true /\
  cov (A:=QA) (PyList [1; 2; 6]%Q) (PyList [1; 2; 6]%Q) None None = Err TypeError.
Proof. split; vm_compute; reflexivity. Qed.
