(** r_squared over the reals: Cauchy-Schwarz for lists. *)
From Coq Require Import Reals Lra Psatz.
From Verif Require Import Base Arith ArithR Calc.
Local Open Scope R_scope.
Local Existing Instance RA.

Fixpoint rsum (l : list R) : R := match l with [] => 0 | x :: r => x + rsum r end.

Lemma fold_left_rsum l a : fold_left Rplus l a = a + rsum l.
Proof. revert a. induction l; simpl; intros; [lra|]. rewrite IHl. lra. Qed.

Lemma nsum_rsum (l : list R) : nsum l = rsum l.
Proof. unfold nsum. ra_simp. qlit. rewrite fold_left_rsum. lra. Qed.

Lemma nofnat_INR n : nofnat n = INR n.
Proof.
  unfold nofnat. ra_simp. unfold Q2R, inject_Z. cbn [Qnum Qden].
  rewrite INR_IZR_INZ. field.
Qed.

Definition sq (x : R) := x * x.

Lemma rsum_shift (l : list R) (m : R) :
  rsum (map (fun z => sq (z - m)) l)
  = rsum (map sq l) - 2 * m * rsum l + INR (length l) * (m * m).
Proof.
  induction l as [|z r IH]; [simpl; lra|].
  cbn [map rsum length]. rewrite S_INR, IH. unfold sq. lra.
Qed.

Lemma rsum_sq_nonneg {X} (f : X -> R) l : 0 <= rsum (map (fun z => sq (f z)) l).
Proof. induction l; simpl; [lra|]. unfold sq at 1. nra. Qed.

Lemma rsum_sq_zero {X} (f : X -> R) l :
  rsum (map (fun z => sq (f z)) l) = 0 -> forall z, In z l -> f z = 0.
Proof.
  induction l as [|y r IH]; simpl; [tauto|].
  pose proof (rsum_sq_nonneg f r) as Hr.
  intros H z. assert (0 <= sq (f y)) by (unfold sq; nra).
  intros [<-|Hz].
  - assert (sq (f y) = 0) by lra. unfold sq in *. nra.
  - apply IH; [lra|exact Hz].
Qed.

(** variance-like quantity n*sum z^2 - (sum z)^2 *)
Definition nvar (l : list R) : R := INR (length l) * rsum (map sq l) - rsum l * rsum l.

Lemma nvar_shift l : l <> [] ->
  nvar l = INR (length l) * rsum (map (fun z => sq (z - rsum l / INR (length l))) l).
Proof.
  intros H. rewrite rsum_shift. unfold nvar. field.
  apply not_0_INR. destruct l; simpl; congruence || lia.
Qed.

Lemma INR_len_pos {X} (l : list X) : l <> [] -> 0 < INR (length l).
Proof. intros H. apply lt_0_INR. destruct l; simpl; [congruence|lia]. Qed.

Lemma nvar_nonneg l : 0 <= nvar l.
Proof.
  destruct l as [|x r].
  - unfold nvar. simpl. lra.
  - rewrite nvar_shift by discriminate.
    pose proof (INR_len_pos (x :: r)) as Hp. specialize (Hp ltac:(discriminate)).
    pose proof (rsum_sq_nonneg (fun z => z - rsum (x :: r) / INR (length (x :: r))) (x :: r)).
    nra.
Qed.

Lemma nvar_zero l : nvar l = 0 -> exists m, forall z, In z l -> z = m.
Proof.
  intros H. destruct l as [|x r]; [exists 0; simpl; tauto|].
  rewrite nvar_shift in H by discriminate.
  pose proof (INR_len_pos (x :: r)) as Hp. specialize (Hp ltac:(discriminate)).
  apply Rmult_integral in H. destruct H as [H|H]; [lra|].
  exists (rsum (x :: r) / INR (length (x :: r))). intros z Hz.
  pose proof (rsum_sq_zero (fun z => z - rsum (x :: r) / INR (length (x :: r))) _ H z Hz).
  simpl in *. lra.
Qed.

Definition ncov (l : list (R * R)) : R :=
  INR (length l) * rsum (map (fun p => fst p * snd p) l)
  - rsum (map fst l) * rsum (map snd l).

Lemma nvar_comb (l : list (R * R)) (k : R) :
  nvar (map (fun p => k * fst p + snd p) l)
  = k * k * nvar (map fst l) + 2 * k * ncov l + nvar (map snd l).
Proof.
  unfold nvar, ncov. rewrite !map_length.
  assert (E1 : rsum (map (fun p : R * R => k * fst p + snd p) l)
               = k * rsum (map fst l) + rsum (map snd l)).
  { induction l as [|p r IH]; simpl; [lra|]. rewrite IH. lra. }
  assert (E2 : rsum (map sq (map (fun p : R * R => k * fst p + snd p) l))
               = k * k * rsum (map sq (map fst l))
                 + 2 * k * rsum (map (fun p => fst p * snd p) l)
                 + rsum (map sq (map snd l))).
  { clear E1. induction l as [|p r IH]; simpl; [lra|]. rewrite IH. unfold sq. lra. }
  rewrite E1, E2. ring.
Qed.

Lemma combine_fst_snd {X Y} (l : list (X * Y)) : combine (map fst l) (map snd l) = l.
Proof. induction l as [|[x y] r IH]; simpl; congruence. Qed.

Lemma r_squared_R (pts : list (R * R)) :
  r_squared pts =
  if Rleb (nvar (map fst pts) * nvar (map snd pts)) 0 then Ok 0
  else Ok (ncov pts / sqrt (nvar (map fst pts) * nvar (map snd pts))).
Proof.
  unfold r_squared. rewrite !nsum_rsum, nofnat_INR.
  ra_simp. rewrite combine_fst_snd.
  assert (Ex : INR (length pts) * rsum (map (fun x => x * x) (map fst pts))
               - rsum (map fst pts) * rsum (map fst pts) = nvar (map fst pts)).
  { unfold nvar. rewrite map_length. reflexivity. }
  assert (Ey : INR (length pts) * rsum (map (fun x => x * x) (map snd pts))
               - rsum (map snd pts) * rsum (map snd pts) = nvar (map snd pts)).
  { unfold nvar. rewrite map_length. reflexivity. }
  change (@num RA) with R. rewrite Ex, Ey. qlit.
  destruct (Rleb _ 0) eqn:E; [reflexivity|]. rb2p.
  unfold psqrt, pdiv. ra_simp. qlit.
  destruct (Rltb (nvar (map fst pts) * nvar (map snd pts)) 0) eqn:F; rb2p; [lra|].
  simpl.
  destruct (Reqb (sqrt (nvar (map fst pts) * nvar (map snd pts))) 0) eqn:G; rb2p.
  - pose proof (sqrt_lt_R0 _ E). lra.
  - reflexivity.
Qed.

Lemma cauchy_schwarz (pts : list (R * R)) :
  0 < nvar (map fst pts) ->
  ncov pts * ncov pts <= nvar (map fst pts) * nvar (map snd pts).
Proof.
  intros H. set (vx := nvar (map fst pts)) in *.
  pose proof (nvar_nonneg (map (fun p => (- ncov pts / vx) * fst p + snd p) pts)) as K.
  rewrite nvar_comb in K. fold vx in K.
  replace (- ncov pts / vx * (- ncov pts / vx) * vx + 2 * (- ncov pts / vx) * ncov pts
           + nvar (map snd pts))
    with ((vx * nvar (map snd pts) - ncov pts * ncov pts) / vx) in K by (field; lra).
  assert (0 <= (vx * nvar (map snd pts) - ncov pts * ncov pts) / vx * vx) by nra.
  replace ((vx * nvar (map snd pts) - ncov pts * ncov pts) / vx * vx)
    with (vx * nvar (map snd pts) - ncov pts * ncov pts) in H0 by (field; lra).
  lra.
Qed.

Lemma vpos pts : 0 < nvar (map fst pts) * nvar (map snd pts) -> 0 < nvar (map (@fst R R) pts).
Proof.
  intros H. pose proof (nvar_nonneg (map fst pts)). pose proof (nvar_nonneg (map snd pts)).
  destruct (Req_dec (nvar (map fst pts)) 0) as [E|E]; [rewrite E in H; lra|lra].
Qed.

Lemma r_squared_bounds (pts : list (R * R)) :
  exists r, r_squared pts = Ok r /\ -1 <= r <= 1.
Proof.
  rewrite r_squared_R. destruct (Rleb _ 0) eqn:E; rb2p.
  - exists 0. split; [reflexivity|lra].
  - set (P := nvar (map fst pts) * nvar (map snd pts)) in *.
    exists (ncov pts / sqrt P). split; [reflexivity|].
    pose proof (cauchy_schwarz pts (vpos pts E)) as C. fold P in C.
    pose proof (sqrt_lt_R0 _ E) as Hs.
    assert (Hq : sqrt P * sqrt P = P) by (apply sqrt_sqrt; lra).
    split.
    + apply Rmult_le_reg_r with (sqrt P); [exact Hs|].
      unfold Rdiv. rewrite Rmult_assoc, Rinv_l by lra. nra.
    + apply Rmult_le_reg_r with (sqrt P); [exact Hs|].
      unfold Rdiv. rewrite Rmult_assoc, Rinv_l by lra. nra.
Qed.

Definition collinear (pts : list (R * R)) : Prop :=
  exists a b c, (a <> 0 \/ b <> 0) /\ forall p, In p pts -> a * fst p + b * snd p + c = 0.

Lemma r_squared_one_collinear (pts : list (R * R)) :
  r_squared pts = Ok 1 \/ r_squared pts = Ok (-1) -> collinear pts.
Proof.
  rewrite r_squared_R. destruct (Rleb _ 0) eqn:E; rb2p.
  { intros [H|H]; injection H; lra. }
  set (P := nvar (map fst pts) * nvar (map snd pts)) in *. intros H.
  pose proof (sqrt_lt_R0 _ E) as Hs.
  assert (Hq : sqrt P * sqrt P = P) by (apply sqrt_sqrt; lra).
  pose proof (vpos pts E) as Hv.
  assert (HC : ncov pts * ncov pts = P).
  { destruct H as [H|H]; injection H as H;
    assert (ncov pts = ncov pts / sqrt P * sqrt P) as -> by (field; lra);
    rewrite H; lra. }
  set (vx := nvar (map fst pts)) in *.
  assert (K : nvar (map (fun p => (- ncov pts / vx) * fst p + snd p) pts) = 0).
  { rewrite nvar_comb. fold vx.
    replace (- ncov pts / vx * (- ncov pts / vx) * vx + 2 * (- ncov pts / vx) * ncov pts
             + nvar (map snd pts))
      with ((P - ncov pts * ncov pts) / vx) by (unfold P; field; lra).
    rewrite HC. field. lra. }
  apply nvar_zero in K. destruct K as [m Hm].
  exists (- ncov pts / vx), 1, (- m). split; [right; lra|].
  intros p Hp.
  assert (- ncov pts / vx * fst p + snd p = m).
  { apply Hm. apply in_map_iff. exists p. auto. }
  lra.
Qed.
