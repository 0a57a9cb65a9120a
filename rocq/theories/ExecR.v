(** Evaluating the model over exact reals, used by examples beside theorems about
    real arithmetic.  No theorem depends on this file. *)
From Coq Require Import Reals Lra.
From Verif Require Import Base Arith ArithR Calc VectorOps Line2d Primitives CalcProofs VectorOpsProofs Line2dProofs
  Collapse CollapseR EventsLib Scenario Properties_collapse.
Local Close Scope Q_scope.
Local Open Scope R_scope.

Lemma small_pos : 0 < / 10^10 < 1.
Proof.
  split; [apply Rinv_0_lt_compat, pow_lt; lra|]. rewrite <- Rinv_1. apply Rinv_lt_contravar; [|simpl; lra].
  rewrite Rmult_1_l. apply pow_lt. lra.
Qed.
Lemma is_near (x : R) : x = 0 -> near_zero (A:=RA) x = true.
Proof. intros ->. apply near_zero_R. pose proof small_pos. lra. Qed.
Lemma is_far (x : R) : 1 <= x \/ x <= -1 -> near_zero (A:=RA) x = false.
Proof.
  intros H. destruct (near_zero (A:=RA) x) eqn:Q; [|reflexivity]. apply near_zero_R in Q. pose proof small_pos.
  exfalso. destruct H; lra.
Qed.
Lemma norm_is p (r : R) : 0 <= r -> fst p^2 + snd p^2 = r^2 -> norm_2 (A:=RA) p = Ok r.
Proof.
  intros H K. unfold norm_2.
  assert (Q : norm2_2 (A:=RA) p = r^2) by (rewrite <- K; unfold norm2_2, dot2; ra_simp; qlit; ring).
  rewrite Q, psqrt_R, sqrt_pow2; auto. apply pow2_ge_0.
Qed.
Lemma dist_is p q (r : R) : 0 <= r -> (fst q - fst p)^2 + (snd q - snd p)^2 = r^2 -> dist_2 (A:=RA) p q = Ok r.
Proof. intros H K. unfold dist_2. apply norm_is; [exact H|]. exact K. Qed.
Lemma min_is (x y z : R) : (x <= y /\ z = x) \/ (y < x /\ z = y) -> nmin (A:=RA) x y = z.
Proof. unfold nmin. ra_simp. intros [[H ->]|[H ->]]; destruct (Rltb y x) eqn:Q; rb2p; auto; lra. Qed.
Lemma same_is (x y : R) : x = y -> neqb (Arith:=RA) x y = true.
Proof. intros ->. ra_simp. apply Reqb_true. reflexivity. Qed.
Lemma div_is (x y z : R) : y <> 0 -> x = z * y -> pdiv (A:=RA) x y = Ok z.
Proof. intros H ->. rewrite pdiv_R by exact H. f_equal. ra_simp. field. exact H. Qed.
Lemma two_is : @nofnat RA 2 = 2.
Proof. unfold nofnat. cbn. apply q2. Qed.
Lemma one_is : @nofnat RA 1 = 1.
Proof. exact q1. Qed.
Lemma bind_run {A X Z} (m : M (A:=A) X) (k : X -> M (A:=A) Z) s x s1 r : m s = Ok (x, s1) -> k x s1 = r -> bind m k s = r.
Proof. intros H <-. unfold bind. rewrite H. reflexivity. Qed.
(** the vertex between two wavefronts that meet head-on *)
Lemma opposite_is b1 b2 (now : R) p :
  new_velocity (A:=RA) (mkLine (A:=RA) (0, -1) b1) (mkLine (A:=RA) (0, 1) b2) now p = Ok ((0, 0), None).
Proof.
  unfold new_velocity. cbn [lw]. rewrite angle_unit_R; try (unfold is_unit, dotp; cbn [fst snd]; ra_simp; qlit; lra). cbn [rbind].
  assert (Z : near_zero2 (A:=RA) (add2 (A:=RA) (0, -1) (0, 1)) = true).
  { unfold near_zero2, add2. cbn [fst snd]. rewrite !is_near; [reflexivity| |]; ra_simp; qlit; lra. }
  rewrite Z. cbn [orb]. ra_simp. qlit. reflexivity.
Qed.

(** head normal form up to the next bind or test of a number *)
Ltac head := with_strategy opaque [bind RA dist_2 norm_2 near_zero near_zero2 new_velocity nmin pdiv nltb nleb neqb
    nsub nadd nmul nofnat lit n0 n1 Rplus Rmult Rminus Ropp Rdiv Rinv IZR]
  (match goal with |- ?x = ?r => let y := eval hnf in x in change (y = r) end).
(** normal form of a result *)
Ltac normal := cbv -[RA dist_2 norm_2 near_zero near_zero2 new_velocity nmin pdiv nltb nleb neqb
    nsub nadd nmul nofnat lit n0 n1 Rplus Rmult Rminus Ropp Rdiv Rinv IZR].
Ltac arith := cbv -[RA nltb nleb neqb nsub nadd nmul nofnat lit n0 n1 Rplus Rmult Rminus Ropp Rdiv Rinv IZR Rle Rlt pow];
  rewrite ?two_is, ?one_is; ra_simp; qlit; lra.
(** the numbers tried as values *)
Ltac cand tac := first [tac 5 | tac 9 | tac 0 | tac 1 | tac 4 | tac (5/3)].
Ltac mins := repeat match goal with |- context [nmin ?a ?b] => cand ltac:(fun r => rewrite (min_is a b r) by arith) end.
Ltac exec := head; lazymatch goal with
  | |- dist_2 ?a ?b = _ => cand ltac:(fun r => apply (dist_is a b r); arith)
  | |- norm_2 ?a = _ => cand ltac:(fun r => apply (norm_is a r); arith)
  | |- pdiv ?a ?b = _ => cand ltac:(fun r => apply (div_is a b r); arith)
  | |- nmin ?a ?b = _ => cand ltac:(fun r => apply (min_is a b r); arith)
  | |- new_velocity _ _ _ _ = _ => apply opposite_is
  | |- near_zero ?a = _ => mins; first [apply is_near; arith | apply is_far; arith]
  | |- neqb ?a ?b = _ => apply same_is; arith
  | |- nltb ?a ?b = _ => first [apply Rltb_true; arith | apply Rltb_false; arith]
  | |- Ok _ = _ => normal; reflexivity
  | |- true = _ => reflexivity
  | |- false = _ => reflexivity
  | |- bind _ _ _ = _ => eapply bind_run; [exec|cbv beta; exec]
  | |- match ?m with _ => _ end _ = _ => let H := fresh in eassert (m = _) as H by exec; rewrite H; clear H; exec
  | |- match ?m with _ => _ end = _ => let H := fresh in eassert (m = _) as H by exec; rewrite H; clear H; exec
  end.
