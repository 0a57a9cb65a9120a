(** The incircle of a triangle, over the reals *)
From Coq Require Import Reals Lra.
From Verif Require Import Base Arith ArithR VectorOps Line2d Line2dProofs.
Local Open Scope R_scope.
Local Existing Instance RA.

Definition span (p q : R * R) : R := len (fst q - fst p) (snd q - snd p).
(** the point [c] inside the counterclockwise triangle p q s is at distance [r] of each of its sides *)
Definition incircle (p q s c : R * R) (r : R) : Prop :=
  0 < r /\ orient p q c = r * span p q /\ orient q s c = r * span q s /\ orient s p c = r * span s p.

Lemma span_sq p q : span p q * span p q = (fst q - fst p) * (fst q - fst p) + (snd q - snd p) * (snd q - snd p).
Proof. apply len_sq. Qed.
Lemma span_nonneg p q : 0 <= span p q.
Proof. apply sqrt_pos. Qed.
Lemma span_pos p q : p <> q -> 0 < span p q.
Proof.
  intros N. destruct (span_nonneg p q) as [H|H]; [exact H|]. exfalso. apply N. pose proof (span_sq p q) as Q. rewrite <- H in Q.
  destruct p as [a b], q as [c d]. cbn [fst snd] in Q.
  assert (Q' : Rsqr (c - a) + Rsqr (d - b) = 0) by (unfold Rsqr; lra).
  pose proof (Rplus_sqr_eq_0_l _ _ Q') as Q1. rewrite Rplus_comm in Q'. pose proof (Rplus_sqr_eq_0_l _ _ Q') as Q2. f_equal; lra.
Qed.
Lemma span_sym p q : span p q = span q p.
Proof. unfold span, len. f_equal. ring. Qed.
Lemma orient_turn p q s : orient q s p = orient p q s.
Proof. unfold orient. ring. Qed.
Lemma orient_apart p q s : 0 < orient p q s -> p <> q /\ q <> s /\ s <> p.
Proof. unfold orient. intros H. repeat split; intros ->; lra. Qed.
(** the height over a side is at most the other side *)
Lemma orient_bound p q s : orient p q s <= span p q * span q s.
Proof.
  pose proof (span_sq p q) as A. pose proof (span_sq q s) as B. pose proof (span_nonneg p q) as A0. pose proof (span_nonneg q s) as B0.
  unfold orient. set (a := span p q) in *. set (b := span q s) in *.
  set (u := fst q - fst p) in *. set (v := snd q - snd p) in *. set (x := fst s - fst q) in *. set (y := snd s - snd q) in *.
  replace ((u * (snd s - snd p)) - v * (fst s - fst p)) with (u * y - v * x) by (unfold u, v, x, y; ring).
  apply Rnot_lt_le. intros L.
  assert ((a * b) * (a * b) < (u * y - v * x) * (u * y - v * x)) by (assert (0 <= a * b) by (apply Rmult_le_pos; assumption); nra).
  assert (Q : (a * b) * (a * b) = (u * u + v * v) * (x * x + y * y)) by (rewrite <- A, <- B; ring).
  rewrite Q in *. assert (0 <= (u * x + v * y) * (u * x + v * y)) by apply Rle_0_sqr. nra.
Qed.

Section Center.
  Context (p q s : R * R) (K : 0 < orient p q s).
  Definition perimeter : R := span p q + span q s + span s p.
  Definition inradius : R := orient p q s / perimeter.
  Definition incenter : R * R :=
    ((span q s * fst p + span s p * fst q + span p q * fst s) / perimeter,
     (span q s * snd p + span s p * snd q + span p q * snd s) / perimeter).
  Lemma spans : 0 < span p q /\ 0 < span q s /\ 0 < span s p.
  Proof. destruct (orient_apart p q s K) as (N1 & N2 & N3). repeat split; apply span_pos; assumption. Qed.
  Lemma perimeter_pos : 0 < perimeter.
  Proof. destruct spans as (S1 & S2 & S3). unfold perimeter. lra. Qed.
  Lemma incenter_ok : incircle p q s incenter inradius.
  Proof.
    pose proof perimeter_pos as P. destruct spans as (S1 & S2 & S3). split; [apply Rdiv_lt_0_compat; assumption|].
    unfold inradius, orient, incenter; cbn [fst snd]. repeat split.
    all: unfold perimeter in *; field; lra.
  Qed.
  (** half of each side is longer than the radius *)
  Lemma inradius_short : inradius < span p q /\ inradius < span q s /\ inradius < span s p.
  Proof.
    pose proof perimeter_pos as P. destruct spans as (S1 & S2 & S3).
    pose proof (orient_bound p q s) as B1. pose proof (orient_bound q s p) as B2. pose proof (orient_bound s p q) as B3.
    rewrite orient_turn in B2. rewrite orient_turn, orient_turn in B3.
    unfold inradius. repeat split; (apply (Rmult_lt_reg_r perimeter); [exact P|]);
      (replace (orient p q s / perimeter * perimeter) with (orient p q s) by (field; lra)); unfold perimeter; nra.
  Qed.
End Center.

(** there is only one such circle *)
Lemma incircle_unique p q s c r c' r' : 0 < orient p q s -> incircle p q s c r -> incircle p q s c' r' -> c = c' /\ r = r'.
Proof.
  intros KP (R & H1 & H2 & H3) (R' & H1' & H2' & H3').
  assert (K : orient p q s = r * (span p q + span q s + span s p)).
  { transitivity (orient p q c + orient q s c + orient s p c); [unfold orient; ring|]. rewrite H1, H2, H3. ring. }
  assert (K' : orient p q s = r' * (span p q + span q s + span s p)).
  { transitivity (orient p q c' + orient q s c' + orient s p c'); [unfold orient; ring|]. rewrite H1', H2', H3'. ring. }
  pose proof (perimeter_pos p q s KP) as P. unfold perimeter in P.
  assert (r = r') as <- by (apply (Rmult_eq_reg_r (span p q + span q s + span s p)); [congruence|lra]). split; [|reflexivity].
  assert (L1 : orient p q c = orient p q c') by congruence. assert (L2 : orient q s c = orient q s c') by congruence.
  destruct c as [x y], c' as [x' y']. unfold orient in *; cbn [fst snd] in *.
  set (a := fst q - fst p) in *. set (b := snd q - snd p) in *. set (d := fst s - fst q) in *. set (e := snd s - snd q) in *.
  assert (D : a * e - b * d > 0) by (unfold a, b, d, e in *; nra).
  assert (E1 : a * (y - y') - b * (x - x') = 0) by lra. assert (E2 : d * (y - y') - e * (x - x') = 0) by lra.
  assert (X : (a * e - b * d) * (x - x') = 0).
    { replace ((a * e - b * d) * (x - x')) with (d * (a * (y - y') - b * (x - x')) - a * (d * (y - y') - e * (x - x'))) by ring.
      rewrite E1, E2. ring. }
  assert (Y : (a * e - b * d) * (y - y') = 0).
    { replace ((a * e - b * d) * (y - y')) with (e * (a * (y - y') - b * (x - x')) - b * (d * (y - y') - e * (x - x'))) by ring.
      rewrite E1, E2. ring. }
  apply Rmult_integral in X, Y. f_equal; [destruct X|destruct Y]; lra.
Qed.
