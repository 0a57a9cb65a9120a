(** Exact real arithmetic. *)
From Coq Require Import Reals Lra Rtrigo_def Ratan Qreals.
From Verif Require Import Base Arith.
Local Open Scope R_scope.

Definition Rltb (a b : R) : bool := if Rlt_dec a b then true else false.
Definition Rleb (a b : R) : bool := if Rle_dec a b then true else false.
Definition Reqb (a b : R) : bool := if Req_EM_T a b then true else false.

Definition RA : Arith := {|
  num := R;
  lit := Q2R;
  nadd := Rplus; nsub := Rminus; nmul := Rmult; nopp := Ropp; nabs := Rabs;
  ndivr := Rdiv; nsqrtr := sqrt;
  nltb := Rltb; nleb := Rleb; neqb := Reqb;
  nfsum := fun l => fold_left Rplus l 0;
  nacosr := acos; ncos := cos; nsin := sin; npi := PI;
|}.

Canonical RA.

Lemma Rltb_true a b : Rltb a b = true <-> a < b.
Proof. unfold Rltb. destruct (Rlt_dec a b); split; intros; try lra; congruence. Qed.
Lemma Rltb_false a b : Rltb a b = false <-> b <= a.
Proof. unfold Rltb. destruct (Rlt_dec a b); split; intros; try lra; congruence. Qed.
Lemma Rleb_true a b : Rleb a b = true <-> a <= b.
Proof. unfold Rleb. destruct (Rle_dec a b); split; intros; try lra; congruence. Qed.
Lemma Rleb_false a b : Rleb a b = false <-> b < a.
Proof. unfold Rleb. destruct (Rle_dec a b); split; intros; try lra; congruence. Qed.
Lemma Reqb_true a b : Reqb a b = true <-> a = b.
Proof. unfold Reqb. destruct (Req_EM_T a b); split; intros; try lra; congruence. Qed.
Lemma Reqb_false a b : Reqb a b = false <-> a <> b.
Proof. unfold Reqb. destruct (Req_EM_T a b); split; intros; try lra; congruence. Qed.

Lemma RA_ord : OrdArith RA.
Proof.
  constructor; simpl; intros.
  - rewrite !Rleb_true. lra.
  - rewrite Rleb_true in *. lra.
  - apply eq_true_iff_eq. rewrite negb_true_iff, Rltb_true, Rleb_false. tauto.
  - apply eq_true_iff_eq. rewrite andb_true_iff, Reqb_true, !Rleb_true. lra.
Qed.

Lemma Q2R_lit (n : Z) (d : positive) : Q2R (n # d) = IZR n / IZR (Zpos d).
Proof. reflexivity. Qed.

(** Turn boolean comparisons of [RA] into real (in)equalities. *)
Ltac rb2p :=
  repeat match goal with
  | H : Rltb _ _ = true |- _ => apply Rltb_true in H
  | H : Rltb _ _ = false |- _ => apply Rltb_false in H
  | H : Rleb _ _ = true |- _ => apply Rleb_true in H
  | H : Rleb _ _ = false |- _ => apply Rleb_false in H
  | H : Reqb _ _ = true |- _ => apply Reqb_true in H
  | H : Reqb _ _ = false |- _ => apply Reqb_false in H
  | H : (_ && _)%bool = true |- _ => apply andb_true_iff in H; destruct H
  | H : (_ || _)%bool = false |- _ => apply orb_false_iff in H; destruct H
  | H : negb _ = true |- _ => apply negb_true_iff in H
  | H : negb _ = false |- _ => apply negb_false_iff in H
  | |- Rltb _ _ = true => apply Rltb_true
  | |- Rltb _ _ = false => apply Rltb_false
  | |- Rleb _ _ = true => apply Rleb_true
  | |- Rleb _ _ = false => apply Rleb_false
  | |- Reqb _ _ = true => apply Reqb_true
  | |- Reqb _ _ = false => apply Reqb_false
  end.

(** Unfold [RA]'s projections and rational literals. *)
Ltac ra_simp :=
  cbn [num lit nadd nsub nmul nopp nabs ndivr nsqrtr nltb nleb neqb nfsum nacosr ncos nsin npi RA] in *;
  unfold n0, n1, n2, nhalf in *;
  cbn [num lit nadd nsub nmul nopp nabs ndivr nsqrtr nltb nleb neqb nfsum nacosr ncos nsin npi RA] in *.

(** Literals of the code as real numbers. *)
Ltac q2r := unfold Q2R; cbn [Qnum Qden]; lra.
Lemma q0 : Q2R 0 = 0. Proof. q2r. Qed.
Lemma q1 : Q2R 1 = 1. Proof. q2r. Qed.
Lemma qm1 : Q2R (-1) = -1. Proof. q2r. Qed.
Lemma q2 : Q2R 2 = 2. Proof. q2r. Qed.
Lemma q4 : Q2R 4 = 4. Proof. q2r. Qed.
Lemma qhalf : Q2R (1#2) = / 2. Proof. q2r. Qed.
Lemma qe7 : Q2R (1#10000000) = / 10^7. Proof. q2r. Qed.
Lemma qe9 : Q2R (1#1000000000) = / 10^9. Proof. q2r. Qed.
Lemma qe10 : Q2R (1#10000000000) = / 10^10. Proof. q2r. Qed.
Lemma qe12 : Q2R (1#1000000000000) = / 10^12. Proof. q2r. Qed.
Lemma q1000 : Q2R 1000 = 1000. Proof. q2r. Qed.
Lemma q180 : Q2R 180 = 180. Proof. q2r. Qed.
#[global] Hint Rewrite q0 q1 qm1 q2 q4 qhalf qe7 qe9 qe10 qe12 q1000 q180 : qlit.
Ltac qlit := autorewrite with qlit in *.
