(** Exact rational arithmetic, executable.  Square root, acos, cos, sin and pi
    are rational approximations (about 60 bits); square roots of squares of
    rationals are exact.  Used for concrete runs only. *)
From Verif Require Import Base Arith.
Local Open Scope Q_scope.

Definition grid : Z := Z.pow 2 64.

Definition Qsqrt (q : Q) : Q :=
  let q := Qred q in
  let n := Qnum q in let d := Zpos (Qden q) in
  let sn := Z.sqrt n in let sd := Z.sqrt d in
  if ((sn * sn =? n) && (sd * sd =? d))%Z
  then Qred (sn # Z.to_pos sd)
  else Qred (Z.sqrt (n * d * (grid * grid)) # Z.to_pos (d * grid)).

Definition Qltb (a b : Q) : bool := negb (Qle_bool b a).

Definition Qpi : Q := Qred (3141592653589793 # 1000000000000000).

(** [n], but stuck on an unknown [z]: keeps normal forms of terms that mention
    [QA] small, since type parameters are normalised as well. *)
Definition fuel_on (z : Z) (n : nat) : nat := match z with Z0 => n | _ => n end.

(** Fixed point (scale [grid]) Taylor series of cos, [n] more terms. *)
Fixpoint cos_terms (n : nat) (x2 t k acc : Z) : Z :=
  match n with
  | O => acc
  | S n' =>
      let t' := Z.div (- Z.shiftr (t * x2) 64) ((k + 1) * (k + 2)) in
      cos_terms n' x2 t' (k + 2) (acc + t')
  end%Z.
Definition cos_fixed (x : Z) : Z := cos_terms (fuel_on x 16) (Z.shiftr (x * x) 64) grid 0 grid.
Definition to_fixed (q : Q) : Z := Z.div (Qnum q * grid) (Zpos (Qden q)).
Definition of_fixed (z : Z) : Q := Qred (z # Z.to_pos grid).
Definition Qcos (x : Q) : Q := of_fixed (cos_fixed (to_fixed x)).
Definition Qsin (x : Q) : Q := Qcos (Qred (Qpi / inject_Z 2 - x)).

Fixpoint acos_bisect (n : nat) (d lo hi : Z) : Z :=
  let mid := Z.shiftr (lo + hi) 1 in
  match n with
  | O => mid
  | S n' => if (d <=? cos_fixed mid)%Z then acos_bisect n' d mid hi
            else acos_bisect n' d lo mid
  end.
Definition Qacos (d : Q) : Q :=
  if Qeq_bool d 1 then 0
  else if Qeq_bool d (-1 # 1) then Qpi
  else of_fixed (acos_bisect (fuel_on (Qnum d) 50) (to_fixed d) 0 (to_fixed Qpi)).

Definition QA : Arith := {|
  num := Q;
  lit := Qred;
  nadd := fun a b => Qred (a + b);
  nsub := fun a b => Qred (a - b);
  nmul := fun a b => Qred (a * b);
  nopp := fun a => Qred (Qopp a);
  nabs := fun a => Qred (Z.abs (Qnum a) # Qden a);
  ndivr := fun a b => Qred (a / b);
  nsqrtr := Qsqrt;
  nltb := Qltb; nleb := Qle_bool; neqb := Qeq_bool;
  nfsum := fun l => fold_left (fun a b => Qred (a + b)) l 0;
  nacosr := Qacos; ncos := Qcos; nsin := Qsin; npi := Qpi;
|}.

Canonical QA.

Lemma QA_ord : OrdArith QA.
Proof.
  constructor; simpl; intros.
  - rewrite !Qle_bool_iff. destruct (Qlt_le_dec a b) as [H|H]; [left; apply Qlt_le_weak|right]; exact H.
  - rewrite Qle_bool_iff in *. eapply Qle_trans; eauto.
  - reflexivity.
  - apply eq_true_iff_eq. rewrite andb_true_iff, !Qle_bool_iff, Qeq_bool_iff.
    split.
    + intros H. rewrite H. split; apply Qle_refl.
    + intros [H K]. apply Qle_antisym; assumption.
Qed.
