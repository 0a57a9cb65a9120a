(** The arithmetic the code uses, as a record; see DESIGN.md section 1. *)
From Verif Require Import Base.

Class Arith := {
  num   : Type;
  lit   : Q -> num;                 (* decimal literals such as 1e-10, 0.5 *)
  nadd  : num -> num -> num;
  nsub  : num -> num -> num;
  nmul  : num -> num -> num;
  nopp  : num -> num;
  nabs  : num -> num;
  ndivr : num -> num -> num;        (* raw [/]; only meaningful for non-zero divisors *)
  nsqrtr : num -> num;              (* raw sqrt; only meaningful for non-negative arguments *)
  nltb  : num -> num -> bool;
  nleb  : num -> num -> bool;
  neqb  : num -> num -> bool;
  nfsum : list num -> num;          (* math.fsum *)
  nacosr : num -> num;              (* raw acos; only meaningful on [-1,1] *)
  ncos  : num -> num;
  nsin  : num -> num;
  npi   : num;
}.
Arguments lit {_} _%Q.

Declare Scope num_scope.
Delimit Scope num_scope with num.
Bind Scope num_scope with num.
Infix "+" := nadd : num_scope.
Infix "-" := nsub : num_scope.
Infix "*" := nmul : num_scope.
Notation "- x" := (nopp x) : num_scope.
Infix "<?" := nltb : num_scope.
Infix "<=?" := nleb : num_scope.
Infix "=?" := neqb : num_scope.
Notation "x >? y" := (nltb y x) (at level 70, only parsing) : num_scope.
Notation "x >=? y" := (nleb y x) (at level 70, only parsing) : num_scope.

Section Ops.
  Context {A : Arith}.
  Local Open Scope num_scope.
  Definition n0 : num := lit 0.
  Definition n1 : num := lit 1.
  Definition n2 : num := lit 2.
  Definition nhalf : num := lit (1#2).
  (** Python [x / y] *)
  Definition pdiv (x y : num) : res num :=
    if y =? n0 then Err ZeroDivisionError else Ok (ndivr x y).
  (** Python [math.sqrt(x)] *)
  Definition psqrt (x : num) : res num :=
    if x <? n0 then Err ValueError else Ok (nsqrtr x).
  (** Python [math.acos(x)] *)
  Definition pacos (x : num) : res num :=
    if (x <? lit (-1)) || (n1 <? x) then Err ValueError else Ok (nacosr x).
  (** Python [max(a, b)] and [min(a, b)] (first argument on ties) *)
  Definition nmax (a b : num) : num := if a <? b then b else a.
  Definition nmin (a b : num) : num := if b <? a then b else a.
  (** Python [sum(l)] *)
  Definition nsum (l : list num) : num := fold_left nadd l n0.
  (** [math.radians]: x * (pi / 180) *)
  Definition nradians (x : num) : num := x * ndivr npi (lit 180).
  (** conversion of a Python int (a length) *)
  Definition nofnat (n : nat) : num := lit (inject_Z (Z.of_nat n)).
End Ops.

(** The comparisons form a total (pre)order: holds for doubles without NaN. *)
Record OrdArith (A : Arith) : Prop := {
  oa_total : forall a b : num, nleb a b = true \/ nleb b a = true;
  oa_trans : forall a b c : num, nleb a b = true -> nleb b c = true -> nleb a c = true;
  oa_ltb : forall a b : num, nltb a b = negb (nleb b a);
  oa_eqb : forall a b : num, neqb a b = nleb a b && nleb b a;
}.

Section OrdFacts.
  Context {A : Arith} (O : OrdArith A).
  Lemma nleb_refl a : nleb a a = true.
  Proof. destruct (oa_total A O a a); auto. Qed.
  Lemma nltb_irrefl a : nltb a a = false.
  Proof. rewrite (oa_ltb A O), nleb_refl. reflexivity. Qed.
  Lemma nltb_leb a b : nltb a b = true -> nleb a b = true.
  Proof.
    rewrite (oa_ltb A O), negb_true_iff. intros H.
    destruct (oa_total A O a b); congruence.
  Qed.
  Lemma nltb_trans a b c : nltb a b = true -> nltb b c = true -> nltb a c = true.
  Proof.
    intros H K. pose proof (nltb_leb _ _ H) as H'.
    rewrite (oa_ltb A O), negb_true_iff in *.
    destruct (nleb c a) eqn:E; [|reflexivity].
    assert (nleb c b = true) by (eapply (oa_trans A O); eauto). congruence.
  Qed.
  Lemma nltb_leb_trans a b c : nltb a b = true -> nleb b c = true -> nltb a c = true.
  Proof.
    intros H K. rewrite (oa_ltb A O), negb_true_iff in *.
    destruct (nleb c a) eqn:E; [|reflexivity].
    assert (nleb b a = true) by (eapply (oa_trans A O); eauto). congruence.
  Qed.
  Lemma nleb_ltb_trans a b c : nleb a b = true -> nltb b c = true -> nltb a c = true.
  Proof.
    intros H K. rewrite (oa_ltb A O), negb_true_iff in *.
    destruct (nleb c a) eqn:E; [|reflexivity].
    assert (nleb c b = true) by (eapply (oa_trans A O); eauto). congruence.
  Qed.
  Lemma nltb_false_leb a b : nltb a b = false <-> nleb b a = true.
  Proof. rewrite (oa_ltb A O), negb_false_iff. tauto. Qed.
  Lemma nleb_false_ltb a b : nleb a b = false <-> nltb b a = true.
  Proof. rewrite (oa_ltb A O), negb_true_iff. tauto. Qed.
  Lemma neqb_refl a : neqb a a = true.
  Proof. rewrite (oa_eqb A O), nleb_refl. reflexivity. Qed.
  Lemma neqb_sym a b : neqb a b = neqb b a.
  Proof. rewrite !(oa_eqb A O). apply andb_comm. Qed.
  Lemma neqb_leb a b : neqb a b = true -> nleb a b = true.
  Proof. rewrite (oa_eqb A O), andb_true_iff. tauto. Qed.
  Lemma neqb_leb_r a b : neqb a b = true -> nleb b a = true.
  Proof. rewrite (oa_eqb A O), andb_true_iff. tauto. Qed.
  Lemma neqb_trans a b c : neqb a b = true -> neqb b c = true -> neqb a c = true.
  Proof.
    rewrite !(oa_eqb A O), !andb_true_iff. intros [? ?] [? ?].
    split; eapply (oa_trans A O); eauto.
  Qed.
  Lemma ntricho a b : nltb a b = true \/ neqb a b = true \/ nltb b a = true.
  Proof.
    rewrite !(oa_ltb A O), (oa_eqb A O).
    destruct (nleb a b) eqn:E, (nleb b a) eqn:F; simpl; auto.
  Qed.
  Lemma nltb_neqb a b : nltb a b = true -> neqb a b = false.
  Proof.
    rewrite (oa_ltb A O), (oa_eqb A O), negb_true_iff.
    intros ->. apply andb_false_r.
  Qed.
  Lemma nltb_eqb_l a b c : neqb a b = true -> nltb a c = nltb b c.
  Proof.
    intros H. apply eq_true_iff_eq. split; intros K.
    - eapply nleb_ltb_trans; [|exact K]. apply neqb_leb_r, H.
    - eapply nleb_ltb_trans; [|exact K]. apply neqb_leb, H.
  Qed.
  Lemma nltb_eqb_r a b c : neqb a b = true -> nltb c a = nltb c b.
  Proof.
    intros H. apply eq_true_iff_eq. split; intros K.
    - eapply nltb_leb_trans; [exact K|]. apply neqb_leb, H.
    - eapply nltb_leb_trans; [exact K|]. apply neqb_leb_r, H.
  Qed.
End OrdFacts.
