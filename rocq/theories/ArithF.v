(** IEEE 754 double precision, executable: the arithmetic of Python's floats.
    Numbers and operations are those of the Flocq library (53 bits, exponents up to 1024, rounding to nearest even);
    no primitive floats are used, and no axioms but those of Coq's real numbers.
    The functions acos, cos and sin of the C library are not fixed by IEEE 754: they are parameters.
    Simplified: [x ** 2] is the rounded product (CPython calls pow, and raises OverflowError where the product is infinite);
    math.fsum is the exact sum rounded once, infinite if a summand is (CPython raises OverflowError if the sum of finite summands is
    too large, and ValueError for infinities of both signs: here infinity and NaN). *)
From Coq Require Import Floats.SpecFloat Reals.
From Flocq Require Import Core.Core IEEE754.BinarySingleNaN.
From Verif Require Import Base Arith.

Definition double : Type := binary_float 53 1024.
#[global] Instance prec_53 : Prec_gt_0 53 := eq_refl.
#[global] Instance prec_64 : Prec_lt_emax 53 1024 := eq_refl.
Definition F_add : double -> double -> double := Bplus mode_NE.
Definition F_sub : double -> double -> double := Bminus mode_NE.
Definition F_mul : double -> double -> double := Bmult mode_NE.
Definition F_div : double -> double -> double := Bdiv mode_NE.
Definition F_sqrt : double -> double := Bsqrt mode_NE.
(** the double next to m * 2^e *)
Definition F_round (m e : Z) : double := binary_normalize 53 1024 prec_53 prec_64 mode_NE m e false.
(** the double next to a rational number whose numerator and denominator are doubles, as those of all literals of the code *)
Definition F_lit (q : Q) : double := F_div (F_round (Qnum q) 0) (F_round (Zpos (Qden q)) 0).
(** the value of a finite double as m * 2^e; 0 for others *)
Definition F_parts (x : double) : Z * Z :=
  match x with B754_finite s m e _ => (if s then Zneg m else Zpos m, e) | _ => (0, 0)%Z end.
Definition dy_add (a b : Z * Z) : Z * Z :=
  let e := Z.min (snd a) (snd b) in (fst a * 2 ^ (snd a - e) + fst b * 2 ^ (snd b - e), e)%Z.
Definition dy_mul (a b : Z * Z) : Z * Z := (fst a * fst b, snd a + snd b)%Z.
Definition dy_opp (a : Z * Z) : Z * Z := (- fst a, snd a)%Z.
Definition F_fsum (l : list double) : double :=
  if forallb is_finite l then
    let s := fold_right (fun x a => dy_add (F_parts x) a) (0, 0)%Z l in F_round (fst s) (snd s)
  else fold_left F_add (filter (fun x => negb (is_finite x)) l) (F_round 0 0).

(** Python's floats: comparisons with NaN are false *)
Definition FA (acos cos sin : double -> double) : Arith := {|
  num := double; lit := F_lit; nadd := F_add; nsub := F_sub; nmul := F_mul; nopp := Bopp; nabs := Babs;
  ndivr := F_div; nsqrtr := F_sqrt; nltb := Bltb; nleb := Bleb; neqb := Beqb; nfsum := F_fsum;
  nacosr := acos; ncos := cos; nsin := sin; npi := F_lit (3141592653589793 # 1000000000000000) |}.

(** the order of the doubles with NaN put above all others: the same for all pairs without a NaN ([F_order_same]),
    and a total order *)
Definition F_leb (a b : double) : bool := if is_nan b then true else if is_nan a then false else Bleb a b.
Definition FT (acos cos sin : double -> double) : Arith := {|
  num := double; lit := F_lit; nadd := F_add; nsub := F_sub; nmul := F_mul; nopp := Bopp; nabs := Babs;
  ndivr := F_div; nsqrtr := F_sqrt; nltb := fun a b => negb (F_leb b a); nleb := F_leb;
  neqb := fun a b => F_leb a b && F_leb b a; nfsum := F_fsum;
  nacosr := acos; ncos := cos; nsin := sin; npi := F_lit (3141592653589793 # 1000000000000000) |}.

(** ** The order *)
(** SFcompare is the lexicographic order of these keys *)
Definition key (x : double) : Z * Z * Z :=
  match x with
  | B754_zero _ => (0, 0, 0)
  | B754_infinity s => if s then (-2, 0, 0) else (2, 0, 0)
  | B754_nan => (3, 0, 0)
  | B754_finite s m e _ => if s then (-1, - e, Zneg m) else (1, e, Zpos m)
  end%Z.
Definition kle (a b : Z * Z * Z) : Prop :=
  let '(a1, a2, a3) := a in let '(b1, b2, b3) := b in
  (a1 < b1 \/ a1 = b1 /\ (a2 < b2 \/ a2 = b2 /\ a3 <= b3))%Z.
Lemma kle_total a b : kle a b \/ kle b a.
Proof. destruct a as [[a1 a2] a3], b as [[b1 b2] b3]. unfold kle. lia. Qed.
Lemma kle_trans a b c : kle a b -> kle b c -> kle a c.
Proof. destruct a as [[a1 a2] a3], b as [[b1 b2] b3], c as [[c1 c2] c3]. unfold kle. lia. Qed.
Lemma cmp_pos p q : match Pos.compare_cont Eq p q with Lt | Eq => true | Gt => false end = true <-> (Zpos p <= Zpos q)%Z.
Proof. change (Pos.compare_cont Eq p q) with (Pos.compare p q). unfold Z.le. cbn. destruct (Pos.compare p q); split; congruence. Qed.
Lemma F_leb_key a b : F_leb a b = true <-> kle (key a) (key b).
Proof.
  unfold F_leb, Bleb, SFleb, SFcompare, kle.
  destruct a as [s|s| |s m e B], b as [t|t| |t m' e' B']; cbn [is_nan key];
    try (destruct s); try (destruct t); cbn; try (split; intros; first [reflexivity|discriminate|lia]).
  all: change (Pos.compare_cont Eq m m') with (Pos.compare m m'); destruct (Z.compare_spec e e') as [C|C|C]; cbn.
  all: try (destruct (Pos.compare_spec m m') as [D|D|D]); cbn; split; intros; first [reflexivity|discriminate|lia].
Qed.
Lemma FT_ord acos cos sin : OrdArith (FT acos cos sin).
Proof.
  constructor; intros; cbn [FT nleb nltb neqb].
  - rewrite !F_leb_key. apply kle_total.
  - cbn [FT nleb] in *. rewrite F_leb_key in *. eapply kle_trans; eassumption.
  - reflexivity.
  - reflexivity.
Qed.
(** without NaN the two arithmetics compare alike *)
Lemma F_order_same a b : is_nan a = false -> is_nan b = false ->
  F_leb a b = Bleb a b /\ negb (F_leb b a) = Bltb a b /\ F_leb a b && F_leb b a = Beqb a b.
Proof.
  intros NA NB. unfold F_leb. rewrite NA, NB. split; [reflexivity|].
  unfold Bleb, Bltb, Beqb, SFleb, SFltb, SFeqb, SFcompare.
  destruct a as [s|s| |s m e B], b as [t|t| |t m' e' B']; try discriminate; try (destruct s); try (destruct t); cbn; auto.
  all: rewrite (Z.compare_antisym e e'); destruct (Z.compare e e') eqn:Q; cbn; auto.
  all: pose proof (Pos.compare_antisym m m') as X; unfold Pos.compare in X; rewrite X; destruct (Pos.compare_cont Eq m m'); cbn; auto.
Qed.

(** ** Tests: 0.1, and 0.1 + 0.2 is not 0.3 *)
Example F_tenth : B2SF (F_lit (1 # 10)) = S754_finite false 7205759403792794 (-56). Proof. vm_compute. reflexivity. Qed.
Example F_small_sum : B2SF (F_add (F_lit (1 # 10)) (F_lit (1 # 5))) = S754_finite false 5404319552844596 (-54) /\
  B2SF (F_lit (3 # 10)) = S754_finite false 5404319552844595 (-54). Proof. vm_compute. split; reflexivity. Qed.
Example F_fsum_once : B2SF (F_fsum [F_lit (1 # 10); F_lit 1; F_lit (-1)]) = B2SF (F_lit (1 # 10)). Proof. vm_compute. reflexivity. Qed.
