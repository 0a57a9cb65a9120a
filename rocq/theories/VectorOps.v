(** Model of src/grassfire/vectorops.py: general dimension on lists, and the
    two-dimensional instances used by the kinetic code on pairs. *)
From Verif Require Import Base Arith Calc.

(** points / vectors of the plane *)
Notation pt := (prod num num).

Section VectorOps.
  Context {A : Arith}.
  Local Open Scope num_scope.
  Local Open Scope res_scope.

  Definition vec := list num.

  (** second operand: vector or scalar ([hasattr(b, '__iter__')]) *)
  Inductive operand := Vec (v : vec) | Scal (s : num).

  Definition zipw (f : num -> num -> num) (a b : vec) : vec :=
    map (fun p => f (fst p) (snd p)) (combine a b).

  Definition lift (f : num -> num -> num) (a : vec) (b : operand) : res vec :=
    match b with
    | Vec b => if Nat.eqb (length a) (length b) then Ok (zipw f a b) else Err ValueError
    | Scal s => Ok (map (fun x => f x s) a)
    end.

  (** vectorops.py 11-18, 21-28, 31-39 *)
  Definition v_sub := lift nsub.
  Definition v_add := lift nadd.
  Definition v_mul := lift nmul.

  Fixpoint divw (a b : vec) : res vec :=
    match a, b with
    | x :: a', y :: b' => q <-- pdiv x y ;; r <-- divw a' b' ;; Ok (q :: r)
    | _, _ => Ok []
    end.

  (** vectorops.py 42-49 *)
  Definition v_div (a : vec) (b : operand) : res vec :=
    match b with
    | Vec b => if Nat.eqb (length a) (length b) then divw a b else Err ValueError
    | Scal s => rmapl (fun x => pdiv x s) a
    end.

  (** vectorops.py 52-57 *)
  Definition v_make_vector (e s : vec) : res vec := v_sub e (Vec s).

  (** vectorops.py 60-64 *)
  Definition v_dot (a b : vec) : res num :=
    if Nat.eqb (length a) (length b) then Ok (nsum (zipw nmul a b)) else Err ValueError.

  (** vectorops.py 67-69, 72-74, 96-98, 101-103 *)
  Definition v_norm2 (v : vec) : res num := v_dot v v.
  Definition v_norm (v : vec) : res num := n <-- v_norm2 v ;; psqrt n.
  Definition v_dist (s e : vec) : res num := v <-- v_make_vector e s ;; v_norm v.
  Definition v_unit (v : vec) : res vec := n <-- v_norm v ;; v_div v (Scal n).

  (** vectorops.py 106-118 *)
  Inductive crossres := CScal (s : num) | CVec (v : vec).
  Definition v_cross (a b : vec) : res crossres :=
    if negb (Nat.eqb (length a) (length b)) then Err ValueError else
    match a, b with
    | [a0; a1; a2], [b0; b1; b2] =>
        Ok (CVec [a1 * b2 - a2 * b1; a2 * b0 - a0 * b2; a0 * b1 - a1 * b0])
    | [a0; a1], [b0; b1] => Ok (CScal (a0 * b1 - a1 * b0))
    | _, _ => Err ValueError
    end.

  (** vectorops.py 136-138 *)
  Definition v_angle (a b : vec) : res num :=
    d <-- v_dot a b ;; m <-- v_norm a ;; n <-- v_norm b ;;
    q <-- pdiv d (m * n) ;; pacos q.

  (** vectorops.py 187-192, 195-200 *)
  Definition rotate90ccw (v : pt) : pt := (- snd v, fst v).
  Definition rotate90cw (v : pt) : pt := (snd v, - fst v).

  (** Two-dimensional instances on pairs (the kinetic code only uses 2-tuples);
      their agreement with the list versions is lemma [v2_agree]. *)
  Definition sub2 (a b : pt) : pt := (fst a - fst b, snd a - snd b).
  Definition add2 (a b : pt) : pt := (fst a + fst b, snd a + snd b).
  Definition mul2s (a : pt) (s : num) : pt := (fst a * s, snd a * s).
  Definition div2s (a : pt) (s : num) : res pt :=
    x <-- pdiv (fst a) s ;; y <-- pdiv (snd a) s ;; Ok (x, y).
  (** [sum] starts from the integer 0 *)
  Definition dot2 (a b : pt) : num := (n0 + fst a * fst b) + snd a * snd b.
  Definition norm2_2 (a : pt) : num := dot2 a a.
  Definition norm_2 (a : pt) : res num := psqrt (norm2_2 a).
  Definition dist_2 (s e : pt) : res num := norm_2 (sub2 e s).
  Definition unit_2 (a : pt) : res pt := n <-- norm_2 a ;; div2s a n.
  Definition cross2 (a b : pt) : num := fst a * snd b - snd a * fst b.
  Definition pt_eqb (a b : pt) : bool := (fst a =? fst b) && (snd a =? snd b).

  (** vectorops.py 141-157; the clamp makes [math.acos] total *)
  Definition angle_unit (v1 v2 : pt) : res (num * num) :=
    let d := dot2 v1 v2 in
    let d := nmax (lit (-1)) (nmin n1 d) in
    acos_d <-- pacos d ;; Ok (d, acos_d).

  (** vectorops.py 160-185 *)
  Definition bisector (u1 u2 : pt) : res pt :=
    let direction := add2 u1 u2 in
    '(d, acos_d) <-- angle_unit u1 u2 ;;
    if near_zero2 direction
       || (near_zero (acos_d - npi) || (d <? ncos (nradians (lit (1799999#10000)))))
    then Ok (n0, n0)
    else
      let alpha := nhalf * npi + nhalf * acos_d in
      let magnitude := nsin alpha in
      u <-- unit_2 direction ;; div2s u magnitude.
End VectorOps.
Arguments vec {A}.
