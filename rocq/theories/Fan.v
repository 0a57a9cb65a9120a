(** lib.py get_fan: the fan of triangles around a vertex (only called from code
    that is commented out) *)
From Verif Require Import Base Arith Calc VectorOps Line2d Primitives Collapse EventsLib.

Section Fan.
  Context {A : Arith} {E : Env A}.
  Local Open Scope M_scope.

  (** lib.py 223-237: the [while] loop, given fuel *)
  Fixpoint fan_walk (fuel : nat) (start : nat) (t : option nat) (v : nat) (direction : side -> side) : M (list nat) :=
    match t with
    | None => ret []
    | Some t =>
        match fuel with
        | O => raise OutOfFuel
        | S fuel =>
            let! x := tget t in
            let! sd := rdr (vindex x v) in
            let n := get3 (t_n x) (direction sd) in
            assertM (negb (match n with Some n => Nat.eqb n start | None => false end)) ;;
            let! fan := fan_walk fuel start n v direction in
            ret (t :: fan)
        end
    end.
  (** lib.py 223-237 with fuel *)
  Definition get_fan (fuel : nat) (t v : nat) (direction : side -> side) : M (list nat) :=
    fan_walk fuel t (Some t) v direction.
End Fan.
