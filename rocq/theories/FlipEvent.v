(** Model of src/grassfire/events/flip.py *)
From Verif Require Import Base Arith Calc VectorOps Line2d Primitives Collapse EventsLib.

Section FlipEvent.
  Context {A : Arith} {E : Env A}.
  Local Open Scope num_scope.
  Local Open Scope M_scope.

  (** flip.py 52-61: position in a surrounding triangle of its link to the
      quadrilateral *)
  Definition apex_around (n : option nat) (corner : nat) : M (option side) :=
    match n with
    | None => ret None
    | Some n => let! x := tget n in let! i := rdr (vindex x corner) in ret (Some (ccw i))
    end.
  (** flip.py 62-67 *)
  Definition link_around (n : option nat) (sd : option side) (t : nat) : M unit :=
    match n, sd with
    | Some n, Some sd => set_tn n sd (Some t)
    | _, _ => ret tt
    end.

  (** flip.py 31-73 (and its copy, parallel.py 22-65) *)
  Definition flip (t0 : nat) (side0 : side) (t1 : nat) (side1 : side) : M unit :=
    let! x := tget t0 in
    let! y := tget t1 in
    let apex0 := side0 in let orig0 := ccw side0 in let dest0 := cw side0 in
    let apex1 := side1 in let orig1 := ccw side1 in let dest1 := cw side1 in
    assertM (Nat.eqb (get3 (t_v x) orig0) (get3 (t_v y) dest1)) ;;
    assertM (Nat.eqb (get3 (t_v x) dest0) (get3 (t_v y) orig1)) ;;
    assertM (is_some (get3 (t_n x) apex0)) ;;
    assertM (is_some (get3 (t_n y) apex1)) ;;
    let pA := get3 (t_v x) apex0 in
    let pB := get3 (t_v x) orig0 in
    let pC := get3 (t_v y) apex1 in
    let pD := get3 (t_v x) dest0 in
    let nAB := get3 (t_n x) dest0 in
    let nBC := get3 (t_n y) orig1 in
    let nCD := get3 (t_n y) dest1 in
    let nDA := get3 (t_n x) orig0 in
    let! a := apex_around nAB pA in
    let! b := apex_around nBC pB in
    let! c := apex_around nCD pC in
    let! d := apex_around nDA pD in
    link_around nAB a t0 ;;
    link_around nBC b t0 ;;
    link_around nCD c t1 ;;
    link_around nDA d t1 ;;
    set_tvs t0 (mk3 pA pB pC) ;;
    set_tns t0 (mk3 nBC (Some t1) nAB) ;;
    set_tvs t1 (mk3 pC pD pA) ;;
    set_tns t1 (mk3 nDA (Some t0) nCD).

  (** flip.py 11-28 *)
  Definition handle_flip_event (evt : event) : M unit :=
    let now := ev_time evt in
    match ev_side evt with
    | [t_side] =>
        let t := ev_tri evt in
        let! x := tget t in
        match get3 (t_n x) t_side with
        | None => raise AssertionError
        | Some n =>
            let! y := tget n in
            let! n_side := rdr (nindex y t) in
            flip t t_side n n_side ;;
            replace_in_queue t now ;;
            replace_in_queue n now
        end
    | _ => raise AssertionError
    end.
End FlipEvent.
