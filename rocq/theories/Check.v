(** Model of the checks of src/grassfire/events/check.py that the loop does not call
    (their calls in loop.py 477-485 are switched off); the ones that are called are
    in EventLoop.v.  The failing assertions also format messages; that is left out. *)
From Verif Require Import Base Arith Calc VectorOps Line2d Primitives Collapse EventsLib EventLoop.
Local Open Scope nat_scope.

Section Check.
  Context {A : Arith} {E : Env A}.
  Local Open Scope num_scope.
  Local Open Scope res_scope.

  (** check.py 9-15; InfiniteVertex has no attributes left and right *)
  Definition point_to_each_other (s : state) (t : nat) (sd : side) : res unit :=
    let v0 := get3 (t_v (ts s t)) (cw sd) in
    let v1 := get3 (t_v (ts s t)) (ccw sd) in
    if k_inf (vs s v0) then Err AttributeError else
    _ <-- rassert (onat_eqb (kleft (vs s v0)) (Some v1)) ;;
    if k_inf (vs s v1) then Err AttributeError else
    rassert (onat_eqb (kright (vs s v1)) (Some v0)).

  (** check.py 45-53; the list holds no None *)
  Definition check_wavefront_links (s : state) (tri : list nat) : res unit :=
    rforall (fun t =>
      if is_none (t_stops (ts s t)) then
        rforall (fun sd => if is_none (get3 (t_n (ts s t)) sd) then point_to_each_other s t sd else Ok tt) sides
      else Ok tt) tri.

  (** check.py 55-64 *)
  Definition check_active_triangles (s : state) (tri : list nat) : res unit :=
    rforall (fun t =>
      if is_none (t_stops (ts s t)) then
        rforall (fun sd => match get3 (t_n (ts s t)) sd with
          | Some n => rassert (is_none (t_stops (ts s n)))
          | None => Ok tt end) sides
      else Ok tt) tri.

  (** check.py 68-77 *)
  Definition check_kinetic_vertices (s : state) (tri : list nat) : res unit :=
    rforall (fun t =>
      if is_none (t_stops (ts s t)) then
        rforall (fun sd =>
          let kv := get3 (t_v (ts s t)) sd in
          if k_inf (vs s kv) then Ok tt else rassert (is_none (k_stops (vs s kv)))) sides
      else Ok tt) tri.

  (** what at_same_location is called with: kinetic vertices and skeleton nodes *)
  Inductive item : Type := AVertex (v : nat) | ANode (n : nat).

  (** primitives.py 148-153 (a vertex) and 77-81 (a node) *)
  Definition item_at (s : state) (i : item) (now : num) : res pt :=
    match i with
    | AVertex v => position_at s v now
    | ANode n => Ok (sn_pos (ns s n))
    end.

  (** check.py 79-89; P[0] of an empty list is an IndexError *)
  Definition at_same_location (s : state) (V : list item) (now : num) : res bool :=
    P <-- rmapl (fun i => item_at s i now) V ;;
    match P with
    | [] => Err IndexError
    | p :: r => Ok (forallb (fun o => near_zero (fst p - fst o) && near_zero (snd p - snd o)) r)
    end.
End Check.
