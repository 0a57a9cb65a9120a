(** Model of the functions of src/grassfire that nothing calls: find_overlapping_triangle, is_quad, make_unit_vector and make_unit_vectors
    (initialize.py), signed_turn and get_bisector (events/edge.py), compute_crossing_bisector (events/split.py). *)
From Verif Require Import Base Arith Calc VectorOps Line2d Primitives Initialize.

Section Unused.
  Context {A : Arith} {E : Env A}.
  Local Open Scope num_scope.
  Local Open Scope res_scope.

  (** the position of a corner of a triangle of the triangulation; the predicate orient2d (geompreds) cannot take None: a TypeError *)
  Definition corner_pos (d : dtriang) (t : nat) (s : side) : res pt :=
    match get3 (d_v (dt_t d t)) s with Some v => Ok (dv_pos (dt_v d v)) | None => Err TypeError end.
  (** initialize.py 25-36: the index in the list of the first triangle whose last corner is not to the right of the line PQ *)
  Fixpoint overlap_from (d : dtriang) (P Q : pt) (i : nat) (l : list (nat * side)) : res (option nat) :=
    match l with
    | [] => Ok None
    | (t, s) :: r =>
        R <-- corner_pos d t (cw s) ;;
        if orient2d P Q R >=? n0 then Ok (Some i) else overlap_from d P Q (S i) r
    end.
  (** initialize.py 11-38 *)
  Definition find_overlapping_triangle (d : dtriang) (l : list (nat * side)) : res nat :=
    match l with
    | [] => Err IndexError
    | (t, mid) :: _ =>
        P <-- corner_pos d t (ccw mid) ;;
        Q <-- corner_pos d t mid ;;
        i <-- overlap_from d P Q 0 l ;;
        match i with Some i => Ok i | None => Err AssertionError end
    end.

  (** initialize.py 41-49; zip(L[:-2], L[1:-1], L[2:]) *)
  Fixpoint turns (l : list pt) : list num :=
    match l with
    | a :: ((b :: c :: _) as r) => orient2d a b c :: turns r
    | _ => []
    end.
  Definition is_quad (l : list pt) : res bool :=
    _ <-- rassert (Nat.eqb (length l) 5) ;;
    let items := map (fun x => x >=? n0) (turns l) in
    match items with
    | [] => Err IndexError
    | first :: _ => Ok (forallb (Bool.eqb first) items)
    end.

  (** initialize.py 66-80: the unit vector of the side [s] of triangle [t]; the segment is from corner ccw(s) to corner cw(s) *)
  Definition make_unit_vector (d : dtriang) (t : nat) (s : side) : res (option pt) :=
    if constrained d t s then
      start <-- oget (fst (dsegment d t s)) ;;
      end_ <-- oget (snd (dsegment d t s)) ;;
      let v := sub2 (dv_pos (dt_v d end_)) (dv_pos (dt_v d start)) in
      u <-- unit_2 (rotate90ccw v) ;;
      Ok (Some u)
    else Ok None.
  (** initialize.py 100-113: the dictionary, as a list of its items *)
  Definition make_unit_vectors (d : dtriang) : res (list (nat * triple (option pt))) :=
    rmapl (fun t =>
      a <-- make_unit_vector d t S0 ;;
      b <-- make_unit_vector d t S1 ;;
      c <-- make_unit_vector d t S2 ;;
      Ok (t, mk3 a b c)) (seq 0 (dt_nt d)).

  (** edge.py 13-25; [atan2] is math.atan2 *)
  Definition signed_turn (atan2 : num -> num -> num) (head mid tail : pt) : num :=
    let u := sub2 mid head in
    let v := sub2 tail mid in
    atan2 (cross2 u v) (dot2 u v).

  (** edge.py 28-53 *)
  Definition corner_bisector (head mid tail : pt) : res pt :=
    let a := sub2 tail mid in
    let b := sub2 head mid in
    ua <-- unit_2 a ;;
    ub <-- unit_2 b ;;
    Ok (add2 ua ub).

  (** split.py 12-61; the two files it writes are left out (opening and writing is assumed to succeed) *)
  Definition compute_crossing_bisector (left right : line2) (now : num) : res pt :=
    i <-- intersection left right ;;
    match i with
    | POINT v =>
        l <-- translated left (mul2s (lw left) now) ;;
        r <-- translated right (mul2s (lw right) now) ;;
        j <-- intersection l r ;;
        match j with
        | LINE _ => Ok (lw left)
        | POINT p => Ok (sub2 p v)
        | NO_INTERSECTION => Ok (lw left)
        end
    | _ => Err NotImplementedError
    end.
End Unused.
