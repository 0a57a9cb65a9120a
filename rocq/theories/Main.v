(** Model of src/grassfire/__init__.py, of internal_only_skeleton (initialize.py)
    and of output_offsets (inout.py). *)
From Verif Require Import Base Arith Calc VectorOps Transform Line2d Primitives Collapse EventsLib FlipEvent ParallelEvent
  EdgeEvent SplitEvent EventLoop Initialize.

Section Main.
  Context {A : Arith} {E : Env A}.
  Local Open Scope num_scope.
  Local Open Scope res_scope.

  (** A Skeleton (primitives.py 32-41): the state has sk_nodes, vertices and
      triangles; the second component is the field transform. *)
  Definition skeleton : Type := state * option transform.

  (** initialize.py 720-730; [Skeleton()] sets transform to None *)
  Definition internal_only_skeleton (sk : skeleton) : skeleton :=
    let s := fst sk in
    (mkSt (vs s) (nv s) (ts s) (nt s) (ns s) (nn s) (es s) (ne s) (wfs s)
       (sk_nodes s) (filter (fun v => k_internal (vs s v)) (sk_vertices s))
       (filter (fun t => t_internal (ts s t)) (sk_triangles s)) (queue s) (immediate s), None).

  (** __init__.py 72-75; -2.0 <= x <= 2.0 *)
  Definition in_range (x : num) : bool := (nopp n2 <=? x) && (x <=? n2).
  Definition check_start (s : state) (v : nat) : res unit :=
    if k_inf (vs s v) then Err AttributeError
    else match k_start_node (vs s v) with
         | None => Err AttributeError
         | Some n =>
             _ <-- rassert (in_range (fst (sn_pos (ns s n)))) ;;
             rassert (in_range (snd (sn_pos (ns s n))))
         end.
  Definition check_starts (s : state) : res unit := _ <-- rmapl (check_start s) (sk_vertices s) ;; Ok tt.

  (** __init__.py 27-112 with output=False (no files are written).  [triangulate] is
      the function of package tri, applied to conv.infos and conv.segments; [check]
      stands for the loop with the assertions (72-75). *)
  Definition calc_skel_with (check : state -> res unit) (triangulate : list pt -> res dtriang)
      (points : list pt) (shrink internal_only : bool) : res skeleton :=
    '(tr, pts) <-- (if shrink then
                      box <-- get_box points ;;
                      let transform := get_transform box in
                      pts <-- rmapl (forward transform) points ;;
                      Ok (Some transform, pts)
                    else Ok (None, points)) ;;
    dt <-- triangulate pts ;;
    s <-- init_skeleton dt ;;
    let sk := if internal_only then internal_only_skeleton (s, None) else (s, None) in
    let sk := if shrink then (fst sk, tr) else sk in
    _ <-- check (fst sk) ;;
    '(_, s) <-- init_event_list (fst sk) ;;
    '(_, s) <-- event_loop s ;;
    Ok (s, snd sk).
  Definition calc_skel := calc_skel_with check_starts.

  (** ** Offsets *)

  (** one item of the generator calc_offsets; [o_v] and [o_left] stand for the
      numbers id(v) and id(v.left_at(t)) *)
  Record offset := mkOff { o_p : pt; o_q : pt; o_t : num; o_v : nat; o_left : nat }.
  (** v.starts_at (InfiniteVertex has no such attribute); None <= t is a TypeError *)
  Definition started_at (s : state) (v : nat) (t : num) : res bool :=
    if k_inf (vs s v) then Err AttributeError
    else match k_starts (vs s v) with None => Err TypeError | Some a => Ok (a <=? t) end.
  (** the tuple of 121-127, [nb] being left_at or right_at; None if evaluating
      it raises AttributeError, which is caught *)
  Definition offset_item (s : state) (t : num) (v : nat) (nb : option nat) : res (option offset) :=
    match position_at s v t with
    | Err AttributeError => Ok None
    | Err e => Err e
    | Ok p =>
        match nb with
        | None => Ok None
        | Some l =>
            match position_at s l t with
            | Err AttributeError => Ok None
            | Err e => Err e
            | Ok q => Ok (Some (mkOff p q t v l))
            end
        end
    end.
  (** __init__.py 120-129 *)
  Definition offset_at (s : state) (t : num) (v : nat) : res (option offset) :=
    b <-- started_at s v t ;;
    if (b && match k_stops (vs s v) with Some e => e >? t | None => false end) || (b && is_none (k_stops (vs s v)))
    then offset_item s t v (hist_at (k_left (vs s v)) t)
    else Ok None.

  (** the items a generator yields before it ends or raises *)
  Fixpoint yields {X Y} (f : X -> res (option Y)) (l : list X) : list Y * option exn :=
    match l with
    | [] => ([], None)
    | x :: r =>
        match f x with
        | Err e => ([], Some e)
        | Ok None => yields f r
        | Ok (Some y) => (y :: fst (yields f r), snd (yields f r))
        end
    end.
  (** __init__.py 115-129; [t *= inc] for t in range(ct) *)
  Definition calc_offsets (s : state) (now : num) (ct : nat) : list offset * option exn :=
    match pdiv now (nofnat ct) with
    | Err e => ([], Some e)
    | Ok inc => yields (fun tv => offset_at s (fst tv) (snd tv))
                  (list_prod (map (fun k => nofnat k * inc) (seq 0 ct)) (sk_vertices s))
    end.

  (** inout.py 104-116 and 122-133: the lines written for one vertex; the text of
      a line is not modelled but its data.  visualize_at (primitives.py 155-165,
      244-246) computes the same as position_at.  None > t is a TypeError. *)
  Definition output_offset (s : state) (nb : kvertex -> list hitem) (t : num) (v : nat) : res (option offset) :=
    b <-- started_at s v t ;;
    if b then match k_stops (vs s v) with
              | None => Err TypeError
              | Some e => if e >? t then offset_item s t v (hist_at (nb (vs s v)) t) else Ok None
              end
    else Ok None.
  (** inout.py 90-133: the lines written to the two files and the exception *)
  Definition output_offsets (s : state) (now : num) (ct : nat) : list offset * list offset * option exn :=
    match pdiv now (nofnat ct) with
    | Err e => ([], [], Some e)
    | Ok inc =>
        let grid := list_prod (map (fun k => nofnat k * inc) (seq 0 ct)) (sk_vertices s) in
        match yields (fun tv => output_offset s k_left (fst tv) (snd tv)) grid with
        | (l, Some e) => (l, [], Some e)
        | (l, None) =>
            let r := yields (fun tv => output_offset s k_right (fst tv) (snd tv)) grid in (l, fst r, snd r)
        end
    end.
End Main.
