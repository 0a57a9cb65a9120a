(** Model of the checks of src/grassfire/events/check.py that a run performs and
    of src/grassfire/events/loop.py (init_event_list, event_loop) *)
From Verif Require Import Base Arith Calc VectorOps Line2d Primitives Collapse EventsLib
  FlipEvent ParallelEvent EdgeEvent SplitEvent.

Section EventLoop.
  Context {A : Arith} {E : Env A}.
  Local Open Scope num_scope.
  Local Open Scope M_scope.

  (** check.py 24-30 *)
  Definition check_bisector_direction (s : state) (t : nat) (sd : side) (time : num) : res unit :=
    let '(v0, v1) := edge_segment (ts s t) sd in
    rbind (position_at s v1 time) (fun pos1 =>
    rbind (position_at s v0 time) (fun pos0 =>
    let pos2 := add2 pos1 (k_velocity (vs s v1)) in
    let ori := orient2d pos0 pos1 pos2 in
    rassert ((ori >? n0) || near_zero ori))).

  Fixpoint rforall {X} (f : X -> res unit) (l : list X) : res unit :=
    match l with [] => Ok tt | x :: r => rbind (f x) (fun _ => rforall f r) end.

  (** check.py 17-22 *)
  Definition check_bisectors (s : state) (now : num) : res unit :=
    rforall (fun t =>
      if is_none (t_stops (ts s t)) then
        rforall (fun sd =>
          if is_none (get3 (t_n (ts s t)) sd) then check_bisector_direction s t sd now else Ok tt) sides
      else Ok tt) (sk_triangles s).

  (** check.py 33-43 *)
  Definition check_active_triangles_orientation (s : state) (now : num) : res unit :=
    rforall (fun t =>
      if is_none (t_stops (ts s t)) then
        rbind (position_at s (x0 (t_v (ts s t))) now) (fun p0 =>
        rbind (position_at s (x1 (t_v (ts s t))) now) (fun p1 =>
        rbind (position_at s (x2 (t_v (ts s t))) now) (fun p2 =>
        let ori := orient2d p0 p1 p2 in
        if is_finite s t then rassert ((ori >=? n0) || near_zero ori)
        else rassert ((ori <=? n0) || near_zero ori))))
      else Ok tt) (sk_triangles s).

  (** loop.py 545-558; starts from an empty sequence *)
  Definition init_event_list : M unit :=
    setq [] ;;
    let! tris := gets sk_triangles in
    forM tris (fun t =>
      let! e := compute_collapse_time t n0 FindGt in
      match e with Some e => queue_add e | None => ret tt end).

  (** loop.py 287-291: the next event and the value of NOW after taking it;
      choose_next_event (loop.py 21-172) removes the first element of the
      sequence.  Precondition (loop condition): not both queues are empty. *)
  Definition take_next (now : num) : M (nat * num) :=
    let! i := gets immediate in
    match i with
    | e :: r => seti r ;; ret (e, now)
    | [] =>
        let! q := gets queue in
        match q with
        | e :: r => setq r ;; let! ev := eget e in ret (e, ev_time ev)
        | [] => raise StopIteration
        end
    end.

  (** loop.py 409-434 *)
  Definition handle_event (e : nat) (step : Z) : M unit :=
    let! evt := eget e in
    let! x := tget (ev_tri evt) in
    if is_some (t_stops x) then ret tt
    else
      match ev_tp evt with
      | Edge =>
          if Nat.eqb (length (ev_side evt)) 3 then handle_edge_event_3sides evt step
          else if Nat.eqb (length (ev_side evt)) 1 && Nat.eqb (tri_type x) 3 then
            handle_edge_event_1side evt step
          else if Nat.eqb (length (ev_side evt)) 2 then raise ValueError
          else handle_edge_event evt step
      | Flip => handle_flip_event evt
      | Split => handle_split_event evt step
      end.

  (** loop.py 277-297, 409-434: the [while] loop; [guard] counts how many more
      iterations are allowed *)
  Fixpoint loop (guard : nat) (step : Z) (now : num) : M num :=
    let! i := gets immediate in
    let! q := gets queue in
    match i, q with
    | [], [] => ret now
    | _, _ =>
        match guard with
        | O => raise ValueError
        | S guard =>
            let! en := take_next now in
            handle_event (fst en) (step + 1)%Z ;;
            loop guard (step + 1)%Z (snd en)
        end
    end.

  (** loop.py 507-513 *)
  Definition not_stopped_tris (s : state) : list nat :=
    filter (fun t => forallb (fun v => k_internal (vs s v)) (list3 (t_v (ts s t)))
                     && is_none (t_stops (ts s t))) (sk_triangles s).

  Definition max_events : nat := Z.to_nat 50000.

  (** loop.py 225-515 (no pause, no video) *)
  Definition event_loop : M num :=
    seti [] ;;
    rd (fun s => check_bisectors s n0) ;;
    rd (fun s => check_active_triangles_orientation s n0) ;;
    let! now := loop max_events 0 n0 in
    let! bad := gets not_stopped_tris in
    match bad with
    | [] => ret now
    | _ => raise ValueError
    end.
End EventLoop.
