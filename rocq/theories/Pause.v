(** Model of calc_skel with pause=True: interactive_visualize (src/grassfire/inout.py) and the parts of event_loop
    (src/grassfire/events/loop.py) that depend on pause; and of the two functions check_direct inside loop.py.

    As in Output.v the text of the lines is not modelled, and opening and writing files is assumed to succeed; notify_qgis (inout.py 163-191),
    which only writes a file and prints, is left out, as is the cleaning of the files (loop.py 240-253) and logging. *)
From Verif Require Import Base Arith Calc VectorOps Transform Line2d Primitives Collapse EventsLib FlipEvent ParallelEvent
  EdgeEvent SplitEvent EventLoop Initialize Main Output.

Section Pause.
  Context {A : Arith} {E : Env A}.
  Local Open Scope num_scope.
  Local Open Scope res_scope.

  (** ** check_direct (loop.py 126-162 in choose_next_event, where the call is commented out; loop.py 309-331 in event_loop) *)
  (** loop.py 137-142: the loop over the neighbours; the lists are [seen] (a set), [visit] (top of the stack first) and [also] *)
  Fixpoint near_scan (s : state) (time : num) (l : list (option nat)) (seen visit also : list nat) : list nat * list nat * list nat :=
    match l with
    | [] => (seen, visit, also)
    | None :: r => near_scan s time r seen visit also
    | Some n :: r =>
        match t_event (ts s n) with
        | None => near_scan s time r seen visit also
        | Some e =>
            if existsb (Nat.eqb n) seen then near_scan s time r seen visit also
            else if near_zero (ev_time (es s e) - time) then near_scan s time r (n :: seen) (n :: visit) (also ++ [n])
            else near_scan s time r (n :: seen) visit also
        end
    end.
  (** loop.py 135-142: the while loop; None if [fuel] does not suffice, which does not happen (C82) *)
  Fixpoint near_search (fuel : nat) (s : state) (time : num) (seen visit also : list nat) : option (list nat) :=
    match visit, fuel with
    | [], _ => Some also
    | _ :: _, O => None
    | t :: visit, S fuel =>
        let '(seen, visit, also) := near_scan s time (list3 (t_n (ts s t))) seen visit also in
        near_search fuel s time seen visit also
    end.
  (** loop.py 129-142 and 311-324: the local variable [also] at the end *)
  Definition also_now (s : state) (e : nat) : res (list nat) :=
    let t := ev_tri (es s e) in
    match near_search (S (nt s)) s (ev_time (es s e)) [t] [t] [] with
    | Some l => Ok l
    | None => Err OutOfFuel
    end.
  (** loop.py 155-156: the squared length of the side to flip; Edge(t, side).segment *)
  Definition flip_length (s : state) (e : nat) : res num :=
    match ev_side (es s e) with
    | [] => Err IndexError
    | sd :: _ =>
        let '(v, w) := edge_segment (ts s (ev_tri (es s e))) sd in
        distance2_at s v w (ev_time (es s e))
    end.
  (** loop.py 159: dist_events.sort(reverse=True) on pairs (dist, evt).  Pairs with equal first component compare their events, which have no order: a
      TypeError.  Sorting by insertion instead of list.sort (simplification): both have to compare pairs that become neighbours. *)
  Definition pair_gt (p q : num * nat) : res bool :=
    if fst p =? fst q then (if Nat.eqb (snd p) (snd q) then Ok false else Err TypeError) else Ok (fst p >? fst q).
  Fixpoint insert_desc (p : num * nat) (l : list (num * nat)) : res (list (num * nat)) :=
    match l with
    | [] => Ok [p]
    | q :: r =>
        b <-- pair_gt p q ;;
        if b then Ok (p :: q :: r) else r' <-- insert_desc p r ;; Ok (q :: r')
    end.
  Fixpoint sort_desc (l : list (num * nat)) : res (list (num * nat)) :=
    match l with [] => Ok [] | p :: r => r' <-- sort_desc r ;; insert_desc p r' end.
  (** loop.py 126-162; n.event is not None for the triangles in [also] *)
  Definition check_direct (s : state) (e : nat) : res nat :=
    also <-- also_now s e ;;
    let events := e :: somes (map (fun n => t_event (ts s n)) also) in
    if forallb (fun x => evtype_eqb (ev_tp (es s x)) Flip) events then
      dist_events <-- rmapl (fun x => d <-- flip_length s x ;; Ok (d, x)) events ;;
      sorted <-- sort_desc dist_events ;;
      match sorted with (_, x) :: _ => Ok x | [] => Err IndexError end
    else Ok e.

  (** ** interactive_visualize (inout.py 194-205) *)
  (** what the user enters: "r", "n" or anything else *)
  Inductive answer := AnsR | AnsN | AnsOther.
  (** the builtin raw_input at step and time given, the number telling the prompt; Python 3 has no such name: a NameError.  0.01 is 1#100 *)
  Context (raw_input : Z -> num -> nat -> res answer).
  Definition interactive_visualize (q : list nat) (s : state) (step : Z) (now : num) : res unit :=
    _ <-- visualize q s now ;;
    a <-- raw_input step now 0 ;;
    match a with
    | AnsR =>
        _ <-- visualize q s n0 ;;
        a <-- raw_input step now 1 ;;
        match a with
        | AnsN => _ <-- visualize q s (now - lit (1#100)) ;; _ <-- raw_input step now 2 ;; Ok tt
        | _ => Ok tt
        end
    | _ => Ok tt
    end.

  (** ** event_loop with pause=True *)
  (** loop.py 228-234: the last value assigned *)
  Definition STOP_AFTER : Z := 104700.
  (** loop.py 307-353: executed before handling if step >= STOP_AFTER; current_event.wkt gets the polygon of the triangle *)
  Definition watch (e : nat) (step : Z) (now : num) : M unit :=
    rd (fun s =>
      _ <-- also_now s e ;;
      _ <-- polygon s (ev_tri (es s e)) now ;;
      interactive_visualize (queue s) s step now).
  (** handle_event with the argument pause=True of the handlers for edge and split events (loop.py 425-434); what they do then is not modelled:
      it is a parameter *)
  Context (paused_event : nat -> Z -> M unit).
  Local Open Scope M_scope.
  (** loop.py 278-297 and 307-434; returns NOW and step *)
  Fixpoint loop_pause (guard : nat) (step : Z) (now : num) : M (num * Z) :=
    let! i := gets immediate in
    let! q := gets queue in
    match i, q with
    | [], [] => ret (now, step)
    | _, _ =>
        match guard with
        | O => raise ValueError
        | S guard =>
            let! en := take_next now in
            (if (STOP_AFTER <=? step + 1)%Z
             then watch (fst en) (step + 1)%Z (snd en) ;; paused_event (fst en) (step + 1)%Z
             else handle_event (fst en) (step + 1)%Z) ;;
            loop_pause guard (step + 1)%Z (snd en)
        end
    end.
  (** loop.py 225-515 *)
  Definition event_loop_pause : M num :=
    rd (fun s => interactive_visualize (queue s) s 0 n0) ;;
    seti [] ;;
    rd (fun s => check_bisectors s n0) ;;
    rd (fun s => check_active_triangles_orientation s n0) ;;
    let! r := loop_pause max_events 0 n0 in
    rd (fun s => visualize (queue s) s (fst r)) ;;
    rd (fun s => interactive_visualize (queue s) s (snd r) (fst r)) ;;
    let! bad := gets not_stopped_tris in
    match bad with
    | [] => ret (fst r)
    | _ => raise ValueError
    end.
  (** __init__.py 27-112 with pause=True, output=False *)
  Definition calc_skel_pause (triangulate : list pt -> res dtriang)
      (points : list pt) (shrink internal_only : bool) : res skeleton :=
    ('(tr, pts) <-- (if shrink then
                      box <-- get_box points ;;
                      let transform := get_transform box in
                      pts <-- rmapl (forward transform) points ;;
                      Ok (Some transform, pts)
                    else Ok (None, points)) ;;
    dt <-- triangulate pts ;;
    s <-- init_skeleton dt ;;
    let sk := if internal_only then internal_only_skeleton (s, None) else (s, None) in
    let sk := if shrink then (fst sk, tr) else sk in
    _ <-- check_starts (fst sk) ;;
    '(_, s) <-- init_event_list (fst sk) ;;
    '(_, s) <-- event_loop_pause s ;;
    Ok (s, snd sk))%res.
End Pause.
