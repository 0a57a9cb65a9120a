(** Model of src/grassfire/events/parallel.py (without the visualisation of the
    [pause] mode) *)
From Verif Require Import Base Arith Calc VectorOps Line2d Primitives Collapse EventsLib FlipEvent.

(** the [direction] argument: the function cw or ccw *)
Inductive turn := Cw | Ccw.
Definition turn_fn (d : turn) : side -> side := match d with Cw => cw | Ccw => ccw end.

Section ParallelEvent.
  Context {A : Arith} {E : Env A}.
  Local Open Scope num_scope.
  Local Open Scope M_scope.

  (** distance at time [now] between the ends of Edge(t, side) *)
  Definition leg_length (t : nat) (sd : side) (now : num) : M num :=
    rd (fun s =>
      let '(o, d) := edge_segment (ts s t) sd in
      rbind (position_at s o now) (fun p =>
      rbind (position_at s d now) (fun q => dist_2 p q))).

  (** parallel.py 404-454 *)
  Definition handle_parallel_edge_event_even_legs (t : nat) (e : side) (pivot : nat) (now : num)
      (step : Z) : M unit :=
    let! x := tget t in
    let! i := rdr (vindex x pivot) in
    assertM (side_eqb i e) ;;
    assertM (Nat.eqb (get3 (t_v x) e) pivot) ;;
    let v1 := get3 (t_v x) (ccw e) in
    let v2 := get3 (t_v x) (cw e) in
    let! sk_node := stop_and_register [v1; v2] step now None in
    stop_at pivot sk_node now ;;
    set_tstops t now ;;
    let! x := tget t in
    unlink_and_schedule (get3 (t_n x) e) t now.

  (** parallel.py 457-539 *)
  Definition handle_parallel_edge_event_3tri (t : nat) (e : side) (pivot : nat) (now : num)
      (step : Z) : M unit :=
    let! x := tget t in
    let! i := rdr (vindex x pivot) in
    assertM (side_eqb i e) ;;
    assertM (Nat.eqb (get3 (t_v x) e) pivot) ;;
    let! left_dist := leg_length t (ccw i) now in
    let v1 := get3 (t_v x) (ccw e) in
    let! right_dist := leg_length t (cw i) now in
    let v2 := get3 (t_v x) (cw e) in
    assertM (negb (Nat.eqb v1 pivot)) ;;
    assertM (negb (Nat.eqb v2 pivot)) ;;
    let! k1 := vget v1 in
    let! k2 := vget v2 in
    let! magn_v1 := rdr (norm_2 (k_velocity k1)) in
    let! magn_v2 := rdr (norm_2 (k_velocity k2)) in
    let! sk_node :=
      if magn_v2 <? magn_v1 then
        let! n := stop_and_register [v2] step now None in
        stop_at v1 n now ;; ret n
      else
        let! n := stop_and_register [v1] step now None in
        stop_at v2 n now ;; ret n in
    stop_at pivot sk_node now ;;
    set_tstops t now ;;
    let! x := tget t in
    forM (list3 (t_v x)) (fun v => let! st := vattr v k_stops in assertM (is_some st)).

  (** which fan is handed to handle_parallel_fan (edge.py 252-269, parallel.py
      378-397): both halves glued together, or the one that exists *)
  Definition parallel_fan_of (rec : list nat -> nat -> num -> turn -> Z -> M unit)
      (fan_a fan_b : list nat) (kv : nat) (now : num) (step : Z) : M unit :=
    match fan_a, fan_b with
    | _ :: _, _ :: _ => rec (rev fan_a ++ fan_b) kv now Ccw step
    | _ :: _, [] => rec fan_a kv now Cw step
    | [], _ :: _ => rec fan_b kv now Ccw step
    | [], [] => ret tt
    end.

  (** parallel.py 248-397; [rec] is the (mutually recursive) handle_parallel_fan *)
  Definition handle_parallel_edge_event_shorter_leg
      (rec : list nat -> nat -> num -> turn -> Z -> M unit)
      (t : nat) (e : side) (pivot : nat) (now : num) (step : Z) : M unit :=
    let! fast := vattr pivot k_inf_fast in
    assertM fast ;;
    let! x := tget t in
    let v1 := get3 (t_v x) (ccw e) in
    let v2 := get3 (t_v x) (cw e) in
    assertM (Nat.eqb pivot v1 || Nat.eqb pivot v2) ;;
    let! f1 := vattr v1 k_inf_fast in
    let! f2 := vattr v2 k_inf_fast in
    let to_stop := (if f1 then [] else [v1]) ++ (if f2 then [] else [v2]) in
    let! sk_node := stop_and_register to_stop step now None in
    let! p := vget pivot in
    (if is_none (k_stop_node p) then
       assertM (is_none (k_stops p)) ;;
       stop_at pivot sk_node now
     else ret tt) ;;
    set_tstops t now ;;
    let! i := rdr (vindex x pivot) in
    assertM (negb (side_eqb i e)) ;;
    let! k1 := vget v1 in
    let! k2 := vget v2 in
    let! len := gets (fun s => length (sk_vertices s)) in
    let! kv := compute_new_kvertex (k_ul k1) (k_ur k2) now sk_node (len + 1)
                 (k_internal k1 || k_internal k2) in
    let! wl := left_wfr v1 in
    let! wr := right_wfl v2 in
    set_wf kv wl wr ;;
    let! x := tget t in
    let a := get3 (t_n x) (ccw e) in
    let b := get3 (t_n x) (cw e) in
    let n := get3 (t_n x) e in
    add_vertex kv ;;
    let! k1 := vget v1 in
    update_circ (kleft k1) (Some kv) now ;;
    let! k2 := vget v2 in
    update_circ (Some kv) (kright k2) now ;;
    let! fan_a := match a with
                  | None => ret []
                  | Some a' => relink a' t b ;; replace_kvertex a' v2 kv now cw
                  end in
    let! fan_b := match b with
                  | None => ret []
                  | Some b' => relink b' t a ;; replace_kvertex b' v1 kv now ccw
                  end in
    unlink_and_schedule n t now ;;
    let! fast := vattr kv k_inf_fast in
    whenM fast (parallel_fan_of rec fan_a fan_b kv now step).

  (** parallel.py 137-165 and 185-197: lengths of the legs of [pivot] in [t] *)
  Definition legs_even (t : nat) (pivot : nat) (now : num) : M bool :=
    let! x := tget t in
    let! i := rdr (vindex x pivot) in
    let! left_dist := leg_length t (ccw i) now in
    let! right_dist := leg_length t (cw i) now in
    let m := nmin left_dist right_dist in
    ret (near_zero (left_dist - m) && near_zero (right_dist - m)).

  (** parallel.py 182-204, 222-224 for a fan of two: are both triangles' legs even? *)
  Definition all_legs_even (t0 t1 : nat) (pivot : nat) (now : num) : M bool :=
    let! b0 := legs_even t0 pivot now in
    let! b1 := legs_even t1 pivot now in
    ret (b0 && b1).

  Definition even_legs_at (t pivot : nat) (now : num) (step : Z) : M unit :=
    let! x := tget t in
    let! i := rdr (vindex x pivot) in
    handle_parallel_edge_event_even_legs t i pivot now step.

  (** parallel.py 205-228: flip the two triangles, then handle those that have an
      infinitely fast corner *)
  Definition flip_then_even_legs (t0 t1 pivot : nat) (now : num) (step : Z) : M unit :=
    let! x := tget t0 in
    let! side0 := rdr (nindex x t1) in
    let! y := tget t1 in
    let! side1 := rdr (nindex y t0) in
    flip t0 side0 t1 side1 ;;
    let fasts t := rd (fun s => rmapl (fun v => kattr (vs s v) (k_inf_fast (vs s v)))
                                  (list3 (t_v (ts s t)))) in
    let! f0 := fasts t0 in
    let! f1 := fasts t1 in
    whenM (existsb id f0) (even_legs_at t0 pivot now step) ;;
    whenM (existsb id f1) (even_legs_at t1 pivot now step).

  Definition assert_stopped (t : nat) : M unit :=
    let! x := tget t in assertM (is_some (t_stops x)).

  (** parallel.py 97-117: the triangle has no neighbours *)
  Definition parallel_fan_isolated (t pivot : nat) (now : num) (step : Z) : M unit :=
    let! d0 := leg_length t S0 now in
    let! d1 := leg_length t S1 now in
    let! d2 := leg_length t S2 now in
    let ds := mk3 d0 d1 d2 in
    let m := min3 ds in
    let smallest := where3 (fun x => near_zero (x - m)) ds in
    match smallest with
    | [sd] =>
        if near_zero m then
          let! x := tget t in
          even_legs_at t (get3 (t_v x) sd) now step
        else
          let! x := tget t in
          let! i := rdr (vindex x pivot) in
          handle_parallel_edge_event_3tri t i pivot now step
    | _ =>
        let! x := tget t in
        let! i := rdr (vindex x pivot) in
        handle_parallel_edge_event_3tri t i pivot now step
    end.

  (** parallel.py 70-245.  The recursion through
      handle_parallel_edge_event_shorter_leg is bounded by [fuel] (the
      interpreter's recursion limit). *)
  Fixpoint handle_parallel_fan (fuel : nat) (fan : list nat) (pivot : nat) (now : num)
      (direction : turn) (step : Z) : M unit :=
    match fuel with
    | O => raise RecursionError
    | S fuel =>
        match fan with
        | [] => raise ValueError
        | first_tri :: _ =>
            let last_tri := last fan first_tri in
            let! fast := vattr pivot k_inf_fast in
            assertM fast ;;
            let! x := tget first_tri in
            if Nat.eqb (tri_type x) 3 then
              assertM (Nat.eqb first_tri last_tri) ;;
              parallel_fan_isolated first_tri pivot now step
            else
              assertM (negb (Nat.eqb first_tri last_tri) || Nat.eqb (length fan) 1) ;;
              let '(ltri, rtri) := match direction with
                                    | Cw => (first_tri, last_tri)
                                    | Ccw => (last_tri, first_tri)
                                    end in
              let! lx := tget ltri in
              let! li := rdr (vindex lx pivot) in
              let! left_dist := leg_length ltri (ccw li) now in
              let! rx := tget rtri in
              let! ri := rdr (vindex rx pivot) in
              let! right_dist := leg_length rtri (cw ri) now in
              let m := nmin left_dist right_dist in
              match near_zero (left_dist - m), near_zero (right_dist - m) with
              | true, true =>
                  match fan with
                  | [t] =>
                      even_legs_at t pivot now step ;;
                      assert_stopped t
                  | [t0; t1] =>
                      let! all_2 := all_legs_even t0 t1 pivot now in
                      if all_2 then
                        even_legs_at t0 pivot now step ;;
                        even_legs_at t1 pivot now step ;;
                        assert_stopped t0 ;;
                        assert_stopped t1
                      else flip_then_even_legs t0 t1 pivot now step
                  | _ => raise NotImplementedError
                  end
              | true, false =>
                  handle_parallel_edge_event_shorter_leg (handle_parallel_fan fuel)
                    ltri (ccw li) pivot now step
              | false, true =>
                  handle_parallel_edge_event_shorter_leg (handle_parallel_fan fuel)
                    rtri (cw ri) pivot now step
              | false, false => raise ValueError
              end
        end
    end.
End ParallelEvent.
