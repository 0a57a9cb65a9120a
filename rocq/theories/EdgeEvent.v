(** Model of the handlers of src/grassfire/events/edge.py *)
From Verif Require Import Base Arith Calc VectorOps Line2d Primitives Collapse EventsLib FlipEvent ParallelEvent.

Section EdgeEvent.
  Context {A : Arith} {E : Env A}.
  Local Open Scope num_scope.
  Local Open Scope M_scope.

  (** edge.py 219-226, 231-238: schedule the last triangle of a fan if its
      outer side at [kv] is tiny *)
  Definition schedule_if_tiny (fan : list nat) (kv : nat) (now : num) (direction : side -> side) : M unit :=
    match rev fan with
    | [] => ret tt
    | t :: _ =>
        let! x := tget t in
        let! i := rdr (vindex x kv) in
        let '(o, d) := edge_segment x (direction i) in
        let! d2 := rd (fun s => distance2_at s o d now) in
        let! r := rdr (psqrt d2) in
        whenM (near_zero r) (schedule_immediately t now)
    end.

  (** edge.py 57-101: the checks that precede stopping the two vertices *)
  Definition edge_precheck (x : ktri) (e : side) (v1 v2 : nat) : M unit :=
    let! s1 := vattr v1 k_stop_node in
    let! s2 := vattr v2 k_stop_node in
    let! k1 := vget v1 in
    let! k2 := vget v2 in
    whenM (is_none (get3 (t_n x) e) && negb (is_some s1) && negb (is_some s2))
      (assertM (onat_eqb (kright k1) (Some v2)) ;;
       assertM (onat_eqb (kleft k2) (Some v1)) ;;
       assertM (onat_eqb (k_wfl k2) (k_wfr k1))).

  (** edge.py 57-269; [fans] is what handles the fan of an infinitely fast vertex *)
  Definition handle_edge_event_with (fans : list nat -> nat -> num -> turn -> Z -> M unit)
      (evt : event) (step : Z) : M unit :=
    let t := ev_tri evt in
    let now := ev_time evt in
    match ev_side evt with
    | [e] =>
        let! x := tget t in
        let v1 := get3 (t_v x) (ccw e) in
        let v2 := get3 (t_v x) (cw e) in
        edge_precheck x e v1 v2 ;;
        let! k1 := vget v1 in
        let! k2 := vget v2 in
        let! _ := wf_bisector (k_wfl k1) (k_wfr k2) in
        let! pos_at_now := wf_intersection_at (k_wfl k1) (k_wfr k2) now in
        let! sk_node := stop_and_register [v1; v2] step now pos_at_now in
        let! k1 := vget v1 in
        let! k2 := vget v2 in
        let! len := gets (fun s => length (sk_vertices s)) in
        let! kv := compute_new_kvertex (k_ul k1) (k_ur k2) now sk_node (len + 1)
                     (k_internal k1 || k_internal k2) in
        set_wf kv (k_wfl k1) (k_wfr k2) ;;
        match kleft k1 with
        | Some l => let! _ := rd (fun s => position_at s l now) in ret tt
        | None => ret tt
        end ;;
        match kright k2 with
        | Some r => let! _ := rd (fun s => position_at s r now) in ret tt
        | None => ret tt
        end ;;
        add_vertex kv ;;
        update_circ (kleft k1) (Some kv) now ;;
        let! k2 := vget v2 in
        update_circ (Some kv) (kright k2) now ;;
        let! k := vget kv in
        let! wl := left_wfr kv in
        assertM (onat_eqb (k_wfl k) wl) ;;
        let! wr := right_wfl kv in
        assertM (onat_eqb (k_wfr k) wr) ;;
        let! x := tget t in
        let a := get3 (t_n x) (ccw e) in
        let b := get3 (t_n x) (cw e) in
        let n := get3 (t_n x) e in
        let! fan_a := match a with
                      | None => ret []
                      | Some a' =>
                          relink a' t b ;;
                          let! fan := replace_kvertex a' v2 kv now cw in
                          schedule_if_tiny fan kv now cw ;;
                          ret fan
                      end in
        let! fan_b := match b with
                      | None => ret []
                      | Some b' =>
                          relink b' t a ;;
                          let! fan := replace_kvertex b' v1 kv now ccw in
                          schedule_if_tiny fan kv now ccw ;;
                          ret fan
                      end in
        unlink_and_schedule n t now ;;
        set_tstops t now ;;
        let! fast := vattr kv k_inf_fast in
        whenM fast (parallel_fan_of fans fan_a fan_b kv now step)
    | _ => raise AssertionError
    end.
  Definition handle_edge_event : event -> Z -> M unit :=
    handle_edge_event_with (handle_parallel_fan reclimit).

  (** edge.py 293-299: a neighbour of a triangle collapsing to a point *)
  Definition schedule_neighbour (t : nat) (now : num) (sd : side) : M unit :=
    let! x := tget t in
    match get3 (t_n x) sd with
    | None => ret tt
    | Some n =>
        let! y := tget n in
        whenM (is_some (t_event y) && is_none (t_stops y))
          (relink n t None ;; schedule_immediately n now)
    end.

  (** edge.py 272-302 *)
  Definition handle_edge_event_3sides (evt : event) (step : Z) : M unit :=
    let t := ev_tri evt in
    let now := ev_time evt in
    assertM (Nat.eqb (length (ev_side evt)) 3) ;;
    let! x := tget t in
    let! _ := stop_and_register (list3 (t_v x)) step now None in
    forM sides (schedule_neighbour t now) ;;
    set_tstops t now.

  (** edge.py 305-341 *)
  Definition handle_edge_event_1side (evt : event) (step : Z) : M unit :=
    let t := ev_tri evt in
    let now := ev_time evt in
    match ev_side evt with
    | [e] =>
        let! x := tget t in
        let v0 := get3 (t_v x) e in
        let v1 := get3 (t_v x) (ccw e) in
        let v2 := get3 (t_v x) (cw e) in
        let! sk_node := stop_and_register [v1; v2] step now None in
        let! k1 := vget v1 in
        let! k2 := vget v2 in
        let! len := gets (fun s => length (sk_vertices s)) in
        let! kv := compute_new_kvertex (k_ul k1) (k_ur k2) now sk_node (len + 1)
                     (k_internal k1 || k_internal k2) in
        let! _ := rd (fun s => position_at s kv now) in
        add_vertex kv ;;
        let! _ := stop_and_register [v0; kv] step now None in
        set_tstops t now
    | _ => raise AssertionError
    end.
End EdgeEvent.
