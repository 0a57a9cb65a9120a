(** Model of the event handlers as `python -O` runs them: without the [assert]
    statements (events/lib.py, flip.py, edge.py, split.py). The functions are those
    of EventsLib.v, FlipEvent.v, EdgeEvent.v, SplitEvent.v and EventLoop.v with every
    assertion left out, including what is evaluated only for it.
    Simplified: the fans of an infinitely fast vertex (parallel.py) are handled by the
    functions of ParallelEvent.v, which keep their assertions, and so do the functions
    of line2d.py. *)
From Verif Require Import Base Arith Calc VectorOps Line2d Primitives Collapse EventsLib FlipEvent ParallelEvent
  EdgeEvent SplitEvent EventLoop.

Section NoAssert.
  Context {A : Arith} {E : Env A}.
  Local Open Scope num_scope.
  Local Open Scope M_scope.

  (** lib.py 27-95 without the post condition 96-99 *)
  Definition stop_kvertices_O (V : list nat) (step : Z) (now : num) (pos : option pt) : M (nat * bool) :=
    forM V (fun v => let! _ := vattr v k_inf_fast in ret tt) ;;
    let! sk := stop_scan V now None in
    match sk with
    | Some n =>
        forM V (fun v => stop_at v n now) ;;
        ret (n, false)
    | None =>
        let! p := match pos with
                  | Some p => ret p
                  | None => rd (fun s => mean_position s V now)
                  end in
        let! n := alloc_n (mkNode p step None) in
        forM V (fun v => set_stop_node v n) ;;
        ret (n, true)
    end.
  (** the callers' [if newly_made: skel.sk_nodes.append(sk_node)] (edge.py 129-130,
      294-295, 326-327, 338-339; split.py 129-130) *)
  Definition stop_and_register_O (V : list nat) (step : Z) (now : num) (pos : option pt) : M nat :=
    let! r := stop_kvertices_O V step now pos in
    whenM (snd r) (add_node (fst r)) ;;
    ret (fst r).

  (** lib.py 346-376 without 375 *)
  Definition schedule_immediately_O (t : nat) (now : num) : M unit :=
    let! x := tget t in
    queue_discard (t_event x) ;;
    immediate_remove (t_event x) ;;
    let! e := compute_new_edge_collapse_event t now in
    set_tevent t e ;;
    let! x := tget t in
    let! ev := eget e in
    whenM (Nat.eqb (tri_type x) 3)
      (sete e (mkEv (ev_time ev) (ev_tri ev) sides (ev_tp ev) (ev_tritp ev))) ;;
    let! i := gets immediate in
    seti (i ++ [e]).

  (** edge.py 243-247 *)
  Definition unlink_and_schedule_O (n : option nat) (t : nat) (now : num) : M unit :=
    match n with
    | None => ret tt
    | Some n =>
        relink n t None ;;
        let! y := tget n in
        whenM (is_some (t_event y) && is_none (t_stops y)) (schedule_immediately_O n now)
    end.

  (** flip.py 31-73 without 41-45 *)
  Definition flip_O (t0 : nat) (side0 : side) (t1 : nat) (side1 : side) : M unit :=
    let! x := tget t0 in
    let! y := tget t1 in
    let pA := get3 (t_v x) side0 in
    let pB := get3 (t_v x) (ccw side0) in
    let pC := get3 (t_v y) side1 in
    let pD := get3 (t_v x) (cw side0) in
    let nAB := get3 (t_n x) (cw side0) in
    let nBC := get3 (t_n y) (ccw side1) in
    let nCD := get3 (t_n y) (cw side1) in
    let nDA := get3 (t_n x) (ccw side0) in
    let! a := apex_around nAB pA in
    let! b := apex_around nBC pB in
    let! c := apex_around nCD pC in
    let! d := apex_around nDA pD in
    link_around nAB a t0 ;;
    link_around nBC b t0 ;;
    link_around nCD c t1 ;;
    link_around nDA d t1 ;;
    set_tvs t0 (mk3 pA pB pC) ;;
    set_tns t0 (mk3 nBC (Some t1) nAB) ;;
    set_tvs t1 (mk3 pC pD pA) ;;
    set_tns t1 (mk3 nDA (Some t0) nCD).

  (** flip.py 11-28 without 16 and 22 ([n.neighbours] of None is an AttributeError) *)
  Definition handle_flip_event_O (evt : event) : M unit :=
    let now := ev_time evt in
    match ev_side evt with
    | t_side :: _ =>
        let t := ev_tri evt in
        let! x := tget t in
        let! n := deref (get3 (t_n x) t_side) in
        let! y := tget n in
        let! n_side := rdr (nindex y t) in
        flip_O t t_side n n_side ;;
        replace_in_queue t now ;;
        replace_in_queue n now
    | [] => raise IndexError
    end.

  (** edge.py 223-229, 235-241 *)
  Definition schedule_if_tiny_O (fan : list nat) (kv : nat) (now : num) (direction : side -> side) : M unit :=
    match rev fan with
    | [] => ret tt
    | t :: _ =>
        let! x := tget t in
        let! i := rdr (vindex x kv) in
        let '(o, d) := edge_segment x (direction i) in
        let! d2 := rd (fun s => distance2_at s o d now) in
        let! r := rdr (psqrt d2) in
        whenM (near_zero r) (schedule_immediately_O t now)
    end.

  (** edge.py 57-269 without 63, 80-81, 91 and 196-197 *)
  Definition handle_edge_event_O (evt : event) (step : Z) : M unit :=
    let t := ev_tri evt in
    let now := ev_time evt in
    match ev_side evt with
    | e :: _ =>
        let! x := tget t in
        let v1 := get3 (t_v x) (ccw e) in
        let v2 := get3 (t_v x) (cw e) in
        let! _ := vattr v1 k_stop_node in
        let! _ := vattr v2 k_stop_node in
        let! k1 := vget v1 in
        let! k2 := vget v2 in
        let! _ := wf_bisector (k_wfl k1) (k_wfr k2) in
        let! pos_at_now := wf_intersection_at (k_wfl k1) (k_wfr k2) now in
        let! sk_node := stop_and_register_O [v1; v2] step now pos_at_now in
        let! k1 := vget v1 in
        let! k2 := vget v2 in
        let! len := gets (fun s => length (sk_vertices s)) in
        let! kv := compute_new_kvertex (k_ul k1) (k_ur k2) now sk_node (len + 1)
                     (k_internal k1 || k_internal k2) in
        set_wf kv (k_wfl k1) (k_wfr k2) ;;
        match kleft k1 with
        | Some l => let! _ := rd (fun s => position_at s l now) in ret tt
        | None => ret tt
        end ;;
        match kright k2 with
        | Some r => let! _ := rd (fun s => position_at s r now) in ret tt
        | None => ret tt
        end ;;
        add_vertex kv ;;
        update_circ (kleft k1) (Some kv) now ;;
        let! k2 := vget v2 in
        update_circ (Some kv) (kright k2) now ;;
        let! x := tget t in
        let a := get3 (t_n x) (ccw e) in
        let b := get3 (t_n x) (cw e) in
        let n := get3 (t_n x) e in
        let! fan_a := match a with
                      | None => ret []
                      | Some a' =>
                          relink a' t b ;;
                          let! fan := replace_kvertex a' v2 kv now cw in
                          schedule_if_tiny_O fan kv now cw ;;
                          ret fan
                      end in
        let! fan_b := match b with
                      | None => ret []
                      | Some b' =>
                          relink b' t a ;;
                          let! fan := replace_kvertex b' v1 kv now ccw in
                          schedule_if_tiny_O fan kv now ccw ;;
                          ret fan
                      end in
        unlink_and_schedule_O n t now ;;
        set_tstops t now ;;
        let! fast := vattr kv k_inf_fast in
        whenM fast (parallel_fan_of (handle_parallel_fan reclimit) fan_a fan_b kv now step)
    | [] => raise IndexError
    end.

  (** edge.py 297-300 *)
  Definition schedule_neighbour_O (t : nat) (now : num) (sd : side) : M unit :=
    let! x := tget t in
    match get3 (t_n x) sd with
    | None => ret tt
    | Some n =>
        let! y := tget n in
        whenM (is_some (t_event y) && is_none (t_stops y))
          (relink n t None ;; schedule_immediately_O n now)
    end.

  (** edge.py 272-302 without 290 *)
  Definition handle_edge_event_3sides_O (evt : event) (step : Z) : M unit :=
    let t := ev_tri evt in
    let now := ev_time evt in
    let! x := tget t in
    let! _ := stop_and_register_O (list3 (t_v x)) step now None in
    forM sides (schedule_neighbour_O t now) ;;
    set_tstops t now.

  (** edge.py 305-341 without 316 *)
  Definition handle_edge_event_1side_O (evt : event) (step : Z) : M unit :=
    let t := ev_tri evt in
    let now := ev_time evt in
    match ev_side evt with
    | e :: _ =>
        let! x := tget t in
        let v0 := get3 (t_v x) e in
        let v1 := get3 (t_v x) (ccw e) in
        let v2 := get3 (t_v x) (cw e) in
        let! sk_node := stop_and_register_O [v1; v2] step now None in
        let! k1 := vget v1 in
        let! k2 := vget v2 in
        let! len := gets (fun s => length (sk_vertices s)) in
        let! kv := compute_new_kvertex (k_ul k1) (k_ur k2) now sk_node (len + 1)
                     (k_internal k1 || k_internal k2) in
        let! _ := rd (fun s => position_at s kv now) in
        add_vertex kv ;;
        let! _ := stop_and_register_O [v0; kv] step now None in
        set_tstops t now
    | [] => raise IndexError
    end.

  (** split.py 88-126 without 86 and 92 *)
  Definition split_precheck_O (v v1 : nat) (now : num) : M unit :=
    let! a := vattr v k_wfr in
    let! w1 := vattr v1 k_wfr in
    let! c := vattr v k_wfl in
    let! _ := wf_bisector a w1 in
    let! _ := wf_bisector a c in
    let! _ := wf_intersection_at a w1 now in
    let! _ := wf_intersection_at a c now in
    let! _ := wf_intersection_at w1 c now in
    ret tt.

  (** split.py 64-265 without 73, 78, 86, 92, 134, 220-221, 233-234, 238 and 250
      ([b.neighbours] of None is an AttributeError); 228-230 log [va.right.wfl] *)
  Definition handle_split_event_O (evt : event) (step : Z) : M unit :=
    let t := ev_tri evt in
    let now := ev_time evt in
    match ev_side evt with
    | e :: _ =>
        let! x := tget t in
        let v := get3 (t_v x) e in
        let v1 := get3 (t_v x) (ccw e) in
        let v2 := get3 (t_v x) (cw e) in
        split_precheck_O v v1 now ;;
        let! sk_node := stop_and_register_O [v] step now None in
        let! k := vget v in
        let! k1 := vget v1 in
        let! k2 := vget v2 in
        let! len := gets (fun s => length (sk_vertices s)) in
        let! vb := compute_new_kvertex (k_ul k) (k_ul k2) now sk_node (len + 1)
                     (k_internal k || k_internal k2) in
        set_wf vb (k_wfl k) (k_wfl k2) ;;
        add_vertex vb ;;
        let! len := gets (fun s => length (sk_vertices s)) in
        let! va := compute_new_kvertex (k_ur k1) (k_ur k) now sk_node (len + 1)
                     (k_internal k || k_internal k1) in
        set_wf va (k_wfr k1) (k_wfr k) ;;
        add_vertex va ;;
        update_circ (kleft k) (Some vb) now ;;
        update_circ (Some vb) (Some v2) now ;;
        update_circ (Some v1) (Some va) now ;;
        let! k := vget v in
        update_circ (Some va) (kright k) now ;;
        let! _ := right_wfl va in
        let! x := tget t in
        let! b := deref (get3 (t_n x) (ccw e)) in
        relink b t None ;;
        let! fan_b := replace_kvertex b v vb now ccw in
        let! x := tget t in
        let! a := deref (get3 (t_n x) (cw e)) in
        relink a t None ;;
        let! fan_a := replace_kvertex a v va now cw in
        set_tstops t now ;;
        let! fast_a := vattr va k_inf_fast in
        whenM fast_a (handle_parallel_fan reclimit fan_a va now Cw step) ;;
        let! fast_b := vattr vb k_inf_fast in
        whenM fast_b (handle_parallel_fan reclimit fan_b vb now Ccw step)
    | [] => raise IndexError
    end.

  (** loop.py 409-434 *)
  Definition handle_event_O (e : nat) (step : Z) : M unit :=
    let! evt := eget e in
    let! x := tget (ev_tri evt) in
    if is_some (t_stops x) then ret tt
    else
      match ev_tp evt with
      | Edge =>
          if Nat.eqb (length (ev_side evt)) 3 then handle_edge_event_3sides_O evt step
          else if Nat.eqb (length (ev_side evt)) 1 && Nat.eqb (tri_type x) 3 then
            handle_edge_event_1side_O evt step
          else if Nat.eqb (length (ev_side evt)) 2 then raise ValueError
          else handle_edge_event_O evt step
      | Flip => handle_flip_event_O evt
      | Split => handle_split_event_O evt step
      end.

  (** loop.py 277-297, 409-434 *)
  Fixpoint loop_O (guard : nat) (step : Z) (now : num) : M num :=
    let! i := gets immediate in
    let! q := gets queue in
    match i, q with
    | [], [] => ret now
    | _, _ =>
        match guard with
        | O => raise ValueError
        | S guard =>
            let! en := take_next now in
            handle_event_O (fst en) (step + 1)%Z ;;
            loop_O guard (step + 1)%Z (snd en)
        end
    end.
End NoAssert.
