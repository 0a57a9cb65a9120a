(** Model of the writers of src/grassfire/inout.py and of calc_skel with output=True.

    The text of a line is not modelled but the data in it; opening and writing of files is assumed to succeed.  The lines
    that a writer has written before it raises an exception are not modelled (except in Main.output_offsets).
    visualize_at (primitives.py 155-165 and 244-246) computes the same as position_at. *)
From Verif Require Import Base Arith Calc VectorOps Transform Line2d Primitives Collapse EventsLib FlipEvent ParallelEvent
  EdgeEvent SplitEvent EventLoop Initialize Main.

Section Output.
  Context {A : Arith} {E : Env A}.
  Local Open Scope num_scope.
  Local Open Scope res_scope.

  (** ** output_skel (inout.py 134-155) *)
  (** a line of skel.wkt: id(v), the two points, "stopped" and "length" *)
  Record arc := mkArc { a_v : nat; a_from : pt; a_to : pt; a_stopped : bool; a_len : num }.
  (** node.pos of an attribute that may be None *)
  Definition node_pos (s : state) (n : option nat) : res pt :=
    match n with Some n => Ok (sn_pos (ns s n)) | None => Err AttributeError end.
  (** v.visualize_at(v.starts_at) (inout.py 147): the time is not read if the vertex is infinitely fast; None * x is a TypeError *)
  Definition at_start (s : state) (v : nat) : res pt :=
    match k_starts (vs s v) with
    | Some a => position_at s v a
    | None => if k_inf_fast (vs s v) then node_pos s (k_start_node (vs s v)) else Err TypeError
    end.
  (** inout.py 139-150; an InfiniteVertex has no stops_at *)
  Definition arc_of (s : state) (w : num) (v : nat) : res arc :=
    let kv := vs s v in
    if k_inf kv then Err AttributeError
    else match k_stops kv with
         | Some _ =>
             p <-- node_pos s (k_start_node kv) ;;
             q <-- node_pos s (k_stop_node kv) ;;
             d <-- dist_2 p q ;;
             Ok (mkArc v p q true d)
         | None =>
             p <-- at_start s v ;;
             q <-- position_at s v w ;;
             d <-- dist_2 p q ;;
             Ok (mkArc v p q false d)
         end.
  (** inout.py 134-155: the lines of skel.wkt and those of skelnodes.wkt *)
  Definition output_skel (s : state) (w : num) : res (list arc * list pt) :=
    arcs <-- rmapl (arc_of s w) (sk_vertices s) ;;
    Ok (arcs, map (fun n => sn_pos (ns s n)) (sk_nodes s)).

  (** ** visualize (inout.py 208-327) *)
  (** KineticTriangle.visualize_at (primitives.py 321-368): the corners of the polygon, without the repeated first one *)
  Definition polygon (s : state) (t : nat) (now : num) : res (triple pt) :=
    let tv := t_v (ts s t) in
    p <-- position_at s (x0 tv) now ;;
    q <-- position_at s (x1 tv) now ;;
    r <-- position_at s (x2 tv) now ;;
    Ok (mk3 p q r).
  (** a line of queue.wkt (inout.py 219-236): polygon, evttype, evttime, tritype, id and neighbours of the triangle, finite *)
  Record queue_row := mkQR { q_poly : triple pt; q_tp : evtype; q_time : num; q_type : nat; q_tri : nat;
    q_n : triple (option nat); q_finite : bool }.
  Definition queue_line (s : state) (now : num) (e : nat) : res queue_row :=
    let t := ev_tri (es s e) in
    poly <-- polygon s t now ;;
    Ok (mkQR poly (ev_tp (es s e)) (ev_time (es s e)) (tri_type (ts s t)) t (t_n (ts s t)) (is_finite s t)).
  (** output_triangles_at_T (inout.py 20-38): a line for every triangle that has not stopped.  The column "time" is the time
      of the triangle's event, or -1 *)
  Record tri_row := mkTR { tr_t : nat; tr_poly : triple pt; tr_n : triple (option nat); tr_v : triple nat; tr_finite : bool;
    tr_time : option num }.
  Definition tri_line (s : state) (now : num) (t : nat) : res (option tri_row) :=
    if is_none (t_stops (ts s t)) then
      poly <-- polygon s t now ;;
      Ok (Some (mkTR t poly (t_n (ts s t)) (t_v (ts s t)) (is_finite s t)
                 (option_map (fun e => ev_time (es s e)) (t_event (ts s t)))))
    else Ok None.
  Definition output_triangles_at_T (s : state) (tris : list nat) (now : num) : res (list tri_row) :=
    l <-- rmapl (tri_line s now) tris ;; Ok (somes l).
  (** a line of bisectors_progress.wkt (inout.py 246-258): a short line in the direction of the velocity; 0.01 is 1#100 *)
  Record bis_row := mkBR { b_v : nat; b_from : pt; b_to : pt; b_speed : num }.
  Definition bisector_line (s : state) (now : num) (v : nat) : res (option bis_row) :=
    let kv := vs s v in
    if k_inf kv then Err AttributeError
    else if is_none (k_stops kv) then
      p1 <-- position_at s v now ;;
      n <-- norm_2 (k_velocity kv) ;;
      end_ <-- (if negb (n =? n0) then
                  u <-- unit_2 (k_velocity kv) ;; Ok (add2 p1 (mul2s u (lit (1#100))))
                else Ok p1) ;;
      Ok (Some (mkBR v p1 end_ n))
    else Ok None.
  (** a line of segments_progress.wkt (inout.py 259-287), as [arc]; no line if start_node is None *)
  Definition progress_line (s : state) (now : num) (v : nat) : res (option arc) :=
    let kv := vs s v in
    if k_inf kv then Err AttributeError
    else match k_start_node kv, k_stop_node kv with
         | Some a, Some b =>
             let p := sn_pos (ns s a) in let q := sn_pos (ns s b) in
             d <-- dist_2 p q ;; Ok (Some (mkArc v p q true d))
         | Some a, None =>
             let p := sn_pos (ns s a) in
             q <-- position_at s v now ;;
             d <-- dist_2 p q ;; Ok (Some (mkArc v p q false d))
         | None, _ => Ok None
         end.
  (** a line of vertices1_progress.wkt (inout.py 289-312): the position of a vertex without stop_node and its neighbours *)
  Record vert_row := mkVR { v_v : nat; v_pos : pt; v_left : option nat; v_right : option nat }.
  Definition vertex_line (s : state) (now : num) (v : nat) : res (option vert_row) :=
    let kv := vs s v in
    if k_inf kv then Err AttributeError
    else
      let left := hist_at (k_left kv) now in
      let right := hist_at (k_right kv) now in
      if is_none (k_stop_node kv) then
        _ <-- rassert (is_none (k_stops kv)) ;;
        p <-- position_at s v now ;;
        Ok (Some (mkVR v p left right))
      else Ok None.
  (** wavefront_edges_progress.wkt (inout.py 314-324) and output_edges_at_T (inout.py 12-17): the sides without neighbour of the
      triangles that have not stopped, with their ends; Edge.segment (package tri) is vertices[ccw(side)], vertices[cw(side)] *)
  Record edge_row := mkER { e_t : nat; e_side : side; e_from : pt; e_to : pt }.
  Definition edge_line (s : state) (now : num) (e : nat * side) : res edge_row :=
    let tv := t_v (ts s (fst e)) in
    p <-- position_at s (get3 tv (ccw (snd e))) now ;;
    q <-- position_at s (get3 tv (cw (snd e))) now ;;
    Ok (mkER (fst e) (snd e) p q).
  Definition wavefront_edges (s : state) : list (nat * side) :=
    flat_map (fun t => if is_none (t_stops (ts s t)) then map (fun i => (t, i)) (where3 is_none (t_n (ts s t))) else [])
      (sk_triangles s).
  Definition output_edges_at_T (s : state) (edges : list (nat * side)) (now : num) : res (list edge_row) :=
    rmapl (edge_line s now) edges.

  (** the lines of all files, in the order of the files: queue.wkt, ktri_progress.wkt, sknodes_progress.wkt (position and step
      of the nodes), bisectors_progress.wkt, segments_progress.wkt, vertices1_progress.wkt, wavefront_edges_progress.wkt;
      support_lines.wkt (a constant) and signal are left out *)
  Record picture := mkPic { p_queue : list queue_row; p_tris : list tri_row; p_nodes : list (pt * Z);
    p_bis : list bis_row; p_arcs : list arc; p_verts : list vert_row; p_edges : list edge_row }.
  Definition visualize (q : list nat) (s : state) (now : num) : res picture :=
    ql <-- rmapl (queue_line s now) q ;;
    tl <-- output_triangles_at_T s (sk_triangles s) now ;;
    let nl := map (fun n => (sn_pos (ns s n), sn_step (ns s n))) (sk_nodes s) in
    bl <-- rmapl (bisector_line s now) (sk_vertices s) ;;
    al <-- rmapl (progress_line s now) (sk_vertices s) ;;
    vl <-- rmapl (vertex_line s now) (sk_vertices s) ;;
    el <-- output_edges_at_T s (wavefront_edges s) now ;;
    Ok (mkPic ql tl nl (somes bl) (somes al) (somes vl) el).

  (** ** output_kdt (inout.py 41-65; without callers) *)
  (** KineticTriangle has no attribute finite (primitives.py 256-269), so the first triangle raises; without triangles the loop
      over the vertices (60-65) is left: id(v), the position, and left and right *)
  Definition kdt_vertex (s : state) (time : num) (v : nat) : res (option vert_row) :=
    let kv := vs s v in
    if k_inf kv then Err AttributeError
    else match k_starts kv with
         | None => Err TypeError
         | Some a =>
             b <-- (if a <=? time then
                      match k_stops kv with None => Err TypeError | Some z => Ok (time <=? z) end
                    else Ok false) ;;
             if b || is_none (k_stops kv)
             then p <-- position_at s v time ;; Ok (Some (mkVR v p (hist_last (k_left kv)) (hist_last (k_right kv))))
             else Ok None
         end.
  Definition output_kdt (s : state) (time : num) : res (list vert_row) :=
    match sk_triangles s with
    | _ :: _ => Err AttributeError
    | [] => l <-- rmapl (kdt_vertex s time) (sk_vertices s) ;; Ok (somes l)
    end.

  (** ** calc_skel with output=True (__init__.py 80-86) *)
  Record written := mkOut { w_left : list offset; w_right : list offset; w_arcs : list arc; w_nodes : list pt; w_pic : picture }.
  Definition output_stage (s : state) (last_evt_time : num) : res written :=
    match output_offsets s last_evt_time 5 with
    | (_, _, Some e) => Err e
    | (l, r, None) =>
        sk <-- output_skel s (last_evt_time + lit 10) ;;
        pic <-- visualize [] s (last_evt_time + lit 10) ;;
        Ok (mkOut l r (fst sk) (snd sk) pic)
    end.
  (** 27-112 with output=True; the file edges.wkt with the constrained edges of the triangulation (49-57) is left out *)
  Definition calc_skel_output (triangulate : list pt -> res dtriang)
      (points : list pt) (shrink internal_only : bool) : res (skeleton * written) :=
    '(tr, pts) <-- (if shrink then
                      box <-- get_box points ;;
                      let transform := get_transform box in
                      pts <-- rmapl (forward transform) points ;;
                      Ok (Some transform, pts)
                    else Ok (None, points)) ;;
    dt <-- triangulate pts ;;
    s <-- init_skeleton dt ;;
    let sk := if internal_only then internal_only_skeleton (s, None) else (s, None) in
    let sk := if shrink then (fst sk, tr) else sk in
    _ <-- check_starts (fst sk) ;;
    '(_, s) <-- init_event_list (fst sk) ;;
    '(last_evt_time, s) <-- event_loop s ;;
    w <-- output_stage s last_evt_time ;;
    Ok ((s, snd sk), w).
End Output.
