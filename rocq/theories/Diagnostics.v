(** Model of what is left of the diagnostic functions: is_infinitely_fast (events/lib.py), make_frames and log_queue_content
    (events/loop.py), output_vertices_at_T (inout.py) and visualize_collapse (collapse.py).

    As in Output.v the text of lines is not modelled but the data in them, files are assumed to be writable, and sleeping,
    printing and the random number in the file "signal" are left out. *)
From Verif Require Import Base Arith Calc VectorOps Transform Line2d Primitives Collapse EventsLib FlipEvent ParallelEvent
  EdgeEvent SplitEvent EventLoop Initialize Main Output.

Section Diagnostics.
  Context {A : Arith} {E : Env A}.
  Local Open Scope num_scope.
  Local Open Scope res_scope.

  (** events/lib.py 16-24 (imported by edge.py and split.py, called only in comments there) *)
  Definition is_infinitely_fast (s : state) (fan : list nat) (now : num) : bool :=
    let times := map (fun t => match t_event (ts s t) with Some e => ev_time (es s e) | None => lit (-1) end) fan in
    let is_inf_fast := forallb (fun time => near_zero (time - now)) times in
    match fan with [] => false | _ :: _ => is_inf_fast end.

  (** events/loop.py 207-221: the lines of the immediate events, those of the queue (the loop breaks after it has written
      the line number 20), and the number in the line "... skipping display" if it is written *)
  Fixpoint numbered {X} (i : nat) (l : list X) : list (nat * X) :=
    match l with [] => [] | x :: l => (i, x) :: numbered (S i) l end.
  Fixpoint queue_lines {X} (i : nat) (l : list X) : list (nat * X) :=
    match l with
    | [] => []
    | x :: l => (i, x) :: (if Nat.leb 20 i then [] else queue_lines (S i) l)
    end.
  Definition log_queue_content {X} (imm queue : list X) : list (nat * X) * list (nat * X) * option nat :=
    (numbered 0 imm, queue_lines 0 queue,
     if Nat.leb 20 (length queue) then Some (length queue - 20)%nat else None).

  (** events/loop.py 176-204: the times at which frames are drawn.  [rnd] is round(x, digits), [trunc] is int(x) (towards
      zero), [scale] is pow(10, digits); 0.2 is 1#5 *)
  Definition frame_times (rnd : num -> num) (trunc : num -> Z) (digits : nat) (now : num) (s : state) : res (list num) :=
    match immediate s with
    | _ :: _ => Ok []
    | [] =>
        let scale := nofnat (Nat.pow 10 digits) in
        let n := rnd now in
        let t := match queue s with e :: _ => rnd (ev_time (es s e)) | [] => n + lit (1#5) end in
        let delta := t - n in
        let times := trunc (delta * scale) in
        rmapl (fun k => q <-- pdiv (nofnat k) scale ;; Ok (n + q)) (seq 1 (Z.to_nat times - 1))
    end.
  Definition make_frames (rnd : num -> num) (trunc : num -> Z) (digits : nat) (now : num) (s : state) : res (list picture) :=
    l <-- frame_times rnd trunc digits now s ;; rmapl (visualize (queue s) s) l.

  (** inout.py 69-74: id(v), the position at T, id(v.left), id(v.right) and info; the links of an InfiniteVertex are None *)
  Definition vertex_at_T (s : state) (T : num) (v : nat) : res (vert_row * nat) :=
    let kv := vs s v in
    p <-- position_at s v T ;;
    Ok (mkVR v p (if k_inf kv then None else hist_last (k_left kv)) (if k_inf kv then None else hist_last (k_right kv)), k_info kv).
  Definition output_vertices_at_T (s : state) (V : list nat) (T : num) : res (list (vert_row * nat)) :=
    rmapl (vertex_at_T s T) V.

  (** collapse.py 1212-1246: bisectors.wkt, ktris.wkt, kvertices.wkt, wavefront.wkt and rays.wkt.  Exceptions while
      wavefront.wkt is written are dropped (1234-1235), there none is left that was not raised before *)
  Record collapse_picture := mkCP { cp_bis : list (pt * pt); cp_tris : list tri_row; cp_verts : list (vert_row * nat);
    cp_edges : list edge_row; cp_rays : list (pt * pt) }.
  Definition visualize_collapse (s : state) (t : nat) (T : num) : res collapse_picture :=
    let V := list3 (t_v (ts s t)) in
    bl <-- rmapl (fun v => p1 <-- position_at s v T ;; Ok (p1, add2 p1 (k_velocity (vs s v)))) V ;;
    tl <-- output_triangles_at_T s [t] T ;;
    vl <-- output_vertices_at_T s V T ;;
    let el := match output_edges_at_T s (map (fun i => (t, i)) (where3 is_none (t_n (ts s t)))) T with Ok l => l | Err _ => [] end in
    let rays := map (fun v => let p1 := k_origin (vs s v) in let bi := k_velocity (vs s v) in
      let bineg := mul2s bi (lit (-10000)) in let bipos := mul2s bi (lit 10000) in (add2 p1 bipos, add2 p1 bineg)) V in
    Ok (mkCP bl tl vl el rays).
End Diagnostics.
