(** Model of src/grassfire/initialize.py.  Not here: find_overlapping_triangle,
    is_quad, make_unit_vector and make_unit_vectors (11-49, 66-113), which nothing
    calls (see Unused.v), and the code that is commented out. *)
From Verif Require Import Base Arith Calc VectorOps Line2d Primitives.

Section Initialize.
  Context {A : Arith} {E : Env A}.
  Local Open Scope num_scope.
  Local Open Scope res_scope.

  (** ** The triangulation (package tri), as read by initialize.py *)

  (** a vertex: x, y (also [v[0]], [v[1]]), info, is_finite *)
  Record dvert := mkDV { dv_pos : pt; dv_info : option nat; dv_finite : bool }.
  (** a triangle: vertices, neighbours, constrained *)
  Record dtri := mkDT { d_v : triple (option nat); d_n : triple (option nat); d_c : triple bool }.
  (** [dt.vertices] is the list of the vertices [0 .. dt_nv-1] (other numbers
      are vertices that only triangles refer to, like the infinite ones),
      [dt.triangles] the list of the triangles [0 .. dt_nt-1].  What the
      iterators of package tri deliver is part of the input: [dt_star v] is
      [[(e.triangle, e.side) for e in StarEdgeIterator(v)]], [dt_internal t] tells
      whether RegionatedTriangleIterator gives [t] at depth 1. *)
  Record dtriang := mkDtri {
    dt_v : nat -> dvert; dt_nv : nat;
    dt_t : nat -> dtri; dt_nt : nat;
    dt_star : nat -> list (nat * side);
    dt_internal : nat -> bool }.

  (** [Edge(t, s).constrained] and [Edge(t, s).segment] (tri.delaunay.tds);
      [t.constrained[s]] is the same as the former *)
  Definition constrained (d : dtriang) (t : nat) (s : side) : bool := get3 (d_c (dt_t d t)) s.
  Definition dsegment (d : dtriang) (t : nat) (s : side) : option nat * option nat :=
    (get3 (d_v (dt_t d t)) (ccw s), get3 (d_v (dt_t d t)) (cw s)).
  (** attribute access through a reference that may be None *)
  Definition oget {X} (o : option X) : res X := match o with Some x => Ok x | None => Err AttributeError end.

  (** ** initialize.py 116-155 split_star; an edge is a pair (triangle, side) *)

  (** 120-130: the loop that closes a group where the edge ahead is constrained *)
  Fixpoint star_groups (d : dtriang) (around group : list (nat * side)) : list (list (nat * side)) :=
    match around with
    | [] => match group with [] => [] | _ => [group] end
    | (t, s) :: r =>
        let group := group ++ [(t, s)] in
        if constrained d t (ccw s) then group :: star_groups d r [] else star_groups d r group
    end.
  (** 136-142: merge the last group with the first one *)
  Definition star_merge (d : dtriang) (groups : list (list (nat * side))) : res (list (list (nat * side))) :=
    match groups with
    | ((t, s) :: g) :: rest =>
        if constrained d t (cw s) then Ok groups
        else Ok ((last rest [] ++ (t, s) :: g) :: removelast rest)
    | _ => Err IndexError
    end.
  (** 144-153: the checks on one group *)
  Definition star_check (d : dtriang) (group : list (nat * side)) : res unit :=
    match group with
    | [] => Err IndexError
    | first :: _ =>
        let last := last group first in
        _ <-- rassert (constrained d (fst first) (cw (snd first))) ;;
        _ <-- rassert (constrained d (fst last) (ccw (snd last))) ;;
        _ <-- rmapl (fun m =>
                _ <-- rassert (negb (constrained d (fst m) (cw (snd m)))) ;;
                rassert (negb (constrained d (fst m) (ccw (snd m))))) (removelast (tl group)) ;;
        Ok tt
    end.
  Definition split_star (d : dtriang) (v : nat) : res (list (list (nat * side))) :=
    let groups := star_groups d (dt_star d v) [] in
    if Nat.leb (length groups) 1 then Ok groups
    else
      groups <-- star_merge d groups ;;
      _ <-- rmapl (star_check d) groups ;;
      Ok groups.

  (** ** initialize.py 158-717 init_skeleton, in the order of the code *)

  (** 164-173: skeleton nodes of the finite vertices, in their order (dicts keep
      insertion order); [node_of] is [nodes[v]] *)
  Definition node_keys (d : dtriang) : list nat := filter (fun v => dv_finite (dt_v d v)) (seq 0 (dt_nv d)).
  Definition node_of (d : dtriang) (v : nat) : res nat :=
    match index_of Nat.eqb v (node_keys d) with Some n => Ok n | None => Err KeyError end.
  Definition node_at (d : dtriang) (i : nat) : sknode :=
    let v := nth i (node_keys d) 0%nat in mkNode (dv_pos (dt_v d v)) (-1) (dv_info (dt_v d v)).
  (** 167-175: the centroid *)
  Definition centroid (d : dtriang) : res pt :=
    fold_left (fun acc v =>
      '(ax, ay) <-- acc ;;
      let p := dv_pos (dt_v d v) in
      x <-- pdiv (fst p) (nofnat (dt_nv d)) ;;
      y <-- pdiv (snd p) (nofnat (dt_nv d)) ;;
      Ok (ax + x, ay + y)) (node_keys d) (Ok (n0, n0)).

  (** 83-97 make_support_line *)
  Definition make_support_line (d : dtriang) (t : nat) (s : side) : res (option wavefront) :=
    if constrained d t s then
      let '(a, b) := dsegment d t s in
      a <-- oget a ;; b <-- oget b ;;
      w <-- WaveFront (dv_pos (dt_v d a)) (dv_pos (dt_v d b)) None ;;
      Ok (Some w)
    else Ok None.
  (** 216-225: neighbour [j] of the kinetic triangle and whether the triangle is
      appended to [unwanted] for it *)
  Definition init_neighbour (d : dtriang) (t : nat) (j : side) : res (option nat * bool) :=
    if constrained d t j then Ok (None, false)
    else match get3 (d_n (dt_t d t)) j with
         | None => Ok (None, true)
         | Some n =>
             if is_none (x2 (d_v (dt_t d n))) then Ok (None, true)
             else if Nat.ltb n (dt_nt d) then Ok (Some n, false) else Err KeyError
         end.
  (** 204-225: one triangle: its support lines and neighbours *)
  Record tinit := mkTI { ti_wf : triple (option wavefront); ti_n : triple (option nat); ti_unwanted : nat }.
  Definition init_triangle (d : dtriang) (t : nat) : res tinit :=
    w0 <-- make_support_line d t S0 ;;
    w1 <-- make_support_line d t S1 ;;
    w2 <-- make_support_line d t S2 ;;
    a <-- init_neighbour d t S0 ;;
    b <-- init_neighbour d t S1 ;;
    c <-- init_neighbour d t S2 ;;
    Ok (mkTI (mk3 w0 w1 w2) (mk3 (fst a) (fst b) (fst c))
          ((if snd a then 1 else 0) + (if snd b then 1 else 0) + (if snd c then 1 else 0))).
  Definition no_tinit : tinit := mkTI (mk3 None None None) (mk3 None None None) 0.

  (** the number of the wavefront of side [s] of triangle [t] *)
  Definition side_nat (s : side) : nat := match s with S0 => 0 | S1 => 1 | S2 => 2 end.
  Definition nat_side (n : nat) : side := match n with 0 => S0 | 1 => S1 | _ => S2 end.
  Definition wf_index (t : nat) (s : side) : nat := 3 * t + side_nat s.

  (** the vertices of the kinetic triangles while they are filled in *)
  Definition tverts : Type := nat -> triple (option nat).
  Definition set_tverts (tv : tverts) (t : nat) (s : side) (v : nat) : tverts :=
    fun i => if Nat.eqb t i then set3 (tv i) s (Some v) else tv i.
  (** 344-346: [for edge in group: ktriangle.vertices[edge.side] = kv]
      (KeyError for a triangle that is not in [dt.triangles]) *)
  Definition fill (d : dtriang) (kv : nat) (tv : tverts) (group : list (nat * side)) : res tverts :=
    fold_left (fun acc e =>
      tv <-- acc ;;
      if Nat.ltb (fst e) (dt_nt d) then Ok (set_tverts tv (fst e) (snd e) kv) else Err KeyError)
      group (Ok tv).

  (** what the loop over the vertices (239-351) builds; [l_left], [l_right] of a
      link are (triangle, side) *)
  Record links := mkLink { l_left : nat * side; l_kv : nat; l_right : nat * side }.
  Record build := mkBuild { b_kv : list kvertex; b_tv : tverts; b_links : list links }.

  (** 247-351: one group.  [turn] (250-266) is write-only: what remains of it is
      that the four segment ends must not be None.  [len (b_kv b)] is the new
      vertex, [info] its number counted from 1. *)
  Definition init_group (d : dtriang) (ti : nat -> tinit) (v : nat) (b : build) (group : list (nat * side)) : res build :=
    match group with
    | [] => Err IndexError
    | first :: _ =>
        let last := last group first in
        let '(tail, mid1) := dsegment d (fst last) (ccw (snd last)) in
        let '(mid2, head) := dsegment d (fst first) (cw (snd first)) in
        _ <-- rassert (onat_eqb mid1 mid2) ;;
        _ <-- oget tail ;; _ <-- oget mid1 ;; _ <-- oget head ;;
        if negb (Nat.ltb (fst first) (dt_nt d)) then Err KeyError else
        if negb (Nat.ltb (fst last) (dt_nt d)) then Err KeyError else
        match get3 (ti_wf (ti (fst last))) (ccw (snd last)), get3 (ti_wf (ti (fst first))) (cw (snd first)) with
        | Some lwf, Some rwf =>
            bi <-- get_bisector (wf_line lwf) (wf_line rwf) ;;
            node <-- node_of d v ;;
            let wl := Some (wf_index (fst last) (ccw (snd last))) in
            let wr := Some (wf_index (fst first) (cw (snd first))) in
            let kv := length (b_kv b) in
            tv <-- fill d kv (b_tv b) group ;;
            Ok (mkBuild
                  (b_kv b ++ [mkKV false (dv_pos (dt_v d v)) bi [] [] (Some n0) None (Some node) None
                                wl wr wl wr (S kv) false (dt_internal d (fst last))])
                  tv
                  (b_links b ++ [mkLink (fst last, cw (snd last)) kv (fst first, ccw (snd first))]))
        | _, _ => Err AssertionError
        end
    end.
  (** 239-245: one vertex *)
  Definition init_vertex (d : dtriang) (ti : nat -> tinit) (b : build) (v : nat) : res build :=
    _ <-- rassert (dv_finite (dt_v d v)) ;;
    groups <-- split_star d v ;;
    if Nat.eqb (length groups) 1 then Err NotImplementedError
    else fold_left (fun acc g => b <-- acc ;; init_group d ti v b g) groups (Ok b).
  Definition init_vertices (d : dtriang) (ti : nat -> tinit) : res build :=
    fold_left (fun acc v => b <-- acc ;; init_vertex d ti b v) (seq 0 (dt_nv d))
      (Ok (mkBuild [] (fun _ => mk3 None None None) [])).

  (** 589-600: link the vertices in circular lists *)
  Definition link_vertex (tv : tverts) (kvs : list kvertex) (l : links) : list kvertex :=
    let cwv := get3 (tv (fst (l_left l))) (snd (l_left l)) in
    let ccwv := get3 (tv (fst (l_right l))) (snd (l_right l)) in
    map (fun i =>
      let k := nth i kvs (mkKV true (n0, n0) (n0, n0) [] [] None None None None None None None None 0 false false) in
      if Nat.eqb i (l_kv l)
      then kv_right (kv_left k (hist_set (k_left k) cwv n0)) (hist_set (k_right k) ccwv n0)
      else k) (seq 0 (length kvs)).
  (** 602-605 (kv.is_stopped is false, no vertex having a stop node) *)
  Definition check_links (kvs : nat -> kvertex) (l : links) : res unit :=
    let k := kvs (l_kv l) in
    lv <-- oget (kleft k) ;;
    _ <-- rassert (onat_eqb (k_wfr (kvs lv)) (k_wfl k)) ;;
    rv <-- oget (kright k) ;;
    _ <-- rassert (onat_eqb (k_wfr k) (k_wfl (kvs rv))) ;;
    rassert (negb (is_stopped k)).

  (** 609-617: the coordinates of the infinite vertices, as keys of a dict *)
  Definition infinite_corner (d : dtriang) (t : nat) (s : side) : option nat :=
    match get3 (d_v (dt_t d t)) s with
    | Some v => if dv_finite (dt_v d v) then None else Some v
    | None => None
    end.
  Definition infinites (d : dtriang) : list pt :=
    fold_left (fun acc v => if existsb (pt_eqb (dv_pos (dt_v d v))) acc then acc else acc ++ [dv_pos (dt_v d v)])
      (flat_map (fun t => somes (map (infinite_corner d t) sides)) (seq 0 (dt_nt d))) [].
  (** 619-622 and 687-690: infinite corners, from the start represented by the
      one infinite vertex [c] in the centroid that replaces them in the end *)
  Definition with_infinite (d : dtriang) (c : nat) (tv : tverts) : tverts :=
    fun t => if Nat.ltb t (dt_nt d)
             then mk3 (if is_some (infinite_corner d t S0) then Some c else x0 (tv t))
                      (if is_some (infinite_corner d t S1) then Some c else x1 (tv t))
                      (if is_some (infinite_corner d t S2) then Some c else x2 (tv t))
             else tv t.

  (** 52-63 rotate_until_not_in_candidates; [fuel] is the number of candidates,
      which bounds the number of rounds since each one takes another
      candidate; the result None is Python's None *)
  Fixpoint rotate_until (tv : tverts) (tn : nat -> triple (option nat)) (v : nat) (direction : side -> side)
      (candidates seen : list nat) (fuel : nat) (t : nat) : res (option nat) :=
    match fuel with
    | 0 => Ok None
    | S fuel =>
        if mem Nat.eqb t seen then Ok None else
        match index3 (onat_eqb (Some v)) (tv t) with
        | Err e => Err e
        | Ok sd =>
            match get3 (tn t) (direction sd) with
            | None => Ok None
            | Some t' => if mem Nat.eqb t' candidates then rotate_until tv tn v direction candidates (t :: seen) fuel t'
                         else Ok (Some t')
            end
        end
    end.

  (** 665-677: one unwanted triangle: the two links it gives *)
  Definition unwanted_links (tv : tverts) (tn : nat -> triple (option nat)) (c : nat) (unwanted : list nat) (kt : nat)
      : res (list (nat * side * nat)) :=
    sd <-- index3 is_none (tn kt) ;;
    match get3 (tv kt) sd with
    | None => Err AssertionError
    | Some v =>
        _ <-- rassert (negb (Nat.eqb v c)) ;;
        ncw <-- rotate_until tv tn v cw unwanted [] (length unwanted) kt ;;
        nccw <-- rotate_until tv tn v ccw unwanted [] (length unwanted) kt ;;
        ncw <-- oget ncw ;;
        scw <-- index3 (onat_eqb (Some v)) (tv ncw) ;;
        nccw <-- oget nccw ;;
        sccw <-- index3 (onat_eqb (Some v)) (tv nccw) ;;
        Ok [(ncw, ccw scw, nccw); (nccw, cw sccw, ncw)]
    end.
  Definition set_tn1 (tn : nat -> triple (option nat)) (l : nat * side * nat) : nat -> triple (option nat) :=
    let '(ngb, sd, new) := l in fun i => if Nat.eqb ngb i then set3 (tn i) sd (Some new) else tn i.

  (** ** initialize.py 733-770 check_ktriangles (prints omitted) *)
  (** 746-753: the vertex is alive at [now]; None <= now is a TypeError *)
  Definition alive_at (s : state) (now : num) (v : nat) : res bool :=
    let k := vs s v in
    match k_starts k with
    | None => Err TypeError
    | Some a => Ok (((a <=? now) && match k_stops k with Some b => b >? now | None => false end)
                    || ((a <=? now) && is_none (k_stops k)))
    end.
  (** 739-753: one triangle *)
  Definition check_ktriangle (s : state) (now : num) (t : nat) : res bool :=
    let x := ts s t in
    if is_some (t_stops x) then Ok true
    else
      let linked := forallb (fun o => match o with
                                      | None => true
                                      | Some n => mem onat_eqb (Some t) (list3 (t_n (ts s n)))
                                      end) (list3 (t_n x)) in
      alive <-- rmapl (fun v => if is_finite s t then alive_at s now v else Ok true) (list3 (t_v x)) ;;
      Ok (linked && forallb (fun b => b) alive).
  Definition check_ktriangles (s : state) (L : list nat) (now : num) : res bool :=
    l <-- rmapl (check_ktriangle s now) L ;;
    Ok (forallb (fun b => b) l).

  (** ** The skeleton that is returned *)
  (** 692: the order of the sort; stable, keys (y, x) of the first corner *)
  Definition key_le (s : state) (a b : nat) : bool :=
    let ka := k_origin (vs s (x0 (t_v (ts s a)))) in
    let kb := k_origin (vs s (x0 (t_v (ts s b)))) in
    if snd ka =? snd kb then fst ka <=? fst kb else snd ka <? snd kb.

  Definition inf_vertex (p : pt) : kvertex :=
    mkKV true p (n0, n0) [] [] None None None None None None None None 0 false false.

  (** the object graph: vertices, the centroid's vertex last; objects that do
      not exist are given harmless values *)
  Definition init_state (d : dtriang) (kvs : list kvertex) (cpos : pt) (ti : nat -> tinit) (tv : tverts)
      (tn : nat -> triple (option nat)) (tris : list nat) : state :=
    let c := length kvs in
    mkSt (fun i => nth i kvs (inf_vertex cpos)) (S c)
      (fun t => mkTri (map3 (fun o => match o with Some v => v | None => c end) (tv t)) (tn t) None (S t) None (dt_internal d t))
      (dt_nt d)
      (node_at d) (length (node_keys d))
      (fun _ => mkEv n0 0 [] Edge 0) 0
      (fun w => match get3 (ti_wf (ti (w / 3))) (nat_side (w mod 3)) with
                | Some wf => wf
                | None => mkWF (mkLine (n1, n0) n0) (n0, n0) (n0, n0)
                end)
      (seq 0 (length (node_keys d))) (seq 0 c) tris [] [].

  (** 158-717.  The kinetic triangles have the numbers of the triangles.  A
      triangle that is left with None in place of a second or third vertex (a
      corner that is in the star of no vertex) cannot be represented: the model
      raises AttributeError where the code returns; if the first one is None the
      code raises it too (692). *)
  Definition init_skeleton (d : dtriang) : res state :=
    cpos <-- centroid d ;;
    til <-- rmapl (init_triangle d) (seq 0 (dt_nt d)) ;;
    let ti := fun t => nth t til no_tinit in
    let unwanted := flat_map (fun t => repeat t (ti_unwanted (ti t))) (seq 0 (dt_nt d)) in
    b <-- init_vertices d ti ;;
    let kvs := fold_left (link_vertex (b_tv b)) (b_links b) (b_kv b) in
    let c := length kvs in
    _ <-- rmapl (check_links (fun i => nth i kvs (inf_vertex cpos))) (b_links b) ;;
    _ <-- rassert (Nat.eqb (length (infinites d)) 3) ;;
    let tv := with_infinite d c (b_tv b) in
    let tn := fun t => ti_n (ti t) in
    let remove := filter (fun t => Nat.eqb (count3 (onat_eqb (Some c)) (tv t)) 2) (seq 0 (dt_nt d)) in
    _ <-- rassert (Nat.eqb (length remove) 3) ;;
    _ <-- rassert (Nat.eqb (length unwanted) 3) ;;
    _ <-- rassert (if list_eq_dec Nat.eq_dec remove unwanted then true else false) ;;
    ls <-- rmapl (unwanted_links tv tn c unwanted) unwanted ;;
    let tn := fold_left set_tn1 (concat ls) tn in
    let gone := fun t => mem Nat.eqb t unwanted in
    let tv := fun t => if gone t then mk3 None None None else tv t in
    let tn := fun t => if gone t then mk3 None None None else tn t in
    let ktriangles := filter (fun t => negb (gone t)) (seq 0 (dt_nt d)) in
    let s := init_state d kvs cpos ti tv tn ktriangles in
    ok <-- check_ktriangles s ktriangles n0 ;;
    _ <-- rassert ok ;;
    _ <-- rmapl (fun t => oget (x0 (tv t))) ktriangles ;;
    _ <-- rmapl (fun t => _ <-- oget (x1 (tv t)) ;; oget (x2 (tv t))) ktriangles ;;
    Ok (init_state d kvs cpos ti tv tn (isort (key_le s) ktriangles)).
End Initialize.
