(** Model of src/grassfire/collapse.py.  Logging calls are left out (they have
    no effect on the result). *)
From Verif Require Import Base Arith Calc VectorOps Line2d Primitives.

(** the [sieve] argument: one of the two functions of collapse.py 24-50 *)
Inductive sieve := FindGt | FindGte.

Section Collapse.
  Context {A : Arith}.
  Local Open Scope num_scope.
  Local Open Scope res_scope.

  (** collapse.py 24-38; [L[bisect_right(L, x)]] of a sorted list is its first
      element greater than x (the stdlib bisection is modelled by what it finds) *)
  Definition find_gt (a : list (option num)) (x : num) : option num :=
    find (fun v => x <? v) (isort nleb (filter (fun v => negb (near_zero (v - x))) (somes a))).

  (** collapse.py 41-50; [bisect_left]: the first element that is not less than x *)
  Definition find_gte (a : list (option num)) (x : num) : option num :=
    find (fun v => negb (v <? x)) (isort nleb (somes a)).

  Definition run_sieve (sv : sieve) (a : list (option num)) (x : num) : option num :=
    match sv with FindGt => find_gt a x | FindGte => find_gte a x end.

  (** collapse.py 53-102; called with finite vertices only.  [org.ur == dst.ul] is
      Line2.__eq__, which reads attributes of [dst.ul]. *)
  Definition vertex_crash_time (s : state) (org dst apx : nat) : res (option num) :=
    let ko := vs s org in let kd := vs s dst in let ka := vs s apx in
    let Mv := sub2 (k_origin ka) (k_origin ko) in
    our <-- kattr ko (k_ur ko) ;;
    match our with
    | None => Err AssertionError
    | Some u =>
        dul <-- kattr kd (k_ul kd) ;;
        match dul with
        | None => Err AttributeError
        | Some u' =>
            _ <-- rassert (line_eqb (wf_line (wfs s u)) (wf_line (wfs s u'))) ;;
            let n := lw (wf_line (wfs s u)) in
            let dist_v_e := dot2 Mv n in
            let s_proj := dot2 (k_velocity ka) n in
            let denom := n1 - s_proj in
            if near_zero denom then Ok None
            else t <-- pdiv dist_v_e denom ;; Ok (Some t)
        end
    end.

  (** collapse.py 964-1003 *)
  Definition collapse_time_edge (s : state) (v1 v2 : nat) : res num :=
    let k1 := vs s v1 in let k2 := vs s v2 in
    let dv := sub2 (k_velocity k1) (k_velocity k2) in
    let denominator := dot2 dv dv in
    if near_zero denominator then Ok (lit (-1))
    else pdiv (dot2 dv (sub2 (k_origin k2) (k_origin k1))) denominator.

  (** collapse.py 1042-1087 *)
  Definition solve_quadratic (a b c : num) : res (list num) :=
    if near_zero a && negb (near_zero b) then r <-- pdiv (- c) b ;; Ok [r]
    else if near_zero a && near_zero b then Ok []
    else
      T <-- pdiv (- b) a ;;
      D <-- pdiv c a ;;
      let centre := T * nhalf in
      let under := lit (1#4) * (T * T) - D in
      if near_zero under then Ok [centre]
      else if under <? n0 then Ok []
      else plus_min <-- psqrt under ;; Ok [centre - plus_min; centre + plus_min].

  (** collapse.py 1009-1038 *)
  Definition solve_quadratic_whatevery (a b c : num) : res (list num) :=
    if near_zero a && negb (near_zero b) then r <-- pdiv (- c) b ;; Ok [r]
    else if near_zero a && near_zero b then Ok []
    else
      match psqrt (b * b - lit 4 * a * c) with
      | Err ValueError => Ok []
      | Err e => Err e
      | Ok d =>
          if b >? n0 then
            x <-- pdiv (n2 * c) (- b - d) ;; y <-- pdiv (- b - d) (n2 * a) ;; Ok [x; y]
          else
            x <-- pdiv (- b + d) (n2 * a) ;; y <-- pdiv (n2 * c) (- b + d) ;; Ok [x; y]
      end.

  (** collapse.py 1166-1209 *)
  Definition area_collapse_time_coeff (a b c : kvertex) : num * num * num :=
    let '(xa, ya) := k_origin a in let '(dxa, dya) := k_velocity a in
    let '(xb, yb) := k_origin b in let '(dxb, dyb) := k_velocity b in
    let '(xc, yc) := k_origin c in let '(dxc, dyc) := k_velocity c in
    (dxa * dyb - dxb * dya + dxb * dyc - dxc * dyb + dxc * dya - dxa * dyc,
     xa * dyb - xb * dya + xb * dyc - xc * dyb + xc * dya - xa * dyc +
     dxa * yb - dxb * ya + dxb * yc - dxc * yb + dxc * ya - dxa * yc,
     xa * yb - xb * ya + xb * yc - xc * yb + xc * ya - xa * yc).

  (** collapse.py 105-114 *)
  Definition area_collapse_times (s : state) (o d a : nat) : res (list num) :=
    let '(ca, cb, cc) := area_collapse_time_coeff (vs s o) (vs s d) (vs s a) in
    sol <-- solve_quadratic ca cb cc ;;
    Ok (isort nleb sol).

  (** [[d.distance2_at(a, t), a.distance2_at(o, t), o.distance2_at(d, t)]]: the
      squared lengths of the sides 0, 1, 2 of the triangle (o, d, a) *)
  Definition dists2 (s : state) (o d a : nat) (time : num) : res (triple num) :=
    x <-- distance2_at s d a time ;;
    y <-- distance2_at s a o time ;;
    z <-- distance2_at s o d time ;;
    Ok (mk3 x y z).
  (** [math.sqrt] of the three *)
  Definition sqrt3 (t : triple num) : res (triple num) :=
    x <-- psqrt (x0 t) ;; y <-- psqrt (x1 t) ;; z <-- psqrt (x2 t) ;; Ok (mk3 x y z).
  Definition dists (s : state) (o d a : nat) (time : num) : res (triple num) :=
    q <-- dists2 s o d a time ;; sqrt3 q.
  Definition max3 (t : triple num) : num := nmax (nmax (x0 t) (x1 t)) (x2 t).
  Definition min3 (t : triple num) : num := nmin (nmin (x0 t) (x1 t)) (x2 t).
  (** [dists.index(max(dists))], [dists.index(min(dists))] *)
  Definition argmax3 (t : triple num) : res side := index3 (fun x => x =? max3 t) t.
  Definition argmin3 (t : triple num) : res side := index3 (fun x => x =? min3 t) t.

  (** [Event(when=.., tri=tri, side=.., tp=.., tri_tp=tri.type)] *)
  Definition mkevent (s : state) (t : nat) (when : num) (sd : list side) (tp : evtype) : event :=
    mkEv when t sd tp (tri_type (ts s t)).

  (** collapse.py 142-164: the loop over the area collapse times *)
  Fixpoint event0_degenerate (s : state) (t o d a : nat) (now : num) (times : list num)
    : res (option event) :=
    match times with
    | [] => Ok None
    | time :: rest =>
        if near_zero (nabs (time - now)) then
          q <-- dists2 s o d a now ;;
          r <-- sqrt3 q ;;
          match where3 near_zero r with
          | [sd] => Ok (Some (mkevent s t now [sd] Edge))
          | [_; _; _] => Err ValueError
          | _ => sd <-- argmax3 q ;; Ok (Some (mkevent s t now [sd] Flip))
          end
        else event0_degenerate s t o d a now rest
    end.

  (** collapse.py 255-267, 281-302: [sides_collapse] *)
  Definition event0_edge (s : state) (t : nat) (time : num) (zeros : triple bool) : res (option event) :=
    match where3 (fun b => b) zeros with
    | [_; _; _] => Ok (Some (mkevent s t time [S0; S1; S2] Edge))
    | [sd] => Ok (Some (mkevent s t time [sd] Edge))
    | _ => Err ValueError
    end.

  (** collapse.py 117-314 *)
  Definition compute_event_0triangle (s : state) (t : nat) (now : num) (sv : sieve) : res (option event) :=
    let tri := ts s t in
    _ <-- rassert (Nat.eqb (tri_type tri) 0) ;;
    let '(o, d, a) := (x0 (t_v tri), x1 (t_v tri), x2 (t_v tri)) in
    times_area_collapse <-- area_collapse_times s o d a ;;
    early <-- event0_degenerate s t o d a now times_area_collapse ;;
    match early with
    | Some e => Ok (Some e)
    | None =>
        tod <-- collapse_time_edge s o d ;;
        tda <-- collapse_time_edge s d a ;;
        tao <-- collapse_time_edge s a o ;;
        dod <-- distance2_at s o d tod ;;
        dda <-- distance2_at s d a tda ;;
        dao <-- distance2_at s a o tao ;;
        roots <-- sqrt3 (mk3 dod dda dao) ;;
        let t_e_c := map (fun i => Some (get3 (mk3 tod tda tao) i)) (where3 near_zero roots) in
        let time_edge_collapse := run_sieve sv t_e_c now in
        let time_area_collapse := run_sieve sv (map Some times_area_collapse) now in
        match time_edge_collapse, time_area_collapse with
        | None, None => Ok None
        | Some te, Some ta =>
            if near_zero (nabs (ta - te)) then
              q <-- dists2 s o d a te ;;
              match where3 (fun b => b) (map3 (fun x => near_zero (x - min3 q)) q) with
              | [_; _; _] => Ok (Some (mkevent s t te [S0; S1; S2] Edge))
              | [sd] => Ok (Some (mkevent s t te [sd] Edge))
              | _ =>
                  q <-- dists2 s o d a ta ;;
                  sd <-- argmax3 q ;;
                  Ok (Some (mkevent s t ta [sd] Flip))
              end
            else if ta <? te then
              q <-- dists2 s o d a ta ;;
              sd <-- argmax3 q ;;
              Ok (Some (mkevent s t ta [sd] Flip))
            else
              q <-- dists2 s o d a te ;;
              event0_edge s t te (map3 near_zero q)
        | Some te, None =>
            q <-- dists2 s o d a te ;;
            event0_edge s t te (map3 near_zero q)
        | None, Some ta =>
            q <-- dists2 s o d a ta ;;
            sd <-- argmax3 q ;;
            Ok (Some (mkevent s t ta [sd] Flip))
        end
    end.

  (** collapse.py 430-459 (case A).  The -1 of sides without neighbour is a
      number here. *)
  Definition event1_caseA (s : state) (t o d a : nat) (wf : side) (now : num) (sv : sieve)
    : res (option event) :=
    let '(ca, cb, cc) := area_collapse_time_coeff (vs s o) (vs s d) (vs s a) in
    sol <-- solve_quadratic ca cb cc ;;
    match run_sieve sv (map Some sol) now with
    | None => Ok None
    | Some time =>
        if near_zero (time - now) then Ok (Some (mkevent s t now [wf] Split))
        else
          let nb := t_n (ts s t) in
          let dist i v w := if is_some (get3 nb i) then distance2_at s v w time else Ok (lit (-1)) in
          x <-- dist S0 d a ;; y <-- dist S1 a o ;; z <-- dist S2 o d ;;
          sd <-- argmax3 (mk3 x y z) ;;
          Ok (Some (mkevent s t time [sd] Flip))
    end.

  (** collapse.py 474-523 (case B) *)
  Definition event1_caseB (s : state) (t o d a : nat) (wf : side) (tv : num) (ta : option num)
    : res (option event) :=
    let time := match ta with
                | Some ta => if ta <? tv then ta else tv
                | None => tv
                end in
    ds <-- dists s o d a time ;;
    let longest := where3 (fun x => near_zero (x - max3 ds)) ds in
    if match longest with [i] => side_eqb wf i | _ => false end
    then Ok (Some (mkevent s t tv [wf] Split))
    else if Nat.eqb (count3 near_zero ds) 1 then
      sd <-- argmin3 ds ;; Ok (Some (mkevent s t time [sd] Edge))
    else sd <-- argmax3 ds ;; Ok (Some (mkevent s t time [sd] Flip)).

  (** collapse.py 537-616 (case D) *)
  Definition event1_caseD (s : state) (t o d a : nat) (te tv : num) : res (option event) :=
    if (te <? tv) || (te =? tv) then
      q <-- dists2 s o d a te ;;
      sd <-- argmin3 q ;;
      Ok (Some (mkevent s t te [sd] Edge))
    else if tv <? te then
      ds <-- dists s o d a tv ;;
      match where3 near_zero ds with
      | [sd] => Ok (Some (mkevent s t tv [sd] Edge))
      | [_; _; _] => Ok (Some (mkevent s t tv [S0; S1; S2] Edge))
      | _ =>
          sd <-- argmax3 ds ;;
          Ok (Some (mkevent s t tv [sd]
                      (if is_none (get3 (t_n (ts s t)) sd) then Split else Flip)))
      end
    else Err NotImplementedError.

  (** collapse.py 355-392: the loop over the one vertex crash time *)
  Definition event1_degenerate (s : state) (t o d a : nat) (wf : side) (now : num) (tv : option num)
    : res (option event) :=
    match tv with
    | Some time =>
        if near_zero (nabs (time - now)) then
          ds <-- dists s o d a now ;;
          match where3 near_zero ds with
          | [sd] => Ok (Some (mkevent s t now [sd] Edge))
          | _ =>
              sd <-- argmax3 ds ;;
              Ok (Some (mkevent s t now [sd] (if side_eqb sd wf then Split else Flip)))
          end
        else Ok None
    | None => Ok None
    end.

  (** collapse.py 317-617 *)
  Definition compute_event_1triangle (s : state) (t : nat) (now : num) (sv : sieve) : res (option event) :=
    let tri := ts s t in
    _ <-- rassert (Nat.eqb (tri_type tri) 1) ;;
    wf <-- index3 is_none (t_n tri) ;;
    let '(o, d, a) := (x0 (t_v tri), x1 (t_v tri), x2 (t_v tri)) in
    let '(ow, dw, aw) := (get3 (t_v tri) (ccw wf), get3 (t_v tri) (cw wf), get3 (t_v tri) wf) in
    crash <-- vertex_crash_time s ow dw aw ;;
    early <-- event1_degenerate s t o d a wf now crash ;;
    match early with
    | Some e => Ok (Some e)
    | None =>
        let time_vertex_crash := run_sieve sv [crash] now in
        areas <-- area_collapse_times s o d a ;;
        let time_area_collapse := run_sieve sv (map Some areas) now in
        te <-- collapse_time_edge s ow dw ;;
        let time_edge_collapse := run_sieve sv [Some te] now in
        match time_edge_collapse, time_vertex_crash with
        | None, None => event1_caseA s t o d a wf now sv
        | None, Some tv => event1_caseB s t o d a wf tv time_area_collapse
        | Some te, None => Ok (Some (mkevent s t te [wf] Edge))
        | Some te, Some tv => event1_caseD s t o d a te tv
        end
    end.

  (** collapse.py 658-690 *)
  Definition event2_at (s : state) (t o d a : nat) (time : num) : res (option event) :=
    ds <-- dists s o d a time ;;
    let ds := map3 (fun x => x - min3 ds) ds in
    match count3 near_zero ds with
    | 3 => Ok (Some (mkevent s t time [S0; S1; S2] Edge))
    | 2 => Err ValueError
    | 1 => sd <-- argmin3 ds ;; Ok (Some (mkevent s t time [sd] Edge))
    | _ => Ok None
    end.

  (** collapse.py 620-690 *)
  Definition compute_event_2triangle (s : state) (t : nat) (now : num) (sv : sieve) : res (option event) :=
    let tri := ts s t in
    _ <-- rassert (Nat.eqb (tri_type tri) 2) ;;
    let '(o, d, a) := (x0 (t_v tri), x1 (t_v tri), x2 (t_v tri)) in
    let edge i v w := if is_none (get3 (t_n tri) i) then rmap Some (collapse_time_edge s v w) else Ok None in
    x <-- edge S2 o d ;; y <-- edge S0 d a ;; z <-- edge S1 a o ;;
    times <-- get_unique_times [x; y; z] ;;
    time <-- match run_sieve sv (map Some times) now with
             | Some time => Ok (Some time)
             | None => areas <-- area_collapse_times s o d a ;;
                       Ok (run_sieve sv (map Some areas) now)
             end ;;
    match time with
    | Some time => event2_at s t o d a time
    | None => Ok None
    end.

  (** truthiness of an optional number: [if time:] *)
  Definition truthy (t : option num) : option num :=
    match t with Some x => if x =? n0 then None else Some x | None => None end.

  (** collapse.py 744-827 *)
  Definition compute_event_3triangle (s : state) (t : nat) (now : num) (sv : sieve) : res (option event) :=
    let tri := ts s t in
    let '(a, o, d) := (x0 (t_v tri), x1 (t_v tri), x2 (t_v tri)) in
    tod <-- collapse_time_edge s o d ;;
    tda <-- collapse_time_edge s d a ;;
    tao <-- collapse_time_edge s a o ;;
    dod <-- distance2_at s o d tod ;;
    dda <-- distance2_at s d a tda ;;
    dao <-- distance2_at s a o tao ;;
    roots <-- sqrt3 (mk3 dod dda dao) ;;
    let indices := where3 near_zero roots in
    _ <-- rassert (Nat.eqb (tri_type tri) 3) ;;
    let time_edge_collapse := run_sieve sv [Some tod; Some tda; Some tao] now in
    areas <-- area_collapse_times s o d a ;;
    let time_area_collapse := run_sieve sv (map Some areas) now in
    match truthy time_edge_collapse with
    | Some te =>
        let sds := match indices with
                   | [] | [_; _] => [S0; S1; S2]
                   | _ => indices
                   end in
        Ok (Some (mkevent s t te sds Edge))
    | None =>
        match truthy time_area_collapse with
        | Some ta => Ok (Some (mkevent s t ta [S0; S1; S2] Edge))
        | None => Ok None
        end
    end.

  (** collapse.py 830-881.  [inf_idx] of a triangle without infinite vertex is
      the last index (the loop runs to its end). *)
  Definition compute_event_inftriangle (s : state) (t : nat) (now : num) (sv : sieve) : res (option event) :=
    let tri := ts s t in
    let sd := match find3 (fun v => k_inf (vs s v)) (t_v tri) with Some i => i | None => S2 end in
    let '(o, d, a) := (get3 (t_v tri) (cw sd), get3 (t_v tri) (ccw sd), get3 (t_v tri) sd) in
    if is_none (get3 (t_n tri) sd) then
      _ <-- rassert (Nat.eqb (tri_type tri) 1) ;;
      te <-- collapse_time_edge s o d ;;
      match truthy (find_gt [Some te] now) with
      | None => Ok None
      | Some time =>
          dist <-- distance2_at s o d time ;;
          if near_zero dist then Ok (Some (mkevent s t time [sd] Edge)) else Ok None
      end
    else
      areas <-- area_collapse_times s o d a ;;
      match truthy (run_sieve sv (map Some areas) now) with
      | None => Ok None
      | Some time =>
          dist <-- distance2_at s o d time ;;
          if near_zero dist then Ok (Some (mkevent s t time [sd] Edge))
          else
            let len i := let '(st, en) := edge_segment tri i in distance2_at s st en time in
            x <-- len (cw sd) ;; y <-- len (ccw sd) ;;
            let m := nmin x y in
            let min_dist_side := if x =? m then cw sd else ccw sd in
            Ok (Some (mkevent s t time [min_dist_side] Flip))
      end.

  (** collapse.py 884-931: the event of a triangle, without the assignment to
      [tri.event].  The orientation checks only log; they evaluate positions. *)
  Definition collapse_event (s : state) (t : nat) (now : num) (sv : sieve) : res (option event) :=
    let tri := ts s t in
    if is_some (t_stops tri) then Ok None
    else if is_finite s t then
      ev <-- match tri_type tri with
             | 0 => compute_event_0triangle s t now sv
             | 1 => compute_event_1triangle s t now sv
             | 2 => compute_event_2triangle s t now sv
             | _ => compute_event_3triangle s t now sv
             end ;;
      match ev with
      | Some e => Ok (Some e)
      | None => _ <-- rmapl (fun v => position_at s v (now + lit 10)) (list3 (t_v tri)) ;; Ok None
      end
    else compute_event_inftriangle s t now sv.

  (** collapse.py 884-938: the new event object and [tri.event = event] *)
  Definition compute_collapse_time (t : nat) (now : num) (sv : sieve) : M (option nat) :=
    bind (rd (fun s => collapse_event s t now sv)) (fun ev =>
    match ev with
    | None => ret None
    | Some e =>
        bind (alloc_e e) (fun i =>
        bind (set_tevent t i) (fun _ => ret (Some i)))
    end).

  (** collapse.py 945-961 *)
  Definition new_edge_collapse_event (s : state) (t : nat) (time : num) : res event :=
    let tri := ts s t in
    let '(o, d, a) := (x0 (t_v tri), x1 (t_v tri), x2 (t_v tri)) in
    ds <-- dists s o d a time ;;
    Ok (mkevent s t time (where3 (fun x => near_zero (x - min3 ds)) ds) Edge).
  Definition compute_new_edge_collapse_event (t : nat) (time : num) : M nat :=
    bind (rd (fun s => new_edge_collapse_event s t time)) alloc_e.
End Collapse.
