(** Model of src/grassfire/line2d.py (vectors in the plane are pairs; the
    [assert len(...) == ...] checks are then always satisfied). *)
From Verif Require Import Base Arith Calc VectorOps.

Section Line2d.
  Context {A : Arith}.
  Local Open Scope num_scope.
  Local Open Scope res_scope.

  (** line2d.py 52-55 *)
  Definition ldot (a b : pt) : num := nfsum [fst a * fst b; snd a * snd b].
  (** line2d.py 96-98, 101-103; [** 0.5] of a sum of squares: the complex result
      Python gives for a negative base is modelled as an exception *)
  Definition lnorm2 (a : pt) : num := ldot a a.
  Definition lnorm (a : pt) : res num := psqrt (lnorm2 a).
  (** line2d.py 106-108 *)
  Definition lunit (a : pt) : res pt := n <-- lnorm a ;; div2s a n.

  (** line2d.py 193-201: a line w·x + b = 0 *)
  Record line2 := mkLine { lw : pt; lb : num }.

  (** line2d.py 206-210 *)
  Definition normalize (l : line2) : res line2 :=
    nrm <-- lnorm (lw l) ;;
    b <-- pdiv (lb l) nrm ;;
    w <-- lunit (lw l) ;;
    Ok (mkLine w b).

  (** line2d.py 194-201 *)
  Definition Line2 (w : pt) (b : num) (norm : bool) : res line2 :=
    if norm then normalize (mkLine w b) else Ok (mkLine w b).

  (** line2d.py 203-204 *)
  Definition line_eqb (l m : line2) : bool := pt_eqb (lw l) (lw m) && (lb l =? lb m).

  (** line2d.py 123-164 *)
  Definition coefficients_from_points (p q : pt) : num * num * num :=
    let '(px, py) := p in
    let '(qx, qy) := q in
    if py =? qy then
      if px <? qx then (n0, n1, - py)
      else if qx =? px then (n0, n0, n0)
      else (n0, lit (-1), py)
    else if qx =? px then
      if py <? qy then (lit (-1), n0, px)
      else if qy =? py then (n0, n0, n0)
      else (n1, n0, - px)
    else
      let a := py - qy in
      let b := qx - px in
      (a, b, (- px) * a - py * b).

  (** line2d.py 167-171 *)
  Definition coefficients_perpendicular_through_point (la lb px py : num) : num * num * num :=
    (- lb, la, lb * px - la * py).

  (** line2d.py 173-190 *)
  Definition coefficients_bisector_of_lines (pa pb pc qa qb qc : num) : res (num * num * num) :=
    n1 <-- psqrt (pa * pa + pb * pb) ;;
    n2 <-- psqrt (qa * qa + qb * qb) ;;
    let a := n2 * pa + n1 * qa in
    let b := n2 * pb + n1 * qb in
    let c := n2 * pc + n1 * qc in
    if (a =? n0) && (b =? n0) then
      Ok (n2 * pa - n1 * qa, n2 * pb - n1 * qb, n2 * pc - n1 * qc)
    else Ok (a, b, c).

  (** line2d.py 215-218 *)
  Definition translated (l : line2) (v : pt) : res line2 :=
    let d := ldot (lw l) v in
    Line2 (lw l) (lb l - d) (negb (d =? n0)).

  (** line2d.py 220-227 *)
  Definition perpendicular (l : line2) (through : pt) : res line2 :=
    let '(a, b, c) := coefficients_perpendicular_through_point
                        (fst (lw l)) (snd (lw l)) (fst through) (snd through) in
    Line2 (a, b) c true.

  (** line2d.py 229-233 *)
  Definition bisector_line (l m : line2) : res line2 :=
    '(a, b, c) <-- coefficients_bisector_of_lines (fst (lw l)) (snd (lw l)) (lb l)
                     (fst (lw m)) (snd (lw m)) (lb m) ;;
    Line2 (a, b) c true.

  (** line2d.py 235-242 *)
  Definition signed_distance (l : line2) (p : pt) : num := ldot (lw l) p + lb l.

  (** line2d.py 244-249 *)
  Definition through (l : line2) : pt := mul2s (lw l) (- lb l).

  (** line2d.py 251-268; the two signed distances computed at the end are unused *)
  Definition from_points (s e : pt) : res line2 :=
    let '(a, b, c) := coefficients_from_points s e in
    ln <-- Line2 (a, b) c true ;;
    _ <-- rassert (negb (pt_eqb e s)) ;;
    Ok ln.

  (** line2d.py 270-272 *)
  Definition y_at_x (l : line2) (x : num) : res num :=
    pdiv ((- fst (lw l)) * x - lb l) (snd (lw l)).

  (** line2d.py 274-279 *)
  Definition ends (l : line2) : pt * pt :=
    let ccw := rotate90ccw (lw l) in
    let cw := rotate90cw (lw l) in
    (add2 (mul2s ccw (lit 1000)) (through l), add2 (mul2s cw (lit 1000)) (through l)).

  (** line2d.py 284-290 *)
  Definition at_time (l : line2) (now : num) : res line2 :=
    if now =? n0 then Line2 (lw l) (lb l) false
    else translated l (mul2s (lw l) now).

  (** line2d.py 310-319 *)
  Record wavefront := mkWF { wf_line : line2; wf_start : pt; wf_end : pt }.
  Definition WaveFront (s e : pt) (line : option line2) : res wavefront :=
    l <-- match line with None => from_points s e | Some l => Ok l end ;;
    Ok (mkWF l s e).

  (** line2d.py 372-375 and the [result] field of 378-382 *)
  Inductive isect := NO_INTERSECTION | POINT (p : pt) | LINE (l : line2).

  (** line2d.py 384-426 *)
  Definition intersection (one other : line2) : res isect :=
    let '(a1, b1) := lw one in let c1 := lb one in
    let '(a2, b2) := lw other in let c2 := lb other in
    let denom := a1 * b2 - a2 * b1 in
    if near_zero denom then
      let x1 := a1 * c2 - a2 * c1 in
      let x2 := b1 * c2 - b2 * c1 in
      if near_zero x1 && near_zero x2 then Ok (LINE one) else Ok NO_INTERSECTION
    else
      let num1 := b1 * c2 - b2 * c1 in
      let num2 := a2 * c1 - a1 * c2 in
      xw <-- pdiv num1 denom ;; yw <-- pdiv num2 denom ;;
      Ok (POINT (xw, yw)).

  (** line2d.py 333-359; the final norm is only logged (and cannot raise for a
      sum of squares) *)
  Definition get_bisector (left right : line2) : res pt :=
    i <-- intersection left right ;;
    match i with
    | LINE _ => Ok (add2 (mul2s (lw left) nhalf) (mul2s (lw right) nhalf))
    | POINT p0 =>
        lt <-- translated left (lw left) ;;
        rt <-- translated right (lw right) ;;
        j <-- intersection lt rt ;;
        match j with
        | POINT p1 => Ok (sub2 p1 p0)
        | _ => Err AssertionError
        end
    | NO_INTERSECTION => Ok (add2 (lw left) (lw right))
    end.

  (** line2d.py 364-369 *)
  Definition get_intersection_at_t (left right : line2) (t : num) : res pt :=
    l <-- at_time left t ;;
    r <-- at_time right t ;;
    i <-- intersection l r ;;
    match i with POINT p => Ok p | _ => Err ValueError end.

  (** line2d.py 361-362: [self.get_intersection_at_t()] lacks its argument *)
  Definition get_intersection (left right : line2) : res pt := Err TypeError.

  (** line2d.py 661-683 (prints omitted) *)
  Definition create_bevel_wavefront (first last : wavefront) : res (wavefront * pt * pt) :=
    _ <-- rassert (pt_eqb (wf_start first) (wf_end last)) ;;
    perp <-- perpendicular (wf_line first) (wf_start first) ;;
    wf_bevel <-- WaveFront (wf_start first) (wf_start first) (Some perp) ;;
    bisector1 <-- get_bisector (wf_line first) (wf_line wf_bevel) ;;
    i <-- get_intersection (wf_line first) (wf_line wf_bevel) ;;
    _ <-- rassert (pt_eqb i (wf_start first) && pt_eqb (wf_start first) (wf_end last)) ;;
    bisector2 <-- get_bisector (wf_line wf_bevel) (wf_line last) ;;
    i <-- get_intersection (wf_line wf_bevel) (wf_line last) ;;
    _ <-- rassert (pt_eqb i (wf_start first) && pt_eqb (wf_start first) (wf_end last)) ;;
    Ok (wf_bevel, bisector1, bisector2).
End Line2d.
Arguments line2 {A}.
Arguments wavefront {A}.
Arguments isect {A}.
