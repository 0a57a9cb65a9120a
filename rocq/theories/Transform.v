(** Model of src/grassfire/transform.py. *)
From Verif Require Import Base Arith VectorOps.

Section Transform.
  Context {A : Arith}.
  Local Open Scope num_scope.
  Local Open Scope res_scope.

  (** transform.py 1-7 *)
  Record transform := mkTransform { tr_scale : pt; tr_translate : pt }.

  (** transform.py 9-12 *)
  Definition forward (t : transform) (p : pt) : res pt :=
    x <-- pdiv (fst p - fst (tr_translate t)) (fst (tr_scale t)) ;;
    y <-- pdiv (snd p - snd (tr_translate t)) (snd (tr_scale t)) ;;
    Ok (x, y).

  (** transform.py 14-17 *)
  Definition backward (t : transform) (p : pt) : pt :=
    (fst p * fst (tr_scale t) + fst (tr_translate t),
     snd p * snd (tr_scale t) + snd (tr_translate t)).

  (** transform.py 20-31; the divisions are by the constant 2. and cannot raise *)
  Definition get_transform (box : pt * pt) : transform :=
    let '((sxmin, symin), (sxmax, symax)) := box in
    let scx := (sxmin + sxmax) * nhalf in
    let scy := (symin + symax) * nhalf in
    let sdx := sxmax - sxmin in
    let sdy := symax - symin in
    let scale := nmax (ndivr sdx n2) (ndivr sdy n2) in
    mkTransform (scale, scale) (scx, scy).

  (** transform.py 41-49: one step of the loop *)
  Definition box_step (b : pt * pt) (p : pt) : pt * pt :=
    let '((llx, lly), (urx, ury)) := b in
    ((if fst p <? llx then fst p else llx, if snd p <? lly then snd p else lly),
     (if urx <? fst p then fst p else urx, if ury <? snd p then snd p else ury)).

  (** transform.py 34-50 *)
  Definition get_box (pts : list pt) : res (pt * pt) :=
    match pts with
    | [] => Err AssertionError
    | p :: r => Ok (fold_left box_step r (p, p))
    end.
End Transform.
Arguments transform {A}.
