(** The triangulation (of package tri, called in __init__.py 43; not modelled) of four points that are the corners of a convex quadrilateral,
    given counterclockwise, cut by the diagonal from the first to the third, all sides being constraints.  Used by examples. *)
From Coq Require Import QArith.
From Verif Require Import Base Arith Primitives Initialize.

Definition quad_of {A : Arith} (pts : list (@num A * @num A)) : res (dtriang (A:=A)) :=
  let inf x y : dvert (A:=A) := mkDV (lit x, lit y) None false in
  let o a b c := mk3 (Some a) (Some b) (Some c) in
  Ok (mkDtri (fun i => match i with
                       | 4 => inf 0%Q (-100)%Q | 5 => inf 100%Q 100%Q | 6 => inf (-100)%Q 100%Q
                       | _ => mkDV (nth i pts (n0, n0)) None true
                       end) 4
   (fun t => nth t
     [mkDT (o 0 1 2) (mk3 (Some 3) (Some 1) (Some 2)) (mk3 true false true);
      mkDT (o 0 2 3) (mk3 (Some 4) (Some 5) (Some 0)) (mk3 true true false);
      mkDT (o 4 1 0) (mk3 (Some 0) (Some 8) (Some 6)) (mk3 true false false);
      mkDT (o 5 2 1) (mk3 (Some 0) (Some 6) (Some 4)) (mk3 true false false);
      mkDT (o 5 3 2) (mk3 (Some 1) (Some 3) (Some 7)) (mk3 true false false);
      mkDT (o 6 0 3) (mk3 (Some 1) (Some 7) (Some 8)) (mk3 true false false);
      mkDT (o 1 4 5) (mk3 None (Some 3) (Some 2)) (mk3 false false false);
      mkDT (o 3 5 6) (mk3 None (Some 5) (Some 4)) (mk3 false false false);
      mkDT (o 0 6 4) (mk3 None (Some 2) (Some 5)) (mk3 false false false)]
     (mkDT (mk3 None None None) (mk3 None None None) (mk3 false false false))) 9
   (fun v => nth v
     [[(0, S0); (1, S0); (5, S1); (8, S0); (2, S2)]; [(0, S1); (2, S1); (6, S0); (3, S2)];
      [(0, S2); (3, S1); (4, S2); (1, S1)]; [(1, S2); (4, S1); (7, S0); (5, S2)]] [])
   (fun t => t <? 2))%nat.
