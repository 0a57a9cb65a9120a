(** Small concrete states over exact rationals, used by the examples that show
    the hypotheses of theorems can be met.  No theorem depends on this file. *)
From Verif Require Import Base Arith ArithQ Calc VectorOps Line2d Primitives.
Local Open Scope Q_scope.

Definition dflt_v : kvertex (A:=QA) :=
  mkKV (A:=QA) false (0, 0) (0, 0) [] [] None None None None None None None None 0 false false.
Definition dflt_t : ktri (A:=QA) := mkTri (A:=QA) (mk3 0 0 0)%nat (mk3 None None None) None 0 None false.
Definition dflt_n : sknode (A:=QA) := mkNode (A:=QA) (0, 0) 0 None.
Definition dflt_e : event (A:=QA) := mkEv (A:=QA) 0 0 [] Edge 0.
Definition dflt_w : wavefront (A:=QA) := mkWF (A:=QA) (mkLine (A:=QA) (0, 1) 0) (0, 0) (1, 0).

(** a state from lists *)
Definition st (vl : list (kvertex (A:=QA))) (tl : list (ktri (A:=QA)))
  (nl : list (sknode (A:=QA))) (el : list (event (A:=QA))) (wl : list (wavefront (A:=QA)))
  (q im : list nat) : state (A:=QA) :=
  mkSt (A:=QA) (fun i => nth i vl dflt_v) (length vl) (fun i => nth i tl dflt_t) (length tl)
    (fun i => nth i nl dflt_n) (length nl) (fun i => nth i el dflt_e) (length el)
    (fun i => nth i wl dflt_w) (seq 0 (length nl)) (seq 0 (length vl)) (seq 0 (length tl)) q im.

(** a vertex moving from [o] with velocity [v], started at time 0 at node [n],
    between wavefronts [l] and [r] *)
Definition mv (o v : Q * Q) (n l r : nat) : kvertex (A:=QA) :=
  mkKV (A:=QA) false o v [] [] (Some 0) None (Some n) None (Some l) (Some r) (Some l) (Some r) 0 false true.
Definition infv (o : Q * Q) : kvertex (A:=QA) :=
  mkKV (A:=QA) true o (0, 0) [] [] None None None None None None None None 0 false false.
Definition tr (a b c : nat) (n0 n1 n2 : option nat) : ktri (A:=QA) :=
  mkTri (A:=QA) (mk3 a b c) (mk3 n0 n1 n2) None 0 None true.
Definition wf (w : Q * Q) (b : Q) : wavefront (A:=QA) :=
  mkWF (A:=QA) (mkLine (A:=QA) w b) (0, 0) (0, 0).
Definition nd (x y : Q) : sknode (A:=QA) := mkNode (A:=QA) (x, y) 0 None.

(** a right triangle (0,0) (4,0) (0,3), all sides wavefronts moving inwards:
    it shrinks to its incentre (1,1) at time 1 *)
Definition rt_triangle : state (A:=QA) :=
  st [mv (0, 0) (1, 1) 0 2 0; mv (4, 0) (-3, 1) 1 0 1; mv (0, 3) (1, -2) 2 1 2]
     [tr 0 1 2 None None None]
     [nd 0 0; nd 4 0; nd 0 3] []
     [wf (0, 1) 0; wf (-(3#5), -(4#5)) (12#5); wf (1, 0) 0] [] [].
