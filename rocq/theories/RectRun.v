(** The run on a quadrilateral cut by a diagonal whose triangles both lose a side of it at the same time, the other two sides being
    parallel: as far as it does not depend on the arithmetic.  [first_long] ... [second_short] execute the handler of the only event that
    does something, given the numbers it computes. *)
From Verif Require Import Base Arith Calc VectorOps Line2d Primitives EventLoop Initialize Main Collapse EventsLib ParallelEvent EdgeEvent TriStart.

(** ** Executing the monadic code step by step *)
Arguments upd {X} _ _ _ _ /.
Section Steps.
  Context {A : Arith}.
Lemma bind_step {X Y} (m : M (A:=A) X) (k : X -> M Y) s x s1 r : m s = Ok (x, s1) -> k x s1 = r -> bind m k s = r.
Proof. intros H1 H2. unfold bind. rewrite H1. exact H2. Qed.
Lemma gets_step {X} (f : state (A:=A) -> X) s x : f s = x -> gets f s = Ok (x, s).
Proof. intros <-. reflexivity. Qed.
Lemma rd_step {X} (f : state (A:=A) -> res X) s x : f s = Ok x -> rd f s = Ok (x, s).
Proof. intros H. unfold rd. rewrite H. reflexivity. Qed.
Lemma pos_step s v t : k_inf (vs s v) = false -> k_inf_fast (vs s v) = false -> position_at (A:=A) s v t =
   Ok (nadd (fst (k_origin (vs s v))) (nmul t (fst (k_velocity (vs s v)))), nadd (snd (k_origin (vs s v))) (nmul t (snd (k_velocity (vs s v))))).
Proof. intros H1 H2. unfold position_at. rewrite H1, H2. reflexivity. Qed.
  Context (a1 : nat -> kvertex (A:=A)) (a2 : nat) (a3 : nat -> ktri (A:=A)) (a4 : nat) (a5 : nat -> sknode (A:=A)) (a6 : nat) (a7 : nat -> event (A:=A))
    (a8 : nat) (a9 : nat -> wavefront (A:=A)) (l1 l2 l3 l4 l5 : list nat).
  Let s := mkSt a1 a2 a3 a4 a5 a6 a7 a8 a9 l1 l2 l3 l4 l5.
  Lemma setv_step v k k' : k = k' -> setv v k s = Ok (tt, mkSt (upd a1 v k') a2 a3 a4 a5 a6 a7 a8 a9 l1 l2 l3 l4 l5).
  Proof. intros <-. reflexivity. Qed.
  Lemma sett_step v k k' : k = k' -> sett v k s = Ok (tt, mkSt a1 a2 (upd a3 v k') a4 a5 a6 a7 a8 a9 l1 l2 l3 l4 l5).
  Proof. intros <-. reflexivity. Qed.
  Lemma setq_step k k' : k = k' -> setq k s = Ok (tt, mkSt a1 a2 a3 a4 a5 a6 a7 a8 a9 l1 l2 l3 k' l5).
  Proof. intros <-. reflexivity. Qed.
  Lemma seti_step k k' : k = k' -> seti k s = Ok (tt, mkSt a1 a2 a3 a4 a5 a6 a7 a8 a9 l1 l2 l3 l4 k').
  Proof. intros <-. reflexivity. Qed.
  Lemma allocv_step k k' : k = k' -> alloc_v k s = Ok (a2, mkSt (upd a1 a2 k') (S a2) a3 a4 a5 a6 a7 a8 a9 l1 l2 l3 l4 l5).
  Proof. intros <-. reflexivity. Qed.
  Lemma allocn_step k k' : k = k' -> alloc_n k s = Ok (a6, mkSt a1 a2 a3 a4 (upd a5 a6 k') (S a6) a7 a8 a9 l1 l2 l3 l4 l5).
  Proof. intros <-. reflexivity. Qed.
  Lemma addn_step k l : l1 ++ [k] = l -> add_node k s = Ok (tt, mkSt a1 a2 a3 a4 a5 a6 a7 a8 a9 l l2 l3 l4 l5).
  Proof. intros <-. reflexivity. Qed.
  Lemma addv_step k l : l2 ++ [k] = l -> add_vertex k s = Ok (tt, mkSt a1 a2 a3 a4 a5 a6 a7 a8 a9 l1 l l3 l4 l5).
  Proof. intros <-. reflexivity. Qed.
End Steps.
Ltac simp facts := repeat (progress (cbn [vs nv ts nt ns nn es ne wfs sk_nodes sk_vertices sk_triangles queue immediate upd Nat.eqb Nat.compare Nat.add Nat.mul
   k_inf k_origin k_velocity k_left k_right k_starts k_stops k_start_node k_stop_node k_ul k_ur k_wfl k_wfr k_info k_inf_fast k_internal
   t_v t_n t_event t_info t_stops t_internal ev_time ev_tri ev_side ev_tp ev_tritp sn_pos sn_step sn_info fst snd
   is_some is_none negb andb orb length app rev last onat_eqb get3 set3 x0 x1 x2 ccw cw list3 sides side_eqb first_vertex
   kattr rbind rmapl fold_left kleft kright hist_last hist_set hist_close map3 count3 where3 find3 index3 vindex nindex tri_type edge_segment filter
   q_discard remove1 forallb existsb kv_stops kv_stop_node kv_wf kv_left kv_right tri_v tri_n tri_event tri_stops rassert id]; facts)).
Ltac unf := cbv beta iota; unfold vget, tget, eget, vattr, rdr, deref, stop_at, stop_and_register, stop_kvertices, compute_new_kvertex,
  update_circ, replace_kvertex, relink, unlink_and_schedule, left_wfr, right_wfl, wf_bisector, wf_intersection_at, wfline, set_stops, set_stop_node, set_wf,
  set_left, set_right, modv, modt, set_tv, set_tn, set_tstops, queue_discard, immediate_remove, edge_precheck, leg_length, even_legs_at,
  handle_parallel_edge_event_even_legs, parallel_fan_isolated, parallel_fan_of, schedule_if_tiny, compare_event_by_time, min3, nmin.
Ltac calc facts := cbv beta; unfold mean_position, distance2_at, kattr, new_kvertex, tri_type, position_at, pt_eqb, min3, nmin, compare_event_by_time, dist_2, norm_2, norm2_2, dot2, sub2; simp facts; try reflexivity.
Ltac run HR facts := unf;
  lazymatch goal with
  | |- bind _ _ _ = _ => tryif (eapply bind_step; [solve [run HR facts]|]) then run HR facts else idtac
  | |- ret _ _ = _ => reflexivity
  | |- gets _ _ = _ => apply gets_step; calc facts
  | |- rd _ _ = _ => apply rd_step; calc facts
  | |- setv _ _ _ = _ => apply setv_step; simp facts; reflexivity
  | |- sett _ _ _ = _ => apply sett_step; simp facts; reflexivity
  | |- setq _ _ = _ => apply setq_step; simp facts; reflexivity
  | |- seti _ _ = _ => apply seti_step; simp facts; reflexivity
  | |- alloc_v _ _ = _ => apply allocv_step; simp facts; reflexivity
  | |- alloc_n _ _ = _ => apply allocn_step; simp facts; reflexivity
  | |- add_node _ _ = _ => apply addn_step; simp facts; reflexivity
  | |- add_vertex _ _ = _ => apply addv_step; simp facts; reflexivity
  | |- assertM _ _ = _ => unfold assertM; simp facts; try reflexivity
  | |- whenM _ _ _ = _ => unfold whenM; simp facts; run HR facts
  | |- forM _ _ _ = _ => simp facts; cbn [forM]; run HR facts
  | |- stop_scan _ _ _ _ = _ => simp facts; cbn [stop_scan]; run HR facts
  | |- replace_walk _ _ _ _ _ _ _ = _ => simp facts; cbn [replace_walk]; run HR facts
  | |- handle_parallel_fan reclimit _ _ _ _ _ _ = _ => rewrite HR; simp facts; cbn [handle_parallel_fan]; run HR facts
  | _ => tryif progress simp facts then run HR facts else idtac
  end.

(** ** The state before the event is handled and after it *)
Section Outcome.
  Context {A : Arith}.
  Definition before V TS NS ES W N tris (q : list nat) : state (A:=A) := mkSt V 9 TS 9 NS 4 ES 2 W N [0; 2; 4; 6]%nat tris q [].
  (** the vertex [v] moved from [p], where node [n] is, with velocity [bv] until time [T], and ended in node [m]; until then [l] was to its left *)
  Record arm (T : num) (s' : state (A:=A)) (v : nat) (p bv : @num A * @num A) (l n m : nat) : Prop := {
    ar_inf : k_inf (vs s' v) = false;
    ar_fast : k_inf_fast (vs s' v) = false;
    ar_origin : k_origin (vs s' v) = p;
    ar_velocity : k_velocity (vs s' v) = bv;
    ar_starts : k_starts (vs s' v) = Some n0;
    ar_stops : k_stops (vs s' v) = Some T;
    ar_start : k_start_node (vs s' v) = Some n;
    ar_stop : k_stop_node (vs s' v) = Some m;
    ar_left : k_left (vs s' v) = [(n0, None, Some l)] \/ exists l', k_left (vs s' v) = [(n0, Some T, Some l); (T, None, Some l')] }.
  (** four such vertices, and one that lived at time [T] only, between the two new nodes *)
  Record outcome (T : num) (q4 q5 : @num A * @num A) (NS : nat -> sknode (A:=A)) (N tris : list nat) (s' : state (A:=A))
      (arms : list (nat * (@num A * @num A) * (@num A * @num A) * nat * nat * nat)) : Prop := {
    oc_vertices : sk_vertices s' = [0; 2; 4; 6; 9]%nat;
    oc_triangles : sk_triangles s' = tris;
    oc_nodes : sk_nodes s' = N ++ [4; 5]%nat;
    oc_ns : ns s' = upd (upd NS 4%nat (mkNode q4 1 None)) 5%nat (mkNode q5 1 None);
    oc_stops0 : t_stops (ts s' 0%nat) = Some T;
    oc_stops1 : t_stops (ts s' 1%nat) = Some T;
    oc_queue : queue s' = [];
    oc_immediate : immediate s' = [];
    oc_ridge_inf : k_inf (vs s' 9%nat) = false;
    oc_ridge_fast : k_inf_fast (vs s' 9%nat) = true;
    oc_ridge_starts : k_starts (vs s' 9%nat) = Some T;
    oc_ridge_stops : k_stops (vs s' 9%nat) = Some T;
    oc_ridge_start : k_start_node (vs s' 9%nat) = Some 4%nat;
    oc_ridge_stop : k_stop_node (vs s' 9%nat) = Some 5%nat;
    oc_arms : forall v p bv l n m, In (v, p, bv, l, n, m) arms -> arm T s' v p bv l n m }.
End Outcome.

Section Long.
Context {A : Arith} {E : Env A}.
Context (p0 p1 p2 p3 b0 b1 b2 b3 a b : @num A * @num A) (T L : @num A) (w01 w12 w23 w30 : wavefront (A:=A)).
Context (V : nat -> kvertex (A:=A)) (TS : nat -> ktri (A:=A)) (NS : nat -> sknode (A:=A)) (ES : nat -> event (A:=A)) (W : nat -> wavefront (A:=A))
  (N tris : list nat).
Context (V0 : V 0%nat = first_vertex p0 b0 6 2 0 4 2 1) (V2 : V 2%nat = first_vertex p1 b1 0 4 1 2 0 3)
  (V4 : V 4%nat = first_vertex p2 b2 2 6 2 0 3 5) (V6 : V 6%nat = first_vertex p3 b3 4 0 3 3 4 7)
  (W0 : W 0%nat = w12) (W2 : W 2%nat = w01) (W3 : W 3%nat = w23) (W4 : W 4%nat = w30).
Context (e0 e1 : nat).
Context (T0 : TS 0%nat = mkTri (mk3 0 2 4)%nat (mk3 None (Some 1%nat) None) (Some e0) 1 None true)
  (T1 : TS 1%nat = mkTri (mk3 0 4 6)%nat (mk3 None None (Some 0%nat)) (Some e1) 2 None true).
Context (E0 : ES e0 = mkEv T 0 [S0] Edge 2) (E1 : ES e1 = mkEv T 1 [S1] Edge 2).
(** the numbers *)
Context (X0 : nadd (fst p0) (nmul T (fst b0)) = fst a) (Y0 : nadd (snd p0) (nmul T (snd b0)) = snd a).
Context (X1 : nadd (fst p1) (nmul T (fst b1)) = fst b) (Y1 : nadd (snd p1) (nmul T (snd b1)) = snd b).
Context (X2 : nadd (fst p2) (nmul T (fst b2)) = fst b) (Y2 : nadd (snd p2) (nmul T (snd b2)) = snd b).
Context (X3 : nadd (fst p3) (nmul T (fst b3)) = fst a) (Y3 : nadd (snd p3) (nmul T (snd b3)) = snd a).
Context (TT : neqb T T = true) (TL : nltb T T = false) (NZ : near_zero (nsub n0 T) = false) (Z0 : neqb n0 n0 = true).
Context (Z1 : forall x : @num A, nadd n0 x = x) (M2 : forall x : @num A, pdiv (nadd x x) (nofnat 2) = Ok x).
Context (c c' : @num A * @num A) (G1 : get_bisector (wf_line w01) (wf_line w23) = Ok c) (G2 : get_bisector (wf_line w23) (wf_line w01) = Ok c').
Context (I1 : get_intersection_at_t (wf_line w01) (wf_line w23) T = Err ValueError)
  (I2 : get_intersection_at_t (wf_line w23) (wf_line w01) T = Err ValueError).
Context (NV1 : forall o, new_velocity (wf_line w01) (wf_line w23) T o = Ok ((n0, n0), None))
  (NV2 : forall o, new_velocity (wf_line w23) (wf_line w01) T o = Ok ((n0, n0), None)).
Context (z : @num A) (NR : psqrt (nadd (nmul n0 n0) (nmul n0 n0)) = Ok z).
Context (D1 : psqrt (nadd (nmul (nsub (fst a) (fst b)) (nsub (fst a) (fst b))) (nmul (nsub (snd a) (snd b)) (nsub (snd a) (snd b)))) = Ok L)
  (D2 : psqrt (nadd (nmul (nsub (fst b) (fst a)) (nsub (fst b) (fst a))) (nmul (nsub (snd b) (snd a)) (nsub (snd b) (snd a)))) = Ok L)
  (D3 : psqrt (nadd (nmul (nsub (fst a) (fst a)) (nsub (fst a) (fst a))) (nmul (nsub (snd a) (snd a)) (nsub (snd a) (snd a)))) = Ok n0)
  (D4 : psqrt (nadd (nmul (nsub (fst b) (fst b)) (nsub (fst b) (fst b))) (nmul (nsub (snd b) (snd b)) (nsub (snd b) (snd b)))) = Ok n0).
Context (NL : near_zero L = false) (LP : nltb n0 L = true) (LL : nltb L L = false) (L0 : nltb L n0 = false) (NL0 : near_zero (nsub L n0) = false) (N00 : near_zero (nsub n0 n0) = true) (N0 : near_zero n0 = true).
Context (rl : nat) (HR : reclimit = S rl).
Ltac facts := rewrite ?Z1, ?V0, ?V2, ?V4, ?V6, ?W0, ?W2, ?W3, ?W4, ?T0, ?T1, ?E0, ?E1, ?TT, ?TL, ?NZ, ?G1, ?G2, ?I1, ?I2, ?NV1, ?NV2, ?M2, ?X0, ?Y0, ?X1, ?Y1, ?X2, ?Y2, ?X3, ?Y3,
  ?NR, ?Z0, ?D1, ?D2, ?D3, ?D4, ?NL, ?LP, ?LL, ?L0, ?NL0, ?N00, ?N0, ?Z.compare_refl.

Lemma first_long : exists s', handle_event e0 1 (before V TS NS ES W N tris [e1]) = Ok (tt, s') /\
  outcome T (fst b, snd b) (fst a, snd a) NS N tris s' [(0, p0, b0, 6, 0, 5); (2, p1, b1, 0, 1, 4); (4, p2, b2, 2, 2, 4); (6, p3, b3, 4, 3, 5)]%nat.
Proof.
  eexists. unfold before, handle_event. split.
  - run HR facts. unfold handle_edge_event, handle_edge_event_with. run HR facts.
  - constructor; try (cbn; rewrite ?app_nil_r, <- ?app_assoc; reflexivity).
    intros v p bv l m k [Q|[Q|[Q|[Q|[]]]]]; injection Q as <- <- <- <- <- <-; constructor; cbn; rewrite ?V0, ?V2, ?V4, ?V6; cbn; eauto.
Qed.
Lemma second_long : exists s', handle_event e1 1 (before V TS NS ES W N tris [e0]) = Ok (tt, s') /\
  outcome T (fst a, snd a) (fst b, snd b) NS N tris s' [(0, p0, b0, 6, 0, 4); (2, p1, b1, 0, 1, 5); (4, p2, b2, 2, 2, 5); (6, p3, b3, 4, 3, 4)]%nat.
Proof.
  eexists. unfold before, handle_event. split.
  - run HR facts. unfold handle_edge_event, handle_edge_event_with. run HR facts.
  - constructor; try (cbn; rewrite ?app_nil_r, <- ?app_assoc; reflexivity).
    intros v p bv l m k [Q|[Q|[Q|[Q|[]]]]]; injection Q as <- <- <- <- <- <-; constructor; cbn; rewrite ?V0, ?V2, ?V4, ?V6; cbn; eauto.
Qed.
End Long.

Section Short.
Context {A : Arith} {E : Env A}.
Context (p0 p1 p2 p3 b0 b1 b2 b3 a b : @num A * @num A) (T L : @num A) (w01 w12 w23 w30 : wavefront (A:=A)).
Context (V : nat -> kvertex (A:=A)) (TS : nat -> ktri (A:=A)) (NS : nat -> sknode (A:=A)) (ES : nat -> event (A:=A)) (W : nat -> wavefront (A:=A))
  (N tris : list nat).
Context (V0 : V 0%nat = first_vertex p0 b0 6 2 0 4 2 1) (V2 : V 2%nat = first_vertex p1 b1 0 4 1 2 0 3)
  (V4 : V 4%nat = first_vertex p2 b2 2 6 2 0 3 5) (V6 : V 6%nat = first_vertex p3 b3 4 0 3 3 4 7)
  (W0 : W 0%nat = w12) (W2 : W 2%nat = w01) (W3 : W 3%nat = w23) (W4 : W 4%nat = w30).
Context (e0 e1 : nat).
Context (T0 : TS 0%nat = mkTri (mk3 0 2 4)%nat (mk3 None (Some 1%nat) None) (Some e0) 1 None true)
  (T1 : TS 1%nat = mkTri (mk3 0 4 6)%nat (mk3 None None (Some 0%nat)) (Some e1) 2 None true).
Context (E0 : ES e0 = mkEv T 0 [S2] Edge 2) (E1 : ES e1 = mkEv T 1 [S0] Edge 2).
(** the numbers *)
Context (X0 : nadd (fst p0) (nmul T (fst b0)) = fst a) (Y0 : nadd (snd p0) (nmul T (snd b0)) = snd a).
Context (X1 : nadd (fst p1) (nmul T (fst b1)) = fst a) (Y1 : nadd (snd p1) (nmul T (snd b1)) = snd a).
Context (X2 : nadd (fst p2) (nmul T (fst b2)) = fst b) (Y2 : nadd (snd p2) (nmul T (snd b2)) = snd b).
Context (X3 : nadd (fst p3) (nmul T (fst b3)) = fst b) (Y3 : nadd (snd p3) (nmul T (snd b3)) = snd b).
Context (TT : neqb T T = true) (TL : nltb T T = false) (NZ : near_zero (nsub n0 T) = false) (Z0 : neqb n0 n0 = true).
Context (Z1 : forall x : @num A, nadd n0 x = x) (M2 : forall x : @num A, pdiv (nadd x x) (nofnat 2) = Ok x).
Context (c c' : @num A * @num A) (G1 : get_bisector (wf_line w12) (wf_line w30) = Ok c) (G2 : get_bisector (wf_line w30) (wf_line w12) = Ok c').
Context (I1 : get_intersection_at_t (wf_line w12) (wf_line w30) T = Err ValueError)
  (I2 : get_intersection_at_t (wf_line w30) (wf_line w12) T = Err ValueError).
Context (NV1 : forall o, new_velocity (wf_line w12) (wf_line w30) T o = Ok ((n0, n0), None))
  (NV2 : forall o, new_velocity (wf_line w30) (wf_line w12) T o = Ok ((n0, n0), None)).
Context (z : @num A) (NR : psqrt (nadd (nmul n0 n0) (nmul n0 n0)) = Ok z).
Context (D1 : psqrt (nadd (nmul (nsub (fst a) (fst b)) (nsub (fst a) (fst b))) (nmul (nsub (snd a) (snd b)) (nsub (snd a) (snd b)))) = Ok L)
  (D2 : psqrt (nadd (nmul (nsub (fst b) (fst a)) (nsub (fst b) (fst a))) (nmul (nsub (snd b) (snd a)) (nsub (snd b) (snd a)))) = Ok L)
  (D3 : psqrt (nadd (nmul (nsub (fst a) (fst a)) (nsub (fst a) (fst a))) (nmul (nsub (snd a) (snd a)) (nsub (snd a) (snd a)))) = Ok n0)
  (D4 : psqrt (nadd (nmul (nsub (fst b) (fst b)) (nsub (fst b) (fst b))) (nmul (nsub (snd b) (snd b)) (nsub (snd b) (snd b)))) = Ok n0).
Context (NL : near_zero L = false) (LP : nltb n0 L = true) (LL : nltb L L = false) (L0 : nltb L n0 = false) (NL0 : near_zero (nsub L n0) = false) (N00 : near_zero (nsub n0 n0) = true) (N0 : near_zero n0 = true).
Context (rl : nat) (HR : reclimit = S rl).
Ltac facts := rewrite ?Z1, ?V0, ?V2, ?V4, ?V6, ?W0, ?W2, ?W3, ?W4, ?T0, ?T1, ?E0, ?E1, ?TT, ?TL, ?NZ, ?G1, ?G2, ?I1, ?I2, ?NV1, ?NV2, ?M2, ?X0, ?Y0, ?X1, ?Y1, ?X2, ?Y2, ?X3, ?Y3,
  ?NR, ?Z0, ?D1, ?D2, ?D3, ?D4, ?NL, ?LP, ?LL, ?L0, ?NL0, ?N00, ?N0, ?Z.compare_refl.

Lemma first_short : exists s', handle_event e0 1 (before V TS NS ES W N tris [e1]) = Ok (tt, s') /\
  outcome T (fst a, snd a) (fst b, snd b) NS N tris s' [(0, p0, b0, 6, 0, 4); (2, p1, b1, 0, 1, 4); (4, p2, b2, 2, 2, 5); (6, p3, b3, 4, 3, 5)]%nat.
Proof.
  eexists. unfold before, handle_event. split.
  - run HR facts. unfold handle_edge_event, handle_edge_event_with. run HR facts.
  - constructor; try (cbn; rewrite ?app_nil_r, <- ?app_assoc; reflexivity).
    intros v p bv l m k [Q|[Q|[Q|[Q|[]]]]]; injection Q as <- <- <- <- <- <-; constructor; cbn; rewrite ?V0, ?V2, ?V4, ?V6; cbn; eauto.
Qed.
Lemma second_short : exists s', handle_event e1 1 (before V TS NS ES W N tris [e0]) = Ok (tt, s') /\
  outcome T (fst b, snd b) (fst a, snd a) NS N tris s' [(0, p0, b0, 6, 0, 5); (2, p1, b1, 0, 1, 5); (4, p2, b2, 2, 2, 4); (6, p3, b3, 4, 3, 4)]%nat.
Proof.
  eexists. unfold before, handle_event. split.
  - run HR facts. unfold handle_edge_event, handle_edge_event_with. run HR facts.
  - constructor; try (cbn; rewrite ?app_nil_r, <- ?app_assoc; reflexivity).
    intros v p bv l m k [Q|[Q|[Q|[Q|[]]]]]; injection Q as <- <- <- <- <- <-; constructor; cbn; rewrite ?V0, ?V2, ?V4, ?V6; cbn; eauto.
Qed.
End Short.
