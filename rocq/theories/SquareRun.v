(** The run on a quadrilateral cut by a diagonal whose four corners meet in a point at the same time: as far as it does not depend on the
    arithmetic.  The triangle handled first stops its three corners in a new node and makes the event of the other one immediate, which
    stops the fourth corner in the same node. *)
From Verif Require Import Base Arith Calc VectorOps Line2d Primitives EventLoop Initialize Main Collapse EventsLib ParallelEvent EdgeEvent TriStart RectRun RectLoop.

Section Steps2.
  Context {A : Arith}.
  Context (a1 : nat -> kvertex (A:=A)) (a2 : nat) (a3 : nat -> ktri (A:=A)) (a4 : nat) (a5 : nat -> sknode (A:=A)) (a6 : nat) (a7 : nat -> event (A:=A))
    (a8 : nat) (a9 : nat -> wavefront (A:=A)) (l1 l2 l3 l4 l5 : list nat).
  Let s := mkSt a1 a2 a3 a4 a5 a6 a7 a8 a9 l1 l2 l3 l4 l5.
  Lemma alloce_step k k' : k = k' -> alloc_e k s = Ok (a8, mkSt a1 a2 a3 a4 a5 a6 (upd a7 a8 k') (S a8) a9 l1 l2 l3 l4 l5).
  Proof. intros <-. reflexivity. Qed.
  Lemma sete_step v k k' : k = k' -> sete v k s = Ok (tt, mkSt a1 a2 a3 a4 a5 a6 (upd a7 v k') a8 a9 l1 l2 l3 l4 l5).
  Proof. intros <-. reflexivity. Qed.
End Steps2.
Ltac unf3 := unf; unfold schedule_neighbour, schedule_immediately, compute_new_edge_collapse_event, set_tevent, handle_edge_event_3sides, list3, sides.
Ltac calc3 facts := cbv beta; unfold new_edge_collapse_event, mkevent, dists, dists2, distance2_at, sqrt3, where3, min3, nmin; calc facts.
Ltac run3 facts := unf3;
  lazymatch goal with
  | |- bind _ _ _ = _ => tryif (eapply bind_step; [solve [run3 facts]|]) then run3 facts else idtac
  | |- ret _ _ = _ => reflexivity
  | |- gets _ _ = _ => apply gets_step; calc3 facts
  | |- rd _ _ = _ => apply rd_step; calc3 facts
  | |- setv _ _ _ = _ => apply setv_step; simp facts; reflexivity
  | |- sett _ _ _ = _ => apply sett_step; simp facts; reflexivity
  | |- setq _ _ = _ => apply setq_step; simp facts; reflexivity
  | |- seti _ _ = _ => apply seti_step; simp facts; reflexivity
  | |- alloc_n _ _ = _ => apply allocn_step; simp facts; reflexivity
  | |- alloc_e _ _ = _ => apply alloce_step; simp facts; reflexivity
  | |- sete _ _ _ = _ => apply sete_step; simp facts; reflexivity
  | |- add_node _ _ = _ => apply addn_step; simp facts; reflexivity
  | |- assertM _ _ = _ => unfold assertM; simp facts; try reflexivity
  | |- whenM _ _ _ = _ => unfold whenM; simp facts; run3 facts
  | |- forM _ _ _ = _ => simp facts; cbn [forM]; run3 facts
  | |- stop_scan _ _ _ _ = _ => simp facts; cbn [stop_scan]; run3 facts
  | _ => tryif progress simp facts then run3 facts else idtac
  end.

(** ** The state after both events *)
Section Outcome.
  Context {A : Arith}.
  Record meeting (T : num) (c : @num A * @num A) (NS : nat -> sknode (A:=A)) (N tris : list nat) (s' : state (A:=A))
      (arms : list (nat * (@num A * @num A) * (@num A * @num A) * nat * nat)) : Prop := {
    me_vertices : sk_vertices s' = [0; 2; 4; 6]%nat;
    me_triangles : sk_triangles s' = tris;
    me_nodes : sk_nodes s' = N ++ [4]%nat;
    me_ns : ns s' = upd NS 4%nat (mkNode c 1 None);
    me_stops0 : t_stops (ts s' 0%nat) = Some T;
    me_stops1 : t_stops (ts s' 1%nat) = Some T;
    me_queue : queue s' = [];
    me_immediate : immediate s' = [];
    me_arms : forall v p bv l n, In (v, p, bv, l, n) arms -> arm T s' v p bv l n 4 }.
  Definition no_immediate (s : state (A:=A)) : state (A:=A) :=
    mkSt (vs s) (nv s) (ts s) (nt s) (ns s) (nn s) (es s) (ne s) (wfs s) (sk_nodes s) (sk_vertices s) (sk_triangles s) (queue s) [].
End Outcome.

Section Square.
Context {A : Arith} {E : Env A}.
Context (p0 p1 p2 p3 b0 b1 b2 b3 c : @num A * @num A) (T : @num A).
Context (V : nat -> kvertex (A:=A)) (TS : nat -> ktri (A:=A)) (NS : nat -> sknode (A:=A)) (ES : nat -> event (A:=A)) (W : nat -> wavefront (A:=A))
  (N tris : list nat).
Context (V0 : V 0%nat = first_vertex p0 b0 6 2 0 4 2 1) (V2 : V 2%nat = first_vertex p1 b1 0 4 1 2 0 3)
  (V4 : V 4%nat = first_vertex p2 b2 2 6 2 0 3 5) (V6 : V 6%nat = first_vertex p3 b3 4 0 3 3 4 7).
Context (e0 e1 : nat) (L0 : (e0 < 2)%nat) (L1 : (e1 < 2)%nat).
Context (T0 : TS 0%nat = mkTri (mk3 0 2 4)%nat (mk3 None (Some 1%nat) None) (Some e0) 1 None true)
  (T1 : TS 1%nat = mkTri (mk3 0 4 6)%nat (mk3 None None (Some 0%nat)) (Some e1) 2 None true).
Context (E0 : ES e0 = mkEv T 0 [S0; S1; S2] Edge 2) (E1 : ES e1 = mkEv T 1 [S0; S1; S2] Edge 2).
Context (X0 : nadd (fst p0) (nmul T (fst b0)) = fst c) (Y0 : nadd (snd p0) (nmul T (snd b0)) = snd c).
Context (X1 : nadd (fst p1) (nmul T (fst b1)) = fst c) (Y1 : nadd (snd p1) (nmul T (snd b1)) = snd c).
Context (X2 : nadd (fst p2) (nmul T (fst b2)) = fst c) (Y2 : nadd (snd p2) (nmul T (snd b2)) = snd c).
Context (X3 : nadd (fst p3) (nmul T (fst b3)) = fst c) (Y3 : nadd (snd p3) (nmul T (snd b3)) = snd c).
Context (TT : neqb T T = true) (TL : nltb T T = false) (NZ : near_zero (nsub n0 T) = false) (Z0 : nltb n0 n0 = false).
Context (Z1 : forall x : @num A, nadd n0 x = x) (M3 : forall x : @num A, pdiv (nadd (nadd x x) x) (nofnat 3) = Ok x).
Context (D3 : psqrt (nadd (nmul (nsub (fst c) (fst c)) (nsub (fst c) (fst c))) (nmul (nsub (snd c) (snd c)) (nsub (snd c) (snd c)))) = Ok n0).
Context (N00 : near_zero (nsub n0 n0) = true).
Ltac facts := rewrite ?Z1, ?V0, ?V2, ?V4, ?V6, ?T0, ?T1, ?E0, ?E1, ?TT, ?TL, ?NZ, ?M3, ?X0, ?Y0, ?X1, ?Y1, ?X2, ?Y2, ?X3, ?Y3, ?Z0, ?D3, ?N00, ?Z.compare_refl.

Lemma first_square : exists s1 s', handle_event e0 1 (before V TS NS ES W N tris [e1]) = Ok (tt, s1) /\ immediate s1 = [2%nat] /\ queue s1 = [] /\
  es s1 2%nat = mkEv T 1 [S0; S1; S2] Edge 3 /\ handle_event 2 2 (no_immediate s1) = Ok (tt, s') /\
  meeting T (fst c, snd c) NS N tris s' [(0, p0, b0, 6, 0); (2, p1, b1, 0, 1); (4, p2, b2, 2, 2); (6, p3, b3, 4, 3)]%nat.
Proof.
  eexists _, _. unfold before, handle_event at 1. split; [run3 facts|].
  split; [reflexivity|]. split; [reflexivity|]. split; [reflexivity|]. split.
  - unfold no_immediate, handle_event. simp facts. run3 facts.
  - constructor; try (cbn; rewrite ?app_nil_r, <- ?app_assoc; reflexivity).
    intros v p bv l m [Q|[Q|[Q|[Q|[]]]]]; injection Q as <- <- <- <- <-; constructor; cbn; rewrite ?V0, ?V2, ?V4, ?V6; cbn; eauto.
Qed.
Lemma second_square : exists s1 s', handle_event e1 1 (before V TS NS ES W N tris [e0]) = Ok (tt, s1) /\ immediate s1 = [2%nat] /\ queue s1 = [] /\
  es s1 2%nat = mkEv T 0 [S0; S1; S2] Edge 3 /\ handle_event 2 2 (no_immediate s1) = Ok (tt, s') /\
  meeting T (fst c, snd c) NS N tris s' [(0, p0, b0, 6, 0); (2, p1, b1, 0, 1); (4, p2, b2, 2, 2); (6, p3, b3, 4, 3)]%nat.
Proof.
  eexists _, _. unfold before, handle_event at 1. split; [run3 facts|].
  split; [reflexivity|]. split; [reflexivity|]. split; [reflexivity|]. split.
  - unfold no_immediate, handle_event. simp facts. run3 facts.
  - constructor; try (cbn; rewrite ?app_nil_r, <- ?app_assoc; reflexivity).
    intros v p bv l m [Q|[Q|[Q|[Q|[]]]]]; injection Q as <- <- <- <- <-; constructor; cbn; rewrite ?V0, ?V2, ?V4, ?V6; cbn; eauto.
Qed.
End Square.

(** ** The loop: an event from the queue, then an immediate one *)
Section LoopTwice.
Context {A : Arith} {E : Env A}.
Context (V : nat -> kvertex (A:=A)) (NS : nat -> sknode (A:=A)) (W : nat -> wavefront (A:=A)) (N tris : list nat) (T : @num A).
Context (TR : tris = [0; 1]%nat \/ tris = [1; 0]%nat).
Lemma loop_twice TS' ES' e f c arms s1 s' :
  check_bisectors (before V TS' NS ES' W N tris [e; f]) n0 = Ok tt ->
  check_active_triangles_orientation (before V TS' NS ES' W N tris [e; f]) n0 = Ok tt ->
  ev_time (ES' e) = T -> handle_event e 1 (before V TS' NS ES' W N tris [f]) = Ok (tt, s1) -> immediate s1 = [2%nat] -> queue s1 = [] ->
  handle_event 2 2 (no_immediate s1) = Ok (tt, s') -> meeting T c NS N tris s' arms ->
  event_loop (before V TS' NS ES' W N tris [e; f]) = Ok (T, s').
Proof.
  intros CB CO ET H I1 Q1 H2 OC. unfold event_loop. eapply bind_step; [apply seti_step; reflexivity|].
  eapply bind_step; [apply rd_step; exact CB|]. eapply bind_step; [apply rd_step; exact CO|].
  assert (G : exists g, max_events = S (S (S g))) by (exists 49997%nat; reflexivity). destruct G as [g ->].
  eapply bind_step.
  - cbn [loop]. eapply bind_step; [apply gets_step; reflexivity|]. eapply bind_step; [apply gets_step; reflexivity|].
    cbv beta iota. eapply bind_step; [unfold take_next; eapply bind_step; [apply gets_step; reflexivity|]|].
    { cbn [immediate before]. eapply bind_step; [apply gets_step; reflexivity|]. cbn [queue before]. eapply bind_step; [apply setq_step; reflexivity|].
      eapply bind_step; [apply gets_step; reflexivity|]. reflexivity. }
    cbn [fst snd es before]. rewrite ET. eapply bind_step; [exact H|].
    eapply bind_step; [apply gets_step; exact I1|]. eapply bind_step; [apply gets_step; exact Q1|]. cbv beta iota.
    eapply bind_step; [unfold take_next; eapply bind_step; [apply gets_step; exact I1|]|].
    { cbv beta iota. eapply bind_step; [|reflexivity]. instantiate (1 := no_immediate s1). destruct s1. reflexivity. }
    cbn [fst snd]. eapply bind_step; [exact H2|].
    eapply bind_step; [apply gets_step; apply (me_immediate _ _ _ _ _ _ _ OC)|].
    eapply bind_step; [apply gets_step; apply (me_queue _ _ _ _ _ _ _ OC)|]. reflexivity.
  - eapply bind_step; [apply gets_step|].
    + instantiate (1 := []). unfold not_stopped_tris. rewrite (me_triangles _ _ _ _ _ _ _ OC).
      destruct TR as [-> | ->]; cbn [filter]; rewrite (me_stops0 _ _ _ _ _ _ _ OC), (me_stops1 _ _ _ _ _ _ _ OC); cbn [is_none];
        rewrite !andb_false_r; reflexivity.
    + reflexivity.
Qed.
End LoopTwice.
