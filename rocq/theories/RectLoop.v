(** The events of such a quadrilateral and the loop, as far as they do not depend on the arithmetic *)
From Verif Require Import Base Arith Calc VectorOps Line2d Primitives Collapse EventsLib EventLoop Initialize Main TriStart RectRun.

Section Loop.
Context {A : Arith} {E : Env A}.
Context (V : nat -> kvertex (A:=A)) (TS : nat -> ktri (A:=A)) (NS : nat -> sknode (A:=A)) (ES : nat -> event (A:=A)) (W : nat -> wavefront (A:=A))
  (N tris : list nat) (T : @num A).
Definition tri0 o : ktri (A:=A) := mkTri (mk3 0 2 4)%nat (mk3 None (Some 1%nat) None) o 1 None true.
Definition tri1 o : ktri (A:=A) := mkTri (mk3 0 4 6)%nat (mk3 None None (Some 0%nat)) o 2 None true.
Context (T0 : TS 0%nat = tri0 None) (T1 : TS 1%nat = tri1 None) (TR : tris = [0; 1]%nat \/ tris = [1; 0]%nat).
Context (v0 v1 : event (A:=A)) (K0 : ev_time v0 = T /\ ev_tri v0 = 0%nat /\ ev_tritp v0 = 2%nat) (K1 : ev_time v1 = T /\ ev_tri v1 = 1%nat /\ ev_tritp v1 = 2%nat).
Context (EV0 : forall s o, vs s = V -> ts s 0%nat = tri0 o -> collapse_event s 0 n0 FindGt = Ok (Some v0)).
Context (EV1 : forall s o, vs s = V -> ts s 1%nat = tri1 o -> collapse_event s 1 n0 FindGt = Ok (Some v1)).
Context (TL : nltb T T = false) (AD : addr 0 <> addr 1).

Lemma new_event s t tri ev : collapse_event s t n0 FindGt = Ok (Some ev) -> ts s t = tri -> 
  compute_collapse_time t n0 FindGt s = Ok (Some (ne s),
    mkSt (vs s) (nv s) (upd (ts s) t (mkTri (t_v tri) (t_n tri) (Some (ne s)) (t_info tri) (t_stops tri) (t_internal tri))) (nt s) (ns s) (nn s)
      (upd (es s) (ne s) ev) (S (ne s)) (wfs s) (sk_nodes s) (sk_vertices s) (sk_triangles s) (queue s) (immediate s)).
Proof.
  intros H <-. unfold compute_collapse_time. eapply bind_step; [apply rd_step; exact H|]. reflexivity.
Qed.
Lemma add_first e s : queue s = [] -> queue_add e s = Ok (tt, mkSt (vs s) (nv s) (ts s) (nt s) (ns s) (nn s)
      (es s) (ne s) (wfs s) (sk_nodes s) (sk_vertices s) (sk_triangles s) [e] (immediate s)).
Proof. intros H. destruct s as [V' nv' TS0 nt' NS' nn' ES0 ne' W' l1 l2 l3 l4 l5]. cbn [queue] in H. subst. reflexivity. Qed.
Lemma add_second e f s c : queue s = [f] -> compare_event_by_time (es s e) (es s f) = c -> c <> Eq ->
  queue_add e s = Ok (tt, mkSt (vs s) (nv s) (ts s) (nt s) (ns s) (nn s)
      (es s) (ne s) (wfs s) (sk_nodes s) (sk_vertices s) (sk_triangles s) (match c with Gt => [f; e] | _ => [e; f] end) (immediate s)).
Proof.
  intros H C D. destruct s as [V' nv' TS0 nt' NS' nn' ES0 ne' W' l1 l2 l3 l4 l5]. cbn [queue es] in H, C. subst. unfold queue_add.
  eapply bind_step; [apply gets_step; cbn [queue q_has existsb]; reflexivity|]. cbn [es].
  match goal with |- context [compare_event_by_time ?a ?b] => destruct (compare_event_by_time a b) eqn:C end; [destruct (D eq_refl)|..]; cbn [orb];
    (eapply bind_step; [apply gets_step; cbn [q_add queue es]; rewrite C; reflexivity|]); reflexivity.
Qed.
Lemma events_two t u s (evt evu : event (A:=A)) trit triu c : t <> u -> sk_triangles s = [t; u] -> queue s = [] -> ne s = 0%nat -> ts s t = trit -> ts s u = triu ->
  (forall s', vs s' = vs s -> (exists o, ts s' t = mkTri (t_v trit) (t_n trit) o (t_info trit) (t_stops trit) (t_internal trit)) -> collapse_event s' t n0 FindGt = Ok (Some evt)) ->
  (forall s', vs s' = vs s -> (exists o, ts s' u = mkTri (t_v triu) (t_n triu) o (t_info triu) (t_stops triu) (t_internal triu)) -> collapse_event s' u n0 FindGt = Ok (Some evu)) ->
  compare_event_by_time evu evt = c -> c <> Eq ->
  exists TS' ES', init_event_list s = Ok (tt, mkSt (vs s) (nv s) TS' (nt s) (ns s) (nn s) ES' 2 (wfs s) (sk_nodes s) (sk_vertices s) (sk_triangles s)
    (match c with Gt => [0; 1] | _ => [1; 0] end)%nat (immediate s)) /\
  TS' t = mkTri (t_v trit) (t_n trit) (Some 0%nat) (t_info trit) (t_stops trit) (t_internal trit) /\
  TS' u = mkTri (t_v triu) (t_n triu) (Some 1%nat) (t_info triu) (t_stops triu) (t_internal triu) /\ ES' 0%nat = evt /\ ES' 1%nat = evu.
Proof.
  intros TU ST QE NE Tt Tu Ht Hu C D. destruct s as [V' nv' TS0 nt' NS' nn' ES0 ne' W' l1 l2 l3 l4 l5].
  cbn [vs ts sk_triangles queue ne nv nt ns nn es wfs sk_nodes sk_vertices immediate] in *. subst l3 l4 ne'.
  eexists _, _. split.
  - unfold init_event_list. eapply bind_step; [apply setq_step; reflexivity|]. eapply bind_step; [apply gets_step; reflexivity|].
    cbn [sk_triangles forM]. eapply bind_step.
    + eapply bind_step; [apply new_event; [apply Ht; [reflexivity|]|exact Tt]|].
      * cbn [ts]. exists (t_event trit). rewrite Tt. destruct trit. reflexivity.
      * cbv beta iota. apply add_first. reflexivity.
    + cbn [vs ts sk_triangles queue ne nv nt ns nn es wfs sk_nodes sk_vertices immediate]. eapply bind_step; [|reflexivity].
      assert (TU' : (t =? u)%nat = false) by (apply Nat.eqb_neq; exact TU).
      eapply bind_step; [apply new_event; [apply Hu; [reflexivity|]|]|].
      * cbn [ts upd]. rewrite TU'. exists (t_event triu). rewrite Tu. destruct triu. reflexivity.
      * cbn [ts upd]. rewrite TU'. exact Tu.
      * cbv beta iota. cbn [vs ts sk_triangles queue ne nv nt ns nn es wfs sk_nodes sk_vertices immediate].
        etransitivity; [apply (add_second _ 0%nat _ c); [reflexivity| |exact D]; cbn [es upd Nat.eqb]; exact C|].
        cbn [vs ts sk_triangles queue ne nv nt ns nn es wfs sk_nodes sk_vertices immediate]. reflexivity.
  - cbn [upd Nat.eqb]. assert (TU' : (t =? u)%nat = false) by (apply Nat.eqb_neq; exact TU).
    assert (UT' : (u =? t)%nat = false) by (apply Nat.eqb_neq; congruence). rewrite ?Nat.eqb_refl, ?TU', ?UT'. repeat split.
Qed.

Lemma events_ready : exists e0 e1 q TS' ES',
  init_event_list (mkSt V 9 TS 9 NS 4 ES 0 W N [0; 2; 4; 6]%nat tris [] []) = Ok (tt, before V TS' NS ES' W N tris q) /\
  TS' 0%nat = tri0 (Some e0) /\ TS' 1%nat = tri1 (Some e1) /\ ES' e0 = v0 /\ ES' e1 = v1 /\ (q = [e0; e1] \/ q = [e1; e0]).
Proof.
  destruct K0 as (A1 & A2 & A3). destruct K1 as (B1 & B2 & B3).
  assert (C0 : compare_event_by_time v1 v0 = Z.compare (addr 1) (addr 0)).
  { unfold compare_event_by_time. rewrite A1, A2, A3, B1, B2, B3, TL. reflexivity. }
  assert (C1 : compare_event_by_time v0 v1 = Z.compare (addr 0) (addr 1)).
  { unfold compare_event_by_time. rewrite A1, A2, A3, B1, B2, B3, TL. reflexivity. }
  assert (D0 : Z.compare (addr 1) (addr 0) <> Eq) by (intros Q; apply AD; symmetry; apply Z.compare_eq, Q).
  assert (D1 : Z.compare (addr 0) (addr 1) <> Eq) by (intros Q; apply AD, Z.compare_eq, Q).
  set (s := mkSt V 9 TS 9 NS 4 ES 0 W N [0; 2; 4; 6]%nat tris [] []).
  assert (H0 : forall s', vs s' = vs s -> (exists o, ts s' 0%nat = tri0 o) -> collapse_event s' 0 n0 FindGt = Ok (Some v0)) by (intros s' H [o Ho]; eauto).
  assert (H1 : forall s', vs s' = vs s -> (exists o, ts s' 1%nat = tri1 o) -> collapse_event s' 1 n0 FindGt = Ok (Some v1)) by (intros s' H [o Ho]; eauto).
  destruct TR as [R | R].
  - destruct (events_two 0%nat 1%nat s v0 v1 (tri0 None) (tri1 None) _ ltac:(discriminate) R eq_refl eq_refl T0 T1 H0 H1 C0 D0) as (TS' & ES' & H & F1 & F2 & F3 & F4).
    exists 0%nat, 1%nat. eexists _, TS', ES'. split; [exact H|]. split; [exact F1|]. split; [exact F2|]. split; [exact F3|]. split; [exact F4|].
    match goal with |- context [match ?c with Eq => _ | _ => _ end] => destruct c end; [right|right|left]; reflexivity.
  - destruct (events_two 1%nat 0%nat s v1 v0 (tri1 None) (tri0 None) _ ltac:(discriminate) R eq_refl eq_refl T1 T0 H1 H0 C1 D1) as (TS' & ES' & H & F1 & F2 & F3 & F4).
    exists 1%nat, 0%nat. eexists _, TS', ES'. split; [exact H|]. split; [exact F2|]. split; [exact F1|]. split; [exact F4|]. split; [exact F3|].
    match goal with |- context [match ?c with Eq => _ | _ => _ end] => destruct c end; [left|left|right]; reflexivity.
Qed.

Lemma loop_once TS' ES' e f q4 q5 arms s' : 
  check_bisectors (before V TS' NS ES' W N tris [e; f]) n0 = Ok tt ->
  check_active_triangles_orientation (before V TS' NS ES' W N tris [e; f]) n0 = Ok tt ->
  ev_time (ES' e) = T -> handle_event e 1 (before V TS' NS ES' W N tris [f]) = Ok (tt, s') -> outcome T q4 q5 NS N tris s' arms ->
  event_loop (before V TS' NS ES' W N tris [e; f]) = Ok (T, s').
Proof.
  intros CB CO ET H OC. unfold event_loop. eapply bind_step; [apply seti_step; reflexivity|].
  eapply bind_step; [apply rd_step; exact CB|]. eapply bind_step; [apply rd_step; exact CO|].
  assert (G : exists g, max_events = S (S g)) by (exists 49998%nat; reflexivity). destruct G as [g ->].
  eapply bind_step.
  - cbn [loop]. eapply bind_step; [apply gets_step; reflexivity|]. eapply bind_step; [apply gets_step; reflexivity|].
    cbv beta iota. eapply bind_step; [unfold take_next; eapply bind_step; [apply gets_step; reflexivity|]|].
    { cbn [immediate before]. eapply bind_step; [apply gets_step; reflexivity|]. cbn [queue before]. eapply bind_step; [apply setq_step; reflexivity|].
      eapply bind_step; [apply gets_step; reflexivity|]. reflexivity. }
    cbn [fst snd es before]. rewrite ET. eapply bind_step; [exact H|].
    eapply bind_step; [apply gets_step; apply (oc_immediate _ _ _ _ _ _ _ _ OC)|].
    eapply bind_step; [apply gets_step; apply (oc_queue _ _ _ _ _ _ _ _ OC)|]. reflexivity.
  - eapply bind_step; [apply gets_step|].
    + instantiate (1 := []). unfold not_stopped_tris. rewrite (oc_triangles _ _ _ _ _ _ _ _ OC).
      destruct TR as [-> | ->]; cbn [filter]; rewrite (oc_stops0 _ _ _ _ _ _ _ _ OC), (oc_stops1 _ _ _ _ _ _ _ _ OC); cbn [is_none];
        rewrite !andb_false_r; reflexivity.
    + reflexivity.
Qed.
End Loop.
