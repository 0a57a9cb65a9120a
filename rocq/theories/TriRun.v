(** The run of calc_skel on a triangle over the reals: the start state, the only event, and what it leaves. *)
From Coq Require Import QArith Reals Lra Permutation.
From Verif Require Import Base Arith ArithR Calc VectorOps Line2d Line2dProofs Primitives EventLoop Initialize Main Properties_init
  InitBisect Properties_regression TriExample Collapse EventsLib EdgeEvent Properties_main TriStart.

(** ** The run *)
Section Run.
Context {A : Arith} {E : Env A}.
Context (p0 p1 p2 b0 b1 b2 q : @num A * @num A) (T : @num A).
Context (V : nat -> kvertex (A:=A)) (TS : nat -> ktri (A:=A)) (NS : nat -> sknode (A:=A)) (ES : nat -> event (A:=A)) (W : nat -> wavefront (A:=A))
  (cv ct : nat) (N : list nat).
Let st := mkSt V cv TS ct NS 3 ES 0 W N [0; 2; 4]%nat [0]%nat [] [].
Context (V0 : V 0%nat = first_vertex p0 b0 4 2 0 1 2 1) (V2 : V 2%nat = first_vertex p1 b1 0 4 1 2 0 3)
  (V4 : V 4%nat = first_vertex p2 b2 2 0 2 0 1 5) (T0 : TS 0%nat = mkTri (mk3 0 2 4)%nat (mk3 None None None) None 1 None true).
Definition meeting := mkEv T 0 [S0; S1; S2] Edge 3.
Definition ready : state :=
  mkSt V cv (upd TS 0 (mkTri (mk3 0 2 4)%nat (mk3 None None None) (Some 0) 1 None true)) ct NS 3 (upd ES 0 meeting) 1 W N [0; 2; 4]%nat [0]%nat [0]%nat [].
Context (EV : collapse_event st 0 n0 FindGt = Ok (Some meeting)).
Lemma first_step : init_event_list st = Ok (tt, ready).
Proof.
  unfold init_event_list, compute_collapse_time, rd, bind, gets. cbn [setq sk_triangles st forM]. unfold bind.
  match goal with |- context [collapse_event ?a 0 ?w FindGt] =>
    change (collapse_event a 0 w FindGt) with (collapse_event st 0 n0 FindGt) end.
  rewrite EV. cbn [rbind alloc_e set_tevent modt gets sett bind ts tri_event queue_add q_has q_add existsb setq ret st ne].
  cbn. rewrite T0. reflexivity.
Qed.
Definition stopped_vertex (o v : @num A * @num A) (a b node l r i : nat) : kvertex (A:=A) :=
  mkKV false o v [(n0, None, Some a)] [(n0, None, Some b)] (Some n0) (Some T) (Some node) (Some 3%nat)
    (Some l) (Some r) (Some l) (Some r) i false true.
Context (NZ : near_zero (nsub n0 T) = false) (TT : neqb T T = true).
Context (MP : forall s, (forall v, k_inf (vs s v) = k_inf (V v) /\ k_inf_fast (vs s v) = k_inf_fast (V v) /\
   k_origin (vs s v) = k_origin (V v) /\ k_velocity (vs s v) = k_velocity (V v)) -> mean_position s [0; 2; 4]%nat T = Ok q).
Context (CB : check_bisectors ready n0 = Ok tt) (CO : check_active_triangles_orientation ready n0 = Ok tt).
Definition taken : state :=
  mkSt V cv (upd TS 0 (mkTri (mk3 0 2 4)%nat (mk3 None None None) (Some 0) 1 None true)) ct NS 3 (upd ES 0 meeting) 1 W N [0; 2; 4]%nat [0]%nat [] [].
Definition cores (v' : nat -> kvertex (A:=A)) : Prop := forall v, k_inf (v' v) = k_inf (V v) /\ k_inf_fast (v' v) = k_inf_fast (V v) /\
   k_origin (v' v) = k_origin (V v) /\ k_velocity (v' v) = k_velocity (V v).
Lemma stop_core f v k : k_inf k = k_inf (V v) -> k_inf_fast k = k_inf_fast (V v) -> k_origin k = k_origin (V v) -> k_velocity k = k_velocity (V v) ->
  cores f -> cores (upd f v k).
Proof.
  intros K1 K2 K3 K4 C w. unfold upd. destruct (Nat.eqb_spec v w) as [->|_]; [|apply C]. repeat split; assumption.
Qed.
Lemma event_step : exists s', handle_event 0 1 taken = Ok (tt, s') /\ sk_vertices s' = [0; 2; 4]%nat /\ sk_triangles s' = [0]%nat /\
  sk_nodes s' = N ++ [3%nat] /\ ns s' = upd NS 3 (mkNode q 1 None) /\ t_stops (ts s' 0%nat) = Some T /\
  vs s' 0%nat = stopped_vertex p0 b0 4 2 0 1 2 1 /\ vs s' 2%nat = stopped_vertex p1 b1 0 4 1 2 0 3 /\
  vs s' 4%nat = stopped_vertex p2 b2 2 0 2 0 1 5 /\ queue s' = [] /\ immediate s' = [] /\ t_v (ts s' 0%nat) = mk3 0%nat 2%nat 4%nat.
Proof.
  unfold handle_event, bind, eget, tget, gets. cbn [es taken upd Nat.eqb ev_tri meeting ts t_stops is_some ev_tp ev_side length].
  unfold handle_edge_event_3sides. cbn [ev_tri meeting ev_side ev_time length Nat.eqb assertM].
  unfold bind, tget, gets, ret. cbn [ts taken upd Nat.eqb t_v list3 x0 x1 x2].
  change (list3 _) with [0; 2; 4]%nat. unfold stop_and_register, stop_kvertices, taken.
  Ltac run_on V0 V2 V4 NZ TT := repeat (progress (unfold bind, vattr, rd, kattr, ret, set_stops, set_stop_node, modv, setv, gets, alloc_n, assertM, raise;
    cbn [forM stop_scan vs nv ts nt ns nn es ne wfs sk_nodes sk_vertices sk_triangles queue immediate upd Nat.eqb
      k_inf k_stops k_starts k_inf_fast k_stop_node k_start_node is_some first_vertex kv_stops kv_stop_node fst snd];
    rewrite ?V0, ?V2, ?V4, ?NZ, ?TT)).
  run_on V0 V2 V4 NZ TT.
  rewrite MP.
  2: { cbn [vs]. apply stop_core; rewrite ?V4; try reflexivity. apply stop_core; rewrite ?V2; try reflexivity.
       apply stop_core; rewrite ?V0; try reflexivity. intros v. repeat split. }
  run_on V0 V2 V4 NZ TT.
  cbn [whenM add_node fst snd sides]. unfold sides. cbn [forM]. unfold schedule_neighbour, set_tstops, modt, tget, sett. run_on V0 V2 V4 NZ TT.
  cbn [get3 t_n x0 x1 x2]. run_on V0 V2 V4 NZ TT.
  eexists. split; [reflexivity|]. cbn. repeat split.
Qed.
Lemma only_step : exists s', event_loop ready = Ok (T, s') /\ sk_vertices s' = [0; 2; 4]%nat /\ sk_triangles s' = [0]%nat /\
  sk_nodes s' = N ++ [3%nat] /\ ns s' = upd NS 3 (mkNode q 1 None) /\ t_stops (ts s' 0%nat) = Some T /\
  vs s' 0%nat = stopped_vertex p0 b0 4 2 0 1 2 1 /\ vs s' 2%nat = stopped_vertex p1 b1 0 4 1 2 0 3 /\
  vs s' 4%nat = stopped_vertex p2 b2 2 0 2 0 1 5 /\ queue s' = [] /\ immediate s' = [].
Proof.
  unfold event_loop, rd, bind, seti.
  match goal with |- context [check_bisectors ?a ?n] =>
    change (check_bisectors a n) with (check_bisectors ready n0) end. rewrite CB. cbv beta iota.
  match goal with |- context [check_active_triangles_orientation ?a ?n] =>
    change (check_active_triangles_orientation a n) with (check_active_triangles_orientation ready n0) end. rewrite CO. cbv beta iota.
  assert (G : exists g, max_events = S (S g)) by (exists 49998%nat; reflexivity). destruct G as [g ->].
  destruct event_step as (s' & H & F1 & F2 & F3 & F4 & F5 & F6 & F7 & F8 & F9 & F10 & F11).
  cbn [loop]. unfold take_next, bind, gets, setq, eget, gets, ret. cbn [immediate queue ready fst snd vs nv ts nt ns nn es ne wfs sk_nodes sk_vertices sk_triangles upd Nat.eqb ev_time meeting].
  match goal with |- context [handle_event 0 ?k ?a] => change (handle_event 0 k a) with (handle_event 0 1 taken) end.
  rewrite H. rewrite F10, F9.
  assert (NT : not_stopped_tris s' = []).
  { unfold not_stopped_tris. rewrite F2. cbn [filter]. rewrite F5. cbn [is_none]. rewrite andb_false_r. reflexivity. }
  rewrite NT. exists s'. repeat (split; [first [reflexivity|assumption]|]). assumption.
Qed.
End Run.
