(** C80: what calc_skel(output=True) and visualize write *)
From Coq Require Import Reals Lra.
From Verif Require Import Base Arith ArithR ArithQ Calc CalcProofs VectorOps Line2d Line2dProofs Primitives Collapse CollapseProofs CollapseR
  EventsLib FlipEvent ParallelEvent EdgeEvent SplitEvent EventLoop Pass OpSpec Order StopSpec RunBase RunTimed RunLoop Bisect
  Decent Total TotalRun Scenario ScenarioRun Properties_loop RingSpec Initialize StarProofs InitProofs InitState InitCirc InitBisect InitChecks RSquared
  Properties_geometry Mesh MeshRun Properties_current Rings Properties_fronts Shared InitShared Main Properties_init TriExample InitMesh Properties_start
  InitRing Properties_ringstart Effects Listed Output Properties_offsets Properties_main.
Local Close Scope Q_scope.
Local Open Scope nat_scope.

(** ** Specification *)
Definition length_of (p q : R * R) : R := sqrt ((fst q - fst p)^2 + (snd q - snd p)^2).

(** a start as calc_skel makes it: what the skeleton lists are kinetic vertices with a start node, in range; any other vertex of a
    triangle is the infinite vertex *)
Definition kinetic {A : Arith} (s : state (A:=A)) (v : nat) : Prop :=
  v < nv s /\ k_inf (vs s v) = false /\ k_start_node (vs s v) <> None /\ k_starts (vs s v) <> None.
Definition outfit {A : Arith} (s : state (A:=A)) : Prop :=
  registered s /\ shaped s /\ (forall v, In v (sk_vertices s) -> kinetic s v) /\
  forall v, v < nv s -> kinetic s v \/ k_inf (vs s v) = true.
(** the loop, started in [s0], has come to [s] at time [now] *)
Definition run_state {A : Arith} {E : Env A} (s0 : state (A:=A)) (now : num) (s : state) : Prop :=
  outfit s0 /\ exists s1 tr, started s0 s1 /\ reach s1 now tr s.

(** the line of skel.wkt for vertex [v] *)
Definition skel_row (s : state (A:=RA)) (w : R) (v : nat) (a : arc (A:=RA)) : Prop :=
  a_v a = v /\ a_len a = length_of (a_from a) (a_to a) /\
  match k_stops (vs s v) with
  | Some _ => a_stopped a = true /\ exists n m, k_start_node (vs s v) = Some n /\ k_stop_node (vs s v) = Some m /\
      In n (sk_nodes s) /\ In m (sk_nodes s) /\ a_from a = sn_pos (ns s n) /\ a_to a = sn_pos (ns s m)
  | None => a_stopped a = false /\ exists t, k_starts (vs s v) = Some t /\
      position_at s v t = Ok (a_from a) /\ position_at s v w = Ok (a_to a)
  end.
(** the line of segments_progress.wkt *)
Definition progress_row (s : state (A:=RA)) (now : R) (v : nat) (a : arc (A:=RA)) : Prop :=
  a_v a = v /\ a_len a = length_of (a_from a) (a_to a) /\
  (exists n, k_start_node (vs s v) = Some n /\ In n (sk_nodes s) /\ a_from a = sn_pos (ns s n)) /\
  match k_stop_node (vs s v) with
  | Some m => a_stopped a = true /\ In m (sk_nodes s) /\ a_to a = sn_pos (ns s m)
  | None => a_stopped a = false /\ position_at s v now = Ok (a_to a)
  end.
(** a triangle's corners at time [now] *)
Definition drawn (s : state (A:=RA)) (now : R) (t : nat) (poly : triple (R * R)) : Prop :=
  forall i, position_at s (corner s t i) now = Ok (get3 poly i).
Definition queue_line_of (s : state (A:=RA)) (now : R) (e : nat) (q : queue_row (A:=RA)) : Prop :=
  let t := ev_tri (es s e) in
  q_tri q = t /\ q_tp q = ev_tp (es s e) /\ q_time q = ev_time (es s e) /\ drawn s now t (q_poly q) /\
  (forall i, get3 (q_n q) i = link s t i) /\ (q_finite q = true <-> forall i, k_inf (vs s (corner s t i)) = false).
Definition tri_line_of (s : state (A:=RA)) (now : R) (t : nat) (r : tri_row (A:=RA)) : Prop :=
  tr_t r = t /\ drawn s now t (tr_poly r) /\ (forall i, get3 (tr_n r) i = link s t i) /\
  (forall i, get3 (tr_v r) i = corner s t i) /\ (tr_finite r = true <-> forall i, k_inf (vs s (corner s t i)) = false) /\
  forall x, tr_time r = Some x <-> exists e, t_event (ts s t) = Some e /\ x = ev_time (es s e).
Definition bisector_of (s : state (A:=RA)) (now : R) (v : nat) (b : bis_row (A:=RA)) : Prop :=
  let '(x, y) := (k_velocity (vs s v) : R * R) in
  b_v b = v /\ position_at s v now = Ok (b_from b) /\ b_speed b = sqrt (x^2 + y^2) /\
  (* a hundredth long, in the direction of the velocity *)
  ((x, y) = (0, 0)%R -> b_to b = b_from b) /\
  ((x, y) <> (0, 0)%R -> length_of (b_from b) (b_to b) = (1/100)%R /\
     exists k : R, (k > 0)%R /\ b_to b = (fst (b_from b) + k * x, snd (b_from b) + k * y)%R).
Definition vertex_of (s : state (A:=RA)) (now : R) (v : nat) (r : vert_row (A:=RA)) : Prop :=
  v_v r = v /\ position_at s v now = Ok (v_pos r) /\
  (forall l, v_left r = Some l <-> neighbour_at (k_left (vs s v)) now l) /\
  (forall l, v_right r = Some l <-> neighbour_at (k_right (vs s v)) now l).
Definition alive (s : state (A:=RA)) (v : nat) : bool := is_none (k_stops (vs s v)).
Definition there (s : state (A:=RA)) (t : nat) : bool := is_none (t_stops (ts s t)).
(** the picture that visualize writes: one line per event, triangle that is there, node, vertex, and wavefront side *)
Definition pictures (q : list nat) (s : state (A:=RA)) (now : R) (p : picture (A:=RA)) : Prop :=
  Forall2 (queue_line_of s now) q (p_queue p) /\
  Forall2 (tri_line_of s now) (filter (there s) (sk_triangles s)) (p_tris p) /\
  p_nodes p = map (fun n => (sn_pos (ns s n), sn_step (ns s n))) (sk_nodes s) /\
  Forall2 (bisector_of s now) (filter (alive s) (sk_vertices s)) (p_bis p) /\
  Forall2 (progress_row s now) (sk_vertices s) (p_arcs p) /\
  Forall2 (vertex_of s now) (filter (alive s) (sk_vertices s)) (p_verts p) /\
  (forall t i a b, In (mkER t i a b) (p_edges p) <->
     active s t /\ link s t i = None /\ position_at s (corner s t (ccw i)) now = Ok a /\ position_at s (corner s t (cw i)) now = Ok b).

(** ** Rows *)
Section Rows.
  Context {X Y : Type}.
  Lemma rows_all (f : X -> res Y) (R : X -> Y -> Prop) l : (forall x, In x l -> exists y, f x = Ok y /\ R x y) ->
    exists ys, rmapl f l = Ok ys /\ Forall2 R l ys.
  Proof.
    induction l as [|x l IH]; intros H; [exists []; split; [reflexivity|constructor]|].
    destruct (H x (or_introl eq_refl)) as (y & F & Q). destruct IH as (ys & G & P); [intros z Hz; apply H; right; exact Hz|].
    exists (y :: ys). cbn. rewrite F. cbn. rewrite G. split; [reflexivity|constructor; assumption].
  Qed.
  Lemma rows_some (f : X -> res (option Y)) (keep : X -> bool) (R : X -> Y -> Prop) l :
    (forall x, In x l -> if keep x then exists y, f x = Ok (Some y) /\ R x y else f x = Ok None) ->
    exists os, rmapl f l = Ok os /\ Forall2 R (filter keep l) (somes os).
  Proof.
    induction l as [|x l IH]; intros H; [exists []; split; [reflexivity|constructor]|].
    pose proof (H x (or_introl eq_refl)) as K. destruct IH as (os & G & P); [intros z Hz; apply H; right; exact Hz|].
    cbn [filter rmapl]. destruct (keep x).
    - destruct K as (y & -> & Q). exists (Some y :: os). cbn. rewrite G. split; [reflexivity|constructor; assumption].
    - exists (None :: os). rewrite K. cbn. rewrite G. split; [reflexivity|assumption].
  Qed.
End Rows.

Lemma Forall2_in_r {X Y} (R : X -> Y -> Prop) l ys y : Forall2 R l ys -> In y ys -> exists x, In x l /\ R x y.
Proof.
  intros F. induction F as [|a b l ys H F IH]; [intros []|]. intros [<-|I]; [exists a; cbn; auto|].
  destruct (IH I) as (x & P & Q). exists x. cbn. auto.
Qed.
Lemma Forall2_in_l {X Y} (R : X -> Y -> Prop) l ys x : Forall2 R l ys -> In x l -> exists y, In y ys /\ R x y.
Proof.
  intros F. induction F as [|a b l ys H F IH]; [intros []|]. intros [<-|I]; [exists b; cbn; auto|].
  destruct (IH I) as (y & P & Q). exists y. cbn. auto.
Qed.

Lemma dist_R (p q : R * R) : dist_2 (A:=RA) p q = Ok (length_of p q).
Proof.
  unfold dist_2. pose proof (norm_2_R (fst q - fst p, snd q - snd p)%R) as K. cbn [fst snd] in K.
  replace (length_of p q) with (len (fst q - fst p) (snd q - snd p)); [exact K|]. unfold len, length_of. f_equal. ring.
Qed.

(** ** What is known of the vertices in a run (any arithmetic) *)
Lemma init_known {A : Arith} (d : dtriang (A:=A)) s : init_skeleton d = Ok s ->
  (forall v, In v (sk_vertices s) -> fin s v) /\ forall v, v < nv s -> known s v.
Proof.
  intros HI. destruct (init_vertices_cases d s HI) as (cpos & ti & b & _ & _ & _ & C1 & C2 & C3 & C4).
  assert (F : forall v, In v (sk_vertices s) -> fin s v).
  { intros v Hv. destruct (init_starts d s HI v Hv) as (x & n & _ & K1 & _ & _ & K2 & K3).
    split; [rewrite C1; rewrite C2, in_seq in Hv; lia|]. rewrite K1, K2, K3. auto. }
  split; [exact F|]. intros v L. destruct (Nat.lt_ge_cases v (length (all_groups d))) as [K|K].
  - left. apply F. rewrite C2, in_seq. lia.
  - right. rewrite C3 by exact K. reflexivity.
Qed.

Lemma fin_kinetic {A : Arith} (s : state (A:=A)) v : fin s v <-> kinetic s v.
Proof.
  unfold fin, kinetic. destruct (k_start_node (vs s v)), (k_starts (vs s v)); cbn; split; intros (K1 & K2 & K3 & K4); repeat split; auto; try discriminate; congruence.
Qed.

(** The skeleton that init_skeleton makes, and what internal_only_skeleton leaves of it, is such a start. *)
Theorem C80_start :
  forall (A : Arith) (d : dtriang (A:=A)) s0 io, init_skeleton d = Ok s0 -> outfit (start_of io s0).
Proof.
  intros A d s0 io HI. destruct (init_known d s0 HI) as [K1 K2]. destruct (start_heap io s0) as (P1 & P2 & P3 & P4 & P5).
  split; [apply start_registered, (init_registered d s0 HI)|]. split; [apply start_shaped, (init_shaped d s0 HI)|].
  assert (FF : forall v, fin s0 v -> kinetic (start_of io s0) v) by (intros v H; apply fin_kinetic; unfold fin; rewrite P1, P3; exact H).
  split.
  - intros v Hv. apply start_vertices in Hv. auto.
  - intros v Hv. rewrite P3 in Hv. destruct (K2 v Hv) as [K|K]; [left; auto|]. right. rewrite P1. exact K.
Qed.
Print Assumptions C80_start.

(** Through every event, every vertex that the skeleton lists is a kinetic vertex with a start node and a start time; so is every
    corner of a triangle, or it is the infinite vertex. *)
Theorem C80_listed :
  forall (A : Arith) (E : Env A) (s0 : state (A:=A)) now s, run_state s0 now s -> outfit s.
Proof.
  intros A E s0 now s ((R0 & H0 & L0 & N0) & s1 & tr & ST & RE).
  pose proof (started_same _ _ ST) as Q. pose proof Q as (Q1 & Q2 & _ & _ & _ & _ & Q7 & _).
  assert (FF : forall v, kinetic s0 v -> fin s1 v) by (intros v H; apply fin_kinetic; unfold kinetic; rewrite Q1, Q2; exact H).
  pose proof (run_grow _ _ _ _ _ _ RE) as G. destruct (same_start_shaped _ _ Q) as [R1 H1]. specialize (R1 R0). specialize (H1 H0).
  split; [apply (steps_base _ _ _ _ _ _ R1 RE)|]. split; [exact (steps_shaped _ _ _ _ _ _ R1 H1 RE)|]. split.
  - intros v Hv. apply fin_kinetic. revert v Hv. apply (grow_listed _ _ G). intros v Hv. rewrite Q7 in Hv. auto.
  - intros v Hv. rewrite <- fin_kinetic. revert v Hv. apply (grow_known _ _ G). intros v Hv. rewrite Q2 in Hv.
    destruct (N0 v Hv) as [K|K]; [left; auto|]. right. rewrite Q1. exact K.
Qed.
Print Assumptions C80_listed.

(** ** The writers never raise (exact reals) *)
Lemma placed {A : Arith} (s : state (A:=A)) v t : k_inf (vs s v) = true \/ k_start_node (vs s v) <> None -> exists p, position_at s v t = Ok p.
Proof.
  unfold position_at. destruct (k_inf (vs s v)); [eexists; reflexivity|]. intros [K|K]; [discriminate|].
  destruct (k_inf_fast (vs s v)); [|eexists; reflexivity]. destruct (k_start_node (vs s v)); [eexists; reflexivity|congruence].
Qed.

(** the end of the line that shows a velocity *)
Lemma heading (v p : R * R) : exists (n : R) (e : R * R), norm_2 (A:=RA) v = Ok n /\
  (if negb (neqb (Arith:=RA) n n0) then rbind (unit_2 (A:=RA) v) (fun u => Ok (add2 (A:=RA) p (mul2s (A:=RA) u (lit (1#100))))) else Ok p) = Ok e /\
  n = sqrt (fst v^2 + snd v^2) /\ ((fst v, snd v) = (0, 0)%R -> e = p) /\
  ((fst v, snd v) <> (0, 0)%R -> length_of p e = (1/100)%R /\ exists k : R, (k > 0)%R /\ e = (fst p + k * fst v, snd p + k * snd v)%R).
Proof.
  destruct v as [a b], p as [x y]. cbn [fst snd].
  assert (LE : len a b = sqrt (a^2 + b^2)) by (unfold len; f_equal; ring).
  assert (D : (a = 0 /\ b = 0 \/ (a <> 0 \/ b <> 0))%R) by (destruct (Req_dec a 0), (Req_dec b 0); auto).
  exists (len a b). destruct D as [[-> ->]|D].
  - assert (Z : len 0 0 = 0%R) by (rewrite LE; replace (0^2 + 0^2)%R with 0%R by ring; apply sqrt_0).
    exists (x, y). split; [apply (norm_2_R (0, 0)%R)|]. split.
    + rewrite Z. ra_simp. qlit. destruct (Reqb 0 0) eqn:Q; rb2p; [reflexivity|lra].
    + split; [exact LE|]. split; [auto|]. intros N. destruct N. reflexivity.
  - pose proof (len_pos _ _ D) as LP. exists (x + a / len a b * (1/100), y + b / len a b * (1/100))%R.
    split; [apply (norm_2_R (a, b))|]. split.
    + pose proof (unit_2_R (a, b) D) as U. cbn [fst snd] in U.
      destruct (neqb (Arith:=RA) (len a b) n0) eqn:Q.
      { exfalso. revert Q. ra_simp. qlit. intros Q. rb2p. lra. }
      cbn [negb]. rewrite U. cbn [rbind]. unfold add2, mul2s. ra_simp. qlit. cbn [fst snd]. f_equal; f_equal; field; lra.
    + split; [exact LE|]. split; [intros N; injection N as -> ->; destruct D as [D|D]; destruct D; reflexivity|]. intros _. split.
      * unfold length_of. cbn [fst snd].
        assert (S2' : (len a b * len a b = a * a + b * b)%R) by (unfold len; apply sqrt_sqrt; nra).
        replace ((x + a / len a b * (1 / 100) - x)^2 + (y + b / len a b * (1 / 100) - y)^2)%R with ((1/100) * (1/100))%R.
        { rewrite sqrt_square by lra. reflexivity. }
        replace ((x + a / len a b * (1 / 100) - x)^2 + (y + b / len a b * (1 / 100) - y)^2)%R
          with ((a * a + b * b) / (len a b * len a b) * (1/100)^2)%R by (field; lra).
        rewrite <- S2'. field. lra.
      * exists (1/100 / len a b)%R. split; [apply Rdiv_lt_0_compat; lra|]. f_equal; field; lra.
Qed.

Lemma finite_iff (s : state (A:=RA)) t : is_finite s t = true <-> forall i, k_inf (vs s (corner s t i)) = false.
Proof.
  unfold is_finite. rewrite forallb_forall. split.
  - intros H i. apply negb_true_iff, H. unfold corner, list3. destruct i; cbn; auto.
  - intros H v Hv. apply negb_true_iff. unfold list3 in Hv. destruct Hv as [<-|[<-|[<-|[]]]]; [apply (H S0)|apply (H S1)|apply (H S2)].
Qed.

Section Drawing.
  Context {E : Env RA} (addr_inj : forall t u : nat, addr (A:=RA) t = addr (A:=RA) u -> t = u).
  Context (s0 : state (A:=RA)) (now : R) (s : state (A:=RA)) (FR : fresh s0) (RUN : run_state s0 now s).

  Lemma run_vertex v : In v (sk_vertices s) -> k_inf (vs s v) = false /\
    (exists n, k_start_node (vs s v) = Some n /\ In n (sk_nodes s)) /\ exists a, k_starts (vs s v) = Some a.
  Proof.
    intros Hv. destruct (C80_listed RA E s0 now s RUN) as (R & _ & K & _). destruct (K v Hv) as (_ & K1 & K2 & K3).
    split; [exact K1|]. destruct (k_start_node (vs s v)) as [n|] eqn:Q; [|congruence]. destruct (k_starts (vs s v)) as [a|]; [|congruence].
    split; [|exists a; reflexivity]. exists n. split; [reflexivity|]. apply (rg_start _ R v n Q).
  Qed.
  Lemma run_stops v : k_stops (vs s v) = None <-> k_stop_node (vs s v) = None.
  Proof. destruct RUN as (_ & s1 & tr & ST & RE). apply (C36_life_spans RA E RA_ord addr_inj s0 s1 now tr s FR ST RE). Qed.
  Lemma run_stop_node v m : k_stop_node (vs s v) = Some m -> In m (sk_nodes s).
  Proof. apply (C80_listed RA E s0 now s RUN). Qed.
  Lemma run_placed t i x : exists p, position_at s (corner s t i) x = Ok p.
  Proof.
    destruct (C80_listed RA E s0 now s RUN) as (_ & SH & _ & K). apply placed. destruct (K _ (sh_v _ SH t i)) as [(_ & _ & H & _)|H]; auto.
  Qed.
  Lemma run_placed_v v x : In v (sk_vertices s) -> exists p, position_at s v x = Ok p.
  Proof. intros Hv. apply placed. right. destruct (run_vertex v Hv) as (_ & (n & -> & _) & _). discriminate. Qed.

  Lemma arc_row w v : In v (sk_vertices s) -> exists a, arc_of s w v = Ok a /\ skel_row s w v a.
  Proof.
    intros Hv. destruct (run_vertex v Hv) as (K1 & (n & K2 & K3) & a & K4). unfold arc_of, skel_row. rewrite K1.
    destruct (k_stops (vs s v)) eqn:ST.
    - destruct (k_stop_node (vs s v)) as [m|] eqn:SN; [|apply run_stops in SN; congruence]. rewrite K2. cbn [node_pos rbind].
      rewrite dist_R. cbn [rbind]. eexists. split; [reflexivity|]. cbn. split; [reflexivity|]. split; [reflexivity|]. split; [reflexivity|].
      exists n, m. repeat split; auto. apply (run_stop_node v m SN).
    - destruct (run_placed_v v a Hv) as [p P]. destruct (run_placed_v v w Hv) as [q Q]. unfold at_start. rewrite K4, P, Q. cbn [rbind].
      rewrite dist_R. cbn [rbind]. eexists. split; [reflexivity|]. cbn. split; [reflexivity|]. split; [reflexivity|]. split; [reflexivity|].
      exists a. auto.
  Qed.
  Lemma progress_all v x : In v (sk_vertices s) -> exists a, progress_line s x v = Ok (Some a) /\ progress_row s x v a.
  Proof.
    intros Hv. destruct (run_vertex v Hv) as (K1 & (n & K2 & K3) & a & K4). unfold progress_line, progress_row. rewrite K1, K2.
    destruct (k_stop_node (vs s v)) as [m|] eqn:SN.
    - rewrite dist_R. cbn [rbind]. eexists. split; [reflexivity|]. cbn. split; [reflexivity|]. split; [reflexivity|].
      split; [exists n; auto|]. split; [reflexivity|]. split; [apply (run_stop_node v m SN)|reflexivity].
    - destruct (run_placed_v v x Hv) as [q Q]. rewrite Q. cbn [rbind]. rewrite dist_R. cbn [rbind]. eexists. split; [reflexivity|].
      cbn. split; [reflexivity|]. split; [reflexivity|]. split; [exists n; auto|]. auto.
  Qed.
  Lemma polygon_all t x : exists poly, polygon s t x = Ok poly /\ drawn s x t poly.
  Proof.
    destruct (run_placed t S0 x) as [p P]. destruct (run_placed t S1 x) as [q Q]. destruct (run_placed t S2 x) as [r R].
    exists (mk3 p q r). split; [|intros []; assumption]. unfold polygon. unfold corner in P, Q, R. cbn [get3] in P, Q, R. rewrite P, Q, R. reflexivity.
  Qed.
  Lemma bisector_all v x : In v (sk_vertices s) ->
    if alive s v then exists b, bisector_line s x v = Ok (Some b) /\ bisector_of s x v b else bisector_line s x v = Ok None.
  Proof.
    intros Hv. destruct (run_vertex v Hv) as (K1 & _). unfold alive, bisector_line. rewrite K1.
    destruct (k_stops (vs s v)) eqn:ST; cbn [is_none]; [reflexivity|].
    destruct (run_placed_v v x Hv) as [p P]. rewrite P. cbn [rbind]. unfold bisector_of.
    destruct (heading (k_velocity (vs s v)) p) as (n & e & H1 & H2 & H3 & H4 & H5). rewrite H1. cbn [rbind].
    exists (mkBR (A:=RA) v p e n). split; [exact (f_equal (fun z => rbind z (fun e => Ok (Some (mkBR (A:=RA) v p e n)))) H2)|]. cbn [b_v b_from b_to b_speed].
    destruct (k_velocity (vs s v)) as [a b]. auto.
  Qed.
  Lemma vertex_all v x : In v (sk_vertices s) ->
    if alive s v then exists r, vertex_line s x v = Ok (Some r) /\ vertex_of s x v r else vertex_line s x v = Ok None.
  Proof.
    intros Hv. destruct (run_vertex v Hv) as (K1 & _). unfold alive, vertex_line. rewrite K1.
    destruct (k_stop_node (vs s v)) as [m|] eqn:SN.
    - destruct (k_stops (vs s v)) eqn:ST; [reflexivity|]. apply run_stops in ST. congruence.
    - pose proof (proj2 (run_stops v) SN) as ST. rewrite ST. cbn [is_none rassert rbind].
      destruct (run_placed_v v x Hv) as [p P]. rewrite P. cbn [rbind]. eexists. split; [reflexivity|]. cbn.
      split; [reflexivity|]. split; [exact P|]. split; intros l; apply hist_at_spec.
  Qed.
  Lemma edges_all x : exists el, output_edges_at_T s (wavefront_edges s) x = Ok el /\
    forall t i a b, In (mkER t i a b) el <->
     active s t /\ link s t i = None /\ position_at s (corner s t (ccw i)) x = Ok a /\ position_at s (corner s t (cw i)) x = Ok b.
  Proof.
    assert (W : forall t i, In (t, i) (wavefront_edges s) <-> active s t /\ link s t i = None).
    { intros t i. unfold wavefront_edges. rewrite in_flat_map. split.
      - intros (u & H1 & H2). destruct (t_stops (ts s u)) eqn:ST; cbn [is_none] in H2; [destruct H2|].
        apply in_map_iff in H2. destruct H2 as (j & H2 & H3). injection H2 as -> ->. apply where3_In in H3. unfold link.
        split; [split; assumption|]. destruct (get3 (t_n (ts s t)) i); [discriminate|reflexivity].
      - intros ((H1 & H2) & H3). exists t. split; [exact H1|]. rewrite H2. cbn [is_none]. apply in_map. apply where3_In.
        unfold link in H3. rewrite H3. reflexivity. }
    unfold output_edges_at_T.
    destruct (rows_all (edge_line s x) (fun e r => e_t r = fst e /\ e_side r = snd e /\
      position_at s (corner s (fst e) (ccw (snd e))) x = Ok (e_from r) /\ position_at s (corner s (fst e) (cw (snd e))) x = Ok (e_to r))
      (wavefront_edges s)) as (el & H & F).
    { intros [t i] _. destruct (run_placed t (ccw i) x) as [p P]. destruct (run_placed t (cw i) x) as [q Q].
      exists (mkER t i p q). cbn [fst snd e_t e_side e_from e_to]. unfold edge_line. cbn [fst snd]. unfold corner in *. rewrite P, Q. cbn. auto. }
    exists el. split; [exact H|]. intros t i a b. split.
    - intros I. destruct (Forall2_in_r _ _ _ _ F I) as ([u j] & J1 & J2 & J3 & J4 & J5). cbn in *. subst. apply W in J1. tauto.
    - intros (AC & LN & P & Q). destruct (Forall2_in_l _ _ _ (t, i) F) as ([u j p q] & J1 & J2 & J3 & J4 & J5); [apply W; auto|].
      cbn in *. subst. congruence.
  Qed.
End Drawing.

(** visualize writes its files in every state of every run, for every time and every list of events *)
Theorem C80_visualize :
  forall (E : Env RA), (forall t u : nat, addr (A:=RA) t = addr (A:=RA) u -> t = u) ->
  forall (s0 : state (A:=RA)) (now : R) s q (x : R), fresh s0 -> run_state s0 now s ->
  exists p, visualize q s x = Ok p /\ pictures q s x p.
Proof.
  intros E inj s0 now s q x FR RUN. unfold visualize, pictures.
  destruct (rows_all (queue_line s x) (queue_line_of s x) q) as (ql & Q1 & Q2).
  { intros e _. destruct (polygon_all s0 now s RUN (ev_tri (es s e)) x) as (poly & P1 & P2). unfold queue_line, queue_line_of. rewrite P1.
    cbn [rbind]. eexists. split; [reflexivity|]. cbn. split; [reflexivity|]. split; [reflexivity|]. split; [reflexivity|]. split; [exact P2|].
    split; [reflexivity|apply finite_iff]. }
  rewrite Q1. cbn [rbind]. unfold output_triangles_at_T.
  destruct (rows_some (tri_line s x) (there s) (tri_line_of s x) (sk_triangles s)) as (tl & T1 & T2).
  { intros t _. unfold there, tri_line. destruct (is_none (t_stops (ts s t))); [|reflexivity].
    destruct (polygon_all s0 now s RUN t x) as (poly & P1 & P2). rewrite P1. cbn [rbind]. eexists. split; [reflexivity|].
    unfold tri_line_of. cbn. split; [reflexivity|]. split; [exact P2|]. split; [reflexivity|]. split; [reflexivity|]. split; [apply finite_iff|].
    intros y. destruct (t_event (ts s t)) as [e|]; cbn.
    - split; [intros K; injection K as <-; exists e; auto|intros (e' & K & ->); congruence].
    - split; [discriminate|intros (e' & K & _); discriminate]. }
  rewrite T1. cbn [rbind].
  destruct (rows_some (bisector_line s x) (alive s) (bisector_of s x) (sk_vertices s)) as (bl & B1 & B2).
  { intros v Hv. apply (bisector_all inj s0 now s RUN v x Hv). }
  rewrite B1. cbn [rbind].
  destruct (rows_some (progress_line s x) (fun _ => true) (progress_row s x) (sk_vertices s)) as (al & A1 & A2).
  { intros v Hv. apply (progress_all s0 now s RUN v x Hv). }
  rewrite A1. cbn [rbind].
  destruct (rows_some (vertex_line s x) (alive s) (vertex_of s x) (sk_vertices s)) as (vl & V1 & V2).
  { intros v Hv. apply (vertex_all inj s0 now s FR RUN v x Hv). }
  rewrite V1. cbn [rbind].
  destruct (edges_all inj s0 now s RUN x) as (el & E1 & E2). rewrite E1. cbn [rbind].
  eexists. split; [reflexivity|]. cbn [p_queue p_tris p_nodes p_bis p_arcs p_verts p_edges].
  replace (filter (fun _ => true) (sk_vertices s)) with (sk_vertices s) in A2
    by (clear; induction (sk_vertices s) as [|v l IH]; cbn; congruence).
  auto 8.
Qed.
Print Assumptions C80_visualize.

(** ... and so does output_skel: one line for every vertex, one point for every node *)
Theorem C80_skel :
  forall (E : Env RA), (forall t u : nat, addr (A:=RA) t = addr (A:=RA) u -> t = u) ->
  forall (s0 : state (A:=RA)) (now : R) s (w : R), fresh s0 -> run_state s0 now s ->
  exists arcs, output_skel s w = Ok (arcs, map (fun n => sn_pos (ns s n)) (sk_nodes s)) /\
    Forall2 (skel_row s w) (sk_vertices s) arcs.
Proof.
  intros E inj s0 now s w FR RUN. unfold output_skel.
  destruct (rows_all (arc_of s w) (skel_row s w) (sk_vertices s)) as (al & A1 & A2).
  { intros v Hv. apply (arc_row inj s0 now s FR RUN w v Hv). }
  rewrite A1. cbn [rbind]. exists al. auto.
Qed.
Print Assumptions C80_skel.

(** the sides that visualize draws lie on the wavefront of time [x]: both ends at distance [x] from one input line *)
Theorem C80_on_front :
  forall (E : Env RA), (forall t u : nat, addr (A:=RA) t = addr (A:=RA) u -> t = u) ->
  forall (s : state (A:=RA)) (now : R) s' q (x : R) p t i a b, firm_run s now s' -> visualize q s' x = Ok p -> In (mkER t i a b) (p_edges p) ->
  ~ left_over s' t i ->
  (forall j, j <> i -> k_inf (vs s' (corner s' t j)) = false /\ k_inf_fast (vs s' (corner s' t j)) = false /\ crossing s' (corner s' t j)) ->
  exists f, k_ur (vs s' (corner s' t (ccw i))) = Some f /\ k_ul (vs s' (corner s' t (cw i))) = Some f /\
    signed_distance (A:=RA) (wf_line (wfs s' f)) a = x /\ signed_distance (A:=RA) (wf_line (wfs s' f)) b = x.
Proof.
  intros E inj s now s' q x p t i a b FR V I NL OR. unfold visualize in V.
  apply rbind_ok in V. destruct V as (ql & _ & V). apply rbind_ok in V. destruct V as (tl & _ & V). cbv zeta in V.
  apply rbind_ok in V. destruct V as (bl & _ & V). apply rbind_ok in V. destruct V as (al & _ & V).
  apply rbind_ok in V. destruct V as (vl & _ & V). apply rbind_ok in V. destruct V as (el & V1 & V). injection V as <-. cbn [p_edges] in I.
  unfold output_edges_at_T in V1. apply rmapl_all in V1. destruct (Forall2_in_r _ _ _ _ V1 I) as ([u j] & J1 & J2).
  unfold edge_line in J2. cbn [fst snd] in J2. apply rbind_ok in J2. destruct J2 as (a' & P & J2). apply rbind_ok in J2. destruct J2 as (b' & Q & J2).
  injection J2 as -> -> -> ->.
  unfold wavefront_edges in J1. apply in_flat_map in J1. destruct J1 as (u & U1 & U2).
  destruct (t_stops (ts s' u)) eqn:ST; cbn [is_none] in U2; [destruct U2|].
  apply in_map_iff in U2. destruct U2 as (k & U2 & U3). injection U2 as -> ->. apply where3_In in U3.
  assert (LN : link s' t i = None) by (unfold link; destruct (get3 (t_n (ts s' t)) i); [discriminate|reflexivity]).
  destruct (C76_side E inj s now s' t i FR (conj U1 ST) LN NL OR) as (f & F1 & F2 & F3 & F4).
  exists f. split; [exact F1|]. split; [exact F2|]. split; [apply F3, P|apply F4, Q].
Qed.
Print Assumptions C80_on_front.

(** ** calc_skel(output=True) *)
(** it does what calc_skel does, and then writes *)
Lemma output_after {A : Arith} {E : Env A} triangulate (points : list pt) shrink io :
  match calc_skel triangulate points shrink io with
  | Err e => calc_skel_output triangulate points shrink io = Err e
  | Ok (s, tr) => exists pts d s0 last, triangulate pts = Ok d /\ init_skeleton d = Ok s0 /\
      bind init_event_list (fun _ => event_loop) (start_of io s0) = Ok (last, s) /\
      calc_skel_output triangulate points shrink io = rbind (output_stage s last) (fun w => Ok ((s, tr), w))
  end.
Proof.
  unfold calc_skel, calc_skel_with, calc_skel_output.
  destruct (if shrink then _ else _) as [[tr pts]|e]; [|reflexivity]. cbn [rbind].
  destruct (triangulate pts) as [d|e] eqn:T; [|reflexivity]. cbn [rbind]. destruct (init_skeleton d) as [s0|e] eqn:HI; [|reflexivity]. cbn [rbind].
  cbv zeta. set (sk := if shrink then _ else _). assert (SK : fst sk = start_of io s0) by (subst sk; destruct shrink, io; reflexivity).
  rewrite SK. destruct (check_starts (start_of io s0)) as [[]|e]; [|reflexivity]. cbn [rbind].
  destruct (init_event_list (start_of io s0)) as [[[] s1]|e] eqn:I; [|reflexivity]. cbn [rbind].
  destruct (event_loop s1) as [[last s]|e] eqn:L; [|reflexivity]. cbn [rbind].
  exists pts, d, s0, last. split; [exact T|]. split; [exact HI|]. split; [|reflexivity]. unfold bind. rewrite I. exact L.
Qed.

(** some vertex never stops and is there at one of the five sampled times *)
Definition endless (s : state (A:=RA)) (last : R) : Prop :=
  exists v a k, In v (sk_vertices s) /\ k_stops (vs s v) = None /\ k_starts (vs s v) = Some a /\ k < 5 /\ (a <= INR k * (last / 5))%R.
(** what is written at the end *)
Definition writes (s : state (A:=RA)) (last : R) (w : written (A:=RA)) : Prop :=
  calc_offsets s last 5 = (w_left w, None) /\
  Forall2 (skel_row s (last + 10)%R) (sk_vertices s) (w_arcs w) /\ w_nodes w = map (fun n => sn_pos (ns s n)) (sk_nodes s) /\
  pictures [] s (last + 10)%R (w_pic w).

Lemma grid_spec (last : R) : exists inc : R, pdiv (A:=RA) last (nofnat 5) = Ok inc /\
  forall k, nmul (Arith:=RA) (nofnat (A:=RA) k) inc = (INR k * (last / 5))%R.
Proof.
  exists (last / 5)%R. split.
  - pose proof (pdiv_R last 5 ltac:(lra)) as K. rewrite <- K. f_equal. rewrite nofnat_INR. simpl. lra.
  - intros k. rewrite nofnat_INR. reflexivity.
Qed.

(** output_offsets as calc_skel calls it: where no vertex is endless it writes what calc_offsets yields *)
Lemma offsets_written (s : state (A:=RA)) (last : R) : (forall v, In v (sk_vertices s) -> dated s v) -> ~ endless s last ->
  exists l r, output_offsets s last 5 = (l, r, None) /\ calc_offsets s last 5 = (l, None).
Proof.
  intros D NE. destruct (grid_spec last) as (inc & HI & HG). unfold output_offsets, calc_offsets. rewrite HI.
  assert (GR : forall t v, In (t, v) (list_prod (map (fun k => nmul (nofnat k) inc) (seq 0 5)) (sk_vertices s)) ->
    In v (sk_vertices s) /\ exists b, k_starts (vs s v) = Some b /\ started_at s v t = Ok (nleb b t) /\ (k_stops (vs s v) = None -> nleb b t = false)).
  { intros t v Hv. apply in_prod_iff in Hv. destruct Hv as [Ht Hv]. split; [exact Hv|].
    destruct (proj1 (started_spec s v t) (D v Hv)) as (b & K1 & K2). exists b. split; [exact K1|]. split; [exact K2|].
    intros ST. destruct (nleb b t) eqn:L; [|reflexivity]. destruct NE. apply in_map_iff in Ht. destruct Ht as (k & <- & Hk). apply in_seq in Hk.
    exists v, b, k. split; [exact Hv|]. split; [exact ST|]. split; [exact K1|]. split; [lia|]. rewrite HG in L. apply le_R in L. exact L. }
  revert GR. set (grid := list_prod _ _). intros GR.
  assert (G : forall nb, exists ys, yields (fun tv => output_offset s nb (fst tv) (snd tv)) grid = (ys, None)).
  { intros nb. destruct (yields_picks (fun tv => output_offset s nb (fst tv) (snd tv))
      (fun tv o => output_offset s nb (fst tv) (snd tv) = Ok (Some o)) grid) as (ys & K & _); [|exists ys; exact K].
    intros [t w] Hw. cbn [fst snd]. unfold output_offset. destruct (GR t w Hw) as (_ & b & _ & -> & N). cbn [rbind].
    destruct (nleb b t); [|exists None; split; [reflexivity|intros y; split; intros K; congruence]].
    destruct (k_stops (vs s w)) as [z|]; [|discriminate (N eq_refl)].
    destruct (nltb t z); [|exists None; split; [reflexivity|intros y; split; intros K; congruence]].
    destruct (offset_item_spec s t w (nb (vs s w))) as (r & -> & _). exists r. split; [reflexivity|]. intros y. split; intros K; congruence. }
  assert (EQ : yields (fun tv => offset_at s (fst tv) (snd tv)) grid =
    yields (fun tv => output_offset s k_left (fst tv) (snd tv)) grid).
  { assert (EX : forall tv, In tv grid -> offset_at s (fst tv) (snd tv) = output_offset s k_left (fst tv) (snd tv)).
    { intros [t w] Hw. cbn [fst snd]. unfold output_offset, offset_at. destruct (GR t w Hw) as (_ & b & _ & -> & N). cbn [rbind].
      destruct (nleb b t) eqn:L; cbn [andb orb]; [|reflexivity]. destruct (k_stops (vs s w)) as [z|]; [|discriminate (N eq_refl)].
      cbn [is_none orb]. destruct (nltb t z); reflexivity. }
    revert EX. clear. induction grid as [|x g IH]; intros EX; [reflexivity|]. cbn [yields].
    rewrite (EX x (or_introl eq_refl)), IH by (intros y Hy; apply EX; right; exact Hy). reflexivity. }
  destruct (G k_left) as [l L]. destruct (G k_right) as [r R]. rewrite EQ, L. cbv iota beta zeta. rewrite R. exists l, r. auto.
Qed.

(** The output stage writes everything, unless some vertex never stops and is there at a sampled time: then it raises TypeError. *)
Theorem C80_output_stage :
  forall (E : Env RA), (forall t u : nat, addr (A:=RA) t = addr (A:=RA) u -> t = u) ->
  forall (s0 : state (A:=RA)) (now : R) s (last : R), fresh s0 -> run_state s0 now s ->
  (endless s last -> output_stage s last = Err TypeError) /\
  (~ endless s last -> exists w, output_stage s last = Ok w /\ writes s last w).
Proof.
  intros E inj s0 now s last FR RUN.
  assert (D : forall v, In v (sk_vertices s) -> dated s v).
  { intros v Hv. destruct (run_vertex s0 now s RUN v Hv) as (K1 & _ & K2). split; assumption. }
  split; intros H.
  - destruct H as (v & a & k & H1 & H2 & H3 & H4 & H5). destruct (grid_spec last) as (inc & HI & HG).
    destruct (C55_raises RA s last 5 inc k v a HI D H4 H1 H2 H3) as (lines & K).
    { rewrite HG. apply le_R. exact H5. }
    unfold output_stage. rewrite K. reflexivity.
  - destruct (offsets_written s last D H) as (l & r & O1 & O2). unfold output_stage. rewrite O1.
    assert (T : nadd (Arith:=RA) last (lit 10) = (last + 10)%R) by (ra_simp; qlit; lra). rewrite T.
    destruct (C80_skel E inj s0 now s (last + 10)%R FR RUN) as (arcs & S1 & S2). rewrite S1. cbn [rbind].
    destruct (C80_visualize E inj s0 now s [] (last + 10)%R FR RUN) as (p & V1 & V2). rewrite V1. cbn [rbind].
    eexists. split; [reflexivity|]. unfold writes. cbn [w_left w_arcs w_nodes w_pic fst snd]. auto.
Qed.
Print Assumptions C80_output_stage.

(** The whole call: with output=True calc_skel raises whatever it raises without; where it returns a skeleton whose vertices
    are all stopped it returns the same skeleton; where a vertex of the input never stops it raises TypeError. *)
Theorem C80_calc_skel :
  forall (E : Env RA), (forall t u : nat, addr (A:=RA) t = addr (A:=RA) u -> t = u) ->
  forall triangulate (points : list (R * R)) shrink io,
  match calc_skel (A:=RA) triangulate points shrink io with
  | Err e => calc_skel_output (A:=RA) triangulate points shrink io = Err e
  | Ok (s, tr) =>
      ((forall v, In v (sk_vertices s) -> k_stops (vs s v) <> None) ->
         exists w last, calc_skel_output (A:=RA) triangulate points shrink io = Ok ((s, tr), w) /\ writes s last w) /\
      ((exists v, In v (sk_vertices s) /\ k_stops (vs s v) = None /\ k_starts (vs s v) = Some 0%R) ->
         calc_skel_output (A:=RA) triangulate points shrink io = Err TypeError)
  end.
Proof.
  intros E inj tri points shrink io. pose proof (output_after (A:=RA) tri points shrink io) as K.
  destruct (calc_skel tri points shrink io) as [[s tr]|e]; [|exact K].
  destruct K as (pts & d & s0 & last & K1 & K2 & K3 & K4). rewrite K4.
  destruct (C33_normal_return RA E _ _ _ K3) as (_ & _ & _ & s1 & trc & ST & RE & _).
  assert (RUN : run_state (start_of io s0) last s) by (split; [apply (C80_start RA d), K2|exists s1, trc; auto]).
  destruct (C80_output_stage E inj _ last s last (start_fresh io s0 (init_fresh d s0 K2 (nleb_refl RA_ord _))) RUN) as [P1 P2]. split.
  - intros H. destruct P2 as (w & W1 & W2).
    { intros (v & a & k & Hv & N & _). apply (H v Hv N). }
    exists w, last. rewrite W1. auto.
  - intros (v & Hv & N & Z). rewrite P1; [reflexivity|]. exists v, 0%R, 0. split; [exact Hv|]. split; [exact N|]. split; [exact Z|].
    split; [lia|]. simpl. lra.
Qed.
Print Assumptions C80_calc_skel.

(** *** Cases *)
(** the right triangle (0,0) (4,0) (0,3) of Properties_fronts, with its nodes; vertices and nodes listed in the skeleton *)
Definition noded (kv : kvertex (A:=RA)) (n : nat) : kvertex (A:=RA) :=
  mkKV (A:=RA) (k_inf kv) (k_origin kv) (k_velocity kv) (k_left kv) (k_right kv) (k_starts kv) (k_stops kv) (Some n) (k_stop_node kv)
    (k_ul kv) (k_ur kv) (k_wfl kv) (k_wfr kv) (k_info kv) (k_inf_fast kv) (k_internal kv).
Definition noded_trio : state (A:=RA) :=
  mkSt (A:=RA) (fun v => noded (vs trio v) (Nat.min v 2)) 3 (ts trio) 1 (fun n => mkNode (A:=RA) (k_origin (vs trio n)) 0 None) 3 (es trio) 0 (wfs trio)
    [0; 1; 2] [0; 1; 2] [0] [] [].
Definition noded_started : state (A:=RA) :=
  with_qi (with_event noded_trio 0 (mkEv (A:=RA) 1%R 0 [S0; S1; S2] Edge 3)) [0] [].
Lemma noded_fresh : fresh noded_trio.
Proof.
  destruct trio_set_out as ([F1 F2 F3 F4 F5 F6 F7] & _). constructor; [exact F1|exact F2|exact F3|exact F4|exact F5|reflexivity|]. constructor.
  - intros v n H. cbn in H. injection H as <-. cbn. lia.
  - intros v n H. discriminate (eq_trans (eq_sym H) (F4 v)).
  - intros n H. cbn in *. lia.
  - intros n H. cbn in *. lia.
Qed.
Lemma noded_run (E : Env RA) : run_state noded_trio (n0 (A:=RA)) noded_started.
Proof.
  destruct trio_set_out as (_ & SH & _). split.
  - split; [apply noded_fresh|]. split; [destruct SH as [X Y]; constructor; [exact X|exact Y]|].
    assert (K : forall v, v < 3 -> kinetic noded_trio v).
    { intros v L. split; [exact L|]. destruct v as [|[|[|v]]]; cbn; repeat split; try discriminate; lia. }
    split; [intros v H; apply K; cbn in H; lia|]. intros v L. left. apply K, L.
  - exists noded_started, []. split; [|constructor]. exists noded_started. split; [|reflexivity].
    unfold init_event_list, compute_collapse_time, rd, bind, gets. cbn [setq sk_triangles noded_trio forM]. unfold bind.
    match goal with |- context [collapse_event ?a 0 ?w FindGt] => assert (C : collapse_event a 0 w FindGt = collapse_event trio 0 w FindGt) end.
    { apply Current.collapse_view. constructor; try reflexivity. intros i. constructor; destruct i; reflexivity. }
    rewrite C. pose proof trio_event as TE. cbn [queue trio] in *. 
    rewrite TE. reflexivity.
Qed.

Lemma Forall2_len {X Y} (R : X -> Y -> Prop) l ys : Forall2 R l ys -> length l = length ys.
Proof. intros F. induction F; cbn; congruence. Qed.

(** at its start, drawn as it will be at time 1/2: an event, a triangle, three nodes, three vertices on their way, three sides *)
Example C80_visualize_case : forall (E : Env RA), (forall t u : nat, addr (A:=RA) t = addr (A:=RA) u -> t = u) ->
  fresh noded_trio /\ run_state noded_trio (n0 (A:=RA)) noded_started /\
  exists p, visualize [0] noded_started (1/2)%R = Ok p /\ pictures [0] noded_started (1/2)%R p /\
    length (p_queue p) = 1 /\ length (p_tris p) = 1 /\ length (p_nodes p) = 3 /\ length (p_bis p) = 3 /\ length (p_arcs p) = 3 /\
    length (p_verts p) = 3 /\ length (p_edges p) = 3.
Proof.
  intros E inj. split; [exact noded_fresh|]. split; [apply noded_run|].
  destruct (C80_visualize E inj _ _ _ [0] (1/2)%R noded_fresh (noded_run E)) as (p & V & P). exists p. split; [exact V|]. split; [exact P|].
  destruct P as (P1 & P2 & P3 & P4 & P5 & P6 & _). apply Forall2_len in P1, P2, P4, P5, P6. rewrite <- P1, <- P2, P3, <- P4, <- P5, <- P6.
  repeat (split; [reflexivity|]).
  unfold visualize in V. apply rbind_ok in V. destruct V as (ql & _ & V). apply rbind_ok in V. destruct V as (tl & _ & V). cbv zeta in V.
  apply rbind_ok in V. destruct V as (bl & _ & V). apply rbind_ok in V. destruct V as (al & _ & V).
  apply rbind_ok in V. destruct V as (vl & _ & V). apply rbind_ok in V. destruct V as (el & V1 & V). injection V as <-. cbn [p_edges].
  unfold output_edges_at_T in V1. apply rmapl_all, Forall2_len in V1. rewrite <- V1. reflexivity.
Qed.
(** were the loop to end here, output_offsets would raise *)
Example C80_output_stage_case : forall (E : Env RA), (forall t u : nat, addr (A:=RA) t = addr (A:=RA) u -> t = u) ->
  endless noded_started 1%R /\ output_stage noded_started 1%R = Err TypeError.
Proof.
  intros E inj. assert (H : endless noded_started 1%R).
  { exists 0, 0%R, 0. split; [left; reflexivity|]. split; [reflexivity|]. split; [reflexivity|]. split; [lia|]. simpl. lra. }
  split; [exact H|]. apply (C80_output_stage E inj _ _ _ 1%R noded_fresh (noded_run E)), H.
Qed.
(** the sides drawn at time 1/2 are half a unit from the sides of the triangle *)
Example C80_on_front_case : forall (E : Env RA), (forall t u : nat, addr (A:=RA) t = addr (A:=RA) u -> t = u) ->
  firm_run trio 0%R trio_started /\ exists el, output_edges_at_T trio_started (wavefront_edges trio_started) (1/2)%R = Ok el /\ length el = 3 /\
  forall t i a b, In (mkER t i a b) el -> exists f,
    signed_distance (A:=RA) (wf_line (wfs trio_started f)) a = (1/2)%R /\ signed_distance (A:=RA) (wf_line (wfs trio_started f)) b = (1/2)%R.
Proof.
  intros E inj. destruct (C76_case E inj) as (FR & _ & AC & OR & CR & NL & _). split; [exact FR|].
  eexists. split; [reflexivity|]. split; [reflexivity|].
  intros t i a b H.
  assert (K : forall j, link trio_started 0 j = None -> exists f, rides trio_started (corner trio_started 0 (ccw j)) f /\
     rides trio_started (corner trio_started 0 (cw j)) f).
  { intros j Hj. destruct (C76_side E inj trio 0%R trio_started 0 j FR AC Hj) as (f & _ & _ & K1 & K2); [apply NL| |exists f; auto].
    intros k _. destruct (OR k). auto. }
  cbn - [nadd nmul] in H. destruct H as [H|[H|[H|[]]]]; injection H as <- <- <- <-;
    [destruct (K S0 eq_refl) as (f & K1 & K2)|destruct (K S1 eq_refl) as (f & K1 & K2)|destruct (K S2 eq_refl) as (f & K1 & K2)];
    exists f; split; first [apply K1; reflexivity|apply K2; reflexivity].
Qed.

Lemma check_two {X Y Z} (a : res (X * Y)) (b : res Z) :
  (match a with Ok _ => true | Err _ => false end && match b with Err TypeError => true | _ => false end)%bool = true ->
  exists y x, a = Ok (x, y) /\ b = Err TypeError.
Proof. destruct a as [[x y]|]; [|discriminate]. destruct b as [|[]]; try discriminate. intros _. exists y, x. auto. Qed.
(** "with output=True calc_skel returns what it returns without" is false: right triangle, inside and outside *)
Theorem C80_same_result_refuted :
  exists points tr (s : state (A:=QA)), calc_skel tri_of points true false = Ok (s, tr) /\
  calc_skel_output tri_of points true false = Err TypeError.
Proof.
  exists right_triangle. refine (check_two _ _ _). vm_compute. reflexivity.
Qed.
Print Assumptions C80_same_result_refuted.

(** inside only: three arcs, all stopped, four nodes, fifteen offsets, nothing left on its way *)
Example C80_calc_skel_case :
  match calc_skel_output tri_of right_triangle true true with
  | Ok ((s, _), w) =>
      Nat.eqb (length (w_arcs w)) 3 && forallb a_stopped (w_arcs w) && Nat.eqb (length (w_nodes w)) 4 && Nat.eqb (length (w_left w)) 15 &&
      Nat.eqb (length (w_right w)) 15 && Nat.eqb (length (p_arcs (w_pic w))) 3 && Nat.eqb (length (p_verts (w_pic w))) 0 &&
      Nat.eqb (length (p_edges (w_pic w))) 0 && Nat.eqb (length (p_tris (w_pic w))) 0 &&
      forallb (fun v => is_some (k_stops (vs s v))) (sk_vertices s)
  | Err _ => false
  end = true.
Proof. vm_compute. reflexivity. Qed.
(** in the middle of a run: the quadrilateral after its first event *)
Example C80_listed_case :
  exists s0 s1 now tr s, init_skeleton quad_dt = Ok s0 /\ started (start_of true s0) s1 /\ reach s1 now tr s /\ length tr = 1 /\ outfit s.
Proof.
  assert (K : match init_skeleton quad_dt with Ok s0 => holds_k 1 (start_of true s0) (fun _ _ _ => true) | Err _ => false end = true) by (vm_compute; reflexivity).
  destruct (init_skeleton quad_dt) as [s0|] eqn:HI; [|discriminate]. apply example_k in K. destruct K as (s1 & now & tr & s & ST & R & L & _).
  exists s0, s1, now, tr, s. split; [reflexivity|]. split; [exact ST|]. split; [exact R|]. split; [exact L|].
  apply (C80_listed QA QE (start_of true s0) now). split; [apply (C80_start QA quad_dt), HI|]. exists s1, tr. auto.
Qed.
