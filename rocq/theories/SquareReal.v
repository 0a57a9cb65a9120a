(** calc_skel on a square, over the reals *)
From Coq Require Import Reals Lra.
From Verif Require Import Base Arith ArithR Calc CalcProofs VectorOps VectorOpsProofs Line2d Line2dProofs Transform Primitives Collapse CollapseProofs CollapseR Properties_collapse
  Properties_basic EventGeom
  EventsLib EventLoop Initialize Main Properties_init
  InitBisect RSquared Properties_regression TriExample TriStart TriGeom Properties_geometry Mesh MeshRun Properties_current Properties_checks
  TriReal Properties_triangle QuadExample RectStart RectRun RectLoop RectReal SquareRun Properties_main.
Local Open Scope R_scope.
Local Existing Instance RA.

(** ** The event of a triangle with two sides on the wavefront that shrinks to a point *)
Lemma all_small (s : state (A:=RA)) (t o d a : nat) (x : R) : dists (A:=RA) s o d a x = Ok (mk3 0 0 0) ->
  event2_at (A:=RA) s t o d a x = Ok (Some (mkevent s t x [S0; S1; S2] Edge)).
Proof.
  intros D. unfold event2_at. rewrite D. cbn [rbind]. cbv zeta.
  assert (MN : min3 (A:=RA) (mk3 0 0 0) = 0). { unfold min3. cbn [x0 x1 x2]. rewrite !nmin_R. repeat match goal with |- context [if ?b then _ else _] => destruct b end; reflexivity. }
  rewrite MN. unfold map3, count3, list3. cbn [x0 x1 x2].
  assert (N0 : near_zero (A:=RA) (nsub (Arith:=RA) 0 0) = true).
  { apply near_zero_R. assert (0 < / 10^10) by (apply Rinv_0_lt_compat, pow_lt; lra). ra_simp. lra. }
  cbn [filter]. rewrite N0. reflexivity.
Qed.
Lemma point_event (s : state (A:=RA)) (t : nat) (x : R) k : ordinary s t -> t_stops (ts s t) = None -> tri_type (ts s t) = 2%nat ->
  x > / 10^10 -> get3 (t_n (ts s t)) k = None ->
  (forall i, get3 (t_n (ts s t)) i = None -> collapse_time_edge s (get3 (t_v (ts s t)) (ccw i)) (get3 (t_v (ts s t)) (cw i)) = Ok x) ->
  (forall m, len2 s t m x = 0) ->
  collapse_event s t (n0 (A:=RA)) FindGt = Ok (Some (mkEv (A:=RA) x t [S0; S1; S2] Edge 2)).
Proof.
  intros O ST TY XP NK TI LM. assert (E10 : 0 < / 10^10) by (apply Rinv_0_lt_compat, pow_lt; lra).
  unfold collapse_event. rewrite ST, (ordinary_finite s t O), TY. cbn [is_some].
  enough (H : compute_event_2triangle s t (n0 (A:=RA)) FindGt = Ok (Some (mkEv (A:=RA) x t [S0; S1; S2] Edge 2))) by (rewrite H; reflexivity).
  unfold compute_event_2triangle. rewrite TY. cbn [Nat.eqb rassert rbind].
  assert (ED : forall i, exists q, (if is_none (get3 (t_n (ts s t)) i) then rmap Some (collapse_time_edge s (get3 (t_v (ts s t)) (ccw i)) (get3 (t_v (ts s t)) (cw i))) else Ok None) = Ok q /\
     (i = k -> q = Some x) /\ (forall v, q = Some v -> v = x \/ v = x)).
  { intros i. destruct (get3 (t_n (ts s t)) i) eqn:NI.
    - exists None. split; [reflexivity|]. split; [intros ->; congruence|discriminate].
    - rewrite (TI i NI). exists (Some x). split; [reflexivity|]. split; [reflexivity|]. intros v Q. injection Q as <-. auto. }
  destruct (ED S2) as (q2 & H2 & K2 & I2). destruct (ED S0) as (q0 & H0 & K0 & I0). destruct (ED S1) as (q1 & H1 & K1 & I1).
  cbn [ccw cw] in H0, H1, H2. cbn [get3] in H0, H1, H2 |- *.
  destruct (pick [q2; q0; q1] x x) as (out & U & RS); [destruct k; [rewrite (K0 eq_refl)|rewrite (K1 eq_refl)|rewrite (K2 eq_refl)]; cbn; auto| |lra|exact XP|].
  { intros v [Q|[Q|[Q|[]]]]; auto. }
  match goal with |- rbind ?m _ = _ => replace m with (Ok q2 : res (option R)) by (symmetry; exact H2) end. cbn [rbind].
  match goal with |- rbind ?m _ = _ => replace m with (Ok q0 : res (option R)) by (symmetry; exact H0) end. cbn [rbind].
  match goal with |- rbind ?m _ = _ => replace m with (Ok q1 : res (option R)) by (symmetry; exact H1) end. cbn [rbind].
  match goal with |- rbind ?m _ = _ => replace m with (Ok out : res (list R)) by (symmetry; exact U) end. cbn [rbind].
  match goal with |- context [run_sieve ?a ?b ?c] => replace (run_sieve a b c) with (Some x) by (symmetry; exact RS) end. cbn [rbind].
  rewrite (all_small s t _ _ _ x); [unfold mkevent; rewrite TY; reflexivity|].
  rewrite (dists_val s t O x). apply f_equal.
  assert (G : forall m, get3 (map3 sqrt (lens s t x)) m = 0) by (intros m; rewrite get_map3, get_lens, LM; apply sqrt_0).
  pose proof (G S0) as Q0. pose proof (G S1) as Q1. pose proof (G S2) as Q2.
  destruct (map3 sqrt (lens s t x)) as [y0 y1 y2]. cbn [get3 x0 x1 x2] in Q0, Q1, Q2. rewrite Q0, Q1, Q2. reflexivity.
Qed.

Section Square.
  Context (E : Env RA) (TE : true_orientation E) (AD : addr (A:=RA) 0 <> addr (A:=RA) 1) (rl : nat) (HR : reclimit (A:=RA) = S rl).
  Context (ca cb x y w : R) (UN : ca * ca + cb * cb = 1) (WP : w > 2 / 10^10).
  Notation q0 := (q0 x y).
  Notation q1 := (q1 ca cb x y w).
  Notation q2 := (q2 ca cb x y w w).
  Notation q3 := (q3 ca cb x y w).
  Notation d0 := (d0 ca cb).
  Notation d1 := (d1 ca cb).
  Notation d2 := (d2 ca cb).
  Notation d3 := (d3 ca cb).
  Section State.
    Context (V : nat -> kvertex (A:=RA)).
    Context (V0 : V 0%nat = first_vertex (A:=RA) q0 d0 6 2 0 4 2 1) (V2 : V 2%nat = first_vertex (A:=RA) q1 d1 0 4 1 2 0 3)
      (V4 : V 4%nat = first_vertex (A:=RA) q2 d2 2 6 2 0 3 5) (V6 : V 6%nat = first_vertex (A:=RA) q3 d3 4 0 3 3 4 7).
    Lemma square0 s o : vs s = V -> ts s 0%nat = tri0 o ->
      collapse_event s 0 (n0 (A:=RA)) FindGt = Ok (Some (mkEv (A:=RA) (w / 2) 0 [S0; S1; S2] Edge 2)).
    Proof.
      intros HV HT. destruct (times ca cb x y w w UN V V0 V2 V4 V6 s HV) as (A1 & A2 & A3 & A4).
      apply (point_event s 0 (w / 2) S0); try (rewrite HT; reflexivity); try lra; [apply (ordinary0 ca cb x y w w V V0 V2 V4 s o HV HT)|..].
      - intros [| |] NI; rewrite HT in *; [exact A2|discriminate NI|exact A1].
      - intros [| |]; unfold len2, place, path, sqdist, moving; rewrite HT, HV; cbn [tri0 t_v get3 ccw cw x0 x1 x2]; rewrite ?V0, ?V2, ?V4; cbn [first_vertex k_origin k_velocity];
        unfold RectReal.q0, RectReal.q1, RectReal.q2, RectReal.d0, RectReal.d1, RectReal.d2; cbn [fst snd]; field.
    Qed.
    Lemma square1 s o : vs s = V -> ts s 1%nat = tri1 o ->
      collapse_event s 1 (n0 (A:=RA)) FindGt = Ok (Some (mkEv (A:=RA) (w / 2) 1 [S0; S1; S2] Edge 2)).
    Proof.
      intros HV HT. destruct (times ca cb x y w w UN V V0 V2 V4 V6 s HV) as (A1 & A2 & A3 & A4).
      apply (point_event s 1 (w / 2) S0); try (rewrite HT; reflexivity); try lra; [apply (ordinary1 ca cb x y w w V V0 V4 V6 s o HV HT)|..].
      - intros [| |] NI; rewrite HT in *; [exact A3|exact A4|discriminate NI].
      - intros [| |]; unfold len2, place, path, sqdist, moving; rewrite HT, HV; cbn [tri1 t_v get3 ccw cw x0 x1 x2]; rewrite ?V0, ?V6, ?V4; cbn [first_vertex k_origin k_velocity];
        unfold RectReal.q0, RectReal.q3, RectReal.q2, RectReal.d0, RectReal.d3, RectReal.d2; cbn [fst snd]; field.
    Qed.
  End State.

  (** what the run leaves: the four corners' arcs end in the middle *)
  Definition square_run (T : R) (c : R * R) : Prop := exists d s s1 NS tris s',
    quad_of (A:=RA) [q0; q1; q2; q3] = Ok d /\ init_skeleton d = Ok s /\ init_event_list (start_of true s) = Ok (tt, s1) /\ event_loop s1 = Ok (T, s') /\
    (in_square q0 -> in_square q1 -> in_square q2 -> in_square q3 -> check_starts (start_of true s) = Ok tt) /\
    meeting (A:=RA) T c NS [0; 1; 2; 3]%nat tris s' [(0%nat, q0, d0, 6%nat, 0%nat); (2%nat, q1, d1, 0%nat, 1%nat); (4%nat, q2, d2, 2%nat, 2%nat); (6%nat, q3, d3, 4%nat, 3%nat)] /\
    (tris = [0; 1]%nat \/ tris = [1; 0]%nat) /\
    (sn_pos (NS 0%nat) = q0 /\ sn_pos (NS 1%nat) = q1 /\ sn_pos (NS 2%nat) = q2 /\ sn_pos (NS 3%nat) = q3) /\
    (sn_info (NS 0%nat) = None /\ sn_info (NS 1%nat) = None /\ sn_info (NS 2%nat) = None /\ sn_info (NS 3%nat) = None).

  Lemma square_all : square_run (w / 2) (meet q0 d0 (w / 2)).
  Proof.
    assert (E10 : 0 < / 10^10) by (apply Rinv_0_lt_compat, pow_lt; lra).
    destruct (rect_start E rl HR ca cb x y w w UN WP WP) as (d & s & V & TS & NS & ES & W & tris & w01 & w12 & w23 & w30 & HD & HI & ST & TR & T0 & T1 & V0 & V2 & V4 & V6 & W0 & W2 & W3 & W4 & PS & IS & FR).
    destruct (events_ready V TS NS ES W [0; 1; 2; 3]%nat tris (w / 2) T0 T1 TR (mkEv (A:=RA) (w / 2) 0 [S0; S1; S2] Edge 2) (mkEv (A:=RA) (w / 2) 1 [S0; S1; S2] Edge 2))
      as (e0 & e1 & qu & TS' & ES' & HE & T0' & T1' & E0 & E1 & QU).
    { repeat split. }
    { repeat split. }
    { intros s2 o HV HT. apply (square0 V V0 V2 V4 V6 s2 o); assumption. }
    { intros s2 o HV HT. apply (square1 V V0 V2 V4 V6 s2 o); assumption. }
    { apply Rltb_false. lra. }
    { exact AD. }
    destruct (checks_pass E TE ca cb x y w w UN WP WP V NS W tris w01 w12 w23 w30 TR V0 V2 V4 V6 FR TS' ES' [0; 1; 2; 3]%nat qu _ _ T0' T1') as [CB CO].
    set (T := w / 2) in *. assert (TP : T > / 10^10) by (unfold T; lra).
    destruct (numbers E rl HR T TP) as (TT & TL & NZ & Z0 & Z1 & _ & _ & N00 & N0).
    assert (M3 : forall z, pdiv (A:=RA) (nadd (Arith:=RA) (nadd (Arith:=RA) z z) z) (nofnat (A:=RA) 3) = Ok z).
    { intros z. unfold pdiv. rewrite (RA_counts 3%nat) by lia. apply f_equal. rewrite nofnat_INR. cbn [INR]. ra_simp. field. }
    assert (ZL : nltb (Arith:=RA) (n0 (A:=RA)) (n0 (A:=RA)) = false) by (apply Rltb_false; lra).
    set (c := meet q0 d0 T) in *.
    assert (X1 : nadd (Arith:=RA) (fst q1) (nmul (Arith:=RA) T (fst d1)) = fst c) by (unfold c, meet, RectReal.q0, RectReal.q1, RectReal.d0, RectReal.d1, T; cbn [fst snd]; ra_simp; field).
    assert (Y1 : nadd (Arith:=RA) (snd q1) (nmul (Arith:=RA) T (snd d1)) = snd c) by (unfold c, meet, RectReal.q0, RectReal.q1, RectReal.d0, RectReal.d1, T; cbn [fst snd]; ra_simp; field).
    assert (X2 : nadd (Arith:=RA) (fst q2) (nmul (Arith:=RA) T (fst d2)) = fst c) by (unfold c, meet, RectReal.q0, RectReal.q2, RectReal.d0, RectReal.d2, T; cbn [fst snd]; ra_simp; field).
    assert (Y2 : nadd (Arith:=RA) (snd q2) (nmul (Arith:=RA) T (snd d2)) = snd c) by (unfold c, meet, RectReal.q0, RectReal.q2, RectReal.d0, RectReal.d2, T; cbn [fst snd]; ra_simp; field).
    assert (X3 : nadd (Arith:=RA) (fst q3) (nmul (Arith:=RA) T (fst d3)) = fst c) by (unfold c, meet, RectReal.q0, RectReal.q3, RectReal.d0, RectReal.d3, T; cbn [fst snd]; ra_simp; field).
    assert (Y3 : nadd (Arith:=RA) (snd q3) (nmul (Arith:=RA) T (snd d3)) = snd c) by (unfold c, meet, RectReal.q0, RectReal.q3, RectReal.d0, RectReal.d3, T; cbn [fst snd]; ra_simp; field).
    pose proof (root0 (fst c) (snd c)) as D3.
    assert (RUN : exists s', event_loop (before V TS' NS ES' W [0; 1; 2; 3]%nat tris qu) = Ok (T, s') /\
      meeting (A:=RA) T c NS [0; 1; 2; 3]%nat tris s' [(0%nat, q0, d0, 6%nat, 0%nat); (2%nat, q1, d1, 0%nat, 1%nat); (4%nat, q2, d2, 2%nat, 2%nat); (6%nat, q3, d3, 4%nat, 3%nat)]).
    { destruct QU as [-> | ->].
      - edestruct first_square with (p0 := q0) (p1 := q1) (p2 := q2) (p3 := q3) (b0 := d0) (b1 := d1) (b2 := d2) (b3 := d3) (c := c) (T := T)
          (V := V) (TS := TS') (NS := NS) (ES := ES') (W := W) (N := [0; 1; 2; 3]%nat) (tris := tris) as (s2 & s' & H & I1 & Q1 & _ & H2 & OC); try eassumption; try reflexivity.
        exists s'. split; [|exact OC]. eapply loop_twice; try eassumption. rewrite E0. reflexivity.
      - edestruct second_square with (p0 := q0) (p1 := q1) (p2 := q2) (p3 := q3) (b0 := d0) (b1 := d1) (b2 := d2) (b3 := d3) (c := c) (T := T)
          (V := V) (TS := TS') (NS := NS) (ES := ES') (W := W) (N := [0; 1; 2; 3]%nat) (tris := tris) as (s2 & s' & H & I1 & Q1 & _ & H2 & OC); try eassumption; try reflexivity.
        exists s'. split; [|exact OC]. eapply loop_twice; try eassumption. rewrite E1. reflexivity. }
    destruct RUN as (s' & HL & OC).
    exists d, s, (before V TS' NS ES' W [0; 1; 2; 3]%nat tris qu), NS, tris, s'. split; [exact HD|]. split; [exact HI|]. split; [rewrite ST; exact HE|]. split; [exact HL|].
    split; [exact (start_checked ca cb x y w w s V TS NS ES W tris ST V0 V2 V4 V6 PS)|]. auto.
  Qed.
End Square.
