(** calc_skel on a rectangle, over the reals *)
From Coq Require Import Reals Lra.
From Verif Require Import Base Arith ArithR Calc CalcProofs VectorOps VectorOpsProofs Line2d Line2dProofs Transform Primitives Collapse CollapseProofs CollapseR Properties_collapse
  Properties_basic EventGeom
  EventsLib EventLoop Initialize Main Properties_init
  InitBisect RSquared Properties_regression TriExample TriStart TriGeom Properties_geometry Mesh MeshRun Properties_current Properties_checks
  TriReal Properties_triangle QuadExample RectStart RectRun RectLoop Properties_main.
Local Open Scope R_scope.
Local Existing Instance RA.

(** ** The event of a triangle with two sides on the wavefront, one of which vanishes first *)
Lemma pick (l : list (option R)) (x y : R) : In (Some x) l -> (forall v, In (Some v) l -> v = x \/ v = y) -> x <= y -> x > / 10^10 ->
  exists out, get_unique_times (A:=RA) l = Ok out /\ run_sieve (A:=RA) FindGt (map Some out) (n0 (A:=RA)) = Some x.
Proof.
  intros X IN XY XP. destruct (C05_unique_times_otherwise l x X) as (out & Q & _ & SUB & (m & HD & ML) & _).
  exists out. split; [exact Q|]. rewrite zero_R.
  assert (V : forall v, In v out -> v = x \/ v = y) by (intros v Hv; apply IN, In_somes, SUB, Hv).
  destruct out as [|a out]; [discriminate|]. injection HD as ->.
  assert (m = x). { destruct (V m (or_introl eq_refl)) as [-> | ->]; [reflexivity|]. specialize (ML x). assert (y <= x) by (apply ML, In_somes, X). lra. }
  subst m. match goal with |- ?g = _ => destruct g as [v|] eqn:G end.
  - apply sieve_some in G. destruct G as (G1 & _ & G2). apply in_map_iff in G1. destruct G1 as (v' & G1 & G3). injection G1 as ->.
    specialize (G2 x (or_introl eq_refl)). cbn [adm] in G2. destruct (V v G3) as [-> | ->]; [reflexivity|].
    assert (y <= x) by (apply G2; lra). f_equal. lra.
  - exfalso. apply (sieve_none _ _ _ G x); [left; reflexivity|cbn; lra].
Qed.

Lemma nmin_R (a b : R) : nmin (A:=RA) a b = if Rltb b a then b else a.
Proof. reflexivity. Qed.
Lemma one_small (s : state (A:=RA)) (t o d a : nat) (x L : R) k (ds : triple R) : dists (A:=RA) s o d a x = Ok ds -> get3 ds k = 0 ->
  (forall m, m <> k -> get3 ds m = L) -> L > / 10^10 -> event2_at (A:=RA) s t o d a x = Ok (Some (mkevent s t x [k] Edge)).
Proof.
  intros D K M LP. assert (E10 : 0 < / 10^10) by (apply Rinv_0_lt_compat, pow_lt; lra). unfold event2_at. rewrite D. cbn [rbind]. cbv zeta.
  assert (MN : min3 (A:=RA) ds = 0).
  { destruct (min3_is ds) as [j J]. pose proof (min3_R ds k) as B. rewrite K in B. rewrite <- J in *.
    destruct (side_eqb j k) eqn:JK; [apply side_eqb_eq in JK; subst; exact K|].
    assert (j <> k) by (intros ->; destruct k; discriminate). rewrite (M j) in B by assumption. lra. }
  rewrite MN.
  assert (SH : map3 (fun y : R => y - 0) ds = ds) by (destruct ds as [y0 y1 y2]; unfold map3; cbn [x0 x1 x2]; f_equal; ring).
  change (map3 (fun y : @num RA => nsub (Arith:=RA) y 0) ds) with (map3 (fun y : R => y - 0) ds). rewrite SH.
  assert (N0 : near_zero (A:=RA) (0 : R) = true) by (apply near_zero_R; lra).
  assert (NL : near_zero (A:=RA) L = false) by (apply near_zero_false_R; rewrite Rabs_right; lra).
  assert (Q0 : neqb (Arith:=RA) (0 : R) 0 = true) by (apply Reqb_true; reflexivity).
  assert (QL : neqb (Arith:=RA) L 0 = false) by (ra_simp; destruct (Reqb L 0) eqn:Z; [apply Reqb_true in Z; lra|reflexivity]).
  assert (C : count3 (near_zero (A:=RA)) ds = 1%nat).
  { unfold count3, list3. pose proof (M S0) as M0. pose proof (M S1) as M1. pose proof (M S2) as M2.
    destruct ds as [y0 y1 y2]. destruct k; cbn [get3 x0 x1 x2] in *; rewrite ?M0, ?M1, ?M2, K by discriminate; cbn [filter]; rewrite N0, NL; reflexivity. }
  rewrite C. unfold argmin3. rewrite MN. unfold index3.
  pose proof (M S0) as M0. pose proof (M S1) as M1. pose proof (M S2) as M2.
  destruct ds as [y0 y1 y2]. destruct k; cbn [get3 x0 x1 x2] in *; rewrite ?M0, ?M1, ?M2, K by discriminate; unfold find3; cbn [x0 x1 x2 find sides get3]; rewrite ?Q0, ?QL; reflexivity.
Qed.

Lemma two_event (s : state (A:=RA)) (t : nat) (k : side) (x y L : R) : ordinary s t -> t_stops (ts s t) = None -> tri_type (ts s t) = 2%nat ->
  x > / 10^10 -> x <= y -> get3 (t_n (ts s t)) k = None ->
  collapse_time_edge s (get3 (t_v (ts s t)) (ccw k)) (get3 (t_v (ts s t)) (cw k)) = Ok x ->
  (forall i, get3 (t_n (ts s t)) i = None -> i <> k -> collapse_time_edge s (get3 (t_v (ts s t)) (ccw i)) (get3 (t_v (ts s t)) (cw i)) = Ok y) ->
  len2 s t k x = 0 -> L > / 10^10 -> (forall m, m <> k -> len2 s t m x = L * L) ->
  collapse_event s t (n0 (A:=RA)) FindGt = Ok (Some (mkEv (A:=RA) x t [k] Edge 2)).
Proof.
  intros O ST TY XP XY NK TK TI LK LP LM. assert (E10 : 0 < / 10^10) by (apply Rinv_0_lt_compat, pow_lt; lra).
  unfold collapse_event. rewrite ST, (ordinary_finite s t O), TY. cbn [is_some].
  enough (H : compute_event_2triangle s t (n0 (A:=RA)) FindGt = Ok (Some (mkEv (A:=RA) x t [k] Edge 2))) by (rewrite H; reflexivity).
  unfold compute_event_2triangle. rewrite TY. cbn [Nat.eqb rassert rbind].
  assert (ED : forall i, exists q, (if is_none (get3 (t_n (ts s t)) i) then rmap Some (collapse_time_edge s (get3 (t_v (ts s t)) (ccw i)) (get3 (t_v (ts s t)) (cw i))) else Ok None) = Ok q /\
     (i = k -> q = Some x) /\ (forall v, q = Some v -> v = x \/ v = y)).
  { intros i. destruct (side_eqb i k) eqn:IK.
    - apply side_eqb_eq in IK. subst i. rewrite NK, TK. exists (Some x). split; [reflexivity|]. split; [reflexivity|]. intros v Q. injection Q as <-. auto.
    - assert (i <> k) by (intros ->; destruct k; discriminate). destruct (get3 (t_n (ts s t)) i) eqn:NI.
      + exists None. split; [reflexivity|]. split; [intros ->; congruence|discriminate].
      + rewrite (TI i NI) by assumption. exists (Some y). split; [reflexivity|]. split; [intros ->; congruence|]. intros v Q. injection Q as <-. auto. }
  destruct (ED S2) as (q2 & H2 & K2 & I2). destruct (ED S0) as (q0 & H0 & K0 & I0). destruct (ED S1) as (q1 & H1 & K1 & I1).
  cbn [ccw cw] in H0, H1, H2. cbn [get3] in H0, H1, H2 |- *.
  destruct (pick [q2; q0; q1] x y) as (out & U & RS); [destruct k; [rewrite (K0 eq_refl)|rewrite (K1 eq_refl)|rewrite (K2 eq_refl)]; cbn; auto| |exact XY|exact XP|].
  { intros v [Q|[Q|[Q|[]]]]; auto. }
  match goal with |- rbind ?m _ = _ => replace m with (Ok q2 : res (option R)) by (symmetry; exact H2) end. cbn [rbind].
  match goal with |- rbind ?m _ = _ => replace m with (Ok q0 : res (option R)) by (symmetry; exact H0) end. cbn [rbind].
  match goal with |- rbind ?m _ = _ => replace m with (Ok q1 : res (option R)) by (symmetry; exact H1) end. cbn [rbind].
  match goal with |- rbind ?m _ = _ => replace m with (Ok out : res (list R)) by (symmetry; exact U) end. cbn [rbind].
  match goal with |- context [run_sieve ?a ?b ?c] => replace (run_sieve a b c) with (Some x) by (symmetry; exact RS) end. cbn [rbind].
  rewrite (one_small s t _ _ _ x L k _ (dists_val s t O x)); [unfold mkevent; rewrite TY; reflexivity| | |exact LP].
  - rewrite get_map3, get_lens, LK. apply sqrt_0.
  - intros m MK. rewrite get_map3, get_lens, (LM m MK). apply sqrt_square. lra.
Qed.

(** ** The start: a rectangle with sides [w] along (ca, cb) and [h] across *)
Lemma len_val x y z : 0 <= z -> x * x + y * y = z * z -> len x y = z.
Proof. intros Z H. unfold len. rewrite H. apply sqrt_square, Z. Qed.
Lemma opposite_velocity (l m : line2 (A:=RA)) (now : R) o : unit_line l -> lw m = (- fst (lw l), - snd (lw l)) ->
  new_velocity (A:=RA) l m now o = Ok ((n0 (A:=RA), n0 (A:=RA)), None).
Proof.
  intros UL HM. unfold new_velocity. rewrite HM. unfold unit_line in UL. rewrite angle_unit_R; [|exact UL|].
  - cbn [rbind]. assert (Z : near_zero2 (A:=RA) (add2 (A:=RA) (lw l) (- fst (lw l), - snd (lw l))) = true).
    { unfold near_zero2, add2. cbn [fst snd]. assert (0 < / 10^10) by (apply Rinv_0_lt_compat, pow_lt; lra).
      apply andb_true_iff; split; apply near_zero_R; ra_simp; lra. }
    rewrite Z. reflexivity.
  - unfold is_unit, dotp in *. cbn [fst snd]. rewrite <- UL. ring.
Qed.

Section Rect.
  Context (E : Env RA) (TE : true_orientation E) (AD : addr (A:=RA) 0 <> addr (A:=RA) 1) (rl : nat) (HR : reclimit (A:=RA) = S rl).
  Context (ca cb x y w h : R) (UN : ca * ca + cb * cb = 1) (WP : w > 2 / 10^10) (HP : h > 2 / 10^10).
  Definition q0 : R * R := (x, y).
  Definition q1 : R * R := (x + w * ca, y + w * cb).
  Definition q2 : R * R := (x + w * ca - h * cb, y + w * cb + h * ca).
  Definition q3 : R * R := (x - h * cb, y + h * ca).
  Definition d0 : R * R := (ca - cb, cb + ca).
  Definition d1 : R * R := (- ca - cb, - cb + ca).
  Definition d2 : R * R := (- ca + cb, - cb - ca).
  Definition d3 : R * R := (ca + cb, cb - ca).

  Lemma spans : span q0 q1 = w /\ span q1 q2 = h /\ span q2 q3 = w /\ span q3 q0 = h.
  Proof.
    assert (0 < 2 / 10^10) by (apply Rdiv_lt_0_compat; [lra|apply pow_lt; lra]).
    unfold span, q0, q1, q2, q3. cbn [fst snd]. repeat split; apply len_val; try lra.
    - transitivity (w * w * (ca * ca + cb * cb)); [ring|rewrite UN; ring].
    - transitivity (h * h * (ca * ca + cb * cb)); [ring|rewrite UN; ring].
    - transitivity (w * w * (ca * ca + cb * cb)); [ring|rewrite UN; ring].
    - transitivity (h * h * (ca * ca + cb * cb)); [ring|rewrite UN; ring].
  Qed.
  Lemma apart4 : q0 <> q1 /\ q1 <> q2 /\ q2 <> q3 /\ q3 <> q0.
  Proof.
    assert (0 < 2 / 10^10) by (apply Rdiv_lt_0_compat; [lra|apply pow_lt; lra]).
    destruct spans as (S1 & S2 & S3 & S4).
    assert (Z : forall p, span p p = 0) by (intros p; unfold span; apply len_val; [lra|ring]).
    repeat split; intros Q; rewrite Q, Z in *; lra.
  Qed.
  (** the four fronts face into the rectangle *)
  Record fronts (w01 w12 w23 w30 : wavefront (A:=RA)) : Prop := {
    fr_01 : lw (wf_line w01) = (- cb, ca);
    fr_12 : lw (wf_line w12) = (- ca, - cb);
    fr_23 : lw (wf_line w23) = (cb, - ca);
    fr_30 : lw (wf_line w30) = (ca, cb);
    fe_01 : forall r, eval (wf_line w01) r = orient q0 q1 r / span q0 q1;
    fe_12 : forall r, eval (wf_line w12) r = orient q1 q2 r / span q1 q2;
    fe_23 : forall r, eval (wf_line w23) r = orient q2 q3 r / span q2 q3;
    fe_30 : forall r, eval (wf_line w30) r = orient q3 q0 r / span q3 q0 }.
  Lemma rect_start : exists d s V TS NS ES W tris w01 w12 w23 w30,
    quad_of (A:=RA) [q0; q1; q2; q3] = Ok d /\ init_skeleton d = Ok s /\
    start_of true s = mkSt V 9 TS 9 NS 4 ES 0 W [0; 1; 2; 3]%nat [0; 2; 4; 6]%nat tris [] [] /\ (tris = [0; 1]%nat \/ tris = [1; 0]%nat) /\
    TS 0%nat = tri0 None /\ TS 1%nat = tri1 None /\
    V 0%nat = first_vertex (A:=RA) q0 d0 6 2 0 4 2 1 /\ V 2%nat = first_vertex (A:=RA) q1 d1 0 4 1 2 0 3 /\
    V 4%nat = first_vertex (A:=RA) q2 d2 2 6 2 0 3 5 /\ V 6%nat = first_vertex (A:=RA) q3 d3 4 0 3 3 4 7 /\
    W 0%nat = w12 /\ W 2%nat = w01 /\ W 3%nat = w23 /\ W 4%nat = w30 /\
    (sn_pos (NS 0%nat) = q0 /\ sn_pos (NS 1%nat) = q1 /\ sn_pos (NS 2%nat) = q2 /\ sn_pos (NS 3%nat) = q3) /\
    (sn_info (NS 0%nat) = None /\ sn_info (NS 1%nat) = None /\ sn_info (NS 2%nat) = None /\ sn_info (NS 3%nat) = None) /\ fronts w01 w12 w23 w30.
  Proof.
    assert (E8 : 0 < 2 / 10^10) by (apply Rdiv_lt_0_compat; [lra|apply pow_lt; lra]).
    assert (E11 : / 10^10 < 1) by (rewrite <- Rinv_1; apply Rinv_lt_contravar; [|cbn; lra]; rewrite Rmult_1_l; apply pow_lt; lra).
    destruct spans as (L01 & L12 & L23 & L30). destruct apart4 as (N01 & N12 & N23 & N30).
    destruct (front_R q0 q1 N01) as (w01 & H01 & U01 & F01). destruct (front_R q1 q0 (not_eq_sym N01)) as (w10 & H10 & U10 & _).
    destruct (front_R q1 q2 N12) as (w12 & H12 & U12 & F12). destruct (front_R q2 q1 (not_eq_sym N12)) as (w21 & H21 & U21 & _).
    destruct (front_R q2 q3 N23) as (w23 & H23 & U23 & F23). destruct (front_R q3 q2 (not_eq_sym N23)) as (w32 & H32 & U32 & _).
    destruct (front_R q3 q0 N30) as (w30 & H30 & U30 & F30). destruct (front_R q0 q3 (not_eq_sym N30)) as (w03 & H03 & U03 & _).
    assert (COR : forall l m s p q (v : R * R), s <> p -> p <> q -> unit_line l -> unit_line m ->
      (forall r, eval l r = orient s p r / span s p) -> (forall r, eval m r = orient p q r / span p q) ->
      orient p q s = span s p * span p q -> orient s p (fst p + fst v, snd p + snd v) = span s p -> orient p q (fst p + fst v, snd p + snd v) = span p q ->
      get_bisector (A:=RA) l m = Ok v).
    { intros l m s p q v N1 N2 Ul Um Fl Fm O1 O2 O3.
      destruct (corner_R l m s p q (fst p + fst v, snd p + snd v) 1 N1 N2 Ul Um Fl Fm) as (v' & B & _ & _ & X & Y & _).
      - rewrite O1. pose proof (span_pos s p N1). pose proof (span_pos p q N2). assert (0 < span s p * span p q) by (apply Rmult_lt_0_compat; assumption). nra.
      - rewrite O2. ring.
      - rewrite O3. ring.
      - rewrite B. f_equal. rewrite (surjective_pairing v'), (surjective_pairing v). cbn [fst snd] in X, Y. f_equal; lra. }
    assert (SR : forall a b, a = b * (ca * ca + cb * cb) -> a = b) by (intros a b ->; rewrite UN; ring).
    assert (B0 : get_bisector (A:=RA) (wf_line w30) (wf_line w01) = Ok d0).
    { apply (COR _ _ q3 q0 q1); try assumption; rewrite ?L30, ?L01; apply SR; unfold orient, q0, q1, q2, q3, d0; cbn [fst snd]; ring. }
    assert (B1 : get_bisector (A:=RA) (wf_line w01) (wf_line w12) = Ok d1).
    { apply (COR _ _ q0 q1 q2); try assumption; rewrite ?L12, ?L01; apply SR; unfold orient, q0, q1, q2, q3, d1; cbn [fst snd]; ring. }
    assert (B2 : get_bisector (A:=RA) (wf_line w12) (wf_line w23) = Ok d2).
    { apply (COR _ _ q1 q2 q3); try assumption; rewrite ?L12, ?L23; apply SR; unfold orient, q0, q1, q2, q3, d2; cbn [fst snd]; ring. }
    assert (B3 : get_bisector (A:=RA) (wf_line w23) (wf_line w30) = Ok d3).
    { apply (COR _ _ q2 q3 q0); try assumption; rewrite ?L30, ?L23; apply SR; unfold orient, q0, q1, q2, q3, d3; cbn [fst snd]; ring. }
    destruct (quad_start q0 q1 q2 q3 w01 w10 w12 w21 w23 w32 w30 w03 d0 d1 d2 d3 H01 H10 H12 H21 H23 H32 H30 H03 B0 B1 B2 B3) as (d & s & HD & HI & FA);
      try (apply bisector_total_R; assumption).
    { intros z. unfold pdiv. rewrite (RA_counts 4%nat) by lia. eexists. reflexivity. }
    { apply (nleb_refl RA_ord). }
    { intros d D. injection D as <-. unfold infinites, pt_eqb. cbn. unfold Q2R. cbn.
      repeat (match goal with |- context [Reqb ?x ?y] => destruct (Reqb x y) eqn:?; rb2p; try lra end; cbn).
      all: reflexivity. }
    cbn zeta in FA. exists d, s.
    destruct FA as (G1 & G2 & G3 & G4 & G5 & G6 & G7 & G8 & G9 & G10 & G11 & G12 & G13 & G14 & G15 & G16 & G17 & G18 & G19 & G20 & G21).
    destruct (start_of true s) as [V cv TS ct NS cn ES ce W nodes verts tris qu im].
    cbn [sk_triangles sk_vertices ts vs wfs ns nn ne nv nt queue immediate sk_nodes] in *. subst cv ct cn ce nodes verts qu im.
    exists V, TS, NS, ES, W, tris, w01, w12, w23, w30.
    split; [exact HD|]. split; [exact HI|]. split; [reflexivity|]. split; [exact G1|]. split; [exact G3|]. split; [exact G4|].
    do 8 (split; [assumption|]). split; [exact G13|]. split; [exact G14|].
    assert (NRM : forall (l : line2 (A:=RA)) p q a b, p <> q -> (forall r, eval l r = orient p q r / span p q) ->
      snd q - snd p = - a * span p q -> fst q - fst p = b * span p q -> lw l = (a, b)).
    { intros l p q a b N F H1 H2. destruct (normal_of l p q N F) as [K1 K2]. pose proof (span_pos p q N). rewrite (surjective_pairing (lw l)), K1, K2, H1, H2.
      f_equal; field; lra. }
    constructor; try assumption.
    - apply (NRM _ q0 q1); try assumption; rewrite L01; unfold q0, q1; cbn [fst snd]; ring.
    - apply (NRM _ q1 q2); try assumption; rewrite L12; unfold q1, q2; cbn [fst snd]; ring.
    - apply (NRM _ q2 q3); try assumption; rewrite L23; unfold q3, q2; cbn [fst snd]; ring.
    - apply (NRM _ q3 q0); try assumption; rewrite L30; unfold q3, q0; cbn [fst snd]; ring.
  Qed.

  (** ** The checks before the loop *)
  Section State.
    Context (V : nat -> kvertex (A:=RA)) (TS : nat -> ktri (A:=RA)) (NS : nat -> sknode (A:=RA)) (ES : nat -> event (A:=RA)) (W : nat -> wavefront (A:=RA))
      (tris : list nat) (w01 w12 w23 w30 : wavefront (A:=RA)).
    Context (TR : tris = [0; 1]%nat \/ tris = [1; 0]%nat).
    Context (V0 : V 0%nat = first_vertex (A:=RA) q0 d0 6 2 0 4 2 1) (V2 : V 2%nat = first_vertex (A:=RA) q1 d1 0 4 1 2 0 3)
      (V4 : V 4%nat = first_vertex (A:=RA) q2 d2 2 6 2 0 3 5) (V6 : V 6%nat = first_vertex (A:=RA) q3 d3 4 0 3 3 4 7).
    Context (FR : fronts w01 w12 w23 w30).
    Lemma at_start s v o b l r n c d e : vs s = V -> V v = first_vertex (A:=RA) o b l r n c d e ->
      position_at (A:=RA) s v (n0 (A:=RA)) = Ok o.
    Proof.
      intros HV HF. unfold position_at. rewrite HV, HF. cbn [first_vertex k_inf k_inf_fast k_origin k_velocity]. rewrite zero_R.
      change (Ok (moving o b 0) = Ok o). rewrite moving_0. reflexivity.
    Qed.
    Lemma checks_pass TS' ES' N q o0 o1 : TS' 0%nat = tri0 o0 -> TS' 1%nat = tri1 o1 ->
      check_bisectors (A:=RA) (before V TS' NS ES' W N tris q) (n0 (A:=RA)) = Ok tt /\
      check_active_triangles_orientation (A:=RA) (before V TS' NS ES' W N tris q) (n0 (A:=RA)) = Ok tt.
    Proof.
      intros T0 T1. set (st := before V TS' NS ES' W N tris q).
      assert (VS : vs st = V) by reflexivity.
      pose proof (at_start st 0%nat _ _ _ _ _ _ _ _ VS V0) as P0. pose proof (at_start st 2%nat _ _ _ _ _ _ _ _ VS V2) as P2.
      pose proof (at_start st 4%nat _ _ _ _ _ _ _ _ VS V4) as P4. pose proof (at_start st 6%nat _ _ _ _ _ _ _ _ VS V6) as P6.
      destruct apart4 as (N01 & N12 & N23 & N30).
      assert (AC : forall t, active st t -> t = 0%nat \/ t = 1%nat).
      { intros t [H _]. cbn in H. destruct TR as [R | R]; rewrite R in H; cbn in H; destruct H as [<-|[<-|[]]]; auto. }
      assert (C0 : forall i, corner st 0 i = get3 (mk3 0 2 4)%nat i) by (intros i; unfold corner; cbn [ts st before]; rewrite T0; reflexivity).
      assert (C1 : forall i, corner st 1 i = get3 (mk3 0 4 6)%nat i) by (intros i; unfold corner; cbn [ts st before]; rewrite T1; reflexivity).
      assert (L0 : forall i, link st 0 i = get3 (mk3 None (Some 1%nat) None) i) by (intros i; unfold link; cbn [ts st before]; rewrite T0; reflexivity).
      assert (L1 : forall i, link st 1 i = get3 (mk3 None None (Some 0%nat)) i) by (intros i; unfold link; cbn [ts st before]; rewrite T1; reflexivity).
      destruct FR as [R01 R12 R23 R30 F01 F12 F23 F30].
      split.
      - apply C77_bisectors_meaning. intros t i TA LN. destruct (AC t TA) as [-> | ->].
        + rewrite L0 in LN. rewrite !C0. destruct i; cbn [get3 x0 x1 x2 ccw cw] in *; [|discriminate|]; eexists _, _; (split; [eassumption|]); (split; [eassumption|]); rewrite VS, ?V0, ?V2, ?V4, ?V6;
            cbn [first_vertex k_velocity].
          * apply (ahead E (wf_line w12)); try assumption. rewrite R12. unfold d2. cbn [fst snd]. rewrite <- UN. ring.
          * apply (ahead E (wf_line w01)); try assumption. rewrite R01. unfold d1. cbn [fst snd]. rewrite <- UN. ring.
        + rewrite L1 in LN. rewrite !C1. destruct i; cbn [get3 x0 x1 x2 ccw cw] in *; [| |discriminate]; eexists _, _; (split; [eassumption|]); (split; [eassumption|]); rewrite VS, ?V0, ?V2, ?V4, ?V6;
            cbn [first_vertex k_velocity].
          * apply (ahead E (wf_line w23)); try assumption. rewrite R23. unfold d3. cbn [fst snd]. rewrite <- UN. ring.
          * apply (ahead E (wf_line w30)); try assumption. rewrite R30. unfold d0. cbn [fst snd]. rewrite <- UN. ring.
      - assert (E8 : 0 < 2 / 10^10) by (apply Rdiv_lt_0_compat; [lra|apply pow_lt; lra]).
        assert (PW : 0 < w * h) by (apply Rmult_lt_0_compat; lra).
        assert (LEFT : forall a b c, orient a b c = w * h -> on_the_left (A:=RA) (orient2d (A:=RA) a b c)).
        { intros a b c H. left. destruct (TE a b c) as [G _]. rewrite zero_R. apply Rleb_true, G. lra. }
        assert (SR : forall a b, a = b * (ca * ca + cb * cb) -> a = b) by (intros a b ->; rewrite UN; ring).
        apply C77_orientation_meaning. intros t TA. destruct (AC t TA) as [-> | ->].
        + exists q0, q1, q2. rewrite !C0. do 3 (split; [assumption|]). split.
          * intros _. apply LEFT, SR. unfold orient, q0, q1, q2; cbn [fst snd]; ring.
          * intros [i H]. exfalso. rewrite C0, VS in H. destruct i; cbn in H; rewrite ?V0, ?V2, ?V4 in H; discriminate.
        + exists q0, q2, q3. rewrite !C1. do 3 (split; [assumption|]). split.
          * intros _. apply LEFT, SR. unfold orient, q0, q2, q3; cbn [fst snd]; ring.
          * intros [i H]. exfalso. rewrite C1, VS in H. destruct i; cbn in H; rewrite ?V0, ?V4, ?V6 in H; discriminate.
    Qed.

    (** ** When the sides vanish *)
    Lemma edge_time s v v' o b l r n c d e o' b' l' r' n' c' d' e' t : vs s = V -> V v = first_vertex (A:=RA) o b l r n c d e ->
      V v' = first_vertex (A:=RA) o' b' l' r' n' c' d' e' -> sqdist b b' = 4 ->
      (fst b - fst b') * (fst o' - fst o) + (snd b - snd b') * (snd o' - snd o) = 4 * t ->
      collapse_time_edge (A:=RA) s v v' = Ok t.
    Proof.
      intros HV H H' D K. rewrite collapse_time_edge_R. cbv zeta. unfold dv2. rewrite HV, H, H'. cbn [first_vertex k_velocity k_origin].
      rewrite D, K. assert (E11 : / 10^10 < 1) by (rewrite <- Rinv_1; apply Rinv_lt_contravar; [|cbn; lra]; rewrite Rmult_1_l; apply pow_lt; lra).
      destruct (Rle_dec 4 (/ 10^10)) as [Q|_]; [lra|]. f_equal. field.
    Qed.
    Lemma four : sqdist d0 d1 = 4 /\ sqdist d1 d2 = 4 /\ sqdist d2 d3 = 4 /\ sqdist d3 d0 = 4.
    Proof.
      unfold sqdist, d0, d1, d2, d3. cbn [fst snd]. assert (SR : forall a b, a = b * (ca * ca + cb * cb) -> a = b) by (intros a b ->; rewrite UN; ring).
      repeat split; apply SR; ring.
    Qed.
    Lemma times s : vs s = V -> collapse_time_edge (A:=RA) s 0 2 = Ok (w / 2) /\ collapse_time_edge (A:=RA) s 2 4 = Ok (h / 2) /\
      collapse_time_edge (A:=RA) s 4 6 = Ok (w / 2) /\ collapse_time_edge (A:=RA) s 6 0 = Ok (h / 2).
    Proof.
      intros HV. destruct four as (D1 & D2 & D3 & D4). assert (SR : forall a b, a = b * (ca * ca + cb * cb) -> a = b) by (intros a b ->; rewrite UN; ring).
      split; [|split; [|split]]; (eapply edge_time; [exact HV|eassumption|eassumption|assumption|]); apply SR;
        unfold d0, d1, d2, d3, q0, q1, q2, q3; cbn [fst snd]; field.
    Qed.
    Lemma ordinary0 s o : vs s = V -> ts s 0%nat = tri0 o -> ordinary s 0.
    Proof. intros HV HT [| |]; rewrite HV, HT; cbn; rewrite ?V0, ?V2, ?V4; split; reflexivity. Qed.
    Lemma ordinary1 s o : vs s = V -> ts s 1%nat = tri1 o -> ordinary s 1.
    Proof. intros HV HT [| |]; rewrite HV, HT; cbn; rewrite ?V0, ?V4, ?V6; split; reflexivity. Qed.

    Lemma long0 s o : h > 2 / 10^10 -> w - h > / 10^10 -> vs s = V -> ts s 0%nat = tri0 o ->
      collapse_event s 0 (n0 (A:=RA)) FindGt = Ok (Some (mkEv (A:=RA) (h / 2) 0 [S0] Edge 2)).
    Proof.
      intros H1 H2 HV HT. destruct (times s HV) as (A1 & A2 & A3 & A4). assert (E10 : 0 < / 10^10) by (apply Rinv_0_lt_compat, pow_lt; lra).
      assert (SR : forall a b, a = b * (ca * ca + cb * cb) -> a = b) by (intros a b ->; rewrite UN; ring).
      apply (two_event s 0 S0 (h / 2) (w / 2) (w - h)); try (rewrite HT; reflexivity); try lra; [apply (ordinary0 s o HV HT)|rewrite HT; exact A2|..].
      - intros [| |] NI NK; rewrite HT in *; [congruence|discriminate NI|exact A1].
      - unfold len2, place, path, sqdist, moving. rewrite HT, HV. cbn [tri0 t_v get3 ccw cw x0 x1 x2]. rewrite V2, V4. cbn [first_vertex k_origin k_velocity].
        unfold q1, q2, d1, d2. cbn [fst snd]. field.
      - intros [| |] NM; [congruence|..]; unfold len2, place, path, sqdist, moving; rewrite HT, HV; cbn [tri0 t_v get3 ccw cw x0 x1 x2]; rewrite ?V0, ?V2, ?V4; cbn [first_vertex k_origin k_velocity];
        unfold q0, q1, q2, d0, d1, d2; cbn [fst snd]; apply SR; field.
    Qed.
    Lemma long1 s o : h > 2 / 10^10 -> w - h > / 10^10 -> vs s = V -> ts s 1%nat = tri1 o ->
      collapse_event s 1 (n0 (A:=RA)) FindGt = Ok (Some (mkEv (A:=RA) (h / 2) 1 [S1] Edge 2)).
    Proof.
      intros H1 H2 HV HT. destruct (times s HV) as (A1 & A2 & A3 & A4). assert (E10 : 0 < / 10^10) by (apply Rinv_0_lt_compat, pow_lt; lra).
      assert (SR : forall a b, a = b * (ca * ca + cb * cb) -> a = b) by (intros a b ->; rewrite UN; ring).
      apply (two_event s 1 S1 (h / 2) (w / 2) (w - h)); try (rewrite HT; reflexivity); try lra; [apply (ordinary1 s o HV HT)|rewrite HT; exact A4|..].
      - intros [| |] NI NK; rewrite HT in *; [exact A3|congruence|discriminate NI].
      - unfold len2, place, path, sqdist, moving. rewrite HT, HV. cbn [tri1 t_v get3 ccw cw x0 x1 x2]. rewrite V0, V6. cbn [first_vertex k_origin k_velocity].
        unfold q0, q3, d0, d3. cbn [fst snd]. field.
      - intros [| |] NM; [|congruence|]; unfold len2, place, path, sqdist, moving; rewrite HT, HV; cbn [tri1 t_v get3 ccw cw x0 x1 x2]; rewrite ?V0, ?V6, ?V4; cbn [first_vertex k_origin k_velocity];
        unfold q0, q3, q2, d0, d3, d2; cbn [fst snd]; apply SR; field.
    Qed.
    Lemma short0 s o : w > 2 / 10^10 -> h - w > / 10^10 -> vs s = V -> ts s 0%nat = tri0 o ->
      collapse_event s 0 (n0 (A:=RA)) FindGt = Ok (Some (mkEv (A:=RA) (w / 2) 0 [S2] Edge 2)).
    Proof.
      intros H1 H2 HV HT. destruct (times s HV) as (A1 & A2 & A3 & A4). assert (E10 : 0 < / 10^10) by (apply Rinv_0_lt_compat, pow_lt; lra).
      assert (SR : forall a b, a = b * (ca * ca + cb * cb) -> a = b) by (intros a b ->; rewrite UN; ring).
      apply (two_event s 0 S2 (w / 2) (h / 2) (h - w)); try (rewrite HT; reflexivity); try lra; [apply (ordinary0 s o HV HT)|rewrite HT; exact A1|..].
      - intros [| |] NI NK; rewrite HT in *; [exact A2|discriminate NI|congruence].
      - unfold len2, place, path, sqdist, moving. rewrite HT, HV. cbn [tri0 t_v get3 ccw cw x0 x1 x2]. rewrite V0, V2. cbn [first_vertex k_origin k_velocity].
        unfold q0, q1, d0, d1. cbn [fst snd]. field.
      - intros [| |] NM; [| |congruence]; unfold len2, place, path, sqdist, moving; rewrite HT, HV; cbn [tri0 t_v get3 ccw cw x0 x1 x2]; rewrite ?V0, ?V2, ?V4; cbn [first_vertex k_origin k_velocity];
        unfold q0, q1, q2, d0, d1, d2; cbn [fst snd]; apply SR; field.
    Qed.
    Lemma short1 s o : w > 2 / 10^10 -> h - w > / 10^10 -> vs s = V -> ts s 1%nat = tri1 o ->
      collapse_event s 1 (n0 (A:=RA)) FindGt = Ok (Some (mkEv (A:=RA) (w / 2) 1 [S0] Edge 2)).
    Proof.
      intros H1 H2 HV HT. destruct (times s HV) as (A1 & A2 & A3 & A4). assert (E10 : 0 < / 10^10) by (apply Rinv_0_lt_compat, pow_lt; lra).
      assert (SR : forall a b, a = b * (ca * ca + cb * cb) -> a = b) by (intros a b ->; rewrite UN; ring).
      apply (two_event s 1 S0 (w / 2) (h / 2) (h - w)); try (rewrite HT; reflexivity); try lra; [apply (ordinary1 s o HV HT)|rewrite HT; exact A3|..].
      - intros [| |] NI NK; rewrite HT in *; [congruence|exact A4|discriminate NI].
      - unfold len2, place, path, sqdist, moving. rewrite HT, HV. cbn [tri1 t_v get3 ccw cw x0 x1 x2]. rewrite V4, V6. cbn [first_vertex k_origin k_velocity].
        unfold q2, q3, d2, d3. cbn [fst snd]. field.
      - intros [| |] NM; [congruence|..]; unfold len2, place, path, sqdist, moving; rewrite HT, HV; cbn [tri1 t_v get3 ccw cw x0 x1 x2]; rewrite ?V0, ?V6, ?V4; cbn [first_vertex k_origin k_velocity];
        unfold q0, q3, q2, d0, d3, d2; cbn [fst snd]; apply SR; field.
    Qed.
  End State.

  (** ** The run *)
  Lemma opposite_det (l m : line2 (A:=RA)) : lw m = (- fst (lw l), - snd (lw l)) -> Rabs (det l m) <= / 10^10.
  Proof.
    intros H. unfold det. rewrite H. cbn [fst snd]. replace (fst (lw l) * - snd (lw l) - - fst (lw l) * snd (lw l)) with 0 by ring. rewrite Rabs_R0.
    apply Rlt_le, Rinv_0_lt_compat, pow_lt; lra.
  Qed.
  (** what the run leaves: both ends of the ridge and the four arms; [long]: the first side is the longer one *)
  Definition arms4 (long : bool) (i j : nat) : list (nat * (@num RA * @num RA) * (@num RA * @num RA) * nat * nat * nat) :=
    [(0%nat, q0, d0, 6%nat, 0%nat, i); (2%nat, q1, d1, 0%nat, 1%nat, if long then j else i); (4%nat, q2, d2, 2%nat, 2%nat, j); (6%nat, q3, d3, 4%nat, 3%nat, if long then i else j)].
  Definition meet (p d : R * R) (T : R) : R * R := (fst p + T * fst d, snd p + T * snd d).
  Record ran (long : bool) (T : R) (a b : R * R) (NS : nat -> sknode (A:=RA)) (tris : list nat) (s' : state (A:=RA)) : Prop := {
    rn_two : outcome (A:=RA) T a b NS [0; 1; 2; 3]%nat tris s' (arms4 long 4 5) \/ outcome (A:=RA) T b a NS [0; 1; 2; 3]%nat tris s' (arms4 long 5 4);
    rn_tris : tris = [0; 1]%nat \/ tris = [1; 0]%nat;
    rn_pos : sn_pos (NS 0%nat) = q0 /\ sn_pos (NS 1%nat) = q1 /\ sn_pos (NS 2%nat) = q2 /\ sn_pos (NS 3%nat) = q3;
    rn_info : sn_info (NS 0%nat) = None /\ sn_info (NS 1%nat) = None /\ sn_info (NS 2%nat) = None /\ sn_info (NS 3%nat) = None }.
  Definition whole_run (long : bool) (T : R) (a b : R * R) : Prop := exists d s s1 NS tris s',
    quad_of (A:=RA) [q0; q1; q2; q3] = Ok d /\ init_skeleton d = Ok s /\ init_event_list (start_of true s) = Ok (tt, s1) /\ event_loop s1 = Ok (T, s') /\
    (in_square q0 -> in_square q1 -> in_square q2 -> in_square q3 -> check_starts (start_of true s) = Ok tt) /\ ran long T a b NS tris s'.

  (** the numbers of the handler *)
  Lemma numbers (T : R) : T > / 10^10 -> neqb (Arith:=RA) T T = true /\ nltb (Arith:=RA) T T = false /\ near_zero (A:=RA) (nsub (Arith:=RA) (n0 (A:=RA)) T) = false /\
    neqb (Arith:=RA) (n0 (A:=RA)) (n0 (A:=RA)) = true /\ (forall z, nadd (Arith:=RA) (n0 (A:=RA)) z = z) /\
    (forall z, pdiv (A:=RA) (nadd (Arith:=RA) z z) (nofnat (A:=RA) 2) = Ok z) /\
    (exists z, psqrt (A:=RA) (nadd (Arith:=RA) (nmul (Arith:=RA) (n0 (A:=RA)) (n0 (A:=RA))) (nmul (Arith:=RA) (n0 (A:=RA)) (n0 (A:=RA)))) = Ok z) /\
    near_zero (A:=RA) (nsub (Arith:=RA) (n0 (A:=RA)) (n0 (A:=RA))) = true /\ near_zero (A:=RA) (n0 (A:=RA)) = true.
  Proof.
    intros P. assert (E10 : 0 < / 10^10) by (apply Rinv_0_lt_compat, pow_lt; lra). rewrite zero_R.
    split; [apply Reqb_true; reflexivity|]. split; [apply Rltb_false; lra|]. split.
    { apply near_zero_false_R. change (Rabs (0 - T) > / 10^10). rewrite Rminus_0_l, Rabs_Ropp, Rabs_right; lra. }
    split; [apply Reqb_true; reflexivity|]. split; [intros z; exact (Rplus_0_l z)|]. split.
    { intros z. unfold pdiv. rewrite (RA_counts 2%nat) by lia. apply f_equal. rewrite nofnat_INR. cbn [INR]. ra_simp. field. }
    split; [eexists; apply psqrt_R; ra_simp; lra|]. split; apply near_zero_R; ra_simp; lra.
  Qed.
  Lemma lengths (L : R) : L > / 10^10 -> near_zero (A:=RA) L = false /\ nltb (Arith:=RA) (n0 (A:=RA)) L = true /\ nltb (Arith:=RA) L L = false /\
    nltb (Arith:=RA) L (n0 (A:=RA)) = false /\ near_zero (A:=RA) (nsub (Arith:=RA) L (n0 (A:=RA))) = false.
  Proof.
    intros P. assert (E10 : 0 < / 10^10) by (apply Rinv_0_lt_compat, pow_lt; lra). rewrite zero_R.
    split; [apply near_zero_false_R; rewrite Rabs_right; lra|]. split; [apply Rltb_true; lra|]. split; [apply Rltb_false; lra|]. split; [apply Rltb_false; lra|].
    apply near_zero_false_R. change (Rabs (L - 0) > / 10^10). rewrite Rminus_0_r, Rabs_right; lra.
  Qed.
  Lemma root (u v L : R) : 0 <= L -> u * u + v * v = L * L -> psqrt (A:=RA) (nadd (Arith:=RA) (nmul (Arith:=RA) u u) (nmul (Arith:=RA) v v)) = Ok L.
  Proof.
    intros P H. transitivity (psqrt (A:=RA) (L * L)); [exact (f_equal (psqrt (A:=RA)) H)|].
    etransitivity; [apply psqrt_R; apply Rle_0_sqr|]. apply f_equal. apply sqrt_square, P.
  Qed.
  Lemma root0 (u v : R) : psqrt (A:=RA) (nadd (Arith:=RA) (nmul (Arith:=RA) (nsub (Arith:=RA) u u) (nsub (Arith:=RA) u u)) (nmul (Arith:=RA) (nsub (Arith:=RA) v v) (nsub (Arith:=RA) v v))) = Ok (n0 (A:=RA)).
  Proof. rewrite zero_R. apply root; [lra|]. ra_simp. ring. Qed.

  Lemma start_checked s V TS NS ES W tris : start_of true s = mkSt V 9 TS 9 NS 4 ES 0 W [0; 1; 2; 3]%nat [0; 2; 4; 6]%nat tris [] [] ->
    V 0%nat = first_vertex (A:=RA) q0 d0 6 2 0 4 2 1 -> V 2%nat = first_vertex (A:=RA) q1 d1 0 4 1 2 0 3 ->
    V 4%nat = first_vertex (A:=RA) q2 d2 2 6 2 0 3 5 -> V 6%nat = first_vertex (A:=RA) q3 d3 4 0 3 3 4 7 ->
    sn_pos (NS 0%nat) = q0 /\ sn_pos (NS 1%nat) = q1 /\ sn_pos (NS 2%nat) = q2 /\ sn_pos (NS 3%nat) = q3 ->
    in_square q0 -> in_square q1 -> in_square q2 -> in_square q3 -> check_starts (start_of true s) = Ok tt.
  Proof.
    intros ST V0 V2 V4 V6 (P0 & P1 & P2 & P3) [] [] [] []. rewrite ST. unfold check_starts. cbn [sk_vertices rmapl]. unfold check_start. cbn [vs ns].
    rewrite V0, V2, V4, V6. cbn [first_vertex k_inf k_start_node]. rewrite P0, P1, P2, P3. rewrite !range_R by assumption. reflexivity.
  Qed.

  Lemma rect_long : w - h > / 10^10 -> whole_run true (h / 2) (meet q0 d0 (h / 2)) (meet q1 d1 (h / 2)).
  Proof.
    intros WH. assert (E10 : 0 < / 10^10) by (apply Rinv_0_lt_compat, pow_lt; lra).
    assert (SR : forall a b, a = b * (ca * ca + cb * cb) -> a = b) by (intros a b ->; rewrite UN; ring).
    destruct rect_start as (d & s & V & TS & NS & ES & W & tris & w01 & w12 & w23 & w30 & HD & HI & ST & TR & T0 & T1 & V0 & V2 & V4 & V6 & W0 & W2 & W3 & W4 & PS & IS & FR).
    destruct (events_ready V TS NS ES W [0; 1; 2; 3]%nat tris (h / 2) T0 T1 TR (mkEv (A:=RA) (h / 2) 0 [S0] Edge 2) (mkEv (A:=RA) (h / 2) 1 [S1] Edge 2))
      as (e0 & e1 & qu & TS' & ES' & HE & T0' & T1' & E0 & E1 & QU).
    { repeat split. }
    { repeat split. }
    { intros s2 o HV HT. apply (long0 V V0 V2 V4 V6 s2 o); assumption. }
    { intros s2 o HV HT. apply (long1 V V0 V2 V4 V6 s2 o); assumption. }
    { apply Rltb_false. lra. }
    { exact AD. }
    destruct (checks_pass V NS W tris w01 w12 w23 w30 TR V0 V2 V4 V6 FR TS' ES' [0; 1; 2; 3]%nat qu _ _ T0' T1') as [CB CO].
    set (T := h / 2) in *. assert (TP : T > / 10^10) by (unfold T; lra).
    destruct (numbers T TP) as (TT & TL & NZ & Z0 & Z1 & M2 & (z & NR) & N00 & N0). destruct (lengths (w - h) WH) as (NL & LP & LL & L0 & NL0).
    set (a := meet q0 d0 T) in *. set (b := meet q1 d1 T) in *.
    assert (X2 : nadd (Arith:=RA) (fst q2) (nmul (Arith:=RA) T (fst d2)) = fst b) by (unfold b, meet, q2, q1, d2, d1, T; cbn [fst snd]; ra_simp; field).
    assert (Y2 : nadd (Arith:=RA) (snd q2) (nmul (Arith:=RA) T (snd d2)) = snd b) by (unfold b, meet, q2, q1, d2, d1, T; cbn [fst snd]; ra_simp; field).
    assert (X3 : nadd (Arith:=RA) (fst q3) (nmul (Arith:=RA) T (fst d3)) = fst a) by (unfold a, meet, q3, q0, d3, d0, T; cbn [fst snd]; ra_simp; field).
    assert (Y3 : nadd (Arith:=RA) (snd q3) (nmul (Arith:=RA) T (snd d3)) = snd a) by (unfold a, meet, q3, q0, d3, d0, T; cbn [fst snd]; ra_simp; field).
    assert (AB : forall u v : R, fst a - fst b = u -> snd a - snd b = v -> u * u + v * v = (w - h) * (w - h)).
    { intros u v <- <-. unfold a, b, meet, q0, q1, d0, d1, T. cbn [fst snd]. apply SR. field. }
    pose proof (root (fst a - fst b) (snd a - snd b) (w - h) ltac:(lra) (AB _ _ eq_refl eq_refl)) as D1.
    pose proof (root (fst b - fst a) (snd b - snd a) (w - h) ltac:(lra) ltac:(rewrite <- (AB _ _ eq_refl eq_refl); ring)) as D2.
    pose proof (root0 (fst a) (snd a)) as D3. pose proof (root0 (fst b) (snd b)) as D4.
    destruct FR as [R01 R12 R23 R30 _ _ _ _].
    assert (U01 : unit_line (wf_line w01)) by (unfold unit_line; rewrite R01; cbn [fst snd]; rewrite <- UN; ring).
    assert (U23 : unit_line (wf_line w23)) by (unfold unit_line; rewrite R23; cbn [fst snd]; rewrite <- UN; ring).
    assert (O1 : lw (wf_line w23) = (- fst (lw (wf_line w01)), - snd (lw (wf_line w01)))) by (rewrite R01, R23; cbn [fst snd]; f_equal; ring).
    assert (O2 : lw (wf_line w01) = (- fst (lw (wf_line w23)), - snd (lw (wf_line w23)))) by (rewrite R01, R23; cbn [fst snd]; f_equal; ring).
    destruct (bisector_total_R _ _ U01 U23) as [c G1]. destruct (bisector_total_R _ _ U23 U01) as [c' G2].
    pose proof (proj2 (get_intersection_at_t_err _ _ T U01 U23) (opposite_det _ _ O1)) as I1.
    pose proof (proj2 (get_intersection_at_t_err _ _ T U23 U01) (opposite_det _ _ O2)) as I2.
    pose proof (fun o => opposite_velocity (wf_line w01) (wf_line w23) T o U01 O1) as NV1.
    pose proof (fun o => opposite_velocity (wf_line w23) (wf_line w01) T o U23 O2) as NV2.
    assert (RUN : exists s', event_loop (before V TS' NS ES' W [0; 1; 2; 3]%nat tris qu) = Ok (T, s') /\
      (outcome (A:=RA) T a b NS [0; 1; 2; 3]%nat tris s' (arms4 true 4 5) \/ outcome (A:=RA) T b a NS [0; 1; 2; 3]%nat tris s' (arms4 true 5 4))).
    { destruct QU as [-> | ->].
      - destruct (first_long q0 q1 q2 q3 d0 d1 d2 d3 a b T (w - h) w01 w23 V TS' NS ES' W [0; 1; 2; 3]%nat tris V0 V2 V4 V6 W2 W3 e0 e1 T0' T1' E0 E1
          eq_refl eq_refl eq_refl eq_refl X2 Y2 X3 Y3 TT TL NZ Z0 Z1 M2 c G1 I1 NV1 z NR) with (rl := rl) as (s' & H & OC); try assumption.
        exists s'. split; [|right; exact OC]. eapply loop_once; try eassumption. rewrite E0. reflexivity.
      - destruct (second_long q0 q1 q2 q3 d0 d1 d2 d3 a b T (w - h) w01 w23 V TS' NS ES' W [0; 1; 2; 3]%nat tris V0 V2 V4 V6 W2 W3 e0 e1 T0' T1' E0 E1
          eq_refl eq_refl eq_refl eq_refl X2 Y2 X3 Y3 TT TL NZ Z0 Z1 M2 c' G2 I2 NV2 z NR) with (rl := rl) as (s' & H & OC); try assumption.
        exists s'. split; [|left; exact OC]. eapply loop_once; try eassumption. rewrite E1. reflexivity. }
    destruct RUN as (s' & HL & OC).
    exists d, s, (before V TS' NS ES' W [0; 1; 2; 3]%nat tris qu), NS, tris, s'. split; [exact HD|]. split; [exact HI|]. split; [rewrite ST; exact HE|]. split; [exact HL|].
    split; [exact (start_checked s V TS NS ES W tris ST V0 V2 V4 V6 PS)|]. constructor; assumption.
  Qed.

  Lemma rect_short : h - w > / 10^10 -> whole_run false (w / 2) (meet q0 d0 (w / 2)) (meet q2 d2 (w / 2)).
  Proof.
    intros WH. assert (E10 : 0 < / 10^10) by (apply Rinv_0_lt_compat, pow_lt; lra).
    assert (SR : forall a b, a = b * (ca * ca + cb * cb) -> a = b) by (intros a b ->; rewrite UN; ring).
    destruct rect_start as (d & s & V & TS & NS & ES & W & tris & w01 & w12 & w23 & w30 & HD & HI & ST & TR & T0 & T1 & V0 & V2 & V4 & V6 & W0 & W2 & W3 & W4 & PS & IS & FR).
    destruct (events_ready V TS NS ES W [0; 1; 2; 3]%nat tris (w / 2) T0 T1 TR (mkEv (A:=RA) (w / 2) 0 [S2] Edge 2) (mkEv (A:=RA) (w / 2) 1 [S0] Edge 2))
      as (e0 & e1 & qu & TS' & ES' & HE & T0' & T1' & E0 & E1 & QU).
    { repeat split. }
    { repeat split. }
    { intros s2 o HV HT. apply (short0 V V0 V2 V4 V6 s2 o); assumption. }
    { intros s2 o HV HT. apply (short1 V V0 V2 V4 V6 s2 o); assumption. }
    { apply Rltb_false. lra. }
    { exact AD. }
    destruct (checks_pass V NS W tris w01 w12 w23 w30 TR V0 V2 V4 V6 FR TS' ES' [0; 1; 2; 3]%nat qu _ _ T0' T1') as [CB CO].
    set (T := w / 2) in *. assert (TP : T > / 10^10) by (unfold T; lra).
    destruct (numbers T TP) as (TT & TL & NZ & Z0 & Z1 & M2 & (z & NR) & N00 & N0). destruct (lengths (h - w) WH) as (NL & LP & LL & L0 & NL0).
    set (a := meet q0 d0 T) in *. set (b := meet q2 d2 T) in *.
    assert (X1 : nadd (Arith:=RA) (fst q1) (nmul (Arith:=RA) T (fst d1)) = fst a) by (unfold a, meet, q0, q1, d0, d1, T; cbn [fst snd]; ra_simp; field).
    assert (Y1 : nadd (Arith:=RA) (snd q1) (nmul (Arith:=RA) T (snd d1)) = snd a) by (unfold a, meet, q0, q1, d0, d1, T; cbn [fst snd]; ra_simp; field).
    assert (X3 : nadd (Arith:=RA) (fst q3) (nmul (Arith:=RA) T (fst d3)) = fst b) by (unfold b, meet, q3, q2, d3, d2, T; cbn [fst snd]; ra_simp; field).
    assert (Y3 : nadd (Arith:=RA) (snd q3) (nmul (Arith:=RA) T (snd d3)) = snd b) by (unfold b, meet, q3, q2, d3, d2, T; cbn [fst snd]; ra_simp; field).
    assert (AB : forall u v : R, fst a - fst b = u -> snd a - snd b = v -> u * u + v * v = (h - w) * (h - w)).
    { intros u v <- <-. unfold a, b, meet, q0, q2, d0, d2, T. cbn [fst snd]. apply SR. field. }
    pose proof (root (fst a - fst b) (snd a - snd b) (h - w) ltac:(lra) (AB _ _ eq_refl eq_refl)) as D1.
    pose proof (root (fst b - fst a) (snd b - snd a) (h - w) ltac:(lra) ltac:(rewrite <- (AB _ _ eq_refl eq_refl); ring)) as D2.
    pose proof (root0 (fst a) (snd a)) as D3. pose proof (root0 (fst b) (snd b)) as D4.
    destruct FR as [R01 R12 R23 R30 _ _ _ _].
    assert (U12 : unit_line (wf_line w12)) by (unfold unit_line; rewrite R12; cbn [fst snd]; rewrite <- UN; ring).
    assert (U30 : unit_line (wf_line w30)) by (unfold unit_line; rewrite R30; cbn [fst snd]; rewrite <- UN; ring).
    assert (O1 : lw (wf_line w30) = (- fst (lw (wf_line w12)), - snd (lw (wf_line w12)))) by (rewrite R12, R30; cbn [fst snd]; f_equal; ring).
    assert (O2 : lw (wf_line w12) = (- fst (lw (wf_line w30)), - snd (lw (wf_line w30)))) by (rewrite R12, R30; cbn [fst snd]; f_equal; ring).
    destruct (bisector_total_R _ _ U12 U30) as [c G1]. destruct (bisector_total_R _ _ U30 U12) as [c' G2].
    pose proof (proj2 (get_intersection_at_t_err _ _ T U12 U30) (opposite_det _ _ O1)) as I1.
    pose proof (proj2 (get_intersection_at_t_err _ _ T U30 U12) (opposite_det _ _ O2)) as I2.
    pose proof (fun o => opposite_velocity (wf_line w12) (wf_line w30) T o U12 O1) as NV1.
    pose proof (fun o => opposite_velocity (wf_line w30) (wf_line w12) T o U30 O2) as NV2.
    assert (RUN : exists s', event_loop (before V TS' NS ES' W [0; 1; 2; 3]%nat tris qu) = Ok (T, s') /\
      (outcome (A:=RA) T a b NS [0; 1; 2; 3]%nat tris s' (arms4 false 4 5) \/ outcome (A:=RA) T b a NS [0; 1; 2; 3]%nat tris s' (arms4 false 5 4))).
    { destruct QU as [-> | ->].
      - edestruct first_short with (p0 := q0) (p1 := q1) (p2 := q2) (p3 := q3) (b0 := d0) (b1 := d1) (b2 := d2) (b3 := d3) (a := a) (b := b) (T := T) (L := h - w)
          (w12 := w12) (w30 := w30) (V := V) (TS := TS') (NS := NS) (ES := ES') (W := W) (N := [0; 1; 2; 3]%nat) (tris := tris) (rl := rl) as (s' & H & OC); try eassumption; try reflexivity.
        exists s'. split; [|left; exact OC]. eapply loop_once; try eassumption. rewrite E0. reflexivity.
      - edestruct second_short with (p0 := q0) (p1 := q1) (p2 := q2) (p3 := q3) (b0 := d0) (b1 := d1) (b2 := d2) (b3 := d3) (a := a) (b := b) (T := T) (L := h - w)
          (w12 := w12) (w30 := w30) (V := V) (TS := TS') (NS := NS) (ES := ES') (W := W) (N := [0; 1; 2; 3]%nat) (tris := tris) (rl := rl) as (s' & H & OC); try eassumption; try reflexivity.
        exists s'. split; [|right; exact OC]. eapply loop_once; try eassumption. rewrite E1. reflexivity. }
    destruct RUN as (s' & HL & OC).
    exists d, s, (before V TS' NS ES' W [0; 1; 2; 3]%nat tris qu), NS, tris, s'. split; [exact HD|]. split; [exact HI|]. split; [rewrite ST; exact HE|]. split; [exact HL|].
    split; [exact (start_checked s V TS NS ES W tris ST V0 V2 V4 V6 PS)|]. constructor; assumption.
  Qed.
End Rect.
