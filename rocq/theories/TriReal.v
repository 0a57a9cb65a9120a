(** calc_skel on a triangle, over the reals *)
From Coq Require Import Reals Lra.
From Verif Require Import Base Arith ArithR Calc CalcProofs VectorOps Line2d Line2dProofs Transform Primitives Collapse CollapseR Properties_collapse EventGeom
  EventsLib EventLoop Initialize Main Properties_init
  InitBisect RSquared Properties_regression TriExample TriStart TriRun TriGeom Properties_geometry Mesh MeshRun Properties_current Properties_checks Properties_main.
Local Open Scope R_scope.
Local Existing Instance RA.

(** ** The fronts *)
Lemma front_R p q : p <> q -> exists w, WaveFront (A:=RA) p q None = Ok w /\ unit_line (wf_line w) /\
  forall r, eval (wf_line w) r = orient p q r / span p q.
Proof.
  intros N. destruct (from_points_spec p q N) as (l & F & U & _ & _ & D). unfold WaveFront. rewrite F. cbn [rbind].
  eexists. split; [reflexivity|]. split; [exact U|]. intros r. etransitivity; [|exact (D r)]. cbn [wf_line]. symmetry. apply signed_distance_R.
Qed.
Lemma normal_of (l : line2 (A:=RA)) p q : p <> q -> (forall r, eval l r = orient p q r / span p q) ->
  fst (lw l) = - (snd q - snd p) / span p q /\ snd (lw l) = (fst q - fst p) / span p q.
Proof.
  intros N H. pose proof (span_pos p q N) as S. pose proof (H (0, 0)) as H0. pose proof (H (1, 0)) as H1. pose proof (H (0, 1)) as H2.
  unfold eval, orient in *. cbn [fst snd] in *. split.
  - apply (Rplus_eq_reg_r (lb l)). transitivity (fst (lw l) * 1 + snd (lw l) * 0 + lb l); [ring|]. rewrite H1.
    replace (lb l) with (fst (lw l) * 0 + snd (lw l) * 0 + lb l) by ring. rewrite H0. field. lra.
  - apply (Rplus_eq_reg_r (lb l)). transitivity (fst (lw l) * 0 + snd (lw l) * 1 + lb l); [ring|]. rewrite H2.
    replace (lb l) with (fst (lw l) * 0 + snd (lw l) * 0 + lb l) by ring. rewrite H0. field. lra.
Qed.

Lemma and_assoc_back (P Q S : Prop) : P /\ Q /\ S <-> (P /\ Q) /\ S.
Proof. tauto. Qed.
(** the corner of two fronts that meet at [p] and go around [c] *)
Lemma corner_R (l m : line2 (A:=RA)) (s p q c : R * R) (T : R) : s <> p -> p <> q -> unit_line l -> unit_line m ->
  (forall r, eval l r = orient s p r / span s p) -> (forall r, eval m r = orient p q r / span p q) ->
  orient p q s > / 10^10 * (span s p * span p q) -> orient s p c = T * span s p -> orient p q c = T * span p q ->
  exists v, get_bisector l m = Ok v /\
    fst (lw l) * fst v + snd (lw l) * snd v = 1 /\ fst (lw m) * fst v + snd (lw m) * snd v = 1 /\
    fst p + T * fst v = fst c /\ snd p + T * snd v = snd c /\ det l m > / 10^10.
Proof.
  intros N1 N2 Ul Um Hl Hm K O1 O2. pose proof (span_pos s p N1) as S1. pose proof (span_pos p q N2) as S2.
  destruct (normal_of l s p N1 Hl) as [L1 L2]. destruct (normal_of m p q N2 Hm) as [M1 M2].
  assert (D : det l m = orient p q s / (span s p * span p q)).
  { unfold det. rewrite L1, L2, M1, M2. unfold orient. field. lra. }
  assert (DP : det l m > / 10^10).
  { rewrite D. apply (Rmult_lt_reg_r (span s p * span p q)); [apply Rmult_lt_0_compat; assumption|].
    replace (orient p q s / (span s p * span p q) * (span s p * span p q)) with (orient p q s) by (field; lra). exact K. }
  assert (E10 : 0 < / 10^10) by (apply Rinv_0_lt_compat, pow_lt; lra).
  destruct (get_bisector_R l m Ul Um) as (v & B & V1 & V2); [rewrite Rabs_right; lra|].
  exists v. split; [exact B|]. split; [exact V1|]. split; [exact V2|]. rewrite and_assoc_back. split; [|exact DP].
  assert (C1 : eval l c = T) by (rewrite Hl, O1; field; lra). assert (C2 : eval m c = T) by (rewrite Hm, O2; field; lra).
  assert (P1 : eval l p = 0) by (rewrite Hl; unfold orient; field; lra). assert (P2 : eval m p = 0) by (rewrite Hm; unfold orient; field; lra).
  clear - C1 C2 P1 P2 V1 V2 DP E10. unfold eval, det in *.
  set (a := fst (lw l)) in *. set (b := snd (lw l)) in *. set (d := fst (lw m)) in *. set (e := snd (lw m)) in *.
  set (x := fst p + T * fst v - fst c). set (y := snd p + T * snd v - snd c).
  assert (E1 : a * x + b * y = 0).
  { unfold x, y. transitivity ((a * fst p + b * snd p + lb l) + T * (a * fst v + b * snd v) - (a * fst c + b * snd c + lb l)); [ring|].
    rewrite P1, V1, C1. ring. }
  assert (E2 : d * x + e * y = 0).
  { unfold x, y. transitivity ((d * fst p + e * snd p + lb m) + T * (d * fst v + e * snd v) - (d * fst c + e * snd c + lb m)); [ring|].
    rewrite P2, V2, C2. ring. }
  assert (X : (a * e - d * b) * x = 0) by (transitivity (e * (a * x + b * y) - b * (d * x + e * y)); [ring|rewrite E1, E2; ring]).
  assert (Y : (a * e - d * b) * y = 0) by (transitivity (a * (d * x + e * y) - d * (a * x + b * y)); [ring|rewrite E1, E2; ring]).
  apply Rmult_integral in X, Y. unfold x, y in *. split; [destruct X|destruct Y]; lra.
Qed.

(** two corners whose distance is more than [T] and which meet at [T] approach each other faster than 1 *)
Lemma closing (p q v w c : R * R) (T : R) : 0 < T -> T < span p q -> fst p + T * fst v = fst c -> snd p + T * snd v = snd c ->
  fst q + T * fst w = fst c -> snd q + T * snd w = snd c -> sqdist v w > 1.
Proof.
  intros TP L H1 H2 H3 H4. unfold sqdist. pose proof (span_sq p q) as Q.
  assert (E : T * T * ((fst v - fst w)^2 + (snd v - snd w)^2) = span p q * span p q).
  { rewrite Q. replace (fst q - fst p) with (T * (fst v - fst w)) by lra. replace (snd q - snd p) with (T * (snd v - snd w)) by lra. ring. }
  apply Rnot_le_gt. intros N. assert (T * T < span p q * span p q) by nra. assert (0 < T * T) by nra. nra.
Qed.
Lemma meet_once (p q v w c : R * R) (T U : R) : p <> q -> fst p + T * fst v = fst c -> snd p + T * snd v = snd c ->
  fst q + T * fst w = fst c -> snd q + T * snd w = snd c -> fst p + U * fst v = fst q + U * fst w -> snd p + U * snd v = snd q + U * snd w -> U = T.
Proof.
  intros N H1 H2 H3 H4 H5 H6. assert (X : (U - T) * (fst v - fst w) = 0) by lra. assert (Y : (U - T) * (snd v - snd w) = 0) by lra.
  apply Rmult_integral in X, Y. destruct X as [X|X]; [lra|]. destruct Y as [Y|Y]; [lra|].
  exfalso. apply N. destruct p as [a b], q as [d e]. cbn [fst snd] in *. replace (fst v) with (fst w) in * by lra.
  replace (snd v) with (snd w) in * by lra. f_equal; lra.
Qed.

Lemma stays_on (a b e : R) (o v : R * R) (x : R) : a * fst o + b * snd o + e = 0 -> a * fst v + b * snd v = 1 ->
  a * (fst o + x * fst v) + b * (snd o + x * snd v) + e - x = 0.
Proof.
  intros H1 H2. transitivity ((a * fst o + b * snd o + e) + x * (a * fst v + b * snd v) - x); [ring|]. rewrite H1, H2. ring.
Qed.

Lemma moving_to (p v c : R * R) (x : R) : fst p + x * fst v = fst c -> snd p + x * snd v = snd c -> moving p v x = c.
Proof. intros H1 H2. unfold moving. rewrite H1, H2. symmetry. apply surjective_pairing. Qed.
Lemma moving_0 (p v : R * R) : moving p v 0 = p.
Proof. destruct p as [x y]. unfold moving. cbn [fst snd]. f_equal; ring. Qed.
Lemma mean_of_three (x : R) : ndivr (Arith:=RA) (nadd (Arith:=RA) (nadd (Arith:=RA) (nadd (Arith:=RA) (n0 (A:=RA)) x) x) x) (nofnat (A:=RA) 3) = x.
Proof. rewrite zero_R, nofnat_INR. ra_simp. cbn [INR]. field. Qed.
Lemma ahead (E : Env RA) (l : line2 (A:=RA)) (p q v : R * R) : true_orientation E -> p <> q -> (forall r, eval l r = orient p q r / span p q) ->
  fst (lw l) * fst v + snd (lw l) * snd v = 1 -> not_negative (A:=RA) (orient2d (A:=RA) p q (fst q + fst v, snd q + snd v)).
Proof.
  intros TE N H1 H2. pose proof (span_pos p q N) as S.
  assert (O : orient p q (fst q + fst v, snd q + snd v) = span p q).
  { transitivity (eval l (fst q + fst v, snd q + snd v) * span p q); [rewrite H1; field; lra|].
    assert (Z : eval l q = 0) by (rewrite H1; unfold orient; field; lra).
    transitivity ((eval l q + (fst (lw l) * fst v + snd (lw l) * snd v)) * span p q); [unfold eval; cbn [fst snd]; ring|]. rewrite Z, H2. ring. }
  destruct (TE p q (fst q + fst v, snd q + snd v)) as [G _]. rewrite O in G. specialize (G ltac:(lra)).
  destruct (Rle_lt_or_eq_dec _ _ G) as [P|P].
  - left. rewrite zero_R. apply Rltb_true. exact P.
  - right. rewrite <- P. apply near_zero_R. pose proof (pow_lt 10 10 ltac:(lra)) as Q. apply Rinv_0_lt_compat in Q. lra.
Qed.

(** ** The run *)
Section Run.
  Context (E : Env RA) (TE : true_orientation E).
  Context (p0 p1 p2 : R * R) (K : 0 < orient p0 p1 p2).
  Let T := inradius p0 p1 p2.
  Let c := incenter p0 p1 p2.
  (** each angle and the radius are clearly more than 0 *)
  Context (A0 : orient p0 p1 p2 > / 10^10 * (span p2 p0 * span p0 p1)).
  Context (A1 : orient p0 p1 p2 > / 10^10 * (span p0 p1 * span p1 p2)).
  Context (A2 : orient p0 p1 p2 > / 10^10 * (span p1 p2 * span p2 p0)).
  Context (RT : T > / 10^10).

  (** [v] started in [p] at time 0 next to [l], moves straight to the center and ends there *)
  Definition towards (p : R * R) (x : R) : R * R := (fst p + x / T * (fst c - fst p), snd p + x / T * (snd c - snd p)).
  Definition ended_at_center (s' : state (A:=RA)) (v : nat) (p : R * R) (l : nat) : Prop :=
    k_inf (vs s' v) = false /\ k_stops (vs s' v) = Some T /\ k_starts (vs s' v) = Some 0 /\
    (forall x, 0 <= x -> hist_at (k_left (vs s' v)) x = Some l) /\ (forall x, position_at s' v x = Ok (towards p x)) /\
    exists a, k_start_node (vs s' v) = Some a /\ k_stop_node (vs s' v) = Some 3%nat /\ a <> 3%nat /\
      sn_pos (ns s' a) = p /\ sn_info (ns s' a) = None.

  Lemma triangle_run : exists d s s1 s', tri_of (A:=RA) [p0; p1; p2] = Ok d /\ init_skeleton d = Ok s /\
    init_event_list (start_of true s) = Ok (tt, s1) /\ event_loop s1 = Ok (T, s') /\
    (k_start_node (vs (start_of true s) 0%nat) = Some 0%nat /\ k_start_node (vs (start_of true s) 2%nat) = Some 1%nat /\
     k_start_node (vs (start_of true s) 4%nat) = Some 2%nat /\
     k_inf (vs (start_of true s) 0%nat) = false /\ k_inf (vs (start_of true s) 2%nat) = false /\
     k_inf (vs (start_of true s) 4%nat) = false) /\ sk_vertices (start_of true s) = [0; 2; 4]%nat /\
    (sn_pos (ns (start_of true s) 0%nat) = p0 /\ sn_pos (ns (start_of true s) 1%nat) = p1 /\ sn_pos (ns (start_of true s) 2%nat) = p2) /\
    sk_vertices s' = [0; 2; 4]%nat /\ sk_triangles s' = [0]%nat /\ sk_nodes s' = [0; 1; 2; 3]%nat /\
    t_stops (ts s' 0%nat) = Some T /\
    sn_pos (ns s' 3%nat) = c /\ sn_info (ns s' 3%nat) = None /\
    ended_at_center s' 0 p0 4 /\ ended_at_center s' 2 p1 0 /\ ended_at_center s' 4 p2 2.
  Proof.
    destruct (orient_apart p0 p1 p2 K) as (N01 & N12 & N20).
    destruct (front_R p0 p1 N01) as (w01 & H01 & U01 & F01).
    destruct (front_R p1 p0 (not_eq_sym N01)) as (w10 & H10 & U10 & _).
    destruct (front_R p1 p2 N12) as (w12 & H12 & U12 & F12).
    destruct (front_R p2 p1 (not_eq_sym N12)) as (w21 & H21 & U21 & _).
    destruct (front_R p2 p0 N20) as (w20 & H20 & U20 & F20).
    destruct (front_R p0 p2 (not_eq_sym N20)) as (w02 & H02 & U02 & _).
    destruct (incenter_ok p0 p1 p2 K) as (TP & O01 & O12 & O20). fold T in TP, O01, O12, O20. fold c in O01, O12, O20.
    destruct (inradius_short p0 p1 p2 K) as (L01 & L12 & L20). fold T in L01, L12, L20.
    assert (K1 : orient p1 p2 p0 = orient p0 p1 p2) by apply orient_turn.
    assert (K2 : orient p2 p0 p1 = orient p0 p1 p2) by (rewrite orient_turn; apply orient_turn).
    destruct (corner_R (wf_line w20) (wf_line w01) p2 p0 p1 c T N20 N01 U20 U01 F20 F01 A0 O20 O01) as (b0 & B0 & V0a & V0b & X0 & Y0 & D0).
    destruct (corner_R (wf_line w01) (wf_line w12) p0 p1 p2 c T N01 N12 U01 U12 F01 F12) as (b1 & B1 & V1a & V1b & X1 & Y1 & D1);
      [rewrite K1; exact A1|exact O01|exact O12|].
    destruct (corner_R (wf_line w12) (wf_line w20) p1 p2 p0 c T N12 N20 U12 U20 F12 F20) as (b2 & B2 & V2a & V2b & X2 & Y2 & D2);
      [rewrite K2; exact A2|exact O12|exact O20|].
    destruct (tri_start p0 p1 p2 w01 w10 w12 w21 w20 w02 b0 b1 b2 H01 H10 H12 H21 H20 H02 B0 B1 B2) as (d & s & HD & HI & FA);
      try (apply bisector_total_R; assumption).
    { intros x. unfold pdiv. rewrite (RA_counts 3%nat) by lia. eexists. reflexivity. }
    { apply (nleb_refl RA_ord). }
    { intros d D. injection D as <-. unfold infinites, pt_eqb. cbn. unfold Q2R. cbn.
      repeat (match goal with |- context [Reqb ?x ?y] => destruct (Reqb x y) eqn:?; rb2p; try lra end; cbn).
      all: reflexivity. }
    exists d, s. cbn zeta in FA.
    remember (start_of true s) as st eqn:ST. clear ST.
    destruct FA as (G1 & G2 & G3 & G4 & G5 & G6 & G7 & G8 & G9 & G10 & G11 & G12 & G13 & G14 & G15 & G16 & G17).
    destruct st as [V cv TS ct NS cn ES ce W nodes verts tris qu im].
    cbn [sk_triangles sk_vertices ts vs wfs ns nn ne nv queue immediate sk_nodes] in *. subst cv cn ce nodes verts tris qu im.
    set (st := mkSt V 7%nat TS ct NS 3%nat ES 0%nat W [0; 1; 2]%nat [0; 2; 4]%nat [0]%nat [] []).
    set (L := fun i => match i with S0 => wf_line w12 | S1 => wf_line w20 | S2 => wf_line w01 end).
    assert (E10 : 0 < / 10^10) by (apply Rinv_0_lt_compat, pow_lt; lra).
    assert (E11 : / 10^10 < 1) by (rewrite <- Rinv_1; apply Rinv_lt_contravar; [|cbn; lra]; rewrite Rmult_1_l; apply pow_lt; lra).
    assert (OR : ordinary st 0%nat) by (intros []; unfold st; cbn; rewrite G3; cbn; rewrite ?G4, ?G5, ?G6; split; reflexivity).
    assert (SP : forall w, spread st 0%nat w > / 10^10).
    { intros w. apply (Rlt_trans _ 1); [exact E11|].
      assert (Q01 : sqdist b0 b1 > 1) by (apply (closing p0 p1 b0 b1 c T); assumption).
      assert (Q12 : sqdist b1 b2 > 1) by (apply (closing p1 p2 b1 b2 c T); assumption).
      assert (Q20 : sqdist b2 b0 > 1) by (apply (closing p2 p0 b2 b0 c T); assumption).
      unfold spread, dv2, st. cbn [vs ts]. rewrite G3. destruct w; cbn [get3 t_v x0 x1 x2 ccw cw]; rewrite ?G4, ?G5, ?G6; assumption. }
    assert (ND : forall i j, i <> j -> lw (L i) <> lw (L j)).
    { intros i j IJ EQ. unfold det in D0, D1, D2. destruct i, j; try (destruct (IJ eq_refl)); unfold L in EQ; rewrite EQ in *; lra. }
    assert (ON : forall r l, (forall x, eval l x = r x) -> forall o v, eval l o = 0 -> fst (lw l) * fst v + snd (lw l) * snd v = 1 ->
       forall x kv, k_origin kv = o -> k_velocity kv = v -> gap l kv x = 0).
    { intros r l _ o v H1 H2 x kv <- <-. exact (stays_on (fst (lw l)) (snd (lw l)) (lb l) (k_origin kv) (k_velocity kv) x H1 H2). }
    assert (FR : forall w, on_front st 0%nat w (L w)).
    { assert (Z : forall p q, p <> q -> orient p q p / span p q = 0 /\ orient p q q / span p q = 0).
      { intros p q N. pose proof (span_pos p q N). unfold orient. split; field; lra. }
      destruct (Z p0 p1 N01) as [Z1 Z2]. destruct (Z p1 p2 N12) as [Z3 Z4]. destruct (Z p2 p0 N20) as [Z5 Z6].
      intros w. unfold on_front, st. cbn [vs ts wfs]. rewrite G3.
      destruct w; cbn [get3 t_v x0 x1 x2 ccw cw L]; rewrite ?G4, ?G5, ?G6; (split; [assumption|]); (split; [eexists _, _; cbn [first_vertex k_ur k_ul]; repeat split; congruence|]).
      - split; intros x; [apply (ON _ _ F12 p1 b1)|apply (ON _ _ F12 p2 b2)]; try reflexivity; try assumption; rewrite F12; assumption.
      - split; intros x; [apply (ON _ _ F20 p2 b2)|apply (ON _ _ F20 p0 b0)]; try reflexivity; try assumption; rewrite F20; assumption.
      - split; intros x; [apply (ON _ _ F01 p0 b0)|apply (ON _ _ F01 p1 b1)]; try reflexivity; try assumption; rewrite F01; assumption. }
    assert (EV : collapse_event st 0 (n0 (A:=RA)) FindGt = Ok (Some (meeting (A:=RA) T))).
    { destruct (C67_three_fronts st 0 L OR FR ND SP) as (U & q & M & H).
      - unfold st. cbn [ts]. rewrite G3. reflexivity.
      - unfold st. cbn [ts]. rewrite G3. reflexivity.
      - assert (UT : U = T).
        { pose proof (M S0) as M0. rewrite <- (M S1) in M0. unfold place, path, moving, st in M0. cbn [vs ts] in M0. rewrite G3 in M0.
          cbn [get3 t_v x0 x1 x2] in M0. rewrite G4, G5 in M0. cbn [first_vertex k_origin k_velocity] in M0.
          apply (meet_once p0 p1 b0 b1 c T U N01 X0 Y0 X1 Y1); [exact (f_equal fst M0)|exact (f_equal snd M0)]. }
        subst U. destruct (H (n0 (A:=RA)) FindGt) as [H1 _]; [rewrite zero_R; lra|]. apply H1; [unfold adm; rewrite zero_R; lra|lra]. }
    set (rd := ready T V TS NS ES W 7 ct [0; 1; 2]%nat).
    assert (POS : forall s x, cores V (vs s) -> position_at s 0 x = Ok (moving p0 b0 x) /\ position_at s 2 x = Ok (moving p1 b1 x) /\
       position_at s 4 x = Ok (moving p2 b2 x)).
    { intros z x C. unfold position_at. destruct (C 0%nat) as (C1 & C2 & C3 & C4). rewrite C1, C2, C3, C4, G4.
      destruct (C 2%nat) as (C5 & C6 & C7 & C8). rewrite C5, C6, C7, C8, G5.
      destruct (C 4%nat) as (C9 & C10 & C11 & C12). rewrite C9, C10, C11, C12, G6. repeat split. }
    assert (PT : moving p0 b0 T = c /\ moving p1 b1 T = c /\ moving p2 b2 T = c).
    { split; [exact (moving_to _ _ _ _ X0 Y0)|]. split; [exact (moving_to _ _ _ _ X1 Y1)|exact (moving_to _ _ _ _ X2 Y2)]. }
    destruct PT as (PT0 & PT1 & PT2).
    assert (MP : forall z, cores V (vs z) -> mean_position z [0; 2; 4]%nat T = Ok c).
    { intros z C. destruct (POS z T C) as (Q0 & Q1 & Q2). unfold mean_position. cbn [rmapl]. rewrite Q0, Q1, Q2, PT0, PT1, PT2. cbn [rbind fold_left length].
      unfold pdiv. rewrite (RA_counts 3%nat) by lia. cbn [rbind]. transitivity (Ok (fst c, snd c));
        [apply f_equal; exact (f_equal2 pair (mean_of_three (fst c)) (mean_of_three (snd c)))|rewrite <- surjective_pairing; reflexivity]. }
    assert (CR : cores V (vs rd)) by (intros v; repeat split).
    destruct (POS rd 0 CR) as (R0 & R1 & R2).
    rewrite moving_0 in R0, R1, R2.
    assert (AC : forall t, active rd t -> t = 0%nat) by (intros t [[<-|[]] _]; reflexivity).
    assert (CB : check_bisectors rd (n0 (A:=RA)) = Ok tt).
    { rewrite zero_R. apply C77_bisectors_meaning. intros t i TA _. rewrite (AC t TA).
      destruct i; eexists _, _; (split; [eassumption|]); (split; [eassumption|]); cbn; rewrite ?G4, ?G5, ?G6; cbn [first_vertex k_velocity].
      - apply (ahead E (wf_line w12)); assumption.
      - apply (ahead E (wf_line w20)); assumption.
      - apply (ahead E (wf_line w01)); assumption. }
    assert (CO : check_active_triangles_orientation rd (n0 (A:=RA)) = Ok tt).
    { rewrite zero_R. apply C77_orientation_meaning. intros t TA. rewrite (AC t TA). exists p0, p1, p2. do 3 (split; [assumption|]). split.
      - intros _. left. destruct (TE p0 p1 p2) as [G _]. rewrite zero_R. apply Rleb_true, G. lra.
      - intros [i H]. exfalso. destruct i; cbn in H; rewrite ?G4, ?G5, ?G6 in H; discriminate. }
    destruct (only_step p0 p1 p2 b0 b1 b2 c T V TS NS ES W 7 ct [0; 1; 2]%nat G4 G5 G6) as (s' & HL & Q1 & Q2 & Q3 & Q4 & Q5 & Q6 & Q7 & Q8 & _);
      [| |exact MP|exact CB|exact CO|].
    { apply near_zero_false_R. rewrite zero_R. change (Rabs (0 - T) > / 10^10). rewrite Rminus_0_l, Rabs_Ropp, Rabs_right; lra. }
    { apply Reqb_true. reflexivity. }
    exists rd, s'. split; [exact HD|]. split; [exact HI|]. split; [apply first_step; assumption|]. split; [exact HL|].
    split; [cbn [vs]; rewrite G4, G5, G6; repeat split|]. split; [reflexivity|]. split; [exact G10|].
    split; [exact Q1|]. split; [exact Q2|]. split; [exact Q3|]. split; [exact Q5|]. rewrite Q4. cbn [upd Nat.eqb]. split; [reflexivity|]. split; [reflexivity|].
    destruct G10 as (I1 & I2 & I3). destruct G11 as (J1 & J2 & J3).
    assert (HA : forall l x, 0 <= x -> hist_at [(n0 (A:=RA), None, Some l)] x = Some l).
    { intros l x P. assert (B : nleb (Arith:=RA) (n0 (A:=RA)) x = true) by (rewrite zero_R; apply Rleb_true; exact P).
      unfold hist_at. rewrite B. reflexivity. }
    assert (TW : forall p v x, fst p + T * fst v = fst c -> snd p + T * snd v = snd c -> towards p x = moving p v x).
    { intros p v x H1 H2. unfold towards, moving. rewrite <- H1, <- H2. f_equal; field; lra. }
    unfold ended_at_center. rewrite Q6, Q7, Q8, Q4. cbn [stopped_vertex k_inf k_stops k_start_node k_stop_node k_starts k_left].
    assert (Z0 : Some (n0 (A:=RA)) = Some 0) by (rewrite zero_R; reflexivity).
    split; [|split]; (split; [reflexivity|]); (split; [reflexivity|]); (split; [exact Z0|]); (split; [apply HA|]);
      (split; [intros x; unfold position_at; rewrite ?Q6, ?Q7, ?Q8; cbn [stopped_vertex k_inf k_inf_fast k_origin k_velocity]|
       (eexists; split; [reflexivity|]); (split; [reflexivity|]); (split; [discriminate|]); cbn [upd Nat.eqb]; split; assumption]).
    - rewrite (TW _ _ x X0 Y0). reflexivity.
    - rewrite (TW _ _ x X1 Y1). reflexivity.
    - rewrite (TW _ _ x X2 Y2). reflexivity.
  Qed.
End Run.
