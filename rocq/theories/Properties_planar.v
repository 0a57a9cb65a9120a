(** C101: the line pieces of the skeleton of a triangle, rectangle or square meet in their ends only (exact reals) *)
From Coq Require Import Reals Lra.
From Verif Require Import Base Arith ArithR Calc CalcProofs VectorOps Line2d Line2dProofs Transform TransformProofs Primitives Collapse
  EventsLib EventLoop Initialize Main Properties_init RSquared Properties_regression TriExample TriStart TriRun TriGeom TriReal Properties_current
  Properties_checks Properties_triangle QuadExample RectStart RectRun RectLoop RectReal SquareRun SquareReal Properties_rect Properties_square Properties_main.
Local Open Scope R_scope.
Local Existing Instance RA.

(** ** Specification *)

(** the point [x] is on the line piece from [p] to [q] *)
Definition between (p q x : R * R) : Prop :=
  exists t, 0 <= t <= 1 /\ fst x = fst p + t * (fst q - fst p) /\ snd x = snd p + t * (snd q - snd p).
Definition end_of (p q x : R * R) : Prop := x = p \/ x = q.
Definition meet_in_ends (s s' : segment (A:=RA)) : Prop :=
  forall x, between (fst (fst s)) (snd (fst s)) x -> between (fst (fst s')) (snd (fst s')) x ->
  end_of (fst (fst s)) (snd (fst s)) x /\ end_of (fst (fst s')) (snd (fst s')) x.
(** any two of the pieces *)
Definition planar (l : list (segment (A:=RA))) : Prop := ForallOrdPairs meet_in_ends l.

(** ** Geometry *)
Lemma between_turn p q x : between p q x -> between q p x.
Proof. intros (t & T & X & Y). exists (1 - t). split; [lra|]. rewrite X, Y. split; ring. Qed.
Lemma orient_along u v p q x t : fst x = fst p + t * (fst q - fst p) -> snd x = snd p + t * (snd q - snd p) ->
  orient u v x = orient u v p + t * (orient u v q - orient u v p).
Proof. intros X Y. unfold orient. rewrite X, Y. ring. Qed.
Lemma at_one (p q x : R * R) t : fst x = fst p + t * (fst q - fst p) -> snd x = snd p + t * (snd q - snd p) -> t = 1 -> x = q.
Proof. intros X Y ->. destruct x, q. cbn [fst snd] in *. f_equal; lra. Qed.
(** two pieces that end in [c], not on one line *)
Lemma meet_corner p q c x : orient p q c <> 0 -> between p c x -> between q c x -> x = c.
Proof.
  intros N (t & T & X & Y) (u & U & X' & Y'). apply (at_one p c x t X Y).
  assert (Z : (1 - t) * orient p q c = 0).
  { rewrite X in X'. rewrite Y in Y'. unfold orient.
    assert (A : (1 - t) * (fst c - fst p) = (1 - u) * (fst c - fst q)) by lra. assert (B : (1 - t) * (snd c - snd p) = (1 - u) * (snd c - snd q)) by lra.
    transitivity ((1 - t) * (fst c - fst p) * (snd c - snd q) - (1 - t) * (snd c - snd p) * (fst c - fst q)); [ring|rewrite A, B; ring]. }
  apply Rmult_integral in Z. destruct Z as [Z|Z]; [lra|contradiction].
Qed.
(** two pieces that end in the middle between their beginnings *)
Lemma meet_middle p q c x : fst c = (fst p + fst q) / 2 -> snd c = (snd p + snd q) / 2 -> between p c x -> between q c x -> x = c.
Proof.
  intros CX CY (t & T & X & Y) (u & U & X' & Y'). destruct x as [x y], c as [cx cy]. cbn [fst snd] in *.
  assert (G : forall a b m z, m = (a + b) / 2 -> z = a + t * (m - a) -> z = b + u * (m - b) -> z = m).
  { intros a b m z M Z1 Z2. assert (K : (1 - t + (1 - u)) * (m - a) = 0) by (replace b with (2 * m - a) in Z2 by lra; nra).
    apply Rmult_integral in K. destruct K as [K|K]; [assert (t = 1) by lra; subst t; lra|]. replace a with m in Z1 by lra. lra. }
  f_equal; eapply G; eassumption.
Qed.
(** pieces on different sides of a line *)
Lemma apart u v p q p' q' x k : orient u v p <= k -> orient u v q <= k -> k < orient u v p' -> k < orient u v q' -> between p q x -> between p' q' x -> False.
Proof.
  intros A B C D (t & T & X & Y) (w & W & X' & Y'). pose proof (orient_along u v p q x t X Y) as E1. pose proof (orient_along u v p' q' x w X' Y') as E2.
  set (f := orient u v) in *. clearbody f. assert (L : f x <= k).
  { assert (0 <= (1 - t) * (k - f p)) by (apply Rmult_le_pos; lra). assert (0 <= t * (k - f q)) by (apply Rmult_le_pos; lra). nra. }
  assert (0 <= (1 - w) * (f p' - k)) by (apply Rmult_le_pos; lra). assert (0 <= w * (f q' - k)) by (apply Rmult_le_pos; lra).
  destruct (Rle_dec w (1/2)) as [S|S].
  - assert (0 < (1 - w) * (f p' - k)) by (apply Rmult_lt_0_compat; lra). nra.
  - assert (0 < w * (f q' - k)) by (apply Rmult_lt_0_compat; lra). nra.
Qed.
(** a piece that ends in [a], and one that goes on from there *)
Lemma meet_next u v p a b x : orient u v p < orient u v a -> orient u v a < orient u v b -> between p a x -> between a b x -> x = a.
Proof.
  intros A B (t & T & X & Y) (w & W & X' & Y'). pose proof (orient_along u v p a x t X Y) as E1. pose proof (orient_along u v a b x w X' Y') as E2.
  apply (at_one p a x t X Y). set (f := orient u v) in *. clearbody f. assert (0 <= w * (f b - f a)) by nra. assert ((1 - t) * (f a - f p) <= 0) by nra. nra.
Qed.

Lemma ends_first {i j} p q p' q' : (forall x, between p q x -> between p' q' x -> False) -> meet_in_ends ((p, q), i) ((p', q'), j).
Proof. intros H x A B. destruct (H x A B). Qed.
Lemma ends_last {i j} p q c : (forall x, between p c x -> between q c x -> x = c) -> meet_in_ends ((p, c), i) ((q, c), j).
Proof. intros H x A B. cbn [fst snd] in *. rewrite (H x A B). split; right; reflexivity. Qed.

Lemma pairs3 {X} (P : X -> X -> Prop) a b c : P a b -> P a c -> P b c -> ForallOrdPairs P [a; b; c].
Proof. intros. repeat constructor; assumption. Qed.
Lemma pairs4 {X} (P : X -> X -> Prop) a b c d : P a b -> P a c -> P a d -> P b c -> P b d -> P c d -> ForallOrdPairs P [a; b; c; d].
Proof. intros. repeat constructor; assumption. Qed.
Lemma pairs5 {X} (P : X -> X -> Prop) a b c d e : P a b -> P a c -> P a d -> P a e -> P b c -> P b d -> P b e -> P c d -> P c e -> P d e -> ForallOrdPairs P [a; b; c; d; e].
Proof. intros. repeat constructor; assumption. Qed.

Lemma arms_planar p q s c r : 0 < orient p q s -> incircle p q s c r -> planar (arms p q s c).
Proof.
  intros K (RP & C1 & C2 & C3). destruct (orient_apart p q s K) as (N1 & N2 & N3).
  pose proof (span_pos _ _ N1). pose proof (span_pos _ _ N2). pose proof (span_pos _ _ N3).
  assert (O1 : orient p q c <> 0) by nra. assert (O2 : orient q s c <> 0) by nra. assert (O3 : orient s p c <> 0) by nra.
  apply pairs3.
  - apply ends_last. intros x. apply meet_corner. exact O1.
  - apply ends_last. intros x A B. exact (meet_corner s p c x O3 B A).
  - apply ends_last. intros x. apply meet_corner. exact O2.
Qed.

Lemma pyramid_planar p0 p1 p2 p3 c r : square p0 p1 p2 p3 -> middle p0 p1 p2 p3 c r -> planar (pyramid p0 p1 p2 p3 c).
Proof.
  intros SQ MD. pose proof MD as (RP & C1 & C2 & C3 & C4). pose proof (proj1 (C97_middle _ _ _ _ _ _ SQ) MD) as [CE _].
  destruct SQ as [(R1 & R2 & R3 & R4) _]. destruct (orient_apart p0 p1 p2 R4) as (N1 & N2 & _).
  assert (N3 : p2 <> p3) by (intros ->; apply N1; destruct p0, p1; cbn [fst snd] in *; f_equal; lra).
  assert (N4 : p3 <> p0) by (intros ->; apply N2; destruct p1, p2; cbn [fst snd] in *; f_equal; lra).
  pose proof (span_pos _ _ N1). pose proof (span_pos _ _ N2). pose proof (span_pos _ _ N3). pose proof (span_pos _ _ N4). unfold inside_at in *.
  assert (O1 : orient p0 p1 c <> 0) by nra. assert (O2 : orient p1 p2 c <> 0) by nra. assert (O3 : orient p2 p3 c <> 0) by nra. assert (O4 : orient p3 p0 c <> 0) by nra.
  assert (CX : fst c = (fst p0 + fst p2) / 2 /\ snd c = (snd p0 + snd p2) / 2) by (rewrite CE; split; reflexivity). destruct CX as [CX CY].
  apply pairs4; apply ends_last; intros x A B.
  - exact (meet_corner _ _ _ _ O1 A B).
  - exact (meet_middle _ _ _ _ CX CY A B).
  - exact (meet_corner _ _ _ _ O4 B A).
  - exact (meet_corner _ _ _ _ O2 A B).
  - apply (meet_middle p1 p3 c x); [rewrite CX; lra|rewrite CY; lra|exact A|exact B].
  - exact (meet_corner _ _ _ _ O3 A B).
Qed.

(** how far the corners and the ends of the ridge are from the side p3 p0 *)
Lemma ridge_levels p0 p1 p2 p3 a b r : rectangle p0 p1 p2 p3 -> ridge p0 p1 p2 p3 a b r -> span p0 p1 > span p1 p2 ->
  let f := orient p3 p0 in f p0 = 0 /\ f p3 = 0 /\ 0 < f a /\ f a < f b /\ f b < f p1 /\ f p2 = f p1 /\ orient p1 p2 b <> 0.
Proof.
  intros RE (RP & (A1 & A2 & A3) & (B1 & B2 & B3)) L f. pose proof RE as (R1 & R2 & R3 & R4).
  destruct (orient_apart p0 p1 p2 R4) as (N1 & N2 & _). pose proof (span_pos _ _ N1) as W. pose proof (span_pos _ _ N2) as HH.
  assert (S2 : span p2 p3 = span p0 p1).
  { apply Rsqr_inj; [apply span_nonneg|apply span_nonneg|]. unfold Rsqr. rewrite !span_sq. replace (fst p3 - fst p2) with (- (fst p1 - fst p0)) by lra.
    replace (snd p3 - snd p2) with (- (snd p1 - snd p0)) by lra. ring. }
  assert (S3 : span p3 p0 = span p1 p2).
  { apply Rsqr_inj; [apply span_nonneg|apply span_nonneg|]. unfold Rsqr. rewrite !span_sq. replace (fst p0 - fst p3) with (- (fst p2 - fst p1)) by lra.
    replace (snd p0 - snd p3) with (- (snd p2 - snd p1)) by lra. ring. }
  unfold inside_at in *. rewrite S2 in *. rewrite S3 in *. set (w := span p0 p1) in *. set (h := span p1 p2) in *. clearbody w h.
  assert (X2 : fst p2 = fst p3 + fst p1 - fst p0) by lra. assert (Y2 : snd p2 = snd p3 + snd p1 - snd p0) by lra.
  assert (D1 : orient p0 p1 a + orient p2 p3 a = f p1) by (unfold f, orient; rewrite X2, Y2; ring).
  assert (D2 : f b + orient p1 p2 b = f p1) by (unfold f, orient; rewrite X2, Y2; ring).
  assert (D3 : f p2 = f p1) by (unfold f, orient; rewrite X2, Y2; ring).
  assert (P : 0 < r * h) by nra. assert (Q : r * h < r * w) by nra.
  split; [unfold f, orient; ring|]. split; [unfold f, orient; ring|]. unfold f in *. repeat split; lra.
Qed.

Lemma roof_planar_long p0 p1 p2 p3 a b r rg : rectangle p0 p1 p2 p3 -> ridge p0 p1 p2 p3 a b r -> span p0 p1 > span p1 p2 -> rg = (a, b) \/ rg = (b, a) ->
  forall (s0 s1 s2 s3 s4 : segment (A:=RA)), fst s0 = (p0, a) -> fst s1 = (p1, b) -> fst s2 = (p2, b) -> fst s3 = (p3, a) -> fst s4 = rg ->
  meet_in_ends s0 s1 /\ meet_in_ends s0 s2 /\ meet_in_ends s0 s3 /\ meet_in_ends s0 s4 /\ meet_in_ends s1 s2 /\ meet_in_ends s1 s3 /\ meet_in_ends s1 s4 /\
  meet_in_ends s2 s3 /\ meet_in_ends s2 s4 /\ meet_in_ends s3 s4.
Proof.
  intros RE RG L GG s0 s1 s2 s3 s4 E0 E1 E2 E3 E4. destruct (ridge_levels _ _ _ _ _ _ _ RE RG L) as (F0 & F3 & FA & FB & F1 & F2 & OB).
  assert (OA : orient p3 p0 a <> 0) by lra.
  unfold meet_in_ends. rewrite E0, E1, E2, E3, E4. cbn [fst snd].
  assert (NX : forall x, (between p0 a x \/ between p3 a x) -> (between p1 b x \/ between p2 b x) -> False).
  { intros x [X|X] [Y|Y]; [apply (apart p3 p0 p0 a p1 b x (orient p3 p0 a))|apply (apart p3 p0 p0 a p2 b x (orient p3 p0 a))
      |apply (apart p3 p0 p3 a p1 b x (orient p3 p0 a))|apply (apart p3 p0 p3 a p2 b x (orient p3 p0 a))]; try assumption; lra. }
  assert (GA : forall x, (between p0 a x \/ between p3 a x) -> between (fst rg) (snd rg) x -> x = a).
  { intros x X G. assert (G' : between a b x) by (destruct GG as [-> | ->]; cbn [fst snd] in G; [exact G|apply between_turn; exact G]).
    destruct X as [X|X]; eapply (meet_next p3 p0); try eassumption; lra. }
  assert (GB : forall x, (between p1 b x \/ between p2 b x) -> between (fst rg) (snd rg) x -> x = b).
  { intros x X G. assert (G' : between b a x) by (destruct GG as [-> | ->]; cbn [fst snd] in G; [apply between_turn; exact G|exact G]).
    destruct X as [X|X]; eapply (meet_next p0 p3); try eassumption; unfold orient in *; lra. }
  assert (EA : end_of (fst rg) (snd rg) a /\ end_of (fst rg) (snd rg) b) by (unfold end_of; destruct GG as [-> | ->]; cbn; auto). destruct EA as [EA EB].
  assert (SA : forall x, between p0 a x -> between p3 a x -> x = a) by (intros x X Y; exact (meet_corner _ _ _ _ OA Y X)).
  assert (SB : forall x, between p1 b x -> between p2 b x -> x = b) by (intros x X Y; exact (meet_corner _ _ _ _ OB X Y)).
  unfold end_of in *. repeat split; intros;
    try (exfalso; eauto 6; fail);
    try (match goal with x : R * R |- _ => (assert (HX : x = a) by eauto 6) || (assert (HX : x = b) by eauto 6) end; subst; auto).
Qed.

Lemma roof_planar long e p0 p1 p2 p3 a b r rg : 0 <= e -> rectangle p0 p1 p2 p3 -> sides long e p0 p1 p2 -> ridge_of long p0 p1 p2 p3 a b r -> rg = (a, b) \/ rg = (b, a) ->
  planar (roof p0 p1 p2 p3 a (if long then b else a) b (if long then a else b) rg).
Proof.
  intros EP RE SD RG GG. unfold sides, ridge_of in *. destruct long.
  - destruct (roof_planar_long p0 p1 p2 p3 a b r rg RE RG ltac:(lra) GG (p0, a, (None, None)) (p1, b, (None, None)) (p2, b, (None, None)) (p3, a, (None, None)) (rg, (None, None))
      eq_refl eq_refl eq_refl eq_refl eq_refl) as (M1 & M2 & M3 & M4 & M5 & M6 & M7 & M8 & M9 & M10).
    apply pairs5; assumption.
  - assert (RT : rectangle p1 p2 p3 p0).
    { destruct RE as (R1 & R2 & R3 & R4). assert (X2 : fst p2 = fst p3 + fst p1 - fst p0) by lra. assert (Y2 : snd p2 = snd p3 + snd p1 - snd p0) by lra.
      split; [lra|]. split; [lra|]. split.
      - rewrite X2, Y2. rewrite <- Ropp_0, <- R3. ring.
      - unfold orient in *. rewrite X2, Y2 in *. lra. }
    assert (S3 : span p2 p3 = span p0 p1).
    { destruct RE as (R1 & R2 & _). apply Rsqr_inj; [apply span_nonneg|apply span_nonneg|]. unfold Rsqr. rewrite !span_sq. replace (fst p3 - fst p2) with (- (fst p1 - fst p0)) by lra.
      replace (snd p3 - snd p2) with (- (snd p1 - snd p0)) by lra. ring. }
    destruct (roof_planar_long p1 p2 p3 p0 a b r rg RT RG ltac:(lra) GG (p1, a, (None, None)) (p2, b, (None, None)) (p3, b, (None, None)) (p0, a, (None, None)) (rg, (None, None))
      eq_refl eq_refl eq_refl eq_refl eq_refl) as (M1 & M2 & M3 & M4 & M5 & M6 & M7 & M8 & M9 & M10).
    assert (SY : forall s s', meet_in_ends s s' -> meet_in_ends s' s) by (intros s s' M x A B; destruct (M x B A); split; assumption).
    apply pairs5; try assumption; apply SY; assumption.
Qed.

(** ** Every triangle, rectangle and square *)
Theorem C101_triangle :
  forall (E : Env RA), true_orientation E -> forall p0 p1 p2 : R * R,
  in_square p0 -> in_square p1 -> in_square p2 -> orient p0 p1 p2 > / 10^8 ->
  exists s' l, calc_skel (tri_of (A:=RA)) [p0; p1; p2] false true = Ok (s', None) /\ segments s' None = Ok l /\ planar l.
Proof.
  intros E TE p0 p1 p2 I0 I1 I2 K. destruct (C86_triangle E TE p0 p1 p2 I0 I1 I2 K) as (s' & c & r & H & IC & SG & _).
  exists s', (arms p0 p1 p2 c). split; [exact H|]. split; [exact SG|].
  assert (0 < / 10^8) by (apply Rinv_0_lt_compat, pow_lt; lra). apply (arms_planar _ _ _ _ r); [lra|exact IC].
Qed.
Print Assumptions C101_triangle.
Theorem C101_triangle_shrunk :
  forall (E : Env RA), true_orientation E -> forall (p0 p1 p2 : R * R) (d : R),
  (forall p q, In p [p0; p1; p2] -> In q [p0; p1; p2] -> fst p - fst q <= d /\ snd p - snd q <= d) ->
  orient p0 p1 p2 > d * d / 10^8 ->
  exists s' tr l, calc_skel (tri_of (A:=RA)) [p0; p1; p2] true true = Ok (s', Some tr) /\ segments s' (Some (backward tr)) = Ok l /\ planar l.
Proof.
  intros E TE p0 p1 p2 d DD K. destruct (C86_shrunk E TE p0 p1 p2 d DD K) as (s' & tr & c & r & H & IC & SG).
  exists s', tr, (arms p0 p1 p2 c). split; [exact H|]. split; [exact SG|].
  assert (0 < / 10^8) by (apply Rinv_0_lt_compat, pow_lt; lra). apply (arms_planar _ _ _ _ r); [|exact IC].
  assert (0 <= d * d) by apply Rle_0_sqr. unfold Rdiv in K. nra.
Qed.
Print Assumptions C101_triangle_shrunk.
Theorem C101_rectangle :
  forall (E : Env RA), true_orientation E -> addr (A:=RA) 0 <> addr (A:=RA) 1 -> (0 < reclimit (A:=RA))%nat ->
  forall (long : bool) (p0 p1 p2 p3 : R * R), rectangle p0 p1 p2 p3 ->
  in_square p0 -> in_square p1 -> in_square p2 -> in_square p3 -> sides long (/ 10^10) p0 p1 p2 ->
  exists s' l, calc_skel (quad_of (A:=RA)) [p0; p1; p2; p3] false true = Ok (s', None) /\ segments s' None = Ok l /\ planar l.
Proof.
  intros E TE AD RL long p0 p1 p2 p3 RE I0 I1 I2 I3 SD. assert (E10 : 0 < / 10^10) by (apply Rinv_0_lt_compat, pow_lt; lra).
  destruct (rect_run E TE AD RL p0 p1 p2 p3 RE I0 I1 I2 I3 long [p0; p1; p2; p3] false None SD eq_refl) as (s' & a & b & T & g & g' & H & RG & GG & BT).
  exists s', (roof p0 p1 p2 p3 a (if long then b else a) b (if long then a else b) (g, g')). split; [exact H|].
  split; [exact (roof_of (fun p => p) None s' T _ _ _ _ _ _ _ _ _ _ (or_intror (conj eq_refl eq_refl)) BT)|].
  apply (roof_planar long (/ 10^10) p0 p1 p2 p3 a b T); [lra|assumption|assumption|assumption|exact GG].
Qed.
Print Assumptions C101_rectangle.
Theorem C101_rectangle_shrunk :
  forall (E : Env RA), true_orientation E -> addr (A:=RA) 0 <> addr (A:=RA) 1 -> (0 < reclimit (A:=RA))%nat ->
  forall (long : bool) (p0 p1 p2 p3 : R * R) (d : R), rectangle p0 p1 p2 p3 ->
  (forall p q, In p [p0; p1; p2; p3] -> In q [p0; p1; p2; p3] -> fst p - fst q <= d /\ snd p - snd q <= d) ->
  sides long (d / 2 * / 10^10) p0 p1 p2 ->
  exists s' tr l, calc_skel (quad_of (A:=RA)) [p0; p1; p2; p3] true true = Ok (s', Some tr) /\ segments s' (Some (backward tr)) = Ok l /\ planar l.
Proof.
  intros E TE AD RL long p0 p1 p2 p3 d RE DD SD. assert (E10 : 0 < / 10^10) by (apply Rinv_0_lt_compat, pow_lt; lra).
  destruct (C95_shrunk E TE AD RL long p0 p1 p2 p3 d RE DD SD) as (s' & tr & a & b & r & rg & H & RG & GG & SG).
  exists s', tr, (roof p0 p1 p2 p3 a (if long then b else a) b (if long then a else b) rg). split; [exact H|]. split; [exact SG|].
  apply (roof_planar long (d / 2 * / 10^10) p0 p1 p2 p3 a b r); try assumption.
  assert (D0 : 0 <= d) by (destruct (DD p0 p0) as [D _]; [left; reflexivity|left; reflexivity|lra]). apply Rmult_le_pos; lra.
Qed.
Print Assumptions C101_rectangle_shrunk.
Theorem C101_square :
  forall (E : Env RA), true_orientation E -> addr (A:=RA) 0 <> addr (A:=RA) 1 -> (0 < reclimit (A:=RA))%nat ->
  forall p0 p1 p2 p3 : R * R, square p0 p1 p2 p3 ->
  in_square p0 -> in_square p1 -> in_square p2 -> in_square p3 -> span p0 p1 > 2 * / 10^10 ->
  exists s' l, calc_skel (quad_of (A:=RA)) [p0; p1; p2; p3] false true = Ok (s', None) /\ segments s' None = Ok l /\ planar l.
Proof.
  intros E TE AD RL p0 p1 p2 p3 SQ I0 I1 I2 I3 L. destruct (C97_square E TE AD RL p0 p1 p2 p3 SQ I0 I1 I2 I3 L) as (s' & c & r & H & MD & SG & _).
  exists s', (pyramid p0 p1 p2 p3 c). split; [exact H|]. split; [exact SG|]. exact (pyramid_planar _ _ _ _ _ _ SQ MD).
Qed.
Print Assumptions C101_square.
Theorem C101_square_shrunk :
  forall (E : Env RA), true_orientation E -> addr (A:=RA) 0 <> addr (A:=RA) 1 -> (0 < reclimit (A:=RA))%nat ->
  forall p0 p1 p2 p3 : R * R, square p0 p1 p2 p3 ->
  exists s' tr l, calc_skel (quad_of (A:=RA)) [p0; p1; p2; p3] true true = Ok (s', Some tr) /\ segments s' (Some (backward tr)) = Ok l /\ planar l.
Proof.
  intros E TE AD RL p0 p1 p2 p3 SQ. destruct (C97_shrunk E TE AD RL p0 p1 p2 p3 SQ) as (s' & tr & c & r & H & MD & SG).
  exists s', tr, (pyramid p0 p1 p2 p3 c). split; [exact H|]. split; [exact SG|]. exact (pyramid_planar _ _ _ _ _ _ SQ MD).
Qed.
Print Assumptions C101_square_shrunk.

(** *** Cases *)
Example C101_case : exists s' l,
  (let E := exact_orientation in calc_skel (quad_of (A:=RA)) [(0, 0); (2, 0); (2, 1); (0, 1)] false true) = Ok (s', None) /\ segments s' None = Ok l /\ planar l.
Proof.
  destruct C95_case as (RE & I0 & I1 & I2 & I3 & SD & _ & TE & AD & RL).
  exact (C101_rectangle exact_orientation TE AD RL true _ _ _ _ RE I0 I1 I2 I3 SD).
Qed.
(** two pieces that cross are not planar *)
Example C101_cross : ~ planar [(((0, 0), (2, 2)), (None, None)); (((0, 2), (2, 0)), (None, None))].
Proof.
  intros P. inversion P as [|s l F _ EQ]; subst. inversion F as [|s l M _ EQ]; subst. destruct (M (1, 1)) as [[H|H] _].
  - exists (1/2). cbn. lra.
  - exists (1/2). cbn. lra.
  - injection H as H _. lra.
  - injection H as H _. lra.
Qed.
