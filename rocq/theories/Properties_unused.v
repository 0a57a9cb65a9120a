(** C83: the functions that nothing calls *)
From Coq Require Import Reals Lra Psatz.
From Verif Require Import Base Arith ArithR ArithQ Calc CalcProofs VectorOps Line2d Line2dProofs Primitives Initialize Properties_init InitBisect TriExample ScenarioRun Unused.
Local Close Scope Q_scope.
Local Open Scope R_scope.
Local Existing Instance RA.

(** ** Specification *)
(** turning the vector [v] by the angle [a], counterclockwise *)
Definition turned (a : R) (v : R * R) : R * R := (cos a * fst v - sin a * snd v, sin a * fst v + cos a * snd v).
(** what math.atan2(y, x) is: the angle of (x, y) in (-pi, pi] *)
Definition is_atan2 (f : R -> R -> R) : Prop :=
  forall y x, x <> 0 \/ y <> 0 -> - PI < f y x <= PI /\ x = len x y * cos (f y x) /\ y = len x y * sin (f y x).
(** the direction of a vector *)
Definition direction (v : R * R) : R * R := (fst v / len (fst v) (snd v), snd v / len (fst v) (snd v)).
Definition minus (p q : R * R) : R * R := (fst p - fst q, snd p - snd q).
Definition dotted (p q : R * R) : R := fst p * fst q + snd p * snd q.
(** the predicate of geompreds, exactly *)
Definition exact_orientation (E : Env RA) : Prop := forall p q r : R * R, orient2d (A:=RA) p q r = orient p q r.

(** ** Facts *)
Lemma apart (p q : R * R) : p <> q -> fst (minus p q) <> 0 \/ snd (minus p q) <> 0.
Proof.
  destruct p as [a b], q as [c d]. unfold minus. cbn. intros H. destruct (Req_dec a c) as [->|]; [|left; lra].
  right. intros K. apply H. f_equal. lra.
Qed.
Lemma unit_2_same (v : R * R) : fst v <> 0 \/ snd v <> 0 -> unit_2 (A:=RA) v = Ok (direction v).
Proof. intros H. rewrite unit_2_R by exact H. reflexivity. Qed.
Lemma unit_2_zero : unit_2 (A:=RA) (0, 0) = Err ZeroDivisionError.
Proof. unfold unit_2. rewrite norm_2_R. cbn [rbind fst snd]. rewrite len_0. unfold div2s. cbn [fst snd]. rewrite pdiv_R0. reflexivity. Qed.
Lemma direction_unit (v : R * R) : fst v <> 0 \/ snd v <> 0 -> dotted (direction v) (direction v) = 1.
Proof.
  intros H. pose proof (len_pos _ _ H) as L. pose proof (len_sq (fst v) (snd v)) as Q. unfold dotted, direction. cbn [fst snd].
  rewrite <- Rdiv_plus_distr || idtac. apply (Rmult_eq_reg_r (len (fst v) (snd v) * len (fst v) (snd v))); [|nra]. rewrite Rmult_1_l. rewrite Q at 1.
  replace (_ * (fst v * fst v + snd v * snd v)) with ((fst v * fst v + snd v * snd v) * ((fst v * fst v + snd v * snd v) / (len (fst v) (snd v) * len (fst v) (snd v)))) by (field; lra).
  rewrite <- Q. field. lra.
Qed.

Definition normal (p q : R * R) : R * R := (- (snd q - snd p), fst q - fst p).

(** ** Theorems *)
(** make_unit_vector: the unit normal to the left of the side, which is the one of the line that make_support_line makes for it; coinciding ends raise *)
Theorem C83_unit_vector :
  forall (E : Env RA) (d : dtriang (A:=RA)) t s a b, constrained d t s = true ->
  get3 (d_v (dt_t d t)) (ccw s) = Some a -> get3 (d_v (dt_t d t)) (cw s) = Some b ->
  let p := dv_pos (dt_v d a) in let q := dv_pos (dt_v d b) in
  (p <> q -> exists u l, make_unit_vector d t s = Ok (Some u) /\ from_points p q = Ok l /\ u = lw l /\
     dotted u u = 1 /\ dotted u (minus q p) = 0 /\ 0 < orient p q (fst p + fst u, snd p + snd u)) /\
  (p = q -> make_unit_vector d t s = Err ZeroDivisionError).
Proof.
  intros E d t s a b C HA HB p q. unfold make_unit_vector. rewrite C. unfold dsegment. cbn [fst snd]. rewrite HA, HB. cbn [oget rbind].
  fold p q. split.
  - intros NE. assert (NE' : q <> p) by congruence. pose proof (apart q p NE') as D.
    rewrite (from_points_R p q NE). change (rotate90ccw (A:=RA) (sub2 (A:=RA) q p)) with (normal p q).
    destruct p as [px py], q as [qx qy]. unfold minus in D. cbn [fst snd] in *.
    pose proof (len_pos _ _ D) as LP. pose proof (len_sq (qx - px) (qy - py)) as Q.
    assert (D' : fst (normal (px, py) (qx, qy)) <> 0 \/ snd (normal (px, py) (qx, qy)) <> 0) by (cbn; destruct D; [right|left]; lra).
    rewrite (unit_2_same _ D'). pose proof (direction_unit _ D') as U. cbn [rbind]. eexists. eexists. split; [reflexivity|]. split; [reflexivity|].
    assert (L : direction (normal (px, py) (qx, qy)) = (- (qy - py) / len (qx - px) (qy - py), (qx - px) / len (qx - px) (qy - py))).
    { unfold direction, normal. cbn [fst snd]. replace (len (- (qy - py)) (qx - px)) with (len (qx - px) (qy - py)) by (unfold len; f_equal; ring). reflexivity. }
    rewrite L in *. set (n := len (qx - px) (qy - py)) in *. unfold dotted, minus, orient in *. cbn [lw fst snd] in *.
    split; [f_equal; field; lra|]. split; [exact U|]. split; [field; lra|].
    replace (_ - _) with (((qx - px) * (qx - px) + (qy - py) * (qy - py)) / n) by (field; lra). rewrite <- Q. replace (n * n / n) with n by (field; lra). exact LP.
  - intros EQ. rewrite <- EQ. change (rotate90ccw (A:=RA) (sub2 (A:=RA) p p)) with (normal p p). replace (normal p p) with ((0, 0) : R * R).
    + rewrite unit_2_zero. reflexivity.
    + destruct p as [px py]. unfold normal. cbn. f_equal; ring.
Qed.
Print Assumptions C83_unit_vector.

(** make_unit_vectors: one entry for each triangle, in their order; on each side a vector just where the side is constrained *)
Theorem C83_unit_vectors :
  forall (E : Env RA) (d : dtriang (A:=RA)),
  (forall t s, (t < dt_nt d)%nat -> constrained d t s = true -> exists a b, get3 (d_v (dt_t d t)) (ccw s) = Some a /\
     get3 (d_v (dt_t d t)) (cw s) = Some b /\ dv_pos (dt_v d a) <> dv_pos (dt_v d b)) ->
  exists l, make_unit_vectors d = Ok l /\ map fst l = seq 0 (dt_nt d) /\
  forall t us s, In (t, us) l -> make_unit_vector d t s = Ok (get3 us s) /\ (get3 us s = None <-> constrained d t s = false).
Proof.
  intros E d H.
  assert (V : forall t s, (t < dt_nt d)%nat -> exists u, make_unit_vector d t s = Ok u /\ (u = None <-> constrained d t s = false)).
  { intros t s T. destruct (constrained d t s) eqn:C.
    - destruct (H t s T C) as (a & b & HA & HB & NE). destruct (C83_unit_vector E d t s a b C HA HB) as [K _].
      destruct (K NE) as (u & _ & K1 & _). exists (Some u). split; [exact K1|]. split; discriminate.
    - exists None. unfold make_unit_vector. rewrite C. tauto. }
  unfold make_unit_vectors.
  assert (G : forall k n, (n + k <= dt_nt d)%nat -> exists l,
    rmapl (fun t => rbind (make_unit_vector d t S0) (fun a => rbind (make_unit_vector d t S1) (fun b => rbind (make_unit_vector d t S2) (fun c => Ok (t, mk3 a b c))))) (seq n k) = Ok l /\
    map fst l = seq n k /\ forall t us s, In (t, us) l -> make_unit_vector d t s = Ok (get3 us s) /\ (get3 us s = None <-> constrained d t s = false)).
  { induction k as [|k IH]; intros n N.
    - exists []. split; [reflexivity|]. split; [reflexivity|]. intros t us s [].
    - destruct (IH (S n)) as (l & L1 & L2 & L3); [lia|].
      destruct (V n S0 ltac:(lia)) as (a & A1 & A2). destruct (V n S1 ltac:(lia)) as (b & B1 & B2). destruct (V n S2 ltac:(lia)) as (c & C1 & C2).
      exists ((n, mk3 a b c) :: l). cbn [seq rmapl]. rewrite A1, B1, C1. cbn [rbind]. rewrite L1. cbn [rbind]. split; [reflexivity|].
      split; [exact (f_equal (cons n) L2)|]. intros t us s [K|K]; [|apply L3, K]. injection K as <- <-. destruct s; cbn; auto. }
  destruct (G (dt_nt d) 0%nat) as (l & K); [lia|]. exists l. exact K.
Qed.
Print Assumptions C83_unit_vectors.

(** signed_turn: the angle in (-pi, pi] by which one turns at [mid]: positive to the left, negative to the right, 0 straight on *)
Theorem C83_signed_turn :
  forall (atan2 : R -> R -> R), is_atan2 atan2 -> forall head mid tail : R * R, head <> mid -> mid <> tail ->
  let a := signed_turn atan2 head mid tail in
  - PI < a <= PI /\ turned a (direction (minus mid head)) = direction (minus tail mid) /\
  (orient head mid tail > 0 -> 0 < a < PI) /\ (orient head mid tail < 0 -> - PI < a < 0) /\
  (a = 0 <-> orient head mid tail = 0 /\ 0 < dotted (minus mid head) (minus tail mid)).
Proof.
  intros f F head mid tail N1 N2 a.
  assert (D1 : fst (minus mid head) <> 0 \/ snd (minus mid head) <> 0) by (apply apart; congruence).
  assert (D2 : fst (minus tail mid) <> 0 \/ snd (minus tail mid) <> 0) by (apply apart; congruence).
  set (u := minus mid head) in *. set (v := minus tail mid) in *.
  pose proof (len_pos _ _ D1) as LU. pose proof (len_pos _ _ D2) as LV. pose proof (len_sq (fst u) (snd u)) as QU. pose proof (len_sq (fst v) (snd v)) as QV.
  set (nu := len (fst u) (snd u)) in *. set (nv := len (fst v) (snd v)) in *.
  set (c := fst u * snd v - snd u * fst v). set (e := dotted u v).
  assert (SQ : e * e + c * c = (nu * nv) * (nu * nv)) by (unfold e, c, dotted; replace ((nu * nv) * (nu * nv)) with ((nu * nu) * (nv * nv)) by ring; rewrite QU, QV; ring).
  assert (P : 0 < nu * nv) by (apply Rmult_lt_0_compat; assumption).
  assert (LE : len e c = nu * nv) by (unfold len; rewrite SQ; apply sqrt_square; lra).
  assert (NZ : e <> 0 \/ c <> 0) by (destruct (Req_dec e 0) as [K|K]; [right; intros K'; rewrite K, K' in SQ; nra|auto]).
  assert (AE : a = f c e).
  { unfold a, signed_turn, c, e, dotted, cross2, u, v, minus, sub2. rewrite dot2_R. ra_simp. reflexivity. }
  destruct (F c e NZ) as (R1 & R2 & R3). rewrite <- AE, LE in R2, R3. rewrite <- AE in R1.
  assert (OR : orient head mid tail = c).
  { unfold orient, c, u, v, minus. cbn. ring. }
  rewrite OR.
  assert (SP : 0 < c -> 0 < a < PI).
  { intros K. assert (0 < sin a) by (apply (Rmult_lt_reg_l (nu * nv)); lra). split.
    - destruct (Rle_lt_dec a 0) as [Z|Z]; [|exact Z]. exfalso. destruct (Req_dec a 0) as [Z0|Z0]; [rewrite Z0, sin_0 in *; lra|].
      assert (sin a < 0) by (apply sin_lt_0_var; lra). lra.
    - destruct (Req_dec a PI) as [Z|Z]; [rewrite Z, sin_PI in *; lra|lra]. }
  assert (SN : c < 0 -> - PI < a < 0).
  { intros K. assert (sin a < 0) by (apply (Rmult_lt_reg_l (nu * nv)); lra). split; [lra|].
    destruct (Rlt_le_dec a 0) as [Z|Z]; [exact Z|]. exfalso. pose proof (sin_ge_0 a Z ltac:(lra)). lra. }
  split; [exact R1|]. split; [|split; [intros K; apply SP; lra|split; [exact SN|]]].
  - unfold turned, direction. cbn [fst snd]. fold nu nv.
    assert (CO : cos a = e / (nu * nv)) by (rewrite R2; field; lra). assert (SI : sin a = c / (nu * nv)) by (rewrite R3; field; lra).
    rewrite CO, SI. unfold e, c, dotted. apply f_equal2.
    + replace (_ - _) with (fst v * (fst u * fst u + snd u * snd u) / (nu * nu * nv)) by (field; lra). rewrite <- QU. field. lra.
    + replace (_ + _) with (snd v * (fst u * fst u + snd u * snd u) / (nu * nu * nv)) by (field; lra). rewrite <- QU. field. lra.
  - split.
    + intros K. rewrite K, cos_0 in R2. rewrite K, sin_0 in R3. fold e. split; lra.
    + intros [K1 K2]. fold e in K2. assert (S0 : sin a = 0) by (apply (Rmult_eq_reg_l (nu * nv)); lra). assert (C0 : 0 < cos a) by (apply (Rmult_lt_reg_l (nu * nv)); lra).
      destruct (Rtotal_order a 0) as [Z|[Z|Z]]; [|exact Z|].
      * assert (sin a < 0) by (apply sin_lt_0_var; lra). lra.
      * destruct (Req_dec a PI) as [Z'|Z']; [rewrite Z', cos_PI in C0; lra|]. pose proof (sin_gt_0 a Z ltac:(lra)). lra.
Qed.
Print Assumptions C83_signed_turn.

(** get_bisector of edge.py: a vector in the direction that halves the angle at [mid]: it makes the same angle with both legs, and it is (0, 0) just if the
    legs go in opposite directions; a leg without length raises *)
Theorem C83_corner_bisector :
  forall head mid tail : R * R,
  (head <> mid -> mid <> tail -> exists b, corner_bisector head mid tail = Ok b /\
     dotted b (direction (minus head mid)) = dotted b (direction (minus tail mid)) /\
     0 <= dotted b (direction (minus tail mid)) /\
     (b = (0, 0) <-> direction (minus tail mid) = (- fst (direction (minus head mid)), - snd (direction (minus head mid))))) /\
  (head = mid \/ mid = tail -> corner_bisector head mid tail = Err ZeroDivisionError).
Proof.
  intros head mid tail. unfold corner_bisector.
  change (sub2 (A:=RA) tail mid) with (minus tail mid). change (sub2 (A:=RA) head mid) with (minus head mid). split.
  - intros N1 N2.
    assert (D1 : fst (minus head mid) <> 0 \/ snd (minus head mid) <> 0) by (apply apart; congruence).
    assert (D2 : fst (minus tail mid) <> 0 \/ snd (minus tail mid) <> 0) by (apply apart; congruence).
    rewrite (unit_2_same _ D1), (unit_2_same _ D2). cbn [rbind]. pose proof (direction_unit _ D1) as U1. pose proof (direction_unit _ D2) as U2.
    destruct (direction (minus head mid)) as [a b], (direction (minus tail mid)) as [c d]. eexists. split; [reflexivity|].
    change (add2 (A:=RA) (c, d) (a, b)) with ((c + a, d + b) : R * R). unfold dotted in *. cbn [fst snd] in *. clear D1 D2.
    pose proof (Rle_0_sqr (c + a)) as Q1. pose proof (Rle_0_sqr (d + b)) as Q2. unfold Rsqr in Q1, Q2. split; [lra|]. split; [lra|]. split.
    + intros K. injection K as K1 K2. f_equal; lra.
    + intros K. injection K as -> ->. f_equal; ring.
  - assert (Z : forall p : R * R, minus p p = (0, 0)) by (intros [x y]; unfold minus; cbn; f_equal; ring).
    intros H. destruct (unit_2 (A:=RA) (minus tail mid)) as [ua|e] eqn:U; cbn [rbind].
    + destruct H as [->|<-]; [rewrite Z, unit_2_zero; reflexivity|]. rewrite Z, unit_2_zero in U. discriminate.
    + destruct (Req_dec (fst (minus tail mid)) 0) as [K1|K1]; [destruct (Req_dec (snd (minus tail mid)) 0) as [K2|K2]|].
      * destruct (minus tail mid) as [x y]. cbn in K1, K2. subst. rewrite unit_2_zero in U. congruence.
      * rewrite unit_2_same in U by auto. discriminate.
      * rewrite unit_2_same in U by auto. discriminate.
Qed.
Print Assumptions C83_corner_bisector.

Lemma cramer (a1 b1 a2 b2 x y : R) : a1 * x + b1 * y = 1 -> a2 * x + b2 * y = 1 -> a1 * b2 - a2 * b1 <> 0 ->
  x = (b2 - b1) / (a1 * b2 - a2 * b1) /\ y = (a1 - a2) / (a1 * b2 - a2 * b1).
Proof.
  intros H K D. split.
  - replace (b2 - b1) with (b2 * (a1 * x + b1 * y) - b1 * (a2 * x + b2 * y)) by (rewrite H, K; ring). field. exact D.
  - replace (a1 - a2) with (a1 * (a2 * x + b2 * y) - a2 * (a1 * x + b1 * y)) by (rewrite H, K; ring). field. exact D.
Qed.

(** compute_crossing_bisector: [now] times the velocity of the vertex between the two wavefronts (C17); of parallel ones it raises.  The branches for translated
    lines that do not cross (split.py 49-50, 57-60) are never taken. *)
Theorem C83_crossing_bisector :
  forall (l m : line2) (now : R), unit_line l -> unit_line m ->
  (Rabs (det l m) > / 10^10 -> exists v, get_bisector l m = Ok v /\ compute_crossing_bisector l m now = Ok (now * fst v, now * snd v)) /\
  (Rabs (det l m) <= / 10^10 -> compute_crossing_bisector l m now = Err NotImplementedError).
Proof.
  intros l m now UL UM. unfold compute_crossing_bisector. rewrite intersection_R. split.
  - intros D. destruct (Rltb (/ 10^10) (Rabs (det l m))) eqn:B; [|rb2p; lra]. cbn [rbind].
    destruct (get_bisector_R l m UL UM D) as (v & V & V1 & V2). exists v. split; [exact V|].
    rewrite !translated_unit by assumption. cbn [rbind]. rewrite intersection_R.
    change (det (mkLine (lw l) _) (mkLine (lw m) _)) with (det l m). rewrite B. cbn [rbind lw lb].
    assert (D0 : det l m <> 0) by (intros K; rewrite K, Rabs_R0 in D; assert (0 < / 10 ^ 10) by (apply Rinv_0_lt_compat, pow_lt; lra); lra).
    unfold unit_line in UL, UM. unfold det in *. destruct l as [[a1 b1] c1], m as [[a2 b2] c2], v as [x y]. cbn [lw lb fst snd] in *. f_equal.
    unfold sub2, mul2s. ra_simp. cbn [fst snd].
    destruct (cramer a1 b1 a2 b2 x y V1 V2 D0) as [X Y].
    replace (a1 * (a1 * now) + b1 * (b1 * now)) with (now * (a1 * a1 + b1 * b1)) by ring. replace (a2 * (a2 * now) + b2 * (b2 * now)) with (now * (a2 * a2 + b2 * b2)) by ring.
    rewrite UL, UM, X, Y. apply f_equal2; field; exact D0.
  - intros D. destruct (Rltb (/ 10^10) (Rabs (det l m))) eqn:B; [rb2p; lra|]. destruct (_ && _); reflexivity.
Qed.
Print Assumptions C83_crossing_bisector.

(** find_overlapping_triangle: the first triangle of the list whose corner cw(side) is not to the right of the line from P to Q; AssertionError without one *)
Theorem C83_overlap :
  forall (A : Arith) (E : Env A) (d : dtriang (A:=A)) t mid r P Q,
  corner_pos d t (ccw mid) = Ok P -> corner_pos d t mid = Ok Q ->
  (forall u s, In (u, s) ((t, mid) :: r) -> exists p, corner_pos d u (cw s) = Ok p) ->
  let lefts k := exists u s p, nth_error ((t, mid) :: r) k = Some (u, s) /\ corner_pos d u (cw s) = Ok p /\ nleb n0 (orient2d P Q p) = true in
  (forall i, find_overlapping_triangle d ((t, mid) :: r) = Ok i <-> lefts i /\ forall k, (k < i)%nat -> ~ lefts k) /\
  (find_overlapping_triangle d ((t, mid) :: r) = Err AssertionError <-> forall k, ~ lefts k).
Proof.
  intros A E d t mid r P Q HP HQ ALL lefts. unfold find_overlapping_triangle. rewrite HP, HQ. cbn [rbind].
  set (l := (t, mid) :: r) in *.
  assert (G : forall l n, (forall u s, In (u, s) l -> exists p, corner_pos d u (cw s) = Ok p) ->
    let left k := exists u s p, nth_error l k = Some (u, s) /\ corner_pos d u (cw s) = Ok p /\ nleb n0 (orient2d P Q p) = true in
    (exists k, overlap_from d P Q n l = Ok (Some (n + k)%nat) /\ left k /\ forall j, (j < k)%nat -> ~ left j) \/
    (overlap_from d P Q n l = Ok None /\ forall k, ~ left k)).
  { clear. induction l as [|[u s] l IH]; intros n ALL left.
    - right. split; [reflexivity|]. intros k (u & s & p & K & _). destruct k; discriminate.
    - destruct (ALL u s ltac:(simpl; auto)) as [p HP]. cbn [overlap_from]. rewrite HP. cbn [rbind].
      destruct (nleb n0 (orient2d P Q p)) eqn:O.
      + left. exists 0%nat. rewrite Nat.add_0_r. split; [reflexivity|]. split; [exists u, s, p; auto|]. intros j J. lia.
      + assert (Z : ~ left 0%nat) by (intros (u' & s' & p' & K1 & K2 & K3); injection K1 as <- <-; congruence).
        destruct (IH (S n)) as [(k & K1 & K2 & K3)|[K1 K2]]; [intros u' s' H; apply ALL; simpl; auto| |].
        * left. exists (S k). split; [rewrite K1; do 2 f_equal; lia|]. split; [exact K2|]. intros [|j] J; [exact Z|apply K3; lia].
        * right. split; [exact K1|]. intros [|k]; [exact Z|apply K2]. }
  destruct (G l 0%nat ALL) as [(k & K1 & K2 & K3)|[K1 K2]]; rewrite K1; cbn [rbind].
  - simpl. split.
    + intros i. split.
      * intros H. injection H as <-. split; [exact K2|exact K3].
      * intros [L M]. f_equal. destruct (Nat.lt_trichotomy i k) as [H|[H|H]]; [exfalso; eapply K3; eauto|auto|exfalso; eapply M; eauto].
    + split; [discriminate|]. intros H. exfalso. apply (H k), K2.
  - split.
    + intros i. split; [discriminate|]. intros [L _]. exfalso. apply (K2 i), L.
    + split; [intros _; exact K2|reflexivity].
Qed.
Print Assumptions C83_overlap.

(** is_quad of a ring p q r s p: the turns at q, r and s are all to the left (or straight), or all to the right ... *)
Theorem C83_is_quad :
  forall (E : Env RA), exact_orientation E -> forall p q r s : R * R,
  is_quad [p; q; r; s; p] = Ok true <->
  (0 <= orient p q r /\ 0 <= orient q r s /\ 0 <= orient r s p) \/ (orient p q r < 0 /\ orient q r s < 0 /\ orient r s p < 0).
Proof.
  intros E TE p q r s. unfold is_quad. cbn [length Nat.eqb rassert rbind turns map forallb]. rewrite !TE. ra_simp. qlit.
  destruct (Rleb 0 (orient p q r)) eqn:A1, (Rleb 0 (orient q r s)) eqn:A2, (Rleb 0 (orient r s p)) eqn:A3; rb2p; cbn;
    split; intros H; try discriminate; try reflexivity; try (left; repeat split; lra); try (right; repeat split; lra); destruct H as [H|H]; exfalso; lra.
Qed.
Print Assumptions C83_is_quad.
(** ... but "only convex quadrilaterals" is false: the corner at p is not looked at *)
Theorem C83_is_quad_convex_refuted :
  forall (E : Env RA), exact_orientation E -> exists p q r s : R * R, is_quad [p; q; r; s; p] = Ok true /\
  0 < orient p q r /\ 0 < orient q r s /\ 0 < orient r s p /\ orient s p q < 0.
Proof.
  intros E TE. exists (1, 1), (0, 4), (0, 0), (4, 0). rewrite (C83_is_quad E TE). unfold orient. cbn. lra.
Qed.
Print Assumptions C83_is_quad_convex_refuted.

(** ** Cases *)
(** there is such an atan2 *)
Definition some_atan2 (y x : R) : R := if Rle_dec 0 y then acos (x / len x y) else - acos (x / len x y).
Lemma some_atan2_is : is_atan2 some_atan2.
Proof.
  intros y x H. pose proof (len_pos _ _ H) as L. pose proof (len_sq x y) as Q. set (n := len x y) in *. unfold some_atan2. fold n.
  assert (B : -1 <= x / n <= 1).
  { assert (K : - n <= x <= n) by nra. split; apply (Rmult_le_reg_r n); try exact L; unfold Rdiv; rewrite Rmult_assoc, Rinv_l by lra; lra. }
  pose proof (cos_acos _ B) as C. pose proof (sin_acos _ B) as SI. pose proof (acos_bound (x / n)) as AB. pose proof PI_RGT_0 as PI0.
  assert (SQ : 1 - Rsqr (x / n) = Rsqr (y / n)) by (unfold Rsqr; apply (Rmult_eq_reg_r (n * n)); [|nra]; field_simplify; [|lra|lra]; nra).
  rewrite SQ in SI. destruct (Rle_dec 0 y) as [Y|Y].
  - rewrite sqrt_Rsqr in SI by (apply Rmult_le_pos; [exact Y|left; apply Rinv_0_lt_compat, L]). split; [lra|]. rewrite C, SI. split; field; lra.
  - rewrite cos_neg, sin_neg. rewrite Rsqr_neg, sqrt_Rsqr in SI by (apply Rlt_le; unfold Rdiv; rewrite Ropp_mult_distr_l; apply Rmult_lt_0_compat; [lra|apply Rinv_0_lt_compat, L]).
    rewrite C, SI. assert (NP : acos (x / n) <> PI).
    { intros K. rewrite K, sin_PI in SI. apply Y. assert (y / n = 0) by lra. apply (Rmult_eq_compat_r n) in H0. unfold Rdiv in H0. rewrite Rmult_assoc, Rinv_l in H0; lra. }
    split; [lra|]. split; field; lra.
Qed.
(** turns by 90 degrees to the left, straight on, and straight back *)
Example C83_signed_turn_case :
  signed_turn some_atan2 (0, 0) (1, 0) (1, 2) = PI / 2 /\ signed_turn some_atan2 (0, 0) (1, 0) (3, 0) = 0 /\ signed_turn some_atan2 (0, 0) (1, 0) (0, 0) = PI.
Proof.
  pose proof (fun h m t H K => C83_signed_turn some_atan2 some_atan2_is h m t H K) as T. cbv zeta in T.
  assert (N1 : (0, 0) <> (1, 0) :> R * R) by (intros K; injection K; lra).
  split; [|split].
  - destruct (T (0, 0) (1, 0) (1, 2) N1) as (B & _ & L & _); [intros K; injection K; lra|].
    unfold signed_turn, some_atan2, cross2, sub2. rewrite dot2_R. ra_simp. cbn [fst snd]. destruct (Rle_dec _ _) as [K|K]; [|exfalso; apply K; lra].
    replace ((1 - 0) * (1 - 1) + (0 - 0) * (2 - 0)) with 0 by ring. unfold Rdiv at 1. rewrite Rmult_0_l. apply acos_0.
  - apply (T (0, 0) (1, 0) (3, 0) N1); [intros K; injection K; lra|]. unfold orient, dotted, minus. cbn. lra.
  - unfold signed_turn, some_atan2, cross2, sub2. rewrite dot2_R. ra_simp. cbn [fst snd]. destruct (Rle_dec _ _) as [K|K]; [|exfalso; apply K; lra].
    replace ((1 - 0) * (0 - 1) + (0 - 0) * (0 - 0)) with (-1) by ring. replace ((1 - 0) * (0 - 0) - (0 - 0) * (0 - 1)) with 0 by ring.
    replace (len (-1) 0) with 1 by (unfold len; replace (-1 * -1 + 0 * 0) with 1 by ring; symmetry; apply sqrt_1). replace (-1 / 1) with (-1) by field.
    replace (-1) with (- (1)) by ring. rewrite acos_opp, acos_1. lra.
Qed.
Example C83_corner_bisector_case : ((0, 3) <> (0, 0) :> R * R) /\ ((0, 0) <> (4, 0) :> R * R) /\
  exists b, corner_bisector (0, 3) (0, 0) (4, 0) = Ok b /\ b <> (0, 0).
Proof.
  assert (N1 : (0, 3) <> (0, 0) :> R * R) by (intros K; injection K; lra). assert (N2 : (0, 0) <> (4, 0) :> R * R) by (intros K; injection K; lra).
  split; [exact N1|]. split; [exact N2|]. destruct (C83_corner_bisector (0, 3) (0, 0) (4, 0)) as [K _]. destruct (K N1 N2) as (b & B & _ & _ & Z).
  exists b. split; [exact B|]. intros E. apply Z in E. unfold direction, minus in E. cbn in E. injection E as E _.
  assert (P : 0 < len (4 - 0) (0 - 0)) by (apply len_pos; left; lra). assert (P' : 0 < (4 - 0) / len (4 - 0) (0 - 0)) by (apply Rmult_lt_0_compat; [lra|apply Rinv_0_lt_compat, P]).
  replace ((0 - 0) / len (0 - 0) (3 - 0)) with 0 in E by (unfold Rdiv; ring). lra.
Qed.
(** two wavefronts at a right angle *)
Example C83_crossing_bisector_case : let l := mkLine (A:=RA) (1, 0) 0 in let m := mkLine (A:=RA) (0, 1) 0 in
  unit_line l /\ unit_line m /\ Rabs (det l m) > / 10^10 /\ compute_crossing_bisector l m 3 = Ok (3, 3).
Proof.
  cbv zeta. assert (U1 : unit_line (mkLine (A:=RA) (1, 0) 0)) by (unfold unit_line; cbn; ring).
  assert (U2 : unit_line (mkLine (A:=RA) (0, 1) 0)) by (unfold unit_line; cbn; ring).
  assert (D : Rabs (det (mkLine (A:=RA) (1, 0) 0) (mkLine (A:=RA) (0, 1) 0)) > / 10^10).
  { unfold det. cbn [lw fst snd]. rewrite Rabs_right by lra. assert (/ 10 ^ 10 < / 1) by (apply Rinv_lt_contravar; simpl; lra). lra. }
  split; [exact U1|]. split; [exact U2|]. split; [exact D|].
  destruct (C83_crossing_bisector _ _ 3 U1 U2) as [K _]. destruct (K D) as ([x y] & V & ->). destruct (get_bisector_R _ _ U1 U2 D) as ([x' y'] & V' & V1 & V2).
  rewrite V in V'. injection V' as <- <-. cbn in V1, V2. do 2 f_equal; cbn; lra.
Qed.
Definition plane : Env RA := Build_Env RA Z.of_nat (fun p q r : R * R => orient p q r) 1000.
Example C83_is_quad_case : exact_orientation plane /\ @is_quad RA plane [(0, 0); (4, 0); (5, 3); (0, 3); (0, 0)] = Ok true /\
  @is_quad RA plane [(0, 0); (0, 3); (5, 3); (4, 0); (0, 0)] = Ok true /\ @is_quad RA plane [(0, 0); (4, 0); (1, 1); (0, 4); (0, 0)] = Ok false.
Proof.
  assert (TE : exact_orientation plane) by (intros p q r; reflexivity). split; [exact TE|].
  split; [apply (C83_is_quad plane TE); unfold orient; cbn; lra|]. split; [apply (C83_is_quad plane TE); unfold orient; cbn; lra|].
  destruct (@is_quad RA plane [(0, 0); (4, 0); (1, 1); (0, 4); (0, 0)]) as [[|]|] eqn:K; [|reflexivity|cbv in K; discriminate].
  apply (C83_is_quad plane TE) in K. unfold orient in K. cbn in K. lra.
Qed.
(** the right triangle (0,0) (4,0) (0,3): its three sides are constrained, for the inner triangle and for the outer ones *)
Example C83_unit_vectors_case : match tri_of (A:=RA) [(0, 0); (4, 0); (0, 3)] with
  | Ok d => dt_nt d = 7%nat /\ (constrained d 0 S0 = true) /\
      forall t s, (t < dt_nt d)%nat -> constrained d t s = true -> exists a b, get3 (d_v (dt_t d t)) (ccw s) = Some a /\
        get3 (d_v (dt_t d t)) (cw s) = Some b /\ dv_pos (dt_v d a) <> dv_pos (dt_v d b)
  | Err _ => False
  end.
Proof.
  cbn. split; [reflexivity|]. split; [reflexivity|]. intros t s T C.
  do 7 (destruct t as [|t]; [destruct s; cbn in C; try discriminate; cbn; do 2 eexists; (split; [reflexivity|split; [reflexivity|cbn; intros K; injection K; lra]])|]). lia.
Qed.
(** the same triangle, over the rationals: the triangles round its first corner, the third of which is across the line; one of them alone is not *)
Example C83_overlap_case :
  match @find_overlapping_triangle QA QE rtri_dt [(0%nat, S0); (3%nat, S1); (4%nat, S0); (1%nat, S2)], @find_overlapping_triangle QA QE rtri_dt [(1%nat, S2)] with
  | Ok 2%nat, Err AssertionError => true | _, _ => false end = true /\
  forallb (fun e => match corner_pos rtri_dt (fst e) (cw (snd e)) with Ok _ => true | Err _ => false end) [(0%nat, S0); (3%nat, S1); (4%nat, S0); (1%nat, S2)] = true.
Proof. split; vm_compute; reflexivity. Qed.
