(** Geometry of line2d.py over exact reals. *)
From Coq Require Import Reals Lra Psatz.
From Verif Require Import Base Arith ArithR Calc CalcProofs VectorOps Line2d.
Local Open Scope R_scope.
Local Existing Instance RA.

(** ** Specification vocabulary (independent of the model) *)
Definition len (x y : R) : R := sqrt (x * x + y * y).
Definition unit_line (l : line2) : Prop :=
  fst (lw l) * fst (lw l) + snd (lw l) * snd (lw l) = 1.
(** a*x + b*y + c *)
Definition eval (l : line2) (p : R * R) : R :=
  fst (lw l) * fst p + snd (lw l) * snd p + lb l.
Definition on (l : line2) (p : R * R) : Prop := eval l p = 0.
Definition det (l m : line2) : R := fst (lw l) * snd (lw m) - fst (lw m) * snd (lw l).
(** twice the signed area of the triangle p q r *)
Definition orient (p q r : R * R) : R :=
  (fst q - fst p) * (snd r - snd p) - (snd q - snd p) * (fst r - fst p).

Lemma len_sq x y : len x y * len x y = x * x + y * y.
Proof. unfold len. apply sqrt_sqrt. nra. Qed.
Lemma len_nonneg x y : 0 <= len x y.
Proof. apply sqrt_pos. Qed.
Lemma len_pos x y : x <> 0 \/ y <> 0 -> 0 < len x y.
Proof.
  intros H. pose proof (len_nonneg x y). pose proof (len_sq x y).
  destruct (Req_dec (len x y) 0); [|lra]. destruct H; nra.
Qed.
Lemma len_0 : len 0 0 = 0.
Proof. unfold len. replace (0 * 0 + 0 * 0) with 0 by lra. apply sqrt_0. Qed.
Lemma len_unit x y : x * x + y * y = 1 -> len x y = 1.
Proof. intros H. unfold len. rewrite H. apply sqrt_1. Qed.

Lemma ldot_R (a b : R * R) : ldot a b = fst a * fst b + snd a * snd b.
Proof. unfold ldot. ra_simp. simpl. lra. Qed.

Lemma dot2_R (a b : R * R) : dot2 a b = fst a * fst b + snd a * snd b.
Proof. unfold dot2. ra_simp. qlit. lra. Qed.

Lemma lnorm_R (a : R * R) : lnorm a = Ok (len (fst a) (snd a)).
Proof.
  unfold lnorm, lnorm2, psqrt. rewrite ldot_R. ra_simp. qlit.
  destruct (Rltb _ 0) eqn:E; rb2p; [nra|reflexivity].
Qed.

Lemma norm_2_R (a : R * R) : norm_2 a = Ok (len (fst a) (snd a)).
Proof.
  unfold norm_2, norm2_2, psqrt. rewrite dot2_R. ra_simp. qlit.
  destruct (Rltb _ 0) eqn:E; rb2p; [nra|reflexivity].
Qed.

Lemma pdiv_R (x y : R) : y <> 0 -> pdiv x y = Ok (x / y).
Proof. intros H. unfold pdiv. ra_simp. qlit. destruct (Reqb y 0) eqn:E; rb2p; [lra|reflexivity]. Qed.
Lemma pdiv_R0 (x : R) : pdiv x 0 = Err ZeroDivisionError.
Proof. unfold pdiv. ra_simp. qlit. destruct (Reqb 0 0) eqn:E; rb2p; [reflexivity|lra]. Qed.
Lemma pdiv_Ok (x y z : R) : pdiv x y = Ok z -> y <> 0 /\ z = x / y.
Proof.
  destruct (Req_dec y 0) as [->|H]; [rewrite pdiv_R0; discriminate|].
  rewrite pdiv_R by exact H. intros K. injection K. auto.
Qed.

Lemma div2s_R (a : R * R) (s : R) : s <> 0 -> div2s a s = Ok (fst a / s, snd a / s).
Proof. intros H. unfold div2s. rewrite !pdiv_R by exact H. reflexivity. Qed.

Lemma lunit_R (a : R * R) : fst a <> 0 \/ snd a <> 0 ->
  lunit a = Ok (fst a / len (fst a) (snd a), snd a / len (fst a) (snd a)).
Proof.
  intros H. pose proof (len_pos _ _ H). unfold lunit. rewrite lnorm_R. simpl.
  apply div2s_R. lra.
Qed.

Lemma unit_2_R (a : R * R) : fst a <> 0 \/ snd a <> 0 ->
  unit_2 a = Ok (fst a / len (fst a) (snd a), snd a / len (fst a) (snd a)).
Proof.
  intros H. pose proof (len_pos _ _ H). unfold unit_2. rewrite norm_2_R. simpl.
  apply div2s_R. lra.
Qed.

Lemma normalize_R (w : R * R) (b : R) : fst w <> 0 \/ snd w <> 0 ->
  normalize (mkLine w b) =
  Ok (mkLine (fst w / len (fst w) (snd w), snd w / len (fst w) (snd w))
             (b / len (fst w) (snd w))).
Proof.
  intros H. pose proof (len_pos _ _ H). unfold normalize. cbn [lw lb].
  rewrite lnorm_R. cbn [rbind]. rewrite pdiv_R by lra. cbn [rbind].
  rewrite lunit_R by exact H. reflexivity.
Qed.

Lemma normalize_R0 (b : R) : normalize (mkLine (0, 0) b) = Err ZeroDivisionError.
Proof.
  unfold normalize. cbn [lw lb]. rewrite lnorm_R. cbn [rbind fst snd].
  rewrite len_0, pdiv_R0. reflexivity.
Qed.

Lemma normalize_unit (l : line2) : unit_line l -> normalize l = Ok l.
Proof.
  destruct l as [[a b] c]. unfold unit_line. cbn [lw lb fst snd]. intros H.
  rewrite normalize_R.
  - cbn [fst snd]. rewrite (len_unit _ _ H). unfold Rdiv. rewrite Rinv_1, !Rmult_1_r. reflexivity.
  - cbn [fst snd]. destruct (Req_dec a 0); [right|left; auto]. intros ->. nra.
Qed.

Lemma div_unit x y : x <> 0 \/ y <> 0 ->
  (x / len x y) * (x / len x y) + (y / len x y) * (y / len x y) = 1.
Proof.
  intros H. pose proof (len_pos _ _ H). pose proof (len_sq x y).
  replace (x / len x y * (x / len x y) + y / len x y * (y / len x y))
    with ((x * x + y * y) / (len x y * len x y)) by (field; lra).
  rewrite H1. field. destruct H; nra.
Qed.

(** ** from_points (C11, C12) *)
Lemma from_points_R (p q : R * R) : p <> q ->
  from_points p q = Ok (mkLine
    ((snd p - snd q) / len (fst q - fst p) (snd q - snd p),
     (fst q - fst p) / len (fst q - fst p) (snd q - snd p))
    ((- fst p * (snd p - snd q) - snd p * (fst q - fst p))
       / len (fst q - fst p) (snd q - snd p))).
Proof.
  intros Hne. destruct p as [px py], q as [qx qy]. cbn [fst snd].
  assert (Hd : qx - px <> 0 \/ qy - py <> 0).
  { destruct (Req_dec qx px) as [->|]; [|left; lra].
    destruct (Req_dec qy py) as [->|]; [congruence|right; lra]. }
  pose proof (len_pos _ _ Hd) as HL.
  assert (Hass : rassert (negb (pt_eqb (qx, qy) (px, py))) = Ok tt).
  { apply rassert_ok, negb_true_iff. unfold pt_eqb. cbn [fst snd]. ra_simp.
    apply not_true_iff_false. rewrite andb_true_iff, !Reqb_true. lra. }
  unfold from_points, coefficients_from_points. ra_simp.
  assert (Hgoal : forall (a b c : R),
    (a <> 0 \/ b <> 0) ->
    a / len a b = (py - qy) / len (qx - px) (qy - py) ->
    b / len a b = (qx - px) / len (qx - px) (qy - py) ->
    c / len a b = (- px * (py - qy) - py * (qx - px)) / len (qx - px) (qy - py) ->
    rbind (Line2 (a, b) c true) (fun ln => rbind (rassert (negb (pt_eqb (qx, qy) (px, py)))) (fun _ => Ok ln))
    = Ok (mkLine
       ((py - qy) / len (qx - px) (qy - py), (qx - px) / len (qx - px) (qy - py))
       ((- px * (py - qy) - py * (qx - px)) / len (qx - px) (qy - py)))).
  { intros a b c Hab E1 E2 E3. unfold Line2. rewrite normalize_R by exact Hab.
    cbn [rbind fst snd]. rewrite Hass. cbn [rbind]. rewrite E1, E2, E3. reflexivity. }
  qlit.
  destruct (Reqb py qy) eqn:E1; rb2p.
  - subst qy. assert (Hl : len 0 1 = 1) by (apply len_unit; lra).
    assert (Hl' : len 0 (-1) = 1) by (apply len_unit; lra).
    destruct (Rltb px qx) eqn:E2; rb2p.
    + assert (HLx : len (qx - px) (py - py) = qx - px).
      { pose proof (len_sq (qx - px) (py - py)). nra. }
      apply Hgoal; rewrite ?Hl, ?HLx; try (field; lra). right; lra.
    + destruct (Reqb qx px) eqn:E3; rb2p; [lra|].
      assert (HLx : len (qx - px) (py - py) = px - qx).
      { pose proof (len_sq (qx - px) (py - py)). nra. }
      apply Hgoal; rewrite ?Hl', ?HLx; try (field; lra). right; lra.
  - assert (Hl : len 1 0 = 1) by (apply len_unit; lra).
    assert (Hl' : len (-1) 0 = 1) by (apply len_unit; lra).
    destruct (Reqb qx px) eqn:E2; rb2p.
    + subst qx. destruct (Rltb py qy) eqn:E3; rb2p.
      * assert (HLx : len (px - px) (qy - py) = qy - py).
        { pose proof (len_sq (px - px) (qy - py)). nra. }
        apply Hgoal; rewrite ?Hl', ?HLx; try (field; lra). left; lra.
      * destruct (Reqb qy py) eqn:E4; rb2p; [lra|].
        assert (HLx : len (px - px) (qy - py) = py - qy).
        { pose proof (len_sq (px - px) (qy - py)). nra. }
        apply Hgoal; rewrite ?Hl, ?HLx; try (field; lra). left; lra.
    + assert (Hlen : len (py - qy) (qx - px) = len (qx - px) (qy - py)).
      { unfold len. f_equal. ring. }
      apply Hgoal; rewrite ?Hlen; try reflexivity. left; lra.
Qed.

Lemma from_points_eq (p : R * R) : from_points p p = Err ZeroDivisionError.
Proof.
  destruct p as [px py]. unfold from_points, coefficients_from_points. ra_simp. qlit.
  destruct (Reqb py py) eqn:E; rb2p; [|lra].
  destruct (Rltb px px) eqn:F; rb2p; [lra|].
  destruct (Reqb px px) eqn:G; rb2p; [|lra].
  unfold Line2. rewrite normalize_R0. reflexivity.
Qed.

Lemma signed_distance_R l (p : R * R) : signed_distance l p = eval l p.
Proof. unfold signed_distance, eval. rewrite ldot_R. reflexivity. Qed.

Lemma from_points_spec (p q : R * R) : p <> q ->
  exists l, from_points p q = Ok l /\ unit_line l /\ on l p /\ on l q /\
    forall r, signed_distance l r = orient p q r / len (fst q - fst p) (snd q - snd p).
Proof.
  intros Hne. eexists. split; [apply from_points_R, Hne|].
  destruct p as [px py], q as [qx qy]. cbn [fst snd].
  assert (Hd : qx - px <> 0 \/ qy - py <> 0).
  { destruct (Req_dec qx px) as [->|]; [|left; lra].
    destruct (Req_dec qy py) as [->|]; [congruence|right; lra]. }
  pose proof (len_pos _ _ Hd) as HL.
  split; [|split; [|split]].
  - unfold unit_line. cbn [lw lb fst snd]. rewrite <- (div_unit _ _ Hd). field. lra.
  - unfold on, eval. cbn [lw lb fst snd]. field. lra.
  - unfold on, eval. cbn [lw lb fst snd]. field. lra.
  - intros [rx ry]. rewrite signed_distance_R. unfold eval, orient. cbn [lw lb fst snd]. ra_simp. field. lra.
Qed.

(** ** translated / at_time (C13) *)
Lemma translated_unit l (v : R * R) : unit_line l ->
  translated l v = Ok (mkLine (lw l) (lb l - (fst (lw l) * fst v + snd (lw l) * snd v))).
Proof.
  intros H. unfold translated, Line2. rewrite ldot_R. ra_simp. qlit.
  destruct (Reqb _ 0) eqn:E; rb2p; cbn [negb].
  - reflexivity.
  - rewrite normalize_unit by exact H. reflexivity.
Qed.

Lemma at_time_unit l (t : R) : unit_line l -> at_time l t = Ok (mkLine (lw l) (lb l - t)).
Proof.
  intros H. unfold at_time. ra_simp. qlit. destruct (Reqb t 0) eqn:E; rb2p.
  - subst. unfold Line2. do 2 f_equal. lra.
  - rewrite translated_unit by exact H. unfold mul2s, unit_line in *. cbn [fst snd]. ra_simp.
    do 2 f_equal.
    assert (K := f_equal (fun z => z * t) H). cbv beta in K. lra.
Qed.

Lemma unit_line_shift l c : unit_line l -> unit_line (mkLine (lw l) c).
Proof. auto. Qed.

(** ** intersection (C16) *)
Lemma intersection_R (l m : line2) :
  intersection l m =
  if Rltb (/ 10^10) (Rabs (det l m)) then
    Ok (POINT ((snd (lw l) * lb m - snd (lw m) * lb l) / det l m,
               (fst (lw m) * lb l - fst (lw l) * lb m) / det l m))
  else if @near_zero RA (fst (lw l) * lb m - fst (lw m) * lb l)%R
          && @near_zero RA (snd (lw l) * lb m - snd (lw m) * lb l)%R
  then Ok (LINE l) else Ok NO_INTERSECTION.
Proof.
  destruct l as [[a1 b1] c1], m as [[a2 b2] c2]. unfold intersection, det. cbn [lw lb fst snd].
  ra_simp.
  destruct (@near_zero RA (a1 * b2 - a2 * b1)%R) eqn:E.
  - destruct (Rltb _ _) eqn:F; [|destruct (near_zero _ && near_zero _); reflexivity].
    rb2p. apply near_zero_R in E. unfold Rabs in F. destruct (Rcase_abs _); lra.
  - apply near_zero_false_R in E.
    destruct (Rltb _ _) eqn:F; rb2p; [|lra].
    assert (a1 * b2 - a2 * b1 <> 0).
    { intros K. rewrite K, Rabs_R0 in E. lra. }
    rewrite !pdiv_R by assumption. reflexivity.
Qed.

Lemma intersection_point l m p :
  intersection l m = Ok (POINT p) <->
  Rabs (det l m) > / 10^10 /\ on l p /\ on m p.
Proof.
  rewrite intersection_R. split.
  - destruct (Rltb _ _) eqn:E; [|destruct (near_zero _ && near_zero _); discriminate].
    rb2p. intros H. injection H as <-. split; [lra|].
    assert (det l m <> 0) by (intros K; rewrite K, Rabs_R0 in E; lra).
    destruct l as [[a1 b1] c1], m as [[a2 b2] c2]. unfold on, eval, det in *. cbn [lw lb fst snd] in *.
    split; field; assumption.
  - intros (Hd & H1 & H2). destruct (Rltb _ _) eqn:E; rb2p; [|lra].
    assert (det l m <> 0) by (intros K; rewrite K, Rabs_R0 in E; lra).
    destruct p as [x y]. do 2 f_equal.
    destruct l as [[a1 b1] c1], m as [[a2 b2] c2]. unfold on, eval, det in *. cbn [lw lb fst snd] in *.
    replace c1 with (- (a1 * x + b1 * y)) by lra.
    replace c2 with (- (a2 * x + b2 * y)) by lra.
    apply f_equal2; field; assumption.
Qed.

Lemma intersection_unique l m p q :
  det l m <> 0 -> on l p -> on m p -> on l q -> on m q -> p = q.
Proof.
  destruct l as [[a1 b1] c1], m as [[a2 b2] c2], p as [x y], q as [u v].
  unfold on, eval, det. cbn [lw lb fst snd]. intros Hd H1 H2 H3 H4.
  assert (Hx : (x - u) * (a1 * b2 - a2 * b1) = 0).
  { replace ((x - u) * (a1 * b2 - a2 * b1))
      with (b2 * (a1 * x + b1 * y + c1 - (a1 * u + b1 * v + c1))
            - b1 * (a2 * x + b2 * y + c2 - (a2 * u + b2 * v + c2))) by ring.
    rewrite H1, H2, H3, H4. ring. }
  assert (Hy : (y - v) * (a1 * b2 - a2 * b1) = 0).
  { replace ((y - v) * (a1 * b2 - a2 * b1))
      with (a1 * (a2 * x + b2 * y + c2 - (a2 * u + b2 * v + c2))
            - a2 * (a1 * x + b1 * y + c1 - (a1 * u + b1 * v + c1))) by ring.
    rewrite H1, H2, H3, H4. ring. }
  apply Rmult_integral in Hx. apply Rmult_integral in Hy.
  destruct Hx as [Hx|Hx]; [|lra]. destruct Hy as [Hy|Hy]; [|lra].
  apply f_equal2; lra.
Qed.

Lemma det_sym l m : det m l = - det l m.
Proof. unfold det. ring. Qed.

(** the kind of intersection *)
Inductive ikind := KNone | KPoint (p : R * R) | KLine.
Definition kind_of (i : isect) : ikind :=
  match i with NO_INTERSECTION => KNone | POINT p => KPoint p | LINE _ => KLine end.

Lemma intersection_sym l m :
  rmap kind_of (intersection l m) = rmap kind_of (intersection m l).
Proof.
  rewrite !intersection_R, (det_sym l m), Rabs_Ropp.
  destruct (Rltb _ _) eqn:E.
  - rb2p. assert (det l m <> 0) by (intros K; rewrite K, Rabs_R0 in E; lra).
    cbn [rmap kind_of]. do 2 apply f_equal. apply f_equal2; field; assumption.
  - replace (fst (lw m) * lb l - fst (lw l) * lb m)
      with (- (fst (lw l) * lb m - fst (lw m) * lb l)) by ring.
    replace (snd (lw m) * lb l - snd (lw l) * lb m)
      with (- (snd (lw l) * lb m - snd (lw m) * lb l)) by ring.
    rewrite !near_zero_opp_R.
    destruct (near_zero _ && near_zero _); reflexivity.
Qed.

Lemma intersection_same l : intersection l l = Ok (LINE l).
Proof.
  rewrite intersection_R. assert (det l l = 0) as -> by (unfold det; ring).
  rewrite Rabs_R0. destruct (Rltb _ _) eqn:E; rb2p; [lra|].
  replace (fst (lw l) * lb l - fst (lw l) * lb l) with 0 by ring.
  replace (snd (lw l) * lb l - snd (lw l) * lb l) with 0 by ring.
  assert (@near_zero RA 0%R = true) as -> by (apply near_zero_R; lra). reflexivity.
Qed.

Lemma intersection_total l m : exists i, intersection l m = Ok i.
Proof.
  rewrite intersection_R. destruct (Rltb _ _); eauto.
  destruct (near_zero _ && near_zero _); eauto.
Qed.

(** ** get_bisector / get_intersection_at_t (C17, C19) *)
Lemma get_intersection_at_t_R l m (t : R) : unit_line l -> unit_line m ->
  forall p, get_intersection_at_t l m t = Ok p <->
    Rabs (det l m) > / 10^10 /\ signed_distance l p = t /\ signed_distance m p = t.
Proof.
  intros Hl Hm p. unfold get_intersection_at_t. rewrite !at_time_unit by assumption.
  cbn [rbind]. rewrite !signed_distance_R.
  assert (Hdet : det (mkLine (lw l) (lb l - t)) (mkLine (lw m) (lb m - t)) = det l m) by reflexivity.
  assert (Hon : forall k, on (mkLine (lw k) (lb k - t)) p <-> eval k p = t).
  { intros k. unfold on, eval. cbn [lw lb]. ra_simp; lra. }
  rewrite <- !Hon, <- Hdet, <- intersection_point.
  destruct (intersection_total (mkLine (lw l) (lb l - t)) (mkLine (lw m) (lb m - t))) as [i ->].
  cbn [rbind]. destruct i; split; intros H; try discriminate; congruence.
Qed.

Lemma get_intersection_at_t_err l m (t : R) : unit_line l -> unit_line m ->
  get_intersection_at_t l m t = Err ValueError <-> Rabs (det l m) <= / 10^10.
Proof.
  intros Hl Hm. unfold get_intersection_at_t. rewrite !at_time_unit by assumption.
  cbn [rbind]. rewrite intersection_R.
  change (det (mkLine (lw l) (lb l - t)) (mkLine (lw m) (lb m - t))) with (det l m).
  destruct (Rltb _ _) eqn:E; rb2p; cbn [rbind].
  - split; [discriminate|lra].
  - destruct (near_zero _ && near_zero _); cbn [rbind]; split; auto.
Qed.

Lemma get_bisector_R l m : unit_line l -> unit_line m -> Rabs (det l m) > / 10^10 ->
  exists v, get_bisector l m = Ok v /\
    fst (lw l) * fst v + snd (lw l) * snd v = 1 /\
    fst (lw m) * fst v + snd (lw m) * snd v = 1.
Proof.
  intros Hl Hm Hd. unfold get_bisector.
  destruct (intersection_total l m) as [i Hi]. rewrite Hi. cbn [rbind].
  pose proof Hi as Hi'. rewrite intersection_R in Hi'.
  destruct (Rltb _ _) eqn:E in Hi'; rb2p; [|lra].
  destruct i as [|p0|]; try discriminate. clear Hi'.
  apply intersection_point in Hi. destruct Hi as (_ & H1 & H2).
  rewrite !translated_unit by assumption. cbn [rbind].
  match goal with |- context [intersection ?x ?y] => set (l1 := x); set (m1 := y) end.
  destruct (intersection_total l1 m1) as [j Hj]. rewrite Hj. cbn [rbind].
  pose proof Hj as Hj'. rewrite intersection_R in Hj'.
  change (det l1 m1) with (det l m) in Hj'.
  destruct (Rltb _ _) eqn:F in Hj'; rb2p; [|lra].
  destruct j as [|p1|]; try discriminate. clear Hj'.
  apply intersection_point in Hj. destruct Hj as (_ & K1 & K2).
  eexists. split; [reflexivity|].
  unfold on, eval, l1, m1, sub2, unit_line in *. cbn [lw lb fst snd] in *; ra_simp; split; lra.
Qed.

(** The solution of the two equations is unique *)
Lemma speed_unique l m (v u : R * R) :
  det l m <> 0 ->
  fst (lw l) * fst v + snd (lw l) * snd v = 1 -> fst (lw m) * fst v + snd (lw m) * snd v = 1 ->
  fst (lw l) * fst u + snd (lw l) * snd u = 1 -> fst (lw m) * fst u + snd (lw m) * snd u = 1 ->
  v = u.
Proof.
  intros Hd H1 H2 H3 H4.
  apply (intersection_unique (mkLine (lw l) (-1)) (mkLine (lw m) (-1)) v u).
  - exact Hd.
  - unfold on, eval; cbn [lw lb]; lra.
  - unfold on, eval; cbn [lw lb]; lra.
  - unfold on, eval; cbn [lw lb]; lra.
  - unfold on, eval; cbn [lw lb]; lra.
Qed.

Lemma get_bisector_line l m : Rabs (det l m) <= / 10^10 ->
  get_bisector l m = Ok (add2 (mul2s (lw l) (/2)) (mul2s (lw m) (/2))) \/
  get_bisector l m = Ok (add2 (lw l) (lw m)).
Proof.
  intros Hd. unfold get_bisector. rewrite intersection_R.
  destruct (Rltb _ _) eqn:E; rb2p; [lra|].
  destruct (near_zero _ && near_zero _); cbn [rbind]; [left|right; reflexivity].
  ra_simp. qlit. reflexivity.
Qed.

Lemma get_bisector_same l : get_bisector l l = Ok (lw l).
Proof.
  unfold get_bisector. rewrite intersection_same. cbn [rbind].
  destruct l as [[a b] c]. unfold add2, mul2s. cbn [lw lb fst snd]. ra_simp. qlit.
  do 2 f_equal; field.
Qed.

(** parallel, same direction, different lines: speed 2 *)
Lemma get_bisector_parallel_same l c : unit_line l -> Rabs (c - lb l) > 2 * / 10^10 ->
  get_bisector l (mkLine (lw l) c) = Ok (2 * fst (lw l), 2 * snd (lw l)).
Proof.
  intros Hu Hc. destruct l as [[a b] d]. unfold unit_line in *. cbn [lw lb fst snd] in *.
  unfold get_bisector. rewrite intersection_R. unfold det. cbn [lw lb fst snd].
  replace (a * b - a * b) with 0 by ring. rewrite Rabs_R0.
  destruct (Rltb _ _) eqn:E; rb2p; [lra|].
  replace (a * c - a * d) with (a * (c - d)) by ring.
  replace (b * c - b * d) with (b * (c - d)) by ring.
  destruct (@near_zero RA (a * (c - d))%R && @near_zero RA (b * (c - d))%R) eqn:F.
  - rb2p. apply near_zero_R in H, H0. exfalso.
    set (k := c - d) in *.
    assert (Hk : k * k = (a * k) * (a * k) + (b * k) * (b * k)) by (rewrite <- (Rmult_1_l (k*k)), <- Hu; ring).
    assert (a * k * (a * k) <= / 10^10 * / 10^10) by nra.
    assert (b * k * (b * k) <= / 10^10 * / 10^10) by nra.
    assert (k * k > 2 * / 10^10 * (2 * / 10^10)).
    { replace (k * k) with (Rabs k * Rabs k) by (rewrite <- Rabs_mult; apply Rabs_right; nra). nra. }
    nra.
  - cbn [rbind]. unfold add2. cbn [fst snd]. ra_simp. do 2 f_equal; ring.
Qed.

(** parallel, opposite direction: speed 0 *)
Lemma get_bisector_opposite l c :
  get_bisector l (mkLine (- fst (lw l), - snd (lw l)) c) = Ok (0, 0).
Proof.
  assert (Hd : det l (mkLine (- fst (lw l), - snd (lw l)) c) = 0)
    by (unfold det; cbn [lw lb fst snd]; ring).
  destruct (get_bisector_line l (@mkLine RA (- fst (lw l), - snd (lw l)) c)) as [->| ->].
  - rewrite Hd, Rabs_R0. lra.
  - unfold add2, mul2s. cbn [lw fst snd]. ra_simp. do 2 f_equal; ring.
  - unfold add2. cbn [lw fst snd]. ra_simp. do 2 f_equal; ring.
Qed.

(** ** perpendicular, through, ends (C14) *)
Lemma perpendicular_R l (p : R * R) : unit_line l ->
  exists m, perpendicular l p = Ok m /\ lw m = (- snd (lw l), fst (lw l)) /\ on m p.
Proof.
  intros H. destruct l as [[a b] c], p as [x y].
  unfold perpendicular, coefficients_perpendicular_through_point, Line2. cbn [lw lb fst snd].
  ra_simp. rewrite normalize_unit.
  - eexists. split; [reflexivity|]. split; [reflexivity|]. unfold on, eval. cbn [lw lb fst snd]. ring.
  - unfold unit_line in *. cbn [lw lb fst snd] in *. lra.
Qed.

Lemma through_R l : through l = (- lb l * fst (lw l), - lb l * snd (lw l)).
Proof. unfold through, mul2s. ra_simp. f_equal; ring. Qed.

Lemma through_nearest l : unit_line l ->
  on l (through l) /\
  forall p, on l p ->
    fst (through l) * fst (through l) + snd (through l) * snd (through l)
    <= fst p * fst p + snd p * snd p.
Proof.
  intros H. rewrite through_R. destruct l as [[a b] c].
  unfold on, eval, unit_line in *. cbn [lw lb fst snd] in *. ra_simp.
  split.
  - replace (a * (- c * a) + b * (- c * b) + c) with (c * (1 - (a * a + b * b))) by ring.
    rewrite H. ring.
  - intros [x y]. cbn [fst snd]. intros K.
    replace (- c * a * (- c * a) + - c * b * (- c * b)) with (c * c * (a * a + b * b)) by ring.
    rewrite H, Rmult_1_r.
    assert (Hc : c = - (a * x + b * y)) by lra.
    assert (Hl : x * x + y * y = (a * x + b * y) * (a * x + b * y) + (a * y - b * x) * (a * y - b * x)).
    { replace ((a * x + b * y) * (a * x + b * y) + (a * y - b * x) * (a * y - b * x))
        with ((a * a + b * b) * (x * x + y * y)) by ring. rewrite H. ring. }
    pose proof (Rle_0_sqr (a * y - b * x)) as Hq. unfold Rsqr in Hq.
    assert (c * c = (a * x + b * y) * (a * x + b * y)) by (rewrite Hc; ring). lra.
Qed.

Lemma ends_R l : unit_line l ->
  on l (fst (ends l)) /\ on l (snd (ends l)) /\
  fst (snd (ends l)) - fst (fst (ends l)) = 2000 * snd (lw l) /\
  snd (snd (ends l)) - snd (fst (ends l)) = - 2000 * fst (lw l) /\
  len (fst (snd (ends l)) - fst (fst (ends l))) (snd (snd (ends l)) - snd (fst (ends l))) = 2000.
Proof.
  intros H. unfold ends, add2, mul2s. rewrite !through_R.
  destruct l as [[a b] c]. unfold on, eval, unit_line, rotate90ccw, rotate90cw in *.
  cbn [lw lb fst snd] in *. ra_simp. qlit.
  repeat split.
  - replace (a * (- b * 1000 + - c * a) + b * (a * 1000 + - c * b) + c)
      with (c * (1 - (a * a + b * b))) by ring. rewrite H. ring.
  - replace (a * (b * 1000 + - c * a) + b * (- a * 1000 + - c * b) + c)
      with (c * (1 - (a * a + b * b))) by ring. rewrite H. ring.
  - ring.
  - ring.
  - unfold len.
    replace (_ + _) with ((2000 * 2000) * (a * a + b * b)) by ring.
    rewrite H, Rmult_1_r. apply sqrt_square. lra.
Qed.

(** ** bisector line (C15) *)
Lemma bisector_line_R l m : unit_line l -> unit_line m ->
  let a := fst (lw l) + fst (lw m) in
  let b := snd (lw l) + snd (lw m) in
  (a <> 0 \/ b <> 0 ->
     exists k, bisector_line l m = Ok k /\ unit_line k /\
       forall p, on k p <-> eval l p + eval m p = 0) /\
  (a = 0 -> b = 0 ->
     exists k, bisector_line l m = Ok k /\ unit_line k /\
       forall p, on k p <-> eval l p = eval m p).
Proof.
  intros Hl Hm a b. unfold bisector_line, coefficients_bisector_of_lines, psqrt.
  destruct l as [[a1 b1] c1], m as [[a2 b2] c2]. unfold unit_line in *. cbn [lw lb fst snd] in *.
  ra_simp. qlit. rewrite Hl, Hm.
  destruct (Rltb 1 0) eqn:E; rb2p; [lra|]. cbn [rbind]. rewrite sqrt_1.
  replace (1 * a1 + 1 * a2) with a by (unfold a; ring).
  replace (1 * b1 + 1 * b2) with b by (unfold b; ring).
  split.
  - intros Hab.
    assert (Reqb a 0 && Reqb b 0 = false) as ->.
    { apply not_true_iff_false. rewrite andb_true_iff, !Reqb_true. lra. }
    cbn [rbind]. unfold Line2. rewrite normalize_R by exact Hab.
    eexists. split; [reflexivity|]. cbn [lw lb fst snd]. split; [apply div_unit, Hab|].
    intros [x y]. unfold on, eval. cbn [lw lb fst snd].
    pose proof (len_pos _ _ Hab) as HL.
    generalize dependent (len a b). intros L HL.
    replace (a / L * x + b / L * y + (1 * c1 + 1 * c2) / L)
      with ((a1 * x + b1 * y + c1 + (a2 * x + b2 * y + c2)) / L)
      by (unfold a, b; field; lra).
    split; intros K.
    + apply Rmult_eq_reg_r with (/ L); [|apply Rinv_neq_0_compat; lra].
      rewrite Rmult_0_l. exact K.
    + rewrite K. field. lra.
  - intros Ha Hb.
    assert (Reqb a 0 && Reqb b 0 = true) as ->.
    { rewrite andb_true_iff, !Reqb_true. auto. }
    cbn [rbind]. unfold Line2.
    assert (Ea : 1 * a1 - 1 * a2 = 2 * a1) by (unfold a in *; lra).
    assert (Eb : 1 * b1 - 1 * b2 = 2 * b1) by (unfold b in *; lra).
    rewrite Ea, Eb.
    assert (Hn : 2 * a1 <> 0 \/ 2 * b1 <> 0).
    { destruct (Req_dec a1 0); [right|left; lra]. intros K. assert (b1 = 0) by lra. subst. nra. }
    rewrite normalize_R by exact Hn.
    eexists. split; [reflexivity|]. cbn [lw lb fst snd]. split; [apply div_unit, Hn|].
    pose proof (len_pos _ _ Hn) as HL.
    intros [x y]. unfold on, eval. cbn [lw lb fst snd].
    replace (2 * a1 / len (2 * a1) (2 * b1) * x + 2 * b1 / len (2 * a1) (2 * b1) * y
             + (1 * c1 - 1 * c2) / len (2 * a1) (2 * b1))
      with ((a1 * x + b1 * y + c1 - (a2 * x + b2 * y + c2)) / len (2 * a1) (2 * b1)).
    2:{ replace (a1 * x + b1 * y + c1 - (a2 * x + b2 * y + c2)) with (2 * a1 * x + 2 * b1 * y + c1 - c2).
        - field. lra.
        - rewrite <- Ea, <- Eb. ring. }
    split; intros K.
    + assert (a1 * x + b1 * y + c1 - (a2 * x + b2 * y + c2) = 0); [|lra].
      apply Rmult_eq_reg_r with (/ len (2 * a1) (2 * b1)); [|apply Rinv_neq_0_compat; lra].
      rewrite Rmult_0_l. exact K.
    + rewrite K. field. lra.
Qed.
