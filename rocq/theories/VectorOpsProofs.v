(** Proofs about VectorOps.v *)
From Coq Require Import Reals Lra Psatz Ratan.
From Verif Require Import Base Arith ArithR Calc CalcProofs VectorOps Line2d Line2dProofs.
Local Open Scope R_scope.
Local Existing Instance RA.

(** ** dimensions: for every arithmetic *)
Section Dims.
  Context {A : Arith}.
  Lemma lift_dim f (a b : vec) :
    (length a = length b -> exists r, lift f a (Vec b) = Ok r /\ length r = length a) /\
    (length a <> length b -> lift f a (Vec b) = Err ValueError).
  Proof.
    unfold lift. split; intros H.
    - rewrite (proj2 (Nat.eqb_eq _ _) H). eexists. split; [reflexivity|].
      unfold zipw. rewrite map_length, combine_length, H. apply Nat.min_id.
    - rewrite (proj2 (Nat.eqb_neq _ _) H). reflexivity.
  Qed.
  Lemma v_dot_dim (a b : vec) :
    (length a = length b -> exists r, v_dot a b = Ok r) /\
    (length a <> length b -> v_dot a b = Err ValueError).
  Proof.
    unfold v_dot. split; intros H.
    - rewrite (proj2 (Nat.eqb_eq _ _) H). eauto.
    - rewrite (proj2 (Nat.eqb_neq _ _) H). reflexivity.
  Qed.
  Lemma divw_err (a b : vec) e : divw a b = Err e -> e = ZeroDivisionError.
  Proof.
    revert b. induction a as [|x a IH]; intros [|y b]; simpl; try discriminate.
    unfold pdiv. destruct (neqb y n0); simpl; [intros H; injection H; auto|].
    destruct (divw a b) eqn:E; simpl; [discriminate|].
    intros H. injection H as <-. eauto.
  Qed.
  Lemma v_div_dim (a b : vec) :
    v_div a (Vec b) = Err ValueError <-> length a <> length b.
  Proof.
    unfold v_div. destruct (Nat.eqb (length a) (length b)) eqn:E.
    - apply Nat.eqb_eq in E. split; [|congruence]. intros H. apply divw_err in H. discriminate.
    - apply Nat.eqb_neq in E. tauto.
  Qed.
  (** the pair versions are the list versions in dimension two *)
  Lemma v2_agree (a b : pt) (s : num) :
    v_sub [fst a; snd a] (Vec [fst b; snd b]) = Ok [fst (sub2 a b); snd (sub2 a b)] /\
    v_add [fst a; snd a] (Vec [fst b; snd b]) = Ok [fst (add2 a b); snd (add2 a b)] /\
    v_mul [fst a; snd a] (Scal s) = Ok [fst (mul2s a s); snd (mul2s a s)] /\
    v_dot [fst a; snd a] [fst b; snd b] = Ok (dot2 a b) /\
    v_norm [fst a; snd a] = norm_2 a /\
    v_cross [fst a; snd a] [fst b; snd b] = Ok (CScal (cross2 a b)) /\
    v_unit [fst a; snd a] = rmap (fun p => [fst p; snd p]) (unit_2 a).
  Proof.
    repeat split. unfold v_unit, unit_2.
    assert (E : v_norm [fst a; snd a] = norm_2 a) by reflexivity.
    rewrite E. destruct (norm_2 a) as [n|e]; simpl; [|reflexivity].
    unfold div2s. destruct (pdiv (fst a) n); simpl; [|reflexivity].
    destruct (pdiv (snd a) n); reflexivity.
  Qed.
End Dims.

Lemma fold_left_Rplus l a : fold_left Rplus l a = a + fold_left Rplus l 0.
Proof.
  revert a. induction l as [|x r IH]; simpl; intros a; [lra|].
  rewrite IH, (IH (0 + x)). lra.
Qed.

Lemma zipw_comm (a b : list R) : zipw Rmult a b = zipw Rmult b a.
Proof.
  unfold zipw. revert b. induction a as [|x a IH]; intros [|y b]; simpl; try reflexivity.
  rewrite Rmult_comm. f_equal. apply IH.
Qed.

Lemma v_dot_comm (a b : list R) : v_dot a b = v_dot b a.
Proof.
  unfold v_dot. rewrite Nat.eqb_sym. ra_simp. rewrite (zipw_comm a b). reflexivity.
Qed.

(** squared length of a vector, as a plain sum *)
Fixpoint sumsq (v : list R) : R := match v with [] => 0 | x :: r => x * x + sumsq r end.

Lemma v_dot_self (v : list R) : v_dot v v = Ok (sumsq v).
Proof.
  unfold v_dot. rewrite Nat.eqb_refl. f_equal. unfold nsum, zipw. ra_simp. qlit.
  induction v as [|x r IH]; simpl; [reflexivity|].
  rewrite fold_left_Rplus. rewrite IH. lra.
Qed.

Lemma sumsq_nonneg v : 0 <= sumsq v.
Proof. induction v; simpl; nra. Qed.

Lemma sumsq_zero v : sumsq v = 0 <-> Forall (fun x => x = 0) v.
Proof.
  induction v as [|x r IH]; simpl; [split; auto|].
  pose proof (sumsq_nonneg r). split.
  - intros H'. assert (x = 0) by nra. subst. constructor; auto. apply IH. lra.
  - intros H'. inversion H'; subst. apply IH in H3. lra.
Qed.

Lemma rmapl_div (v : list R) n : n <> 0 ->
  rmapl (fun x => pdiv x n) v = Ok (map (fun x => x / n) v).
Proof.
  intros H. induction v as [|x r IH]; [reflexivity|].
  cbn [rmapl]. rewrite pdiv_R by exact H. cbn [rbind]. rewrite IH. reflexivity.
Qed.

Lemma sumsq_div (v : list R) n : n <> 0 -> sumsq (map (fun x => x / n) v) = sumsq v / (n * n).
Proof.
  intros H. induction v as [|x r IH]; simpl; [field; auto|]. rewrite IH. field. auto.
Qed.

Lemma v_norm_R (v : list R) : v_norm v = Ok (sqrt (sumsq v)).
Proof.
  unfold v_norm, v_norm2. rewrite v_dot_self. cbn [rbind]. unfold psqrt. ra_simp. qlit.
  pose proof (sumsq_nonneg v). destruct (Rltb _ 0) eqn:E; rb2p; [lra|reflexivity].
Qed.

Lemma v_unit_R (v : list R) :
  ((exists x, In x v /\ x <> 0) ->
     exists u, v_unit v = Ok u /\ sumsq u = 1 /\ length u = length v /\
       exists k, 0 < k /\ v = map (fun x => k * x) u) /\
  (v <> [] -> Forall (fun x => x = 0) v -> v_unit v = Err ZeroDivisionError).
Proof.
  unfold v_unit. rewrite v_norm_R. cbn [rbind]. unfold v_div.
  pose proof (sumsq_nonneg v) as Hn. split.
  - intros (x & Hx & Hx0).
    assert (Hp : sumsq v <> 0).
    { intros K. apply sumsq_zero in K. rewrite Forall_forall in K. apply Hx0, K, Hx. }
    assert (Hs : 0 < sqrt (sumsq v)) by (apply sqrt_lt_R0; lra).
    rewrite rmapl_div by lra. eexists. split; [reflexivity|].
    split; [|split].
    + rewrite sumsq_div by lra. rewrite sqrt_sqrt by lra. field. exact Hp.
    + apply map_length.
    + exists (sqrt (sumsq v)). split; [exact Hs|].
      rewrite map_map. rewrite <- (map_id v) at 1. apply map_ext. intros y. field. lra.
  - intros Hne Hf. apply sumsq_zero in Hf. rewrite Hf, sqrt_0.
    destruct v as [|x r]; [congruence|]. cbn [rmapl]. rewrite pdiv_R0. reflexivity.
Qed.

(** ** bisector (C18) *)
Definition dotp (a b : R * R) : R := fst a * fst b + snd a * snd b.
Definition is_unit (a : R * R) : Prop := dotp a a = 1.

Lemma dot_unit_bounds a b : is_unit a -> is_unit b -> -1 <= dotp a b <= 1.
Proof.
  destruct a as [a1 a2], b as [b1 b2]. unfold is_unit, dotp. cbn [fst snd]. intros H1 H2.
  assert (Hs : (a1 * b1 + a2 * b2) * (a1 * b1 + a2 * b2)
               + (a1 * b2 - a2 * b1) * (a1 * b2 - a2 * b1) = 1).
  { replace (_ + _) with ((a1 * a1 + a2 * a2) * (b1 * b1 + b2 * b2)) by ring.
    rewrite H1, H2. ring. }
  pose proof (Rle_0_sqr (a1 * b2 - a2 * b1)) as Hq. unfold Rsqr in Hq. split; nra.
Qed.

Lemma angle_unit_R (a b : R * R) : is_unit a -> is_unit b ->
  angle_unit a b = Ok (dotp a b, acos (dotp a b)).
Proof.
  intros Ha Hb. pose proof (dot_unit_bounds a b Ha Hb) as Hd.
  unfold angle_unit, nmax, nmin, pacos. rewrite dot2_R. ra_simp. qlit.
  fold (dotp a b).
  destruct (Rltb (dotp a b) 1) eqn:E; rb2p.
  - destruct (Rltb (-1) (dotp a b)) eqn:F; rb2p.
    + destruct (Rltb (dotp a b) (-1)) eqn:G; rb2p; [lra|].
      destruct (Rltb 1 (dotp a b)) eqn:K; rb2p; [lra|]. reflexivity.
    + assert (dotp a b = -1) as -> by lra.
      destruct (Rltb (-1) (-1)) eqn:G; rb2p; [lra|].
      destruct (Rltb 1 (-1)) eqn:K; rb2p; [lra|]. reflexivity.
  - assert (dotp a b = 1) as -> by lra.
    destruct (Rltb (-1) 1) eqn:F; rb2p; [|lra].
    destruct (Rltb 1 (-1)) eqn:G; rb2p; [lra|].
    destruct (Rltb 1 1) eqn:K; rb2p; [lra|]. reflexivity.
Qed.

Definition deg (x : R) : R := x * (PI / 180).

Lemma sin_half_lower x : 0 <= x <= 1 -> x - x * x * x / 6 <= sin x.
Proof.
  intros H. destruct (pre_sin_bound x 0) as [K _]; [lra|lra|].
  unfold sin_approx, sin_term in K. simpl in K.
  eapply Rle_trans; [|exact K]. right. field.
Qed.

(** the threshold angle 179.9999 degrees *)
Lemma threshold_bounds : let t := PI - deg (1799999 / 10000) in 0 < t <= 1 /\ / 10^6 <= t /\
   cos (deg (1799999 / 10000)) >= -1 + / 10^14.
Proof.
  intros t.
  assert (Hpi : 3 < PI <= 4). { split; [pose proof PI2_3_2; lra|apply PI_4]. }
  assert (Ht : t = PI / 1800000). { unfold t, deg. field. }
  assert (Hr : / 10^6 <= t <= / 10^5). { rewrite Ht. lra. }
  split; [lra|]. split; [lra|].
  assert (Ec : cos (deg (1799999 / 10000)) = - cos t).
  { replace (deg (1799999 / 10000)) with (PI - t) by (unfold t; ring). rewrite Rtrigo_facts.cos_pi_minus. reflexivity. }
  rewrite Ec.
  assert (Ec2 : cos t = 1 - 2 * sin (t/2) * sin (t/2)).
  { rewrite <- cos_2a_sin. f_equal. field. }
  rewrite Ec2.
  pose proof (sin_half_lower (t/2)) as Hs. specialize (Hs ltac:(lra)).
  assert (Hs2 : t / 4 <= sin (t/2)). { nra. }
  nra.
Qed.

(** nearly opposite: the angle between the two exceeds 179.9999 degrees *)
Definition nearly_opposite (a b : R * R) : Prop := dotp a b < cos (deg (1799999 / 10000)).

Lemma near_opposite_test (a b : R * R) : is_unit a -> is_unit b ->
  @near_zero2 RA (@add2 RA a b) || (@near_zero RA (acos (dotp a b) - PI)%R || Rltb (dotp a b) (cos (deg (1799999 / 10000))))
  = Rltb (dotp a b) (cos (deg (1799999 / 10000))).
Proof.
  intros Ha Hb. pose proof (dot_unit_bounds a b Ha Hb) as Hd.
  pose proof threshold_bounds as HT. cbv zeta in HT. destruct HT as (HT1 & HT2 & HT3).
  destruct (Rltb (dotp a b) (cos (deg (1799999 / 10000)))) eqn:E; rb2p.
  - rewrite !orb_true_r. reflexivity.
  - rewrite orb_false_r. apply orb_false_iff. split.
    + unfold near_zero2. apply not_true_iff_false. rewrite andb_true_iff, !near_zero_R.
      unfold add2. cbn [fst snd]. ra_simp.
      destruct a as [a1 a2], b as [b1 b2]. unfold is_unit, dotp in *. cbn [fst snd] in *.
      intros [K1 K2].
      assert (Hs : (a1 + b1) * (a1 + b1) + (a2 + b2) * (a2 + b2) = 2 + 2 * (a1 * b1 + a2 * b2)) by nra.
      assert ((a1 + b1) * (a1 + b1) <= / 10^10 * / 10^10) by nra.
      assert ((a2 + b2) * (a2 + b2) <= / 10^10 * / 10^10) by nra.
      assert (/10^10 * /10^10 <= / 10 ^ 16) by lra.
      lra.
    + apply not_true_iff_false. rewrite near_zero_R. intros K.
      pose proof (acos_bound (dotp a b)) as Hb'.
      assert (Hlt : deg (1799999 / 10000) < acos (dotp a b)) by lra.
      assert (cos (acos (dotp a b)) < cos (deg (1799999 / 10000))).
      { apply cos_decreasing_1; try lra; unfold deg; pose proof PI_RGT_0; lra. }
      rewrite cos_acos in H by exact Hd. lra.
Qed.

Lemma radians_R (q : Q) : @nradians RA (lit q) = deg (Q2R q).
Proof. unfold nradians, deg. ra_simp. qlit. reflexivity. Qed.

Lemma q179 : Q2R (1799999#10000) = 1799999 / 10000.
Proof. unfold Q2R. cbn [Qnum Qden]. lra. Qed.

Lemma bisector_R (a b : R * R) : is_unit a -> is_unit b ->
  (nearly_opposite a b -> bisector a b = Ok (0, 0)) /\
  (~ nearly_opposite a b ->
     exists v, bisector a b = Ok v /\ dotp a v = 1 /\ dotp b v = 1).
Proof.
  intros Ha Hb. pose proof (dot_unit_bounds a b Ha Hb) as Hd.
  unfold bisector. rewrite angle_unit_R by assumption. cbn [rbind].
  rewrite radians_R, q179.
  change (@nltb RA (dotp a b) (@ncos RA (deg (1799999 / 10000)))) with (Rltb (dotp a b) (cos (deg (1799999 / 10000)))).
  change (@nsub RA (acos (dotp a b)) (@npi RA)) with (acos (dotp a b) - PI)%R.
  rewrite near_opposite_test by assumption. unfold nearly_opposite.
  pose proof threshold_bounds as HT. cbv zeta in HT. destruct HT as (HT1 & HT2 & HT3).
  destruct (Rltb (dotp a b) (cos (deg (1799999 / 10000)))) eqn:E; rb2p.
  - split; [|lra]. intros _. ra_simp. qlit. reflexivity.
  - split; [lra|]. intros _.
    assert (Hd1 : -1 < dotp a b) by lra.
    set (d := dotp a b) in *.
    assert (Hdir : fst (@add2 RA a b) * fst (@add2 RA a b) + snd (@add2 RA a b) * snd (@add2 RA a b) = 2 + 2 * d).
    { unfold d, is_unit, dotp, add2 in *. cbn [fst snd]. ra_simp. lra. }
    assert (Hnz : fst (@add2 RA a b) <> 0 \/ snd (@add2 RA a b) <> 0).
    { destruct (Req_dec (fst (@add2 RA a b)) 0) as [K|K]; [|left; exact K]. right. intros K2.
      change (@num RA) with R in *. rewrite K, K2 in Hdir. lra. }
    rewrite unit_2_R by exact Hnz. cbn [rbind].
    match goal with |- context [len ?x ?y] => set (L := len x y) end.
    assert (HL2 : L * L = 2 + 2 * d).
    { unfold L. rewrite len_sq. exact Hdir. }
    assert (HL : 0 < L) by (apply len_pos, Hnz).
    clearbody L.
    assert (Hsin : @nsin RA (nhalf * npi + nhalf * (acos d : @num RA))%num = cos (acos d / 2)).
    { ra_simp. qlit. replace (/ 2 * PI + / 2 * acos d) with (PI / 2 + acos d / 2) by field.
      rewrite sin_plus, sin_PI2, cos_PI2. ring. }
    rewrite Hsin.
    pose proof (acos_bound d) as Hab.
    assert (Hcos2 : cos (acos d / 2) * cos (acos d / 2) = (1 + d) / 2).
    { assert (K : cos (2 * (acos d / 2)) = 2 * cos (acos d / 2) * cos (acos d / 2) - 1) by apply cos_2a_cos.
      replace (2 * (acos d / 2)) with (acos d) in K by field.
      rewrite cos_acos in K by lra. lra. }
    assert (Hcos0 : 0 <= cos (acos d / 2)) by (apply cos_ge_0; lra).
    set (c := cos (acos d / 2)) in *.
    assert (Hc : 0 < c) by nra.
    assert (HLc : L = 2 * c).
    { assert ((L - 2 * c) * (L + 2 * c) = 0) by nra.
      apply Rmult_integral in H. destruct H; lra. }
    rewrite div2s_R by lra. eexists. split; [reflexivity|].
    unfold dotp in *. cbn [fst snd].
    unfold is_unit, dotp in *. unfold add2 in *. cbn [fst snd] in *. ra_simp.
    split.
    + replace (fst a * ((fst a + fst b) / L / c) + snd a * ((snd a + snd b) / L / c))
        with (((fst a * fst a + snd a * snd a) + (fst a * fst b + snd a * snd b)) / (L * c))
        by (field; lra).
      transitivity ((1 + d) / (L * c)).
      { apply (f_equal (fun z => z / (L * c))). unfold d. ra_simp. lra. }
      replace (L * c) with (1 + d) by (rewrite HLc; lra). field. lra.
    + replace (fst b * ((fst a + fst b) / L / c) + snd b * ((snd a + snd b) / L / c))
        with (((fst b * fst b + snd b * snd b) + (fst a * fst b + snd a * snd b)) / (L * c))
        by (field; lra).
      transitivity ((1 + d) / (L * c)).
      { apply (f_equal (fun z => z / (L * c))). unfold d. ra_simp. lra. }
      replace (L * c) with (1 + d) by (rewrite HLc; lra). field. lra.
Qed.

Lemma bisector_agrees l m : unit_line l -> unit_line m -> Rabs (det l m) > / 10^10 ->
  ~ nearly_opposite (lw l) (lw m) -> bisector (lw l) (lw m) = get_bisector l m.
Proof.
  intros Hl Hm Hd Hn.
  destruct (bisector_R (lw l) (lw m) Hl Hm) as [_ H]. destruct (H Hn) as (v & -> & H1 & H2).
  destruct (get_bisector_R l m Hl Hm Hd) as (u & -> & K1 & K2).
  f_equal. apply (speed_unique l m); auto.
  intros K. rewrite K, Rabs_R0 in Hd. lra.
Qed.
