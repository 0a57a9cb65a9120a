(** C91: tolerances and the order of numbers in IEEE doubles *)
From Coq Require Import Floats.SpecFloat Reals Lra.
From Coq Require Import Sorting.Sorted Qabs.
From Verif Require Import Base Arith ArithF ArithQ Calc VectorOps Line2d Transform Primitives Collapse EventLoop RunBase RunTimed RunLoop Initialize StarProofs InitProofs InitState Main
  Properties_loop TriExample QuadExample ShrinkF Properties_main.
From Flocq Require Import Core.Core IEEE754.BinarySingleNaN.
From Flocq Require Mult_error.

(** ** Specification *)
Notation nan := (B754_nan : double).
Notation infinity s := (B754_infinity s : double).
(** [value x]: the real number a double stands for (ShrinkF.v) *)

(** the doubles without NaN are totally ordered by Python's comparisons; with NaN placed above, all are *)
Theorem C91_order : forall acos cos sin, OrdArith (FT acos cos sin) /\
  (forall a b : double, is_nan a = false -> is_nan b = false ->
     nleb (Arith:=FT acos cos sin) a b = nleb (Arith:=FA acos cos sin) a b /\
     nltb (Arith:=FT acos cos sin) a b = nltb (Arith:=FA acos cos sin) a b /\
     neqb (Arith:=FT acos cos sin) a b = neqb (Arith:=FA acos cos sin) a b) /\
  (forall a b : double, is_finite a = true -> is_finite b = true ->
     (nleb (Arith:=FA acos cos sin) a b = true <-> (value a <= value b)%R)).
Proof.
  intros acos cos sin. split; [apply FT_ord|]. split; [exact F_order_same|].
  intros a b HA HB. cbn [FA nleb]. rewrite Bleb_correct by assumption. destruct (Rle_bool_spec (B2R a) (B2R b)); unfold value; split; intros; try lra; congruence.
Qed.
Print Assumptions C91_order.

(** so the theorems for every ordered arithmetic are about doubles too; for example the clock of the event loop (C31) *)
Theorem C91_clock : forall acos cos sin (E : Env (FT acos cos sin)), (forall t u : nat, addr (A:=FT acos cos sin) t = addr (A:=FT acos cos sin) u -> t = u) ->
  forall s s0 now tr s', fresh (A:=FT acos cos sin) s -> started s s0 -> reach s0 now tr s' ->
  StronglySorted (fun a b => F_leb a b = true) (F_lit 0 :: map h_time tr ++ [now]) /\
  (forall e, In e (queue s') -> F_leb now (ev_time (es s' e)) = true).
Proof.
  intros acos cos sin E inj s s0 now tr s' F S R. destruct (C31_clock (FT acos cos sin) E (FT_ord acos cos sin) inj s s0 now tr s' F S R) as (H1 & H2 & _).
  split; [exact H1|exact H2].
Qed.
Print Assumptions C91_clock.

Section Doubles.
  Context (acos cos sin : double -> double).
  Let A := FA acos cos sin.
  #[local] Existing Instance A.

  Lemma F_lit_0 : F_lit 0 = (B754_zero false : double). Proof. reflexivity. Qed.
  Lemma sub_nan_l (x : double) : F_sub nan x = nan. Proof. destruct x; reflexivity. Qed.
  Lemma sub_nan_r (x : double) : F_sub x nan = nan. Proof. destruct x; reflexivity. Qed.
  Lemma leb_nan_l (x : double) : Bleb nan x = false. Proof. destruct x; reflexivity. Qed.

  (** NaN is close to nothing (calc.py 84-86), whatever the tolerances *)
  Theorem C91_nan : forall (x rel abs : double) m, m <> MUnknown -> Bltb rel (F_lit 0) = false -> Bltb abs (F_lit 0) = false ->
    is_close (A:=A) nan x rel abs m = Ok false /\ is_close (A:=A) x nan rel abs m = Ok false.
  Proof.
    intros x rel abs m HM H1 H2. split.
    - unfold is_close. cbn [A FA nltb neqb nleb nabs nsub]. change (n0 (A:=A)) with (F_lit 0). rewrite H1, H2.
      change (Beqb nan x) with (match x with _ => false end). replace (match x with _ => false end) with false by (destruct x; reflexivity).
      rewrite sub_nan_r. change (Babs nan) with nan. rewrite !leb_nan_l. destruct m; try reflexivity; congruence.
    - unfold is_close. cbn [A FA nltb neqb nleb nabs nsub]. change (n0 (A:=A)) with (F_lit 0). rewrite H1, H2.
      replace (Beqb x nan) with false by (destruct x as [?|[]| |[]]; reflexivity).
      rewrite sub_nan_l. change (Babs nan) with nan. rewrite !leb_nan_l. destruct m; try reflexivity; congruence.
  Qed.

  (** an infinity is close to every number that is not NaN, also to the other infinity *)
  Theorem C91_infinite : forall (x rel abs : double) s, is_nan x = false -> is_nan abs = false -> is_finite rel = true -> (0 < value rel)%R ->
    Bltb abs (F_lit 0) = false -> is_close (A:=A) (infinity s) x rel abs MWeak = Ok true /\ is_close (A:=A) x (infinity s) rel abs MWeak = Ok true.
  Proof.
    intros x rel abs s NX NA FR PR HA.
    assert (HR : exists m e H, rel = B754_finite false m e H).
    { destruct rel as [?|?| |[] m e H]; cbn in *; try discriminate; try lra; [|eauto].
      exfalso. unfold value in PR. cbn in PR. pose proof (F2R_lt_0 radix2 (Float radix2 (Zneg m) e) eq_refl). lra. }
    destruct HR as (m & e & H & ->). clear FR PR.
    unfold is_close. cbn [A FA nltb neqb nleb nabs nsub nmul]. change (n0 (A:=A)) with (F_lit 0). rewrite HA, F_lit_0.
    destruct x as [t|t| |t mx ex Hx]; try discriminate; destruct s; try destruct t; split; try reflexivity.
    all: cbn [Bltb SFltb SFcompare B2SF orb];
      match goal with |- context [Bleb ?d (Babs (F_mul ?r (B754_infinity ?b)))] =>
        replace (Bleb d (Babs (F_mul r (B754_infinity b)))) with true by reflexivity end.
    all: rewrite ?orb_true_l, ?orb_true_r; reflexivity.
  Qed.
  Theorem C91_only_themselves_refuted :
    exists x : double, is_finite x = true /\ is_close (A:=A) (infinity false) x (F_lit (1#1000000000)) (F_lit 0) MWeak = Ok true /\
      near_zero (A:=A) (infinity false) = true.
  Proof. exists (F_lit 0). vm_compute. repeat split. Qed.

  (** the value of a double with negative exponent *)
  Lemma value_parts (x : double) b m k : B2SF x = S754_finite b m (Zneg k) -> value x = (IZR (if b then Zneg m else Zpos m) / IZR (2 ^ Zpos k))%R.
  Proof.
    intros H. unfold value. rewrite <- SF2R_B2SF, H. cbn [SF2R]. unfold F2R. cbn [Fnum Fexp cond_Zopp].
    change (Zneg k) with (- Zpos k)%Z. rewrite bpow_opp. rewrite <- IZR_Zpower by discriminate. unfold Rdiv. destruct b; reflexivity.
  Qed.
  Lemma rel_small : (0 < value (F_lit (1 # 1000000000000)) <= / 4)%R.
  Proof.
    rewrite (value_parts (F_lit (1 # 1000000000000)) false 4951760157141521 92) by (vm_compute; reflexivity).
    change (2 ^ 92)%Z with 4951760157141521099596496896%Z. lra.
  Qed.
  Lemma tol_large : (/ 100000000000 < value (F_lit (1 # 10000000000)))%R.
  Proof.
    rewrite (value_parts (F_lit (1 # 10000000000)) false 7737125245533627 86) by (vm_compute; reflexivity).
    change (2 ^ 86)%Z with 77371252455336267181195264%Z. lra.
  Qed.
  (** the rounded product with a factor of at most a quarter is smaller *)
  Lemma scaled_less (rel v : double) : is_finite rel = true -> is_finite v = true -> (0 < value rel <= / 4)%R -> (/ 100000000000 < Rabs (value v))%R ->
    is_finite (F_mul rel v) = true /\ (Rabs (value (F_mul rel v)) < Rabs (value v))%R.
  Proof.
    intros FR FV RS VL. unfold value in *.
    assert (G : generic_format radix2 (SpecFloat.fexp 53 1024) (Rabs (B2R v) * bpow radix2 (-1))).
    { apply (Mult_error.mult_bpow_exact_FLT radix2 (-1074) 53); [apply generic_format_abs, generic_format_B2R|].
      assert (M : (-40 <= mag radix2 (Rabs (B2R v)))%Z).
      { apply mag_ge_bpow. rewrite Rabs_Rabsolu. apply Rlt_le. eapply Rle_lt_trans; [|exact VL].
        change (bpow radix2 (-40 - 1)) with (bpow radix2 (- (41))). rewrite bpow_opp, <- IZR_Zpower by discriminate. change (radix2 ^ 41)%Z with 2199023255552%Z. lra. }
      lia. }
    assert (B : (Rabs (round radix2 (SpecFloat.fexp 53 1024) (round_mode mode_NE) (B2R rel * B2R v)) <= Rabs (B2R v) * bpow radix2 (-1))%R).
    { apply abs_round_le_generic; [apply fexp_correct, prec_53|apply valid_rnd_round_mode|exact G|].
      rewrite Rabs_mult, (Rabs_pos_eq (B2R rel)) by lra. change (bpow radix2 (-1)) with (/ 2)%R. pose proof (Rabs_pos (B2R v)). nra. }
    change (bpow radix2 (-1)) with (/ 2)%R in B.
    pose proof (Bmult_correct 53 1024 _ _ mode_NE rel v) as C. rewrite Rlt_bool_true in C.
    - destruct C as (C1 & C2 & _). unfold F_mul. rewrite C1, C2, FR, FV. split; [reflexivity|]. pose proof (Rabs_pos (B2R v)). lra.
    - eapply Rle_lt_trans; [exact B|]. pose proof (abs_B2R_lt_emax 53 1024 v). pose proof (Rabs_pos (B2R v)). lra.
  Qed.
  (** near_zero, for finite numbers, is exactly the comparison with the double next to 1e-10 *)
  Theorem C91_near_zero : forall v : double, is_finite v = true ->
    (near_zero (A:=A) v = true <-> (Rabs (value v) <= value (F_lit (1 # 10000000000)))%R).
  Proof.
    intros v FV. unfold near_zero. cbn [A FA nltb neqb nleb nabs nsub nmul lit]. rewrite F_lit_0.
    assert (RZ : Babs (F_mul (F_lit (1 # 1000000000000)) (B754_zero false)) = B754_zero false) by reflexivity.
    rewrite RZ. clear RZ.
    assert (FR : is_finite (F_lit (1 # 1000000000000)) = true) by reflexivity.
    assert (FT' : is_finite (F_lit (1 # 10000000000)) = true) by reflexivity.
    pose proof rel_small as RS. pose proof tol_large as TL.
    generalize dependent (F_lit (1 # 1000000000000)). generalize dependent (F_lit (1 # 10000000000)). intros tol FTo TL rel FR RS.
    destruct v as [b|b| |b m e H] eqn:EV; try discriminate.
    { split; [intros _|reflexivity]. unfold value in *. cbn [B2R]. rewrite Rabs_R0. lra. }
    replace (Beqb (B754_finite b m e H) (B754_zero false)) with false by (destruct b; reflexivity).
    change (F_sub (B754_zero false) (B754_finite b m e H)) with (Bopp (B754_finite b m e H)).
    assert (NZ : value v <> 0%R).
    { rewrite EV. unfold value. cbn [B2R]. intros Q. apply eq_0_F2R in Q. destruct b; discriminate. }
    rewrite <- EV in *. clear EV.
    assert (D0 : is_finite (Babs (Bopp v)) = true) by (rewrite is_finite_Babs, is_finite_Bopp; assumption).
    assert (D1 : value (Babs (Bopp v)) = Rabs (value v)) by (unfold value; rewrite B2R_Babs, B2R_Bopp, Rabs_Ropp; reflexivity).
    rewrite (Bleb_correct _ _ (Babs (Bopp v)) (B754_zero false)) by (assumption || reflexivity).
    rewrite (Bleb_correct _ _ (Babs (Bopp v)) tol) by assumption.
    fold (value (Babs (Bopp v))). fold (value tol). rewrite D1. cbn [B2R].
    pose proof (Rabs_pos_lt _ NZ) as PV. rewrite (Rle_bool_false (Rabs (value v)) 0) by exact PV. cbn [orb].
    destruct (Rle_bool_spec (Rabs (value v)) (value tol)) as [L|L]; [rewrite orb_true_r; tauto|]. rewrite orb_false_r.
    split; [|intros; lra]. intros K. exfalso.
    destruct (scaled_less rel v) as [F1 F2]; [assumption|assumption|lra|lra|].
    rewrite Bleb_correct in K; [|assumption|rewrite is_finite_Babs; assumption].
    rewrite !B2R_Babs, B2R_Bopp, Rabs_Ropp in K. fold (value v) (value (F_mul rel v)) in K.
    destruct (Rle_bool_spec (Rabs (value v)) (Rabs (value (F_mul rel v)))); [lra|discriminate].
  Qed.

  (** find_gt gives no NaN; find_gte does, if there is only a NaN to choose from *)
  Theorem C91_find_gt : forall a (x v : double), find_gt (A:=A) a x = Some v -> is_nan v = false.
  Proof.
    intros a x v H. unfold find_gt in H. apply find_some in H. destruct H as [_ H]. cbn [A FA nltb] in H.
    destruct v; try reflexivity. unfold Bltb, SFltb, SFcompare in H. cbn in H. destruct x as [?|[]| |[]]; discriminate.
  Qed.
  Theorem C91_find_gte_refuted : forall x : double, find_gte (A:=A) [Some nan] x = Some nan.
  Proof. intros x. destruct x; reflexivity. Qed.
End Doubles.
Print Assumptions C91_nan.
Print Assumptions C91_infinite.
Print Assumptions C91_only_themselves_refuted.
Print Assumptions C91_near_zero.
Print Assumptions C91_find_gt.
Print Assumptions C91_find_gte_refuted.

(** ** C92: coordinates in doubles *)
Definition finite2 (p : double * double) : Prop := is_finite (fst p) = true /\ is_finite (snd p) = true.
Definition le2 (p q : double * double) : Prop := (value (fst p) <= value (fst q))%R /\ (value (snd p) <= value (snd q))%R.
(** a finite quotient of a difference is the difference rounded, divided and rounded *)
Lemma quotient_value (a c s : double) : is_finite a = true -> is_finite c = true -> (0 < value s)%R -> is_finite (F_div (F_sub a c) s) = true ->
  value (F_div (F_sub a c) s) =
  round radix2 (SpecFloat.fexp 53 1024) (round_mode mode_NE) (round radix2 (SpecFloat.fexp 53 1024) (round_mode mode_NE) (value a - value c) / value s).
Proof.
  intros HA HC HS HF. unfold value, F_div, F_sub in *.
  assert (NF : forall x : double, is_finite x = true -> forall b, B2SF x = binary_overflow 53 1024 mode_NE b -> False).
  { intros x FX b Q. destruct x; cbn in *; discriminate. }
  pose proof (Bdiv_correct 53 1024 _ _ mode_NE (Bminus mode_NE a c) s ltac:(lra)) as D.
  destruct (Rlt_bool _ _) in D; [|destruct (NF _ HF _ D)].
  destruct D as (D1 & D2 & _). rewrite D1. rewrite D2 in HF.
  pose proof (Bminus_correct 53 1024 _ _ mode_NE a c HA HC) as M.
  destruct (Rlt_bool _ _) in M; [|destruct M as [M _]; destruct (NF _ HF _ M)].
  destruct M as (M1 & _). rewrite M1. reflexivity.
Qed.
Lemma quotient_monotone (a b c s : double) : is_finite a = true -> is_finite b = true -> is_finite c = true -> (0 < value s)%R ->
  is_finite (F_div (F_sub a c) s) = true -> is_finite (F_div (F_sub b c) s) = true -> (value a <= value b)%R ->
  (value (F_div (F_sub a c) s) <= value (F_div (F_sub b c) s))%R.
Proof.
  intros HA HB HC HS FA' FB L. rewrite !quotient_value by assumption.
  assert (V : Valid_exp (SpecFloat.fexp 53 1024)) by (apply fexp_correct, prec_53).
  apply round_le; [exact V|apply valid_rnd_round_mode|].
  unfold Rdiv. apply Rmult_le_compat_r; [apply Rlt_le, Rinv_0_lt_compat, HS|].
  apply round_le; [exact V|apply valid_rnd_round_mode|]. lra.
Qed.

Section Coordinates.
  Context (acos cos sin : double -> double).
  Let A := FA acos cos sin.

  (** shrinking keeps the order of the coordinates *)
  Theorem C92_forward_monotone : forall (t : transform (A:=A)) (p q p' q' : double * double),
    finite2 p -> finite2 q -> finite2 (tr_translate t) -> (0 < value (fst (tr_scale t)))%R -> (0 < value (snd (tr_scale t)))%R ->
    forward (A:=A) t p = Ok p' -> forward (A:=A) t q = Ok q' -> finite2 p' -> finite2 q' -> le2 p q -> le2 p' q'.
  Proof.
    intros t p q p' q' [P1 P2] [Q1 Q2] [T1 T2] S1 S2 HP HQ [P1' P2'] [Q1' Q2'] [L1 L2].
    assert (ST : forall r r', forward (A:=A) t r = Ok r' -> r' = (F_div (F_sub (fst r) (fst (tr_translate t))) (fst (tr_scale t)),
       F_div (F_sub (snd r) (snd (tr_translate t))) (snd (tr_scale t)))).
    { intros r r' H. unfold forward, pdiv in H. destruct (neqb (fst (tr_scale t)) n0); [discriminate|]. cbn [rbind] in H.
      destruct (neqb (snd (tr_scale t)) n0); [discriminate|]. cbn [rbind] in H. injection H as <-. reflexivity. }
    rewrite (ST p p' HP) in *. rewrite (ST q q' HQ) in *. cbn [fst snd] in *.
    split; apply quotient_monotone; assumption.
  Qed.
  (** but not strictly: different points become the same point *)
  Lemma found {X} (m : res X) (f : X -> bool) : match m with Ok x => f x | Err _ => false end = true -> exists x, m = Ok x /\ f x = true.
  Proof. destruct m; [eauto|discriminate]. Qed.
  Definition tiny : double := F_round 1 (-100).
  Theorem C92_distinct_refuted : exists (pts : list (double * double)) b p q r r', get_box (A:=A) pts = Ok b /\ In p pts /\ In q pts /\
    pt_eqb (A:=A) p q = false /\ finite2 p /\ finite2 q /\
    forward (get_transform (A:=A) b) p = Ok r /\ forward (get_transform (A:=A) b) q = Ok r' /\ pt_eqb (A:=A) r r' = true.
  Proof.
    set (p := (F_lit 0, F_lit 0) : double * double). set (q := (tiny, F_lit 0) : double * double).
    exists [p; q; (F_lit 1, F_lit 0); (F_lit 1, F_lit 1)]. eexists. exists p, q.
    assert (N : pt_eqb (A:=A) p q = false) by (vm_compute; reflexivity).
    assert (F1 : finite2 p) by (split; vm_compute; reflexivity). assert (F2 : finite2 q) by (split; vm_compute; reflexivity).
    match goal with |- exists r r', get_box ?l = Ok ?b /\ _ => set (pts := l); assert (B : get_box (A:=A) pts = Ok (fold_left (box_step (A:=A)) (tl pts) (p, p))) by reflexivity end.
    destruct (found (forward (get_transform (A:=A) (fold_left (box_step (A:=A)) (tl pts) (p, p))) p)
      (fun r => match forward (get_transform (A:=A) (fold_left (box_step (A:=A)) (tl pts) (p, p))) q with Ok r' => pt_eqb (A:=A) r r' | Err _ => false end))
      as (r & R1 & R2); [vm_compute; reflexivity|].
    destruct (forward (get_transform (A:=A) (fold_left (box_step (A:=A)) (tl pts) (p, p))) q) as [r'|] eqn:R3; [|discriminate]. exists r, r'.
    split; [exact B|]. split; [left; reflexivity|]. split; [right; left; reflexivity|]. do 5 (split; [assumption|]). assumption.
  Qed.
  (** and the shrunk points need not lie between -1 and 1, as they do in exact arithmetic *)
  Theorem C92_unit_box_refuted : exists (pts : list (double * double)) b p r, get_box (A:=A) pts = Ok b /\ In p pts /\
    forward (get_transform (A:=A) b) p = Ok r /\ nltb (Arith:=A) (fst r) (F_lit (-1)) = true.
  Proof.
    set (p := (F_lit (63#10), F_lit 0) : double * double). exists [p; (F_lit (97#10), F_lit 0); (F_lit 7, F_lit 1)]. eexists. exists p.
    match goal with |- exists r, get_box ?l = Ok ?b /\ _ => set (pts := l); assert (B : get_box (A:=A) pts = Ok (fold_left (box_step (A:=A)) (tl pts) (p, p))) by reflexivity end.
    destruct (found (forward (get_transform (A:=A) (fold_left (box_step (A:=A)) (tl pts) (p, p))) p) (fun r => nltb (Arith:=A) (fst r) (F_lit (-1))))
      as (r & R1 & R2); [vm_compute; reflexivity|].
    exists r. split; [exact B|]. split; [left; reflexivity|]. auto.
  Qed.
  (** nor does shrinking and enlarging again give the point back *)
  Theorem C92_back_refuted : exists (pts : list (double * double)) b p r, get_box (A:=A) pts = Ok b /\ In p pts /\
    forward (get_transform (A:=A) b) p = Ok r /\ pt_eqb (A:=A) (backward (get_transform (A:=A) b) r) p = false.
  Proof.
    set (p := (F_lit (12#10), F_lit 0) : double * double). exists [p; (F_lit (71#10), F_lit 0); (F_lit 7, F_lit 1)]. eexists. exists p.
    match goal with |- exists r, get_box ?l = Ok ?b /\ _ => set (pts := l); assert (B : get_box (A:=A) pts = Ok (fold_left (box_step (A:=A)) (tl pts) (p, p))) by reflexivity end.
    destruct (found (forward (get_transform (A:=A) (fold_left (box_step (A:=A)) (tl pts) (p, p))) p)
      (fun r => negb (pt_eqb (A:=A) (backward (get_transform (A:=A) (fold_left (box_step (A:=A)) (tl pts) (p, p))) r) p)))
      as (r & R1 & R2); [vm_compute; reflexivity|].
    exists r. split; [exact B|]. split; [left; reflexivity|]. apply negb_true_iff in R2. auto.
  Qed.
  (** two different points do not always have a wavefront: the square of their distance can round to 0; and if it overflows,
      the unit normal of the wavefront is the zero vector *)
  Definition small : double := F_round 1 (-700).
  Definition huge : double := F_round 1 700.
  Theorem C92_wavefront_refuted :
    (exists p q : double * double, finite2 p /\ finite2 q /\ pt_eqb (A:=A) p q = false /\ WaveFront (A:=A) p q None = Err ZeroDivisionError) /\
    (exists (p q : double * double) w, finite2 p /\ finite2 q /\ pt_eqb (A:=A) p q = false /\ WaveFront (A:=A) p q None = Ok w /\
       pt_eqb (A:=A) (lw (wf_line w)) (F_lit 0, F_lit 0) = true).
  Proof.
    split.
    - exists (F_lit 0, F_lit 0), (small, small). do 2 (split; [split; vm_compute; reflexivity|]). split; [vm_compute; reflexivity|].
      assert (K : match WaveFront (A:=A) (F_lit 0, F_lit 0) (small, small) None with Err ZeroDivisionError => true | _ => false end = true)
        by (vm_compute; reflexivity).
      destruct (WaveFront (A:=A) (F_lit 0, F_lit 0) (small, small) None) as [|[]]; try discriminate. reflexivity.
    - exists (F_lit 0, F_lit 0), (huge, huge).
      destruct (found (WaveFront (A:=A) (F_lit 0, F_lit 0) (huge, huge) None) (fun w => pt_eqb (A:=A) (lw (wf_line w)) (F_lit 0, F_lit 0)))
        as (w & W1 & W2); [vm_compute; reflexivity|].
      exists w. do 2 (split; [split; vm_compute; reflexivity|]). split; [vm_compute; reflexivity|]. auto.
  Qed.
End Coordinates.
Print Assumptions C92_forward_monotone.
Print Assumptions C92_distinct_refuted.
Print Assumptions C92_unit_box_refuted.
Print Assumptions C92_back_refuted.
Print Assumptions C92_wavefront_refuted.

(** the assertions of calc_skel about the coordinates cannot fail when the input is shrunk: in doubles the shrunk coordinates can
    leave [-1, 1] (C92_unit_box_refuted), but never [-2, 2].  [moderate x]: finite and at most 2^1000 in size; [apart pts]: two
    points differ by 2^-1000 or more in x or in y *)
Theorem C92_assertion : forall (acos cos sin : double -> double) (E : Env (FA acos cos sin)) triangulate (points : list (double * double)) io,
  (* the vertices of the triangulation are the given points *)
  (forall pts d, triangulate pts = Ok d -> forall v, v < dt_nv d -> In (dv_pos (dt_v d v)) pts) ->
  (forall p, In p points -> moderate (fst p) /\ moderate (snd p)) -> apart points ->
  calc_skel (A:=FA acos cos sin) triangulate points true io = calc_skel_with (A:=FA acos cos sin) (fun _ => Ok tt) triangulate points true io /\
  forall (pts : list (double * double)) tr, shrunk (A:=FA acos cos sin) points true tr pts ->
    forall p, In p pts -> finite2 p /\ (-2 <= value (fst p) <= 2 /\ -2 <= value (snd p) <= 2)%R.
Proof.
  intros acos cos sin E tri points io TV MO AP. set (A := FA acos cos sin) in *.
  assert (SQ : forall (pts : list (double * double)) tr, shrunk (A:=A) points true tr pts ->
    forall p, In p pts -> finite2 p /\ (-2 <= value (fst p) <= 2 /\ -2 <= value (snd p) <= 2)%R).
  { intros pts tr (box & B & _ & F) q Hq.
    assert (exists p, In p points /\ forward (get_transform (A:=A) box) p = Ok q) as (p & Hp & FP).
    { clear - F Hq. induction F as [|p q' l l' F1 F2 IH]; [destruct Hq|]. destruct Hq as [<-|Hq]; [exists p; simpl; auto|].
      destruct (IH Hq) as (p' & H1 & H2). exists p'. simpl. auto. }
    destruct (scaled_within acos cos sin points box p q MO AP B Hp FP) as [[K1 K2] [K3 K4]]. split; [split; assumption|split; assumption]. }
  split; [|exact SQ].
  assert (M : forall pts d s0 tr, shrunk (A:=A) points true tr pts -> tri pts = Ok d -> init_skeleton d = Ok s0 ->
    check_starts (start_of io s0) = Ok tt).
  { intros pts d s0 tr SH T HI. pose proof (init_starts d s0 HI) as IS.
    destruct (start_heap io s0) as (P1 & P2 & _).
    destruct (check_starts_spec (start_of io s0) (fun k => k_origin (vs s0 k))) as [_ CB].
    + intros k Hk. apply start_vertices in Hk. destruct (IS k Hk) as (v & n & L & K1 & K2 & K3 & K4 & _).
      rewrite P1, P2. split; [exact K4|]. exists n. split; [exact K1|]. congruence.
    + apply CB. intros k Hk. apply start_vertices in Hk. destruct (IS k Hk) as (v & n & L & _ & _ & K3 & _). rewrite K3.
      pose proof (SQ pts tr SH _ (TV _ _ T v L)) as ([F1 F2] & B1 & B2).
      destruct (two_ok acos cos sin) as [TF TV']. fold A in TF, TV'.
      assert (OF : is_finite (nopp (Arith:=A) (n2 (A:=A))) = true) by (vm_compute; reflexivity).
      assert (OV : value (nopp (Arith:=A) (n2 (A:=A))) = (-2)%R).
      { change (nopp (Arith:=A) (n2 (A:=A))) with (Bopp (n2 (A:=A))). unfold value. rewrite B2R_Bopp. unfold value in TV'. rewrite TV'. lra. }
      assert (LE : forall x y : double, is_finite x = true -> is_finite y = true -> (value x <= value y)%R -> nleb (Arith:=A) x y = true).
      { intros x y FX FY L'. change (nleb (Arith:=A) x y) with (Bleb x y). rewrite leb_value by assumption. apply Rle_bool_true, L'. }
      destruct B1 as [B1 B1'], B2 as [B2 B2'].
      split; [apply LE; [exact OF|exact F1|rewrite OV; exact B1]|]. split; [apply LE; [exact F1|exact TF|rewrite TV'; exact B1']|].
      split; [apply LE; [exact OF|exact F2|rewrite OV; exact B2]|]. apply LE; [exact F2|exact TF|rewrite TV'; exact B2']. }
  unfold calc_skel, calc_skel_with.
  destruct (get_box (A:=A) points) as [box|] eqn:B; [|reflexivity]. cbn [rbind].
  destruct (rmapl (forward (get_transform (A:=A) box)) points) as [pts|] eqn:F; [|reflexivity]. cbn [rbind].
  destruct (tri pts) as [d|] eqn:T; [|reflexivity]. cbn [rbind].
  destruct (init_skeleton d) as [s0|] eqn:HI; [|reflexivity]. cbn [rbind].
  pose proof (M pts d s0 (Some (get_transform (A:=A) box))) as CK.
  assert (SH : shrunk (A:=A) points true (Some (get_transform (A:=A) box)) pts).
  { exists box. split; [exact B|]. split; [reflexivity|]. apply rmapl_all, F. }
  specialize (CK SH T HI). unfold start_of in CK. destruct io; cbn [fst] in *; rewrite CK; reflexivity.
Qed.
Print Assumptions C92_assertion.

(** ** Concrete cases *)
(** acos, cos and sin as the double next to a rational approximation; the orientation predicate is the exact determinant, rounded *)
Definition F_value (x : double) : Q :=
  let (v, e) := F_parts x in match e with Zneg k => Qred (v # Pos.pow 2 k) | _ => inject_Z (v * 2 ^ e) end.
Definition dnear (q : Q) : double := F_round (to_fixed q) (-64).
Definition DA : Arith := FA (fun x => dnear (Qacos (F_value x))) (fun x => dnear (Qcos (F_value x))) (fun x => dnear (Qsin (F_value x))).
Definition det_exact (p q r : double * double) : double :=
  let d a b := dy_add (F_parts a) (dy_opp (F_parts b)) in
  let v := dy_add (dy_mul (d (fst p) (fst r)) (d (snd q) (snd r))) (dy_opp (dy_mul (d (snd p) (snd r)) (d (fst q) (fst r)))) in
  F_round (fst v) (snd v).
Definition DE : Env DA := Build_Env DA (fun t => Z.of_nat t) det_exact 100%nat.

Example C91_nan_case : is_close (A:=DA) (F_lit 3) nan (F_lit (1#10)) (F_lit 1) MAverage = Ok false /\
  near_zero (A:=DA) (F_lit (1 # 10000000000)) = true /\ near_zero (A:=DA) (Bsucc (F_lit (1 # 10000000000))) = false.
Proof. vm_compute. auto. Qed.
Example C91_infinite_case : is_close (A:=DA) (infinity false) (infinity true) (F_lit (1#1000000000)) (F_lit 0) MWeak = Ok true /\
  Bltb (F_lit 0) (F_lit (1#1000000000)) = true.
Proof. vm_compute. auto. Qed.
Example C91_find_gt_case : match find_gt (A:=DA) [Some (F_lit 1); None; Some nan; Some (F_lit 3)] (F_lit 2) with Some v => Beqb v (F_lit 3) | None => false end = true.
Proof. vm_compute. reflexivity. Qed.
Example C92_forward_case : match forward (get_transform (A:=DA) ((F_lit (63#10), F_lit 0), (F_lit (97#10), F_lit 1))) (F_lit 7, F_lit (1#2)) with
  | Ok r => Bltb (F_lit (-1)) (fst r) && is_finite (fst r) | Err _ => false end = true.
Proof. vm_compute. reflexivity. Qed.

(** the hypotheses of C92_assertion: the triangle with sides 3, 4, 5; its skeleton is computed below *)
Definition tri_D (pts : list (double * double)) : res (dtriang (A:=DA)) := match pts with [_; _; _] => tri_of (A:=DA) pts | _ => Err ValueError end.
Lemma tri_D_points pts d : tri_D pts = Ok d -> forall v, v < dt_nv d -> In (dv_pos (dt_v d v)) pts.
Proof.
  destruct pts as [|p [|q [|r [|]]]]; try discriminate. intros H. unfold tri_D, tri_of in H. apply Ok_inj in H. subst d. cbn [dt_nv dt_v]. intros v L.
  destruct v as [|[|[|v]]]; cbn [nth dv_pos In]; auto. lia.
Qed.
Lemma four_value : value (F_lit 4) = 4%R.
Proof. rewrite (value_parts (F_lit 4) false 4503599627370496 50) by (vm_compute; reflexivity). change (2 ^ Z.pos 50)%Z with 1125899906842624%Z. lra. Qed.
Lemma three_value : value (F_lit 3) = 3%R.
Proof. rewrite (value_parts (F_lit 3) false 6755399441055744 51) by (vm_compute; reflexivity). change (2 ^ Z.pos 51)%Z with 2251799813685248%Z. lra. Qed.
Lemma zero_value : value (F_lit 0) = 0%R.
Proof. reflexivity. Qed.
Example C92_assertion_case : let points := [(F_lit 0, F_lit 0); (F_lit 4, F_lit 0); (F_lit 0, F_lit 3)] in
  (forall pts d, tri_D pts = Ok d -> forall v, v < dt_nv d -> In (dv_pos (dt_v d v)) pts) /\
  (forall p, In p points -> moderate (fst p) /\ moderate (snd p)) /\ apart points /\
  match @calc_skel DA DE tri_D points true false with Ok _ => true | Err _ => false end = true.
Proof.
  cbv zeta. split; [exact tri_D_points|].
  assert (B : forall e : Z, (0 <= e)%Z -> (1 <= bpow radix2 e)%R) by (intros e L; change 1%R with (bpow radix2 0); apply bpow_le, L).
  assert (B3 : (8 <= bpow radix2 1000)%R) by (change 8%R with (bpow radix2 3); apply bpow_le; discriminate).
  assert (M0 : moderate (F_lit 0)) by (split; [vm_compute; reflexivity|rewrite zero_value, Rabs_R0; lra]).
  assert (M4 : moderate (F_lit 4)) by (split; [vm_compute; reflexivity|rewrite four_value, Rabs_pos_eq; lra]).
  assert (M3 : moderate (F_lit 3)) by (split; [vm_compute; reflexivity|rewrite three_value, Rabs_pos_eq; lra]).
  split; [intros p [<-|[<-|[<-|[]]]]; split; assumption|]. split; [|vm_compute; reflexivity].
  exists (F_lit 0, F_lit 0), (F_lit 4, F_lit 0). split; [left; reflexivity|]. split; [right; left; reflexivity|]. left. cbn [fst snd].
  rewrite zero_value, four_value. assert (bpow radix2 (-1000) <= bpow radix2 0)%R by (apply bpow_le; discriminate). change (bpow radix2 0) with 1%R in H. lra.
Qed.

(** runs of calc_skel in doubles: the arcs, and how far the nodes are from where they should be *)
Definition close_to (e : Q) (p : double * double) (q : Q * Q) : bool :=
  Qle_bool (Qabs (F_value (fst p) - fst q)%Q) e && Qle_bool (Qabs (F_value (snd p) - snd q)%Q) e.
Fixpoint forallb2 {X Y} (f : X -> Y -> bool) (l : list X) (m : list Y) : bool :=
  match l, m with [], [] => true | x :: l, y :: m => f x y && forallb2 f l m | _, _ => false end.
Definition run_doubles (dt : list (double * double) -> res (dtriang (A:=DA))) (pts : list (Q * Q)) (arcs : list (nat * nat)) (nodes : list (Q * Q)) (e : Q) : bool :=
  match @calc_skel DA DE dt (map (fun p => (F_lit (fst p), F_lit (snd p))) pts) true true with
  | Ok (s, Some tr) =>
      forallb2 (fun v a => match k_start_node (vs s v), k_stop_node (vs s v) with Some m, Some n => Nat.eqb m (fst a) && Nat.eqb n (snd a) | _, _ => false end)
        (sk_vertices s) arcs &&
      forallb2 (fun n q => close_to e (backward tr (sn_pos (ns s n))) q) (sk_nodes s) nodes
  | _ => false
  end.
(** the triangle with sides 3, 4, 5; the rectangle of size 3 x 2, turned; the square; a quadrilateral *)
Example C92_run_triangle : run_doubles (tri_of (A:=DA)) [(0, 0); (4, 0); (0, 3)]%Q [(0, 3); (1, 3); (2, 3)]%nat
  [(0, 0); (4, 0); (0, 3); (1, 1)]%Q (1 # 1000000000000000) = true.
Proof. vm_compute. reflexivity. Qed.
Example C92_run_rectangle : run_doubles (quad_of (A:=DA)) [(0, 0); (24#10, 18#10); (12#10, 34#10); (-12#10, 16#10)]%Q
  [(0, 4); (1, 5); (2, 5); (3, 4); (4, 5)]%nat
  [(0, 0); (24#10, 18#10); (12#10, 34#10); (-12#10, 16#10); (2#10, 14#10); (1, 2)]%Q (1 # 1000000000000000) = true.
Proof. vm_compute. reflexivity. Qed.
Example C92_run_square : run_doubles (quad_of (A:=DA)) [(0, 0); (4, 1); (3, 5); (-1, 4)]%Q
  [(0, 4); (1, 4); (2, 4); (3, 4)]%nat [(0, 0); (4, 1); (3, 5); (-1, 4); (3#2, 5#2)]%Q (1 # 1000000000000000) = true.
Proof. vm_compute. reflexivity. Qed.
