(** Bounds for shrunk coordinates in IEEE doubles. *)
From Coq Require Import Reals Lra.
From Verif Require Import Base Arith ArithF Transform VectorOps.
From Flocq Require Import Core.Core IEEE754.BinarySingleNaN.
From Flocq Require Mult_error.
Local Open Scope R_scope.

Definition value (x : double) : R := B2R x.
Definition rnd (x : R) : R := round radix2 (SpecFloat.fexp 53 1024) (round_mode mode_NE) x.
Definition fmt (x : R) : Prop := generic_format radix2 (SpecFloat.fexp 53 1024) x.
#[global] Instance valid_64 : Valid_exp (SpecFloat.fexp 53 1024) := fexp_correct 53 1024 prec_53.
Lemma rnd_le x y : x <= y -> rnd x <= rnd y.
Proof. apply round_le; [apply valid_64|apply valid_rnd_round_mode]. Qed.
Lemma rnd_id x : fmt x -> rnd x = x.
Proof. apply round_generic. apply valid_rnd_round_mode. Qed.
Lemma rnd_opp x : rnd (- x) = - rnd x.
Proof. apply round_NE_opp. Qed.
Lemma fmt_value (x : double) : fmt (value x). Proof. apply generic_format_B2R. Qed.
Lemma fmt_double x : fmt x -> fmt (2 * x).
Proof. intros F. rewrite Rmult_comm. change 2 with (bpow radix2 1). apply (Mult_error.mult_bpow_pos_exact_FLT radix2 (-1074) 53); [exact F|discriminate]. Qed.
Lemma fmt_half x : fmt x -> bpow radix2 (-1001) <= Rabs x -> fmt (x / 2).
Proof.
  intros F L. change (x / 2) with (x * bpow radix2 (-1)). apply (Mult_error.mult_bpow_exact_FLT radix2 (-1074) 53); [exact F|].
  assert (-1000 <= mag radix2 x)%Z by (apply mag_ge_bpow; exact L). lia.
Qed.
Lemma fmt_bpow e : (-1074 <= e)%Z -> fmt (bpow radix2 e).
Proof. intros H. apply generic_format_bpow. unfold SpecFloat.fexp, SpecFloat.emin. lia. Qed.
Lemma rnd_bounded x e : (-1074 <= e)%Z -> Rabs x <= bpow radix2 e -> Rabs (rnd x) <= bpow radix2 e.
Proof. intros H L. apply abs_round_le_generic; [apply valid_64|apply valid_rnd_round_mode|apply fmt_bpow, H|exact L]. Qed.
Lemma rnd_small x : Rabs x <= bpow radix2 1010 -> Rlt_bool (Rabs (rnd x)) (bpow radix2 1024) = true.
Proof.
  intros L. apply Rlt_bool_true. eapply Rle_lt_trans; [apply (rnd_bounded x 1010); [discriminate|exact L]|]. apply bpow_lt. reflexivity.
Qed.
Lemma add_value (x y : double) : is_finite x = true -> is_finite y = true -> Rabs (value x + value y) <= bpow radix2 1010 ->
  value (F_add x y) = rnd (value x + value y) /\ is_finite (F_add x y) = true.
Proof.
  intros FX FY L. pose proof (Bplus_correct 53 1024 _ _ mode_NE x y FX FY) as H. pose proof (rnd_small _ L) as K. unfold value, rnd in *. rewrite K in H.
  destruct H as (H1 & H2 & _). auto.
Qed.
Lemma sub_value (x y : double) : is_finite x = true -> is_finite y = true -> Rabs (value x - value y) <= bpow radix2 1010 ->
  value (F_sub x y) = rnd (value x - value y) /\ is_finite (F_sub x y) = true.
Proof.
  intros FX FY L. pose proof (Bminus_correct 53 1024 _ _ mode_NE x y FX FY) as H. pose proof (rnd_small _ L) as K. unfold value, rnd in *. rewrite K in H.
  destruct H as (H1 & H2 & _). auto.
Qed.
Lemma mul_value (x y : double) : is_finite x = true -> is_finite y = true -> Rabs (value x * value y) <= bpow radix2 1010 ->
  value (F_mul x y) = rnd (value x * value y) /\ is_finite (F_mul x y) = true.
Proof.
  intros FX FY L. pose proof (Bmult_correct 53 1024 _ _ mode_NE x y) as H. pose proof (rnd_small _ L) as K. unfold value, rnd in *. rewrite K in H.
  destruct H as (H1 & H2 & _). rewrite FX, FY in H2. auto.
Qed.
Lemma div_value (x y : double) : is_finite x = true -> value y <> 0 -> Rabs (value x / value y) <= bpow radix2 1010 ->
  value (F_div x y) = rnd (value x / value y) /\ is_finite (F_div x y) = true.
Proof.
  intros FX NY L. pose proof (Bdiv_correct 53 1024 _ _ mode_NE x y NY) as H. pose proof (rnd_small _ L) as K. unfold value, rnd in *. rewrite K in H.
  destruct H as (H1 & H2 & _). rewrite FX in H2. auto.
Qed.
Lemma pow_step (e : Z) : bpow radix2 (e + 1) = 2 * bpow radix2 e.
Proof. rewrite bpow_plus. change (bpow radix2 1) with 2. ring. Qed.

(** ** One coordinate *)
Section Coordinate.
  Context (lo hi : double) (FL : is_finite lo = true) (FH : is_finite hi = true) (LH : value lo <= value hi).
  Context (ML : Rabs (value lo) <= bpow radix2 1000) (MH : Rabs (value hi) <= bpow radix2 1000).
  Context (half two : double) (HF : is_finite half = true) (HV : value half = / 2) (TF : is_finite two = true) (TV : value two = 2).
  Let c : double := F_mul (F_add lo hi) half.
  Let d : double := F_sub hi lo.
  Let e1001 : bpow radix2 1001 = 2 * bpow radix2 1000 := pow_step 1000.
  Let big : bpow radix2 1001 <= bpow radix2 1010. Proof. apply bpow_le. discriminate. Qed.
  Lemma abs_between a b x m : a <= x <= b -> Rabs a <= m -> Rabs b <= m -> Rabs x <= m.
  Proof. intros [H1 H2] H3 H4. apply Rabs_le. apply Rabs_le_inv in H3. apply Rabs_le_inv in H4. lra. Qed.
  Lemma center_between : value lo <= value c <= value hi /\ is_finite c = true.
  Proof.
    pose proof (Rabs_le_inv _ _ ML) as [L1 L2]. pose proof (Rabs_le_inv _ _ MH) as [H1 H2].
    assert (S' : Rabs (value lo + value hi) <= bpow radix2 1010) by (apply Rabs_le; lra).
    destruct (add_value lo hi FL FH S') as [V F].
    assert (B1 : 2 * value lo <= value (F_add lo hi)).
    { rewrite V, <- (rnd_id (2 * value lo)) by apply fmt_double, fmt_value. apply rnd_le. lra. }
    assert (B2 : value (F_add lo hi) <= 2 * value hi).
    { rewrite V, <- (rnd_id (2 * value hi)) by apply fmt_double, fmt_value. apply rnd_le. lra. }
    assert (P : Rabs (value (F_add lo hi) * value half) <= bpow radix2 1010) by (rewrite HV; apply Rabs_le; lra).
    destruct (mul_value (F_add lo hi) half F HF P) as [V' F']. fold c in V', F'. split; [|exact F'].
    rewrite V', HV. split.
    - rewrite <- (rnd_id (value lo)) by apply fmt_value. apply rnd_le. lra.
    - rewrite <- (rnd_id (value hi)) by apply fmt_value. apply rnd_le. lra.
  Qed.
  Lemma width : value d = rnd (value hi - value lo) /\ is_finite d = true /\ 0 <= value d <= bpow radix2 1001.
  Proof.
    pose proof (Rabs_le_inv _ _ ML) as [L1 L2]. pose proof (Rabs_le_inv _ _ MH) as [H1 H2].
    assert (S' : Rabs (value hi - value lo) <= bpow radix2 1010) by (apply Rabs_le; lra).
    destruct (sub_value hi lo FH FL S') as [V F]. fold d in V, F. split; [exact V|]. split; [exact F|]. rewrite V. split.
    - rewrite <- (rnd_id 0) by apply generic_format_0. apply rnd_le. lra.
    - rewrite <- (rnd_id (bpow radix2 1001)) by (apply fmt_bpow; discriminate). apply rnd_le. lra.
  Qed.
  (** half of the width, rounded: exact unless very small *)
  Lemma half_width : is_finite (F_div d two) = true /\ 0 <= value (F_div d two) /\ (bpow radix2 (-1001) <= value d -> value (F_div d two) = value d / 2).
  Proof.
    destruct width as (V & F & W). assert (P : Rabs (value d / value two) <= bpow radix2 1010) by (rewrite TV; apply Rabs_le; lra).
    assert (N : value two <> 0) by lra. destruct (div_value d two F N P) as [V' F']. rewrite TV in V'. split; [exact F'|]. rewrite V'. split.
    - rewrite <- (rnd_id 0) by apply generic_format_0. apply rnd_le. lra.
    - intros L. apply rnd_id, fmt_half; [apply fmt_value|]. rewrite Rabs_pos_eq; lra.
  Qed.
  (** the shrunk coordinate is between -2 and 2, if the scale is at least half the width *)
  Lemma shrunk_between (x s : double) : is_finite x = true -> value lo <= value x <= value hi -> 0 < value s -> value d <= 2 * value s ->
    is_finite (F_div (F_sub x c) s) = true /\ -2 <= value (F_div (F_sub x c) s) <= 2.
  Proof.
    intros FX [X1 X2] SP W. destruct center_between as [[C1 C2] FC]. destruct width as (V & FD & D0 & D1).
    assert (S' : Rabs (value x - value c) <= bpow radix2 1010).
    { pose proof (Rabs_le_inv _ _ ML). pose proof (Rabs_le_inv _ _ MH). apply Rabs_le. lra. }
    destruct (sub_value x c FX FC S') as [VX FXC].
    assert (B : - value d <= value (F_sub x c) <= value d).
    { rewrite VX, V. split; [rewrite <- rnd_opp|]; apply rnd_le; lra. }
    assert (Q : -2 <= value (F_sub x c) / value s <= 2).
    { split; [apply (Rmult_le_reg_r (value s)); [exact SP|]|apply (Rmult_le_reg_r (value s)); [exact SP|]];
        (replace (value (F_sub x c) / value s * value s) with (value (F_sub x c)) by (field; lra)); lra. }
    assert (P : Rabs (value (F_sub x c) / value s) <= bpow radix2 1).
    { change (bpow radix2 1) with 2. apply Rabs_le. exact Q. }
    assert (P' : Rabs (value (F_sub x c) / value s) <= bpow radix2 1010) by (eapply Rle_trans; [exact P|apply bpow_le; discriminate]).
    destruct (div_value (F_sub x c) s FXC ltac:(lra) P') as [VQ FQ]. split; [exact FQ|]. rewrite VQ.
    apply Rabs_le_inv. change 2 with (bpow radix2 1). apply rnd_bounded; [discriminate|exact P].
  Qed.
End Coordinate.

(** ** The box and the scale *)
Lemma ltb_value (x y : double) : is_finite x = true -> is_finite y = true -> Bltb x y = Rlt_bool (value x) (value y).
Proof. intros FX FY. apply Bltb_correct; assumption. Qed.
Lemma leb_value (x y : double) : is_finite x = true -> is_finite y = true -> Bleb x y = Rle_bool (value x) (value y).
Proof. intros FX FY. apply Bleb_correct; assumption. Qed.

Lemma Ok_inj {T} (a b : T) : Ok a = Ok b -> a = b.
Proof. congruence. Qed.
Section Box.
  Context (acos cos sin : double -> double).
  Let A := FA acos cos sin.
  Definition moderate (x : double) : Prop := is_finite x = true /\ Rabs (value x) <= bpow radix2 1000.
  Definition covers (f : double * double -> double) (lo hi : double) (pts : list (double * double)) : Prop :=
    moderate lo /\ moderate hi /\ forall p, In p pts -> value lo <= value (f p) <= value hi.
  Lemma min_covers (f : double * double -> double) lo hi l p : covers f lo hi l -> moderate (f p) ->
    covers f (if Bltb (f p) lo then f p else lo) (if Bltb hi (f p) then f p else hi) (p :: l) /\ True.
  Proof.
    intros ([F1 M1] & [F2 M2] & C) [F3 M3]. split; [|trivial]. rewrite !ltb_value by assumption.
    destruct (Rlt_bool_spec (value (f p)) (value lo)) as [L|L]; destruct (Rlt_bool_spec (value hi) (value (f p))) as [H|H];
      (split; [split; assumption|]; split; [split; assumption|]); intros q [<-|Q]; try (specialize (C q Q)); lra.
  Qed.
  Lemma box_covers (pts : list (double * double)) : forall seen b, (forall p, In p pts -> moderate (fst p) /\ moderate (snd p)) ->
    covers fst (fst (fst b)) (fst (snd b)) seen -> covers snd (snd (fst b)) (snd (snd b)) seen ->
    let b' := fold_left (box_step (A:=A)) pts b in
    covers fst (fst (fst b')) (fst (snd b')) (rev pts ++ seen) /\ covers snd (snd (fst b')) (snd (snd b')) (rev pts ++ seen).
  Proof.
    induction pts as [|p pts IH]; intros seen b M C1 C2; [split; assumption|].
    cbn [fold_left rev]. rewrite <- app_assoc. cbn [app]. destruct b as [[llx lly] [urx ury]]. cbn [fst snd] in C1, C2.
    destruct (M p (or_introl eq_refl)) as [MX MY].
    apply (IH (p :: seen)); [intros q Q; apply M; right; exact Q| |].
    - apply (min_covers fst llx urx seen p C1 MX).
    - apply (min_covers snd lly ury seen p C2 MY).
  Qed.
  Lemma get_box_covers (pts : list (double * double)) b : (forall p, In p pts -> moderate (fst p) /\ moderate (snd p)) ->
    get_box (A:=A) pts = Ok b -> covers fst (fst (fst b)) (fst (snd b)) pts /\ covers snd (snd (fst b)) (snd (snd b)) pts.
  Proof.
    destruct pts as [|p r]; intros M H; [discriminate|]. unfold get_box in H. injection H as <-.
    destruct (M p (or_introl eq_refl)) as [MX MY].
    destruct (box_covers r [p] (p, p)) as [K1 K2].
    - intros q Q. apply M. right. exact Q.
    - split; [exact MX|]. split; [exact MX|]. intros q [<-|[]]. cbn. lra.
    - split; [exact MY|]. split; [exact MY|]. intros q [<-|[]]. cbn. lra.
    - assert (I : forall q, In q (p :: r) -> In q (rev r ++ [p])).
      { intros q [<-|Q]; apply in_or_app; [right; left; reflexivity|left; apply in_rev in Q; exact Q]. }
      split; [destruct K1 as (H1 & H2 & H3)|destruct K2 as (H1 & H2 & H3)]; (split; [exact H1|]; split; [exact H2|]); intros q Q; apply H3, I, Q.
  Qed.

  Lemma half_ok : is_finite (nhalf (A:=A)) = true /\ value (nhalf (A:=A)) = / 2.
  Proof.
    split; [vm_compute; reflexivity|]. 
    assert (E : B2SF (nhalf (A:=A)) = SpecFloat.S754_finite false 4503599627370496 (-53)) by (vm_compute; reflexivity).
    unfold value. rewrite <- SF2R_B2SF, E. cbn [SF2R cond_Zopp]. unfold F2R. cbn [Fnum Fexp].
    change (bpow radix2 (-53)) with (/ IZR 9007199254740992). lra.
  Qed.
  Lemma two_ok : is_finite (n2 (A:=A)) = true /\ value (n2 (A:=A)) = 2.
  Proof.
    split; [vm_compute; reflexivity|]. 
    assert (E : B2SF (n2 (A:=A)) = SpecFloat.S754_finite false 4503599627370496 (-51)) by (vm_compute; reflexivity).
    unfold value. rewrite <- SF2R_B2SF, E. cbn [SF2R cond_Zopp]. unfold F2R. cbn [Fnum Fexp].
    change (bpow radix2 (-51)) with (/ IZR 2251799813685248). lra.
  Qed.
  Lemma max_value (x y : double) : is_finite x = true -> is_finite y = true ->
    is_finite (nmax (A:=A) x y) = true /\ value x <= value (nmax (A:=A) x y) /\ value y <= value (nmax (A:=A) x y).
  Proof.
    intros FX FY. unfold nmax. change (nltb (Arith:=A) x y) with (Bltb x y). rewrite ltb_value by assumption.
    destruct (Rlt_bool_spec (value x) (value y)); repeat split; try assumption; lra.
  Qed.
  Lemma wide_value (lo hi : double) f pts : covers f lo hi pts ->
    (exists p q, In p pts /\ In q pts /\ bpow radix2 (-1000) <= value (f q) - value (f p)) ->
    bpow radix2 (-1000) <= value (F_sub hi lo).
  Proof.
    intros ([FL ML] & [FH MH] & C) (p & q & P & Q & D). pose proof (C p P). pose proof (C q Q).
    destruct (width lo hi FL FH ltac:(lra) ML MH) as (V & _). rewrite V.
    rewrite <- (rnd_id (bpow radix2 (-1000))) by (apply fmt_bpow; discriminate). apply rnd_le. lra.
  Qed.

  (** [apart pts]: two of the points are at least 2^-1000 apart in x or in y *)
  Definition apart (pts : list (double * double)) : Prop :=
    exists p q, In p pts /\ In q pts /\
      (bpow radix2 (-1000) <= value (fst q) - value (fst p) \/ bpow radix2 (-1000) <= value (snd q) - value (snd p)).

  Lemma scaled_within (pts : list (double * double)) b p r : (forall q, In q pts -> moderate (fst q) /\ moderate (snd q)) -> apart pts ->
    get_box (A:=A) pts = Ok b -> In p pts -> forward (get_transform (A:=A) b) p = Ok r ->
    (is_finite (fst r) = true /\ -2 <= value (fst r) <= 2) /\ (is_finite (snd r) = true /\ -2 <= value (snd r) <= 2).
  Proof.
    intros M (p1 & q1 & P1 & Q1 & D) B P F. destruct (get_box_covers pts b M B) as [CX CY].
    destruct b as [[sxmin symin] [sxmax symax]]. cbn [fst snd] in CX, CY.
    destruct (half_ok) as [HF HV]. destruct two_ok as [TF TV].
    destruct CX as ([XL1 XL2] & [XH1 XH2] & XC). destruct CY as ([YL1 YL2] & [YH1 YH2] & YC).
    assert (LX : value sxmin <= value sxmax) by (specialize (XC p P); lra).
    assert (LY : value symin <= value symax) by (specialize (YC p P); lra).
    destruct (half_width sxmin sxmax XL1 XH1 LX XL2 XH2 _ TV) as (WX1 & WX2 & WX3).
    destruct (half_width symin symax YL1 YH1 LY YL2 YH2 _ TV) as (WY1 & WY2 & WY3).
    destruct (max_value _ _ WX1 WY1) as (S1' & S2' & S3'). set (s := nmax _ _) in S1', S2', S3'.
    assert (E : bpow radix2 (-1000) = 2 * bpow radix2 (-1001)) by (apply (pow_step (-1001))).
    pose proof (bpow_gt_0 radix2 (-1001)) as E0.
    assert (W : bpow radix2 (-1001) <= value s).
    { destruct D as [D|D].
      - pose proof (wide_value sxmin sxmax fst pts (conj (conj XL1 XL2) (conj (conj XH1 XH2) XC)) (ex_intro _ p1 (ex_intro _ q1 (conj P1 (conj Q1 D))))) as K.
        specialize (WX3 ltac:(lra)). lra.
      - pose proof (wide_value symin symax snd pts (conj (conj YL1 YL2) (conj (conj YH1 YH2) YC)) (ex_intro _ p1 (ex_intro _ q1 (conj P1 (conj Q1 D))))) as K.
        specialize (WY3 ltac:(lra)). lra. }
    assert (DX : value (F_sub sxmax sxmin) <= 2 * value s).
    { destruct (Rle_or_lt (bpow radix2 (-1001)) (value (F_sub sxmax sxmin))) as [L|L]; [specialize (WX3 L); lra|lra]. }
    assert (DY : value (F_sub symax symin) <= 2 * value s).
    { destruct (Rle_or_lt (bpow radix2 (-1001)) (value (F_sub symax symin))) as [L|L]; [specialize (WY3 L); lra|lra]. }
    pose proof (shrunk_between sxmin sxmax XL1 XH1 LX XL2 XH2 _ HF HV (fst p) s) as RX.
    pose proof (shrunk_between symin symax YL1 YH1 LY YL2 YH2 _ HF HV (snd p) s) as RY.
    destruct (M p P) as [[FX _] [FY _]]. specialize (RX FX (XC p P) ltac:(lra) DX). specialize (RY FY (YC p P) ltac:(lra) DY).
    unfold forward, get_transform in F. cbn [tr_scale tr_translate fst snd] in F. 
    change (nmax (A:=A) (ndivr (nsub (Arith:=A) sxmax sxmin) n2) (ndivr (nsub (Arith:=A) symax symin) n2)) with s in F.
    unfold pdiv in F. destruct (neqb (Arith:=A) s n0); cbn [rbind] in F; [inversion F|]. apply Ok_inj in F. subst r. cbn [fst snd]. split; assumption.
  Qed.
End Box.
