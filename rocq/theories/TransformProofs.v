(** Proofs about Transform.v *)
From Coq Require Import Reals Lra Psatz.
From Verif Require Import Base Arith ArithR VectorOps Transform.

(** Specification of a tight bounding box of [pts]. *)
Definition tight_box {A : Arith} (pts : list pt) (b : pt * pt) : Prop :=
  (forall p, In p pts ->
     nleb (fst (fst b)) (fst p) = true /\ nleb (fst p) (fst (snd b)) = true /\
     nleb (snd (fst b)) (snd p) = true /\ nleb (snd p) (snd (snd b)) = true) /\
  (exists p, In p pts /\ fst p = fst (fst b)) /\
  (exists p, In p pts /\ fst p = fst (snd b)) /\
  (exists p, In p pts /\ snd p = snd (fst b)) /\
  (exists p, In p pts /\ snd p = snd (snd b)).

Section Box.
  Context {A : Arith} (O : OrdArith A).

  Lemma box_step_tight pre b p :
    tight_box pre b -> tight_box (pre ++ [p]) (box_step b p).
  Proof.
    intros (Hin & (p1 & Hp1 & E1) & (p2 & Hp2 & E2) & (p3 & Hp3 & E3) & (p4 & Hp4 & E4)).
    destruct b as [[llx lly] [urx ury]]. simpl in *.
    assert (Hp : In p (pre ++ [p])) by (apply in_or_app; simpl; auto).
    assert (Hl : forall q, In q pre -> In q (pre ++ [p])) by (intros; apply in_or_app; auto).
    split; [|split; [|split; [|split]]]; simpl.
    - intros q Hq. apply in_app_or in Hq. destruct Hq as [Hq|[<-|[]]].
      + destruct (Hin q Hq) as (K1 & K2 & K3 & K4).
        repeat split.
        * destruct (nltb (fst p) llx) eqn:E; auto.
          eapply (oa_trans A O); [apply (nltb_leb O), E|exact K1].
        * destruct (nltb urx (fst p)) eqn:E; auto.
          eapply (oa_trans A O); [exact K2|apply (nltb_leb O), E].
        * destruct (nltb (snd p) lly) eqn:E; auto.
          eapply (oa_trans A O); [apply (nltb_leb O), E|exact K3].
        * destruct (nltb ury (snd p)) eqn:E; auto.
          eapply (oa_trans A O); [exact K4|apply (nltb_leb O), E].
      + repeat split.
        * destruct (nltb (fst p) llx) eqn:E; [apply (nleb_refl O)|].
          apply (nltb_false_leb O); auto.
        * destruct (nltb urx (fst p)) eqn:E; [apply (nleb_refl O)|].
          apply (nltb_false_leb O); auto.
        * destruct (nltb (snd p) lly) eqn:E; [apply (nleb_refl O)|].
          apply (nltb_false_leb O); auto.
        * destruct (nltb ury (snd p)) eqn:E; [apply (nleb_refl O)|].
          apply (nltb_false_leb O); auto.
    - destruct (nltb (fst p) llx); [exists p|exists p1]; auto.
    - destruct (nltb urx (fst p)); [exists p|exists p2]; auto.
    - destruct (nltb (snd p) lly); [exists p|exists p3]; auto.
    - destruct (nltb ury (snd p)); [exists p|exists p4]; auto.
  Qed.

  Lemma fold_box_tight r pre b :
    tight_box pre b -> tight_box (pre ++ r) (fold_left box_step r b).
  Proof.
    revert pre b. induction r as [|p r IH]; simpl; intros pre b H.
    - rewrite app_nil_r. exact H.
    - change (p :: r) with ([p] ++ r). rewrite app_assoc. apply IH.
      apply box_step_tight, H.
  Qed.

  Lemma get_box_tight pts b : get_box pts = Ok b -> tight_box pts b.
  Proof.
    destruct pts as [|p r]; simpl; [discriminate|]. intros H. injection H as <-.
    apply (fold_box_tight r [p] (p, p)).
    unfold tight_box; simpl.
    split; [|repeat split; exists p; auto].
    intros q [<-|[]]. rewrite !(nleb_refl O). auto.
  Qed.
End Box.

Section Real.
  Local Open Scope R_scope.
  Local Existing Instance RA.

  Definition all_coincide (pts : list (R * R)) : Prop :=
    forall p q, In p pts -> In q pts -> p = q.

  (** half the longer side of the box *)
  Definition half_side (b : (R * R) * (R * R)) : R :=
    Rmax ((fst (snd b) - fst (fst b)) / 2) ((snd (snd b) - snd (fst b)) / 2).

  Lemma get_transform_R (b : (R * R) * (R * R)) :
    get_transform b =
    mkTransform (half_side b, half_side b)
      ((fst (fst b) + fst (snd b)) / 2, (snd (fst b) + snd (snd b)) / 2).
  Proof.
    destruct b as [[x0 y0] [x1 y1]]. unfold get_transform, half_side, nmax. ra_simp. qlit. simpl.
    assert (E : (if Rltb ((x1 - x0) / 2) ((y1 - y0) / 2) then (y1 - y0) / 2 else (x1 - x0) / 2)
                = Rmax ((x1 - x0) / 2) ((y1 - y0) / 2)).
    { unfold Rmax. destruct (Rltb _ _) eqn:E; rb2p; destruct (Rle_dec _ _); lra. }
    change (@num RA) with R. rewrite E. reflexivity.
  Qed.

  Lemma half_side_nonneg pts b : tight_box pts b -> pts <> [] -> 0 <= half_side b.
  Proof.
    intros (Hin & (p1 & Hp1 & E1) & _) _.
    destruct (Hin p1 Hp1) as (H1 & H2 & H3 & H4). ra_simp. rb2p.
    unfold half_side. pose proof (Rmax_l ((fst (snd b) - fst (fst b)) / 2) ((snd (snd b) - snd (fst b)) / 2)).
    lra.
  Qed.

  Lemma half_side_zero pts b :
    tight_box pts b -> pts <> [] -> (half_side b = 0 <-> all_coincide pts).
  Proof.
    intros HT Hne. pose proof (half_side_nonneg _ _ HT Hne).
    destruct HT as (Hin & (p1 & Hp1 & E1) & (p2 & Hp2 & E2) & (p3 & Hp3 & E3) & (p4 & Hp4 & E4)).
    unfold half_side in *. simpl in *.
    set (sx := (fst (snd b) - fst (fst b)) / 2) in *.
    set (sy := (snd (snd b) - snd (fst b)) / 2) in *.
    pose proof (Rmax_l sx sy). pose proof (Rmax_r sx sy).
    split.
    - intros Hz p q Hp Hq.
      destruct (Hin p Hp) as (A1 & A2 & A3 & A4). destruct (Hin q Hq) as (B1 & B2 & B3 & B4).
      rb2p. destruct p as [px py], q as [qx qy]. simpl in *.
      unfold sx, sy in *. f_equal; lra.
    - intros Hc. pose proof (Hc p1 p2 Hp1 Hp2). pose proof (Hc p3 p4 Hp3 Hp4). subst.
      unfold Rmax in *. destruct (Rle_dec sx sy); unfold sx, sy in *; lra.
  Qed.

  Lemma forward_R t (p : R * R) :
    fst (tr_scale t) <> 0 -> snd (tr_scale t) <> 0 ->
    forward t p = Ok ((fst p - fst (tr_translate t)) / fst (tr_scale t),
                      (snd p - snd (tr_translate t)) / snd (tr_scale t)).
  Proof.
    intros H1 H2. unfold forward, pdiv. ra_simp. qlit.
    destruct (Reqb _ 0) eqn:E; rb2p; [congruence|]. simpl.
    destruct (Reqb _ 0) eqn:F; rb2p; [congruence|]. reflexivity.
  Qed.

  Lemma forward_err t (p : R * R) :
    fst (tr_scale t) = 0 -> forward t p = Err ZeroDivisionError.
  Proof.
    intros H1. unfold forward, pdiv. ra_simp. qlit.
    destruct (Reqb _ 0) eqn:E; rb2p; [reflexivity|congruence].
  Qed.

  (** the transform calc_skel builds from the input points *)
  Definition transform_of (pts : list (R * R)) (t : transform) : Prop :=
    exists b, get_box pts = Ok b /\ t = get_transform b.

  Lemma transform_of_scale pts t :
    transform_of pts t -> ~ all_coincide pts ->
    fst (tr_scale t) = snd (tr_scale t) /\ 0 < fst (tr_scale t).
  Proof.
    intros (b & Hb & ->) Hc.
    assert (Hne : pts <> []) by (intros ->; discriminate).
    apply (get_box_tight RA_ord) in Hb.
    rewrite get_transform_R. simpl. split; [reflexivity|].
    pose proof (half_side_nonneg _ _ Hb Hne). pose proof (half_side_zero _ _ Hb Hne) as K.
    destruct (Req_dec (half_side b) 0); [tauto|lra].
  Qed.

  Lemma round_trip pts t p :
    transform_of pts t -> ~ all_coincide pts ->
    (exists q, forward t p = Ok q /\ backward t q = p) /\
    forward t (backward t p) = Ok p.
  Proof.
    intros Ht Hc. destruct (transform_of_scale _ _ Ht Hc) as [E Hp].
    split.
    - rewrite forward_R by lra. eexists. split; [reflexivity|].
      unfold backward. ra_simp. destruct p. simpl. f_equal; field; lra.
    - rewrite forward_R by lra. unfold backward. ra_simp. destruct p. simpl.
      f_equal. f_equal; field; lra.
  Qed.

  Lemma forward_fails_iff pts t :
    transform_of pts t ->
    (forall p, forward t p = Err ZeroDivisionError) <-> all_coincide pts.
  Proof.
    intros (b & Hb & ->).
    assert (Hne : pts <> []) by (intros ->; discriminate).
    pose proof Hb as HT. apply (get_box_tight RA_ord) in HT.
    split.
    - intros H. apply (half_side_zero _ _ HT Hne).
      destruct (Req_dec (half_side b) 0) as [E|E]; [exact E|].
      specialize (H (0, 0)). rewrite get_transform_R in H.
      rewrite forward_R in H by (simpl; assumption). discriminate.
    - intros Hc p. apply forward_err. rewrite get_transform_R. simpl.
      apply (half_side_zero _ _ HT Hne), Hc.
  Qed.

  Lemma forward_square pts t p :
    transform_of pts t -> ~ all_coincide pts -> In p pts ->
    exists x y, forward t p = Ok (x, y) /\ -1 <= x <= 1 /\ -1 <= y <= 1.
  Proof.
    intros Ht Hc Hp. destruct (transform_of_scale _ _ Ht Hc) as [E Hs].
    destruct Ht as (b & Hb & ->). apply (get_box_tight RA_ord) in Hb.
    destruct Hb as (Hin & _). destruct (Hin p Hp) as (A1 & A2 & A3 & A4).
    rewrite get_transform_R in *. simpl in *.
    rewrite forward_R by (simpl; lra). simpl.
    do 2 eexists. split; [reflexivity|].
    unfold half_side in *. simpl in *.
    set (sx := (fst (snd b) - fst (fst b)) / 2) in *.
    set (sy := (snd (snd b) - snd (fst b)) / 2) in *.
    pose proof (Rmax_l sx sy). pose proof (Rmax_r sx sy). rb2p.
    set (s := Rmax sx sy) in *.
    assert (G : forall v, - s <= v <= s -> -1 <= v / s <= 1).
    { intros v Hv. assert (v = v / s * s) by (field; lra). nra. }
    split; apply G; unfold sx, sy in *; lra.
  Qed.

  Lemma forward_similarity pts t p q p' q' :
    transform_of pts t -> ~ all_coincide pts ->
    forward t p = Ok p' -> forward t q = Ok q' ->
    fst p - fst q = fst (tr_scale t) * (fst p' - fst q') /\
    snd p - snd q = fst (tr_scale t) * (snd p' - snd q').
  Proof.
    intros Ht Hc. destruct (transform_of_scale _ _ Ht Hc) as [E Hs].
    rewrite !forward_R by lra. intros H K. injection H as <-. injection K as <-. simpl.
    ra_simp. rewrite <- E. split; field; lra.
  Qed.

  Lemma forward_touches pts t :
    transform_of pts t -> ~ all_coincide pts ->
    (exists p q y y', In p pts /\ In q pts /\ forward t p = Ok (-1, y) /\ forward t q = Ok (1, y')) \/
    (exists p q x x', In p pts /\ In q pts /\ forward t p = Ok (x, -1) /\ forward t q = Ok (x', 1)).
  Proof.
    intros Ht Hc. destruct (transform_of_scale _ _ Ht Hc) as [E Hs].
    destruct Ht as (b & Hb & ->). apply (get_box_tight RA_ord) in Hb.
    destruct Hb as (Hin & (p1 & Hp1 & E1) & (p2 & Hp2 & E2) & (p3 & Hp3 & E3) & (p4 & Hp4 & E4)).
    rewrite get_transform_R in *. ra_simp. unfold half_side in *. simpl in Hs.
    set (sx := (fst (snd b) - fst (fst b)) / 2) in *.
    set (sy := (snd (snd b) - snd (fst b)) / 2) in *.
    destruct (Rle_dec sx sy) as [L|L].
    - right. rewrite Rmax_right in * by lra.
      exists p3, p4. do 2 eexists.
      rewrite !forward_R by (simpl; lra). simpl in *. rewrite E3, E4.
      split; [exact Hp3|split; [exact Hp4|]].
      split; do 2 f_equal; unfold sy in *; field; lra.
    - left. rewrite Rmax_left in * by lra.
      exists p1, p2. do 2 eexists.
      rewrite !forward_R by (simpl; lra). simpl in *. rewrite E1, E2.
      split; [exact Hp1|split; [exact Hp2|]].
      split; do 2 f_equal; unfold sx in *; field; lra.
  Qed.
End Real.
