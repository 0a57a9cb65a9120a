(** What a computed event says about the moving triangle, over exact reals *)
From Coq Require Import Reals Lra Psatz.
From Verif Require Import Base Arith ArithR Calc CalcProofs VectorOps Line2d Line2dProofs Primitives Collapse CollapseProofs CollapseR
  Properties_basic Properties_collapse.
Local Open Scope R_scope.

Definition ordinary (s : state (A:=RA)) (t : nat) : Prop :=
  forall i, k_inf (vs s (get3 (t_v (ts s t)) i)) = false /\ k_inf_fast (vs s (get3 (t_v (ts s t)) i)) = false.
(** where corner [i] is, how long (squared) the side opposite to it is, twice the signed area *)
Definition place (s : state (A:=RA)) (t : nat) (i : side) (x : R) : R * R := path (vs s (get3 (t_v (ts s t)) i)) x.
Definition len2 (s : state (A:=RA)) (t : nat) (i : side) (x : R) : R := sqdist (place s t (ccw i) x) (place s t (cw i) x).
Definition area (s : state (A:=RA)) (t : nat) (x : R) : R := area2 (place s t S0 x) (place s t S1 x) (place s t S2 x).

(** ** Sieves *)
Definition adm (sv : sieve) (now y : R) : Prop :=
  match sv with FindGt => y > now + / 10^10 | FindGte => now <= y end.
Lemma sieve_some sv l (now v : R) : run_sieve (A:=RA) sv l now = Some v ->
  In (Some v) l /\ adm sv now v /\ forall w, In (Some w) l -> adm sv now w -> v <= w.
Proof.
  destruct sv; cbn [run_sieve adm]; intros H.
  - pose proof (C21_find_gt l now) as K. rewrite H in K. destruct K as (K1 & K2 & K3).
    split; [exact K1|]. split; [exact K2|]. intros w Hw Aw. specialize (K3 w Hw Aw). ra_simp. rb2p. exact K3.
  - pose proof (C21_find_gte RA RA_ord l now) as K. rewrite H in K. destruct K as (K1 & K2 & K3).
    split; [exact K1|]. split; [ra_simp; rb2p; exact K2|]. intros w Hw Aw.
    assert (X : @nleb RA v w = true) by (apply K3; [exact Hw|ra_simp; rb2p; exact Aw]). ra_simp. rb2p. exact X.
Qed.
Lemma sieve_none sv l (now : R) : run_sieve (A:=RA) sv l now = None -> forall w, In (Some w) l -> ~ adm sv now w.
Proof.
  destruct sv; cbn [run_sieve adm]; intros H w Hw.
  - pose proof (C21_find_gt l now) as K. rewrite H in K. specialize (K w Hw). lra.
  - pose proof (C21_find_gte RA RA_ord l now) as K. rewrite H in K. specialize (K w Hw). ra_simp. rb2p. lra.
Qed.

(** ** Products of two linear functions *)
Definition clear (x : R) : Prop := x = 0 \/ Rabs x > / 10^10.
Lemma product_roots (x0 x1 g0 g1 : R) sol r :
  solve_quadratic (A:=RA) (x1 * g1) (x0 * g1 + x1 * g0) (x0 * g0) = Ok sol -> In r sol ->
  clear (x1 * g1) -> (x1 * g1 = 0 -> clear (x0 * g1 + x1 * g0)) ->
  (x1 <> 0 /\ x0 + x1 * r = 0) \/ (g1 <> 0 /\ g0 + g1 * r = 0) \/
  (x1 <> 0 /\ g1 <> 0 /\ Rabs (- x0 / x1 - - g0 / g1) <= 2 / 10^5 /\ r = (- x0 / x1 + - g0 / g1) / 2).
Proof.
  intros H Hr C1 C2. rewrite solve_quadratic_R in H. injection H as <-. cbn [num RA] in Hr.
  match type of Hr with In _ (if ?c then _ else _) => destruct c as [L|L] end.
  - destruct C1 as [Z|C1]; [|lra]. specialize (C2 Z).
    match type of Hr with In _ (if ?c then _ else _) => destruct c as [L2|L2] end; [destruct Hr|].
    destruct Hr as [<-|[]].
    assert (NZ : x0 * g1 + x1 * g0 <> 0) by (intros Q; rewrite Q, Rabs_R0 in L2; lra).
    apply Rmult_integral in Z. destruct Z as [-> | ->].
    + right. left. assert (x0 <> 0) by (intros ->; apply NZ; ring). assert (g1 <> 0) by (intros ->; apply NZ; ring).
      split; [assumption|]. field. split; [assumption|]. intros Q. apply NZ. lra.
    + left. assert (g0 <> 0) by (intros ->; apply NZ; ring). assert (x1 <> 0) by (intros ->; apply NZ; ring).
      split; [assumption|]. field. split; [assumption|]. intros Q. apply NZ. lra.
  - assert (NZ : x1 * g1 <> 0) by (intros Q; rewrite Q, Rabs_R0 in L; lra).
    assert (X : x1 <> 0) by (intros ->; apply NZ; ring). assert (G : g1 <> 0) by (intros ->; apply NZ; ring).
    set (u := / 4 * _ - _) in Hr. set (m := - _ / _ * / 2) in Hr.
    assert (U : u = ((- x0 / x1 - - g0 / g1) / 2)^2) by (unfold u; field; auto).
    assert (M : m = (- x0 / x1 + - g0 / g1) / 2) by (unfold m; field; auto).
    clearbody u m. set (te := - x0 / x1) in *. set (tv := - g0 / g1) in *.
    assert (TE : x0 + x1 * te = 0) by (unfold te; field; auto).
    assert (TV : g0 + g1 * tv = 0) by (unfold tv; field; auto). clearbody te tv.
    assert (SQ : sqrt u = Rabs ((te - tv) / 2)) by (rewrite U, <- Rsqr_pow2; apply sqrt_Rsqr_abs).
    cbv zeta in Hr. destruct (Rle_dec (Rabs u) _) as [Lu|Lu].
    + destruct Hr as [<-|[]]. right. right. split; [exact X|]. split; [exact G|]. split; [|exact M].
      assert (P : 0 <= u) by (rewrite U; apply pow2_ge_0). rewrite Rabs_pos_eq in Lu by exact P.
      assert (S5 : sqrt u <= / 10^5).
      { replace (/ 10^5) with (sqrt (/ 10^10)); [apply sqrt_le_1_alt; exact Lu|].
        replace (/ 10^10) with ((/ 10^5)^2) by field. apply sqrt_pow2. lra. }
      rewrite SQ in S5. unfold Rdiv in S5. rewrite Rabs_mult, (Rabs_pos_eq (/ 2)) in S5 by lra. lra.
    + destruct (Rlt_dec u 0) as [N|N]; [destruct Hr|].
      assert (W : r = te \/ r = tv).
      { destruct Hr as [<-|[<-|[]]]; rewrite SQ, M; unfold Rabs; destruct (Rcase_abs _); lra. }
      destruct W as [-> | ->]; auto.
Qed.
Lemma mid_not_adm sv now a b : ~ adm sv now a -> ~ adm sv now b -> ~ adm sv now ((a + b) / 2).
Proof. destruct sv; cbn; lra. Qed.

(** ** What the code computes for ordinary corners *)
Section Values.
  Variable s : state (A:=RA).
  Variable t : nat.
  Hypothesis O : ordinary s t.
  Notation c i := (get3 (t_v (ts s t)) i).

  Lemma position_place i (x : R) : position_at s (c i) x = Ok (place s t i x).
  Proof.
    unfold position_at. destruct (O i) as [-> ->]. unfold place, path, moving. ra_simp. reflexivity.
  Qed.
  Lemma distance_place i j (x : R) : distance2_at s (c i) (c j) x = Ok (sqdist (place s t i x) (place s t j x)).
  Proof.
    unfold distance2_at. rewrite !position_place. cbn [rbind].
    destruct (place s t i x) as [a b], (place s t j x) as [e f]. unfold sqdist. ra_simp. cbn [fst snd]. f_equal. ring.
  Qed.
  Definition lens (x : R) : triple R := mk3 (len2 s t S0 x) (len2 s t S1 x) (len2 s t S2 x).
  Lemma get_lens i x : get3 (lens x) i = len2 s t i x.
  Proof. destruct i; reflexivity. Qed.
  Lemma dists2_val (x : R) :
    dists2 s (x0 (t_v (ts s t))) (x1 (t_v (ts s t))) (x2 (t_v (ts s t))) x = Ok (lens x).
  Proof.
    unfold dists2. change (x0 (t_v (ts s t))) with (c S0). change (x1 (t_v (ts s t))) with (c S1).
    change (x2 (t_v (ts s t))) with (c S2). rewrite !distance_place. reflexivity.
  Qed.
  Lemma len2_nonneg i x : 0 <= len2 s t i x.
  Proof. apply sqdist_nonneg. Qed.
  Lemma sqrt3_val (q : triple R) : (forall i, 0 <= get3 q i) -> sqrt3 (A:=RA) q = Ok (map3 sqrt q).
  Proof.
    intros H. pose proof (H S0) as H0. pose proof (H S1) as H1. pose proof (H S2) as H2. destruct q as [a b e].
    cbn [get3 x0 x1 x2] in *. unfold sqrt3. cbn [x0 x1 x2]. rewrite !psqrt_R by assumption. reflexivity.
  Qed.
  Lemma dists_val (x : R) :
    dists s (x0 (t_v (ts s t))) (x1 (t_v (ts s t))) (x2 (t_v (ts s t))) x = Ok (map3 sqrt (lens x)).
  Proof.
    unfold dists. rewrite dists2_val. cbn [rbind]. apply sqrt3_val. intros i. rewrite get_lens. apply len2_nonneg.
  Qed.
  Lemma get_map3 (f : R -> R) q i : get3 (map3 f q) i = f (get3 q i).
  Proof. destruct i; reflexivity. Qed.

  (** near zero roots and squares *)
  Lemma near_sqrt (y : R) : 0 <= y -> near_zero (A:=RA) (sqrt y) = true -> y <= / 10^20.
  Proof.
    intros P H. apply near_zero_R in H. assert (Q := sqrt_sqrt y P). pose proof (sqrt_pos y).
    assert (sqrt y <= / 10^10) by lra. rewrite <- Q. replace (/ 10^20) with (/ 10^10 * / 10^10) by field.
    apply Rmult_le_compat; assumption.
  Qed.
  Lemma near_le (y : R) : near_zero (A:=RA) y = true -> y <= / 10^10.
  Proof. intros H. apply near_zero_R in H. lra. Qed.
  Lemma min3_R (ds : triple R) (sd : side) : min3 (A:=RA) ds <= get3 ds sd.
  Proof.
    unfold min3, nmin. ra_simp.
    destruct (Rltb (x1 ds) (x0 ds)) eqn:E.
    - apply Rltb_true in E. destruct (Rltb (x2 ds) (x1 ds)) eqn:F;
        [apply Rltb_true in F|apply Rltb_false in F]; destruct sd; cbn [get3]; lra.
    - apply Rltb_false in E. destruct (Rltb (x2 ds) (x0 ds)) eqn:F;
        [apply Rltb_true in F|apply Rltb_false in F]; destruct sd; cbn [get3]; lra.
  Qed.
  Lemma argmin3_R (ds : triple R) sd : argmin3 (A:=RA) ds = Ok sd -> get3 ds sd = min3 (A:=RA) ds.
  Proof. intros H. apply index3_get in H. apply Reqb_true in H. exact H. Qed.

  Lemma area_coeffs x ca cb cc :
    area_collapse_time_coeff (vs s (x0 (t_v (ts s t)))) (vs s (x1 (t_v (ts s t)))) (vs s (x2 (t_v (ts s t)))) = (ca, cb, cc) ->
    (ca * x^2 + cb * x + cc = area s t x)%R.
  Proof.
    intros H. pose proof (area_coeff_R (vs s (x0 (t_v (ts s t)))) (vs s (x1 (t_v (ts s t)))) (vs s (x2 (t_v (ts s t)))) x) as K.
    rewrite H in K. exact K.
  Qed.
  Lemma area_times l : area_collapse_times s (x0 (t_v (ts s t))) (x1 (t_v (ts s t))) (x2 (t_v (ts s t))) = Ok l ->
    exists ca cb cc sol, area_collapse_time_coeff (vs s (x0 (t_v (ts s t)))) (vs s (x1 (t_v (ts s t)))) (vs s (x2 (t_v (ts s t)))) = (ca, cb, cc) /\
      solve_quadratic ca cb cc = Ok sol /\ forall r, In r l <-> In r sol.
  Proof.
    unfold area_collapse_times. destruct (area_collapse_time_coeff _ _ _) as [[ca cb] cc]. intros H.
    apply rbind_ok in H as (sol & H1 & H). injection H as <-. exists ca, cb, cc, sol. split; [reflexivity|]. split; [exact H1|].
    intros r. split; intros K; eapply Permutation.Permutation_in; try exact K; [apply Permutation.Permutation_sym|]; apply isort_perm.
  Qed.
End Values.

(** the speed with which the area changes: the area of the velocities *)
Definition growth (s : state (A:=RA)) (t : nat) : R :=
  area2 (k_velocity (vs s (get3 (t_v (ts s t)) S0))) (k_velocity (vs s (get3 (t_v (ts s t)) S1)))
        (k_velocity (vs s (get3 (t_v (ts s t)) S2))).
Definition flat (s : state (A:=RA)) (t : nat) (x : R) : Prop :=
  Rabs (area s t x) <= / 10^10 * Rmax (x^2) (Rabs (growth s t)).
Definition longest (s : state (A:=RA)) (t : nat) (i : side) (x : R) : Prop := forall j, len2 s t j x <= len2 s t i x.

Section Zero.
  Variable s : state (A:=RA).
  Variable t : nat.
  Hypothesis O : ordinary s t.

  Lemma ordinary_finite : is_finite s t = true.
  Proof.
    unfold is_finite. apply forallb_forall. intros v Hv. apply Bool.negb_true_iff.
    unfold list3 in Hv. destruct Hv as [<-|[<-|[<-|[]]]]; [apply (O S0)|apply (O S1)|apply (O S2)].
  Qed.
  Lemma growth_coeff ca cb cc :
    area_collapse_time_coeff (vs s (x0 (t_v (ts s t)))) (vs s (x1 (t_v (ts s t)))) (vs s (x2 (t_v (ts s t)))) = (ca, cb, cc) ->
    ca = growth s t.
  Proof.
    unfold growth, area_collapse_time_coeff. cbn [get3].
    destruct (k_origin (vs s (x0 _))), (k_velocity (vs s (x0 _))), (k_origin (vs s (x1 _))), (k_velocity (vs s (x1 _))),
      (k_origin (vs s (x2 _))), (k_velocity (vs s (x2 _))). intros H. injection H as <- _ _.
    unfold area2. cbn [fst snd]. ra_simp. ring.
  Qed.
  Lemma root_flat l r : area_collapse_times s (x0 (t_v (ts s t))) (x1 (t_v (ts s t))) (x2 (t_v (ts s t))) = Ok l ->
    In r l -> flat s t r.
  Proof.
    intros H Hr. destruct (area_times _ _ _ H) as (ca & cb & cc & sol & H1 & H2 & H3). apply H3 in Hr.
    destruct (C25_sound _ _ _ _ _ H2 Hr) as [K _]. unfold quad in K. unfold flat.
    rewrite <- (area_coeffs _ _ r _ _ _ H1), <- (growth_coeff _ _ _ H1). exact K.
  Qed.
  Lemma max_longest x i : argmax3 (A:=RA) (lens s t x) = Ok i -> longest s t i x.
  Proof. intros H j. apply argmax3_R in H. rewrite <- !get_lens, H. apply max3_R. Qed.
  Lemma max_longest_sqrt x i : argmax3 (A:=RA) (map3 sqrt (lens s t x)) = Ok i -> longest s t i x.
  Proof.
    intros H j. apply argmax3_R in H. pose proof (max3_R (map3 sqrt (lens s t x)) j) as K.
    change (@get3 (@num RA)) with (@get3 R) in H. rewrite <- H, !get_map3, !get_lens in K.
    apply sqrt_le_0; [apply len2_nonneg|apply len2_nonneg|exact K].
  Qed.

  Lemma near_where x l i : where3 (near_zero (A:=RA)) (map3 sqrt (lens s t x)) = l -> In i l -> len2 s t i x <= / 10^20.
  Proof.
    intros <- H. apply where3_In in H. change (@get3 (@num RA)) with (@get3 R) in H. rewrite get_map3, get_lens in H.
    apply near_sqrt in H; [exact H|apply len2_nonneg].
  Qed.
  Lemma near_all x a b d l i : where3 (near_zero (A:=RA)) (map3 sqrt (lens s t x)) = a :: b :: d :: l -> len2 s t i x <= / 10^20.
  Proof.
    intros H. apply (near_where _ _ _ H). pose proof (where3_NoDup (near_zero (A:=RA)) (map3 sqrt (lens s t x))) as ND. rewrite H in ND.
    clear - ND. inversion ND as [|? ? N1 ND1]; subst. inversion ND1 as [|? ? N2 _]; subst. cbn in N1, N2.
    destruct i, a, b, d; cbn; tauto.
  Qed.
  Lemma min_least x i j : argmin3 (A:=RA) (lens s t x) = Ok i -> len2 s t i x <= len2 s t j x.
  Proof. intros H. apply argmin3_R in H. rewrite <- !get_lens. change (@get3 (@num RA)) with (@get3 R) in H. rewrite H. apply min3_R. Qed.
  Lemma min_least_sqrt x i j : argmin3 (A:=RA) (map3 sqrt (lens s t x)) = Ok i -> len2 s t i x <= len2 s t j x.
  Proof.
    intros H. apply argmin3_R in H. pose proof (min3_R (map3 sqrt (lens s t x)) j) as K.
    change (@get3 (@num RA)) with (@get3 R) in H. rewrite <- H, !get_map3, !get_lens in K.
    apply sqrt_le_0; [apply len2_nonneg|apply len2_nonneg|exact K].
  Qed.

  Lemma max3_is (ds : triple R) : exists k, get3 ds k = max3 (A:=RA) ds.
  Proof.
    clear. destruct ds as [a b d]. unfold max3, nmax. cbn [x0 x1 x2]. ra_simp.
    destruct (Rltb a b); [destruct (Rltb b d)|destruct (Rltb a d)];
      [exists S2|exists S1|exists S2|exists S0]; reflexivity.
  Qed.
  Lemma min3_is (ds : triple R) : exists k, get3 ds k = min3 (A:=RA) ds.
  Proof.
    clear. destruct ds as [a b d]. unfold min3, nmin. cbn [x0 x1 x2]. ra_simp.
    destruct (Rltb b a); [destruct (Rltb d b)|destruct (Rltb d a)];
      [exists S2|exists S1|exists S2|exists S0]; reflexivity.
  Qed.
  Lemma longest_only x i : where3 (fun y => near_zero (A:=RA) (nsub y (max3 (A:=RA) (map3 sqrt (lens s t x))))) (map3 sqrt (lens s t x)) = [i] -> longest s t i x.
  Proof.
    intros H. destruct (argmax3 (A:=RA) (map3 sqrt (lens s t x))) as [j|] eqn:E.
    - assert (J : In j [i]).
      { rewrite <- H. apply where3_In. apply argmax3_R in E. change (@get3 (@num RA)) with (@get3 R). rewrite E.
        apply near_zero_R. ra_simp. rewrite Rminus_diag_eq by reflexivity. lra. }
      destruct J as [<-|[]]. apply max_longest_sqrt, E.
    - exfalso. set (ds := map3 sqrt (lens s t x)) in *.
      assert (exists k, get3 ds k = max3 (A:=RA) ds) as [k K].
      { apply max3_is. }
      destruct (index3_some (fun y => @neqb RA y (max3 (A:=RA) ds)) ds k) as [m M].
      + change (@get3 (@num RA)) with (@get3 R). rewrite K. apply (neqb_refl RA_ord).
      + unfold argmax3 in E. rewrite E in M. discriminate M.
  Qed.

  Theorem zero_truth (now : R) sv e : tri_type (ts s t) = 0%nat -> collapse_event s t now sv = Ok (Some e) ->
    (ev_tp e = Edge /\ forall i, In i (ev_side e) -> len2 s t i (ev_time e) <= 2 / 10^10) \/
    (ev_tp e = Flip /\ exists i x, ev_side e = [i] /\ longest s t i (ev_time e) /\
       Rabs (x - ev_time e) <= / 10^10 /\ flat s t x).
  Proof.
    intros TY H. unfold collapse_event in H. destruct (is_some _); [discriminate|].
    rewrite ordinary_finite, TY in H. apply rbind_ok in H as ([e'|] & H & K).
    2:{ apply rbind_ok in K as (? & _ & K). discriminate K. }
    injection K as ->. unfold compute_event_0triangle in H. rewrite TY in H. cbn [Nat.eqb rassert rbind] in H.
    apply rbind_ok in H as (times & AT & H). pose proof (fun r => root_flat times r AT) as RF.
    assert (Z0 : Rabs 0 <= / 10^10) by (rewrite Rabs_R0; lra).
    assert (FL : forall (x : R) e', In x times -> (q <-- dists2 s (x0 (t_v (ts s t))) (x1 (t_v (ts s t))) (x2 (t_v (ts s t))) x;;
              sd <-- argmax3 q;; Ok (Some (mkevent s t x [sd] Flip)))%res = Ok (Some e') ->
         ev_tp e' = Flip /\ exists i y, ev_side e' = [i] /\ longest s t i (ev_time e') /\ Rabs (y - ev_time e') <= / 10^10 /\ flat s t y).
    { intros x e' Hx. rewrite (dists2_val _ _ O). cbn [rbind]. intros K. apply rbind_ok in K as (i & K1 & K). injection K as <-.
      split; [reflexivity|]. exists i, x. cbn [ev_side ev_time mkevent]. split; [reflexivity|].
      split; [apply max_longest, K1|]. split; [rewrite Rminus_diag_eq by reflexivity; exact Z0|apply RF, Hx]. }
    apply rbind_ok in H as ([e'|] & EA & H).
    - injection H as ->. clear FL.
      assert (SUB : forall r, In r times -> flat s t r) by exact RF. clear RF AT.
      induction times as [|time rest IH]; [discriminate|]. cbn [event0_degenerate] in EA.
      destruct (near_zero (nabs (nsub time now))) eqn:NZ.
      2:{ apply IH; [exact EA|]. intros r Hr. apply SUB. right. exact Hr. }
      clear IH. rewrite (dists2_val _ _ O) in EA. cbn [rbind] in EA.
      rewrite (sqrt3_val (lens s t now)) in EA by (intros i; rewrite get_lens; apply len2_nonneg). cbn [rbind] in EA.
      assert (FL : (sd <-- argmax3 (lens s t now);; Ok (Some (mkevent s t now [sd] Flip)))%res = Ok (Some e) ->
         ev_tp e = Flip /\ exists i y, ev_side e = [i] /\ longest s t i (ev_time e) /\ Rabs (y - ev_time e) <= / 10^10 /\ flat s t y).
      { intros K. apply rbind_ok in K as (i & K1 & K). injection K as <-.
        split; [reflexivity|]. exists i, time. cbn [ev_side ev_time mkevent]. split; [reflexivity|].
        split; [apply max_longest, K1|]. apply near_zero_R in NZ. ra_simp. split; [|apply SUB; left; reflexivity].
        apply NZ. }
      destruct (where3 near_zero (map3 sqrt (lens s t now))) as [|i [|j [|k [|]]]] eqn:WH; try (right; exact (FL EA)).
      + injection EA as <-. left. split; [reflexivity|]. cbn [ev_side ev_time mkevent]. intros ? [<-|[]].
        assert (In i [i]) as HI by (left; reflexivity). rewrite <- WH in HI. apply where3_In in HI.
        change (@get3 (@num RA)) with (@get3 R) in HI. rewrite get_map3, get_lens in HI.
        apply near_sqrt in HI; [|apply len2_nonneg]. lra.
      + discriminate.
    - clear EA.
      apply rbind_ok in H as (tod & C1 & H). apply rbind_ok in H as (tda & C2 & H). apply rbind_ok in H as (tao & C3 & H).
      apply rbind_ok in H as (dod & D1 & H). apply rbind_ok in H as (dda & D2 & H). apply rbind_ok in H as (dao & D3 & H).
      assert (dod = len2 s t S2 tod) as -> by (pose proof (distance_place s t O S0 S1 tod) as Q; change (distance2_at s (x0 (t_v (ts s t))) (x1 (t_v (ts s t))) tod = Ok (len2 s t S2 tod)) in Q; congruence).
      assert (dda = len2 s t S0 tda) as -> by (pose proof (distance_place s t O S1 S2 tda) as Q; change (distance2_at s (x1 (t_v (ts s t))) (x2 (t_v (ts s t))) tda = Ok (len2 s t S0 tda)) in Q; congruence).
      assert (dao = len2 s t S1 tao) as -> by (pose proof (distance_place s t O S2 S0 tao) as Q; change (distance2_at s (x2 (t_v (ts s t))) (x0 (t_v (ts s t))) tao = Ok (len2 s t S1 tao)) in Q; congruence).
      set (q := mk3 (len2 s t S2 tod) (len2 s t S0 tda) (len2 s t S1 tao)).
      apply rbind_ok in H as (roots & RO & H).
      assert (roots = map3 sqrt q) as ->.
      { assert (Q : Ok roots = Ok (map3 sqrt q)); [|injection Q as ->; reflexivity].
        rewrite <- RO. apply (sqrt3_val q). intros []; apply len2_nonneg. }
      set (tec := map _ _) in H.
      assert (TE : forall te, run_sieve sv tec now = Some te -> exists i, len2 s t i te <= / 10^20).
      { intros te K. apply sieve_some in K. destruct K as [K _]. unfold tec in K. apply in_map_iff in K.
        destruct K as (i & K1 & K2). injection K1 as <-. apply where3_In in K2. change (@get3 (@num RA)) with (@get3 R) in K2.
        rewrite get_map3 in K2.
        destruct i; (apply near_sqrt in K2; [|apply len2_nonneg]); [exists S2|exists S0|exists S1]; exact K2. }
      assert (ED : forall te e', run_sieve sv tec now = Some te ->
          (q <-- dists2 s (x0 (t_v (ts s t))) (x1 (t_v (ts s t))) (x2 (t_v (ts s t))) te;; event0_edge s t te (map3 near_zero q))%res = Ok (Some e') ->
          ev_tp e' = Edge /\ forall i, In i (ev_side e') -> len2 s t i (ev_time e') <= 2 / 10^10).
      { intros te e' _. rewrite (dists2_val _ _ O). cbn [rbind]. unfold event0_edge.
        assert (N : forall i, In i (where3 (fun b => b) (map3 near_zero (lens s t te))) -> len2 s t i te <= 2 / 10^10).
        { intros i Hi. apply where3_In in Hi. rewrite <- get_lens.
          assert (N : near_zero (A:=RA) (get3 (lens s t te) i) = true) by (destruct i; exact Hi).
          apply near_le in N. lra. }
        intros K. match type of K with match ?w with _ => _ end = _ => destruct w as [|i [|j [|k [|]]]] eqn:WH end;
          try discriminate K; injection K as <-;
          (split; [reflexivity|]); cbn [ev_side ev_time mkevent].
        - exact N.
        - intros x Hx. apply N. pose proof (where3_NoDup (fun b : bool => b) (map3 near_zero (lens s t te))) as ND. rewrite WH in ND.
          clear - ND. inversion ND as [|? ? N1 ND1]; subst. inversion ND1 as [|? ? N2 _]; subst. cbn in N1, N2.
          destruct x, i, j, k; cbn; tauto. }
      destruct (run_sieve sv tec now) as [te|] eqn:RT; destruct (run_sieve sv (map Some times) now) as [ta|] eqn:RA'.
      + assert (In ta times) as TA.
        { apply sieve_some in RA'. destruct RA' as [K _]. apply in_map_iff in K. destruct K as (r & K & Hr). injection K as ->. exact Hr. }
        destruct (near_zero _).
        * rewrite (dists2_val _ _ O te) in H. cbn [rbind] in H.
          destruct (TE te eq_refl) as [m Hm].
          assert (N : forall i, In i (where3 (fun b => b) (map3 (fun x => near_zero (x - min3 (lens s t te))%num) (lens s t te))) -> len2 s t i te <= 2 / 10^10).
          { intros i Hi. apply where3_In in Hi.
            assert (N : near_zero (A:=RA) (get3 (lens s t te) i - min3 (A:=RA) (lens s t te)) = true) by (destruct i; exact Hi).
            apply near_le in N. pose proof (min3_R (lens s t te) m) as M. rewrite get_lens in M. rewrite get_lens in N.
            ra_simp. cbn [num RA] in *. assert (/ 10^20 <= / 10^10) by lra. lra. }
          match type of H with match ?w with _ => _ end = _ => destruct w as [|i [|j [|k [|]]]] eqn:WH end;
            try (right; exact (FL _ _ TA H)); injection H as <-; left;
            (split; [reflexivity|]); cbn [ev_side ev_time mkevent].
          -- exact N.
          -- intros x Hx. apply N. match type of WH with where3 ?f ?q = _ => pose proof (where3_NoDup f q) as ND end. rewrite WH in ND.
             clear - ND. inversion ND as [|? ? N1 ND1]; subst. inversion ND1 as [|? ? N2 _]; subst. cbn in N1, N2.
             destruct x, i, j, k; cbn; tauto.
        * destruct (ta <? te)%num; [right; exact (FL _ _ TA H)|left; exact (ED _ _ eq_refl H)].
      + left. exact (ED _ _ eq_refl H).
      + assert (In ta times) as TA.
        { apply sieve_some in RA'. destruct RA' as [K _]. apply in_map_iff in K. destruct K as (r & K & Hr). injection K as ->. exact Hr. }
        right. exact (FL _ _ TA H).
      + discriminate.
  Qed.
End Zero.

(** ** A side on the wavefront *)
(** both ends of side [w] are always on the front [l], which the code finds as their common line *)
Definition on_front (s : state (A:=RA)) (t : nat) (w : side) (l : line2 (A:=RA)) : Prop :=
  unit_line l /\
  (exists u u', k_ur (vs s (get3 (t_v (ts s t)) (ccw w))) = Some u /\ k_ul (vs s (get3 (t_v (ts s t)) (cw w))) = Some u' /\
    wf_line (wfs s u) = l /\ wf_line (wfs s u') = l) /\
  (forall x, gap l (vs s (get3 (t_v (ts s t)) (ccw w))) x = 0) /\
  (forall x, gap l (vs s (get3 (t_v (ts s t)) (cw w))) x = 0).

Lemma area_turn s t w x : area s t x = area2 (place s t (ccw w) x) (place s t (cw w) x) (place s t w x).
Proof. unfold area, area2. destruct w; cbn [ccw cw]; ring. Qed.

Section Front.
  Variable s : state (A:=RA).
  Variable t : nat.
  Hypothesis O : ordinary s t.
  Variable w : side.
  Variable l : line2 (A:=RA).
  Hypothesis F : on_front s t w l.
  Notation c i := (get3 (t_v (ts s t)) i).

  (** speed with which the ends move apart, with which the front moves on from the apex *)
  Definition spread : R := dv2 (vs s (c (ccw w))) (vs s (c (cw w))).
  Definition approach : R :=
    1 - (fst (k_velocity (vs s (c w))) * fst (lw l) + snd (k_velocity (vs s (c w))) * snd (lw l)).


  (** the signed length of the side and the signed height are linear in time *)
  Lemma frame : exists p0 p1,
    (forall x, len2 s t w x = (p0 + p1 * x)^2) /\ spread = p1^2 /\
    (forall x, area s t x = (p0 + p1 * x) * gap l (vs s (c w)) x) /\
    collapse_time_edge s (c (ccw w)) (c (cw w)) = Ok (if Rle_dec spread (/ 10^10) then -1 else - p0 / p1) /\
    (forall x, fst (place s t (cw w) x) = fst (place s t (ccw w) x) + snd (lw l) * (p0 + p1 * x) /\
               snd (place s t (cw w) x) = snd (place s t (ccw w) x) - fst (lw l) * (p0 + p1 * x)).
  Proof.
    destruct F as (U & _ & G1 & G2). clear F O.
    destruct (k_origin (vs s (c (ccw w)))) as [ox oy] eqn:E1. destruct (k_velocity (vs s (c (ccw w)))) as [ou ov] eqn:E2.
    destruct (k_origin (vs s (c (cw w)))) as [dx dy] eqn:E3. destruct (k_velocity (vs s (c (cw w)))) as [du dv] eqn:E4.
    destruct l as [[a b] e]. unfold unit_line in U. unfold gap, path, moving in G1, G2. rewrite E1, E2 in G1. rewrite E3, E4 in G2.
    cbn [lw lb fst snd] in *. ra_simp.
    assert (N0 : a * (dx - ox) + b * (dy - oy) = 0) by (pose proof (G1 0); pose proof (G2 0); lra).
    assert (N1 : a * (du - ou) + b * (dv - ov) = 0) by (pose proof (G1 0); pose proof (G2 0); pose proof (G1 1); pose proof (G2 1); lra).
    assert (U' : a * a + b * b = 1) by (cbn in U; lra).
    exists (b * (dx - ox) - a * (dy - oy)), (b * (du - ou) - a * (dv - ov)).
    assert (X0 : forall p q, a * p + b * q = 0 -> p = b * (b * p - a * q) /\ q = - a * (b * p - a * q)).
    { intros p q H. split.
      - replace (b * (b * p - a * q)) with ((a * a + b * b) * p - a * (a * p + b * q)) by ring. rewrite U', H. ring.
      - replace (- a * (b * p - a * q)) with ((a * a + b * b) * q - b * (a * p + b * q)) by ring. rewrite U', H. ring. }
    set (p0 := b * (dx - ox) - _). set (p1 := b * (du - ou) - _).
    destruct (X0 _ _ N0) as [A0 B0]. destruct (X0 _ _ N1) as [A1 B1]. fold p0 in A0, B0. fold p1 in A1, B1. clearbody p0 p1. clear X0.
    assert (SP : spread = p1^2).
    { unfold spread, dv2, sqdist. rewrite E2, E4. cbn [fst snd].
      replace (ou - du) with (- (b * p1)) by lra. replace (ov - dv) with (a * p1) by lra.
      replace ((- (b * p1))^2 + (a * p1)^2) with ((a * a + b * b) * p1^2) by ring. rewrite U'. ring. }
    split; [|split; [exact SP|split]].
    - intros x. unfold len2, place, sqdist, path, moving. rewrite E1, E2, E3, E4. cbn [fst snd].
      replace (ox + x * ou - (dx + x * du)) with (- (b * (p0 + p1 * x))) by (rewrite Rmult_plus_distr_l, <- A0; replace (b * (p1 * x)) with (x * (b * p1)) by ring; rewrite <- A1; ring).
      replace (oy + x * ov - (dy + x * dv)) with (a * (p0 + p1 * x)).
      2:{ replace (a * (p0 + p1 * x)) with (- (- a * p0) - x * (- a * p1)) by ring. rewrite <- B0, <- B1. ring. }
      replace ((- (b * (p0 + p1 * x)))^2 + (a * (p0 + p1 * x))^2) with ((a * a + b * b) * (p0 + p1 * x)^2) by ring. rewrite U'. ring.
    - intros x. rewrite (area_turn s t w). unfold area2, place, gap, path, moving. rewrite E1, E2, E3, E4. cbn [lw lb fst snd].
      replace (dx + x * du - (ox + x * ou)) with (b * (p0 + p1 * x)) by (replace (b * (p0 + p1 * x)) with (b * p0 + x * (b * p1)) by ring; rewrite <- A0, <- A1; ring).
      replace (dy + x * dv - (oy + x * ov)) with (- a * (p0 + p1 * x)) by (replace (- a * (p0 + p1 * x)) with (- a * p0 + x * (- a * p1)) by ring; rewrite <- B0, <- B1; ring).
      specialize (G1 x). set (h := p0 + p1 * x).
      destruct (k_origin (vs s (c w))) as [hx hy], (k_velocity (vs s (c w))) as [hu hv]. cbn [fst snd]. ra_simp.
      replace e with (x - (a * (ox + x * ou) + b * (oy + x * ov))) by lra. ring.
    - split.
      2:{ intros x. unfold place, path, moving. rewrite E1, E2, E3, E4. cbn [fst snd].
          assert (Q1 : b * p0 + x * (b * p1) = b * (p0 + p1 * x)) by ring.
          assert (Q2 : - a * p0 + x * (- a * p1) = - (a * (p0 + p1 * x))) by ring.
          rewrite <- A0, <- A1 in Q1. rewrite <- B0, <- B1 in Q2. split; lra. }
      rewrite collapse_time_edge_R. f_equal. unfold spread. destruct (Rle_dec _ _) as [L|L]; [reflexivity|].
      unfold spread in SP. rewrite SP in *. rewrite E1, E2, E3, E4. cbn [fst snd].
      assert (p1 <> 0) by (intros ->; apply L; lra).
      replace (ou - du) with (- (b * p1)) by lra. replace (ov - dv) with (a * p1) by lra.
      rewrite A0, B0.
      replace (- (b * p1) * (b * p0) + a * p1 * (- a * p0)) with (- ((a * a + b * b) * (p0 * p1))) by ring. rewrite U'.
      field. assumption.
  Qed.
  Lemma gap_line x : gap l (vs s (c w)) x = gap l (vs s (c w)) 0 - x * approach.
  Proof.
    unfold gap, path, moving, approach. destruct (k_origin (vs s (c w))), (k_velocity (vs s (c w))), (lw l). cbn [fst snd]. ra_simp. ring.
  Qed.
  Lemma front_shares : shares_front s (c (ccw w)) (c (cw w)) l.
  Proof.
    destruct F as (U & C & G1 & _). split; [apply O|]. split; [apply O|]. split; [exact U|]. split; [|exact C].
    specialize (G1 0). unfold gap, path, moving in G1. unfold on, eval.
    destruct (k_origin (vs s (c (ccw w)))), (k_velocity (vs s (c (ccw w)))), l as [[la lc] ld]. cbn [lw lb fst snd] in *. ra_simp. lra.
  Qed.
  Lemma front_crash :
    vertex_crash_time s (c (ccw w)) (c (cw w)) (c w) =
    Ok (if Rle_dec (Rabs approach) (/ 10^10) then None else Some (gap l (vs s (c w)) 0 / approach)).
  Proof.
    destruct (crash_value s _ _ (c w) l front_shares) as [_ [[L ->]|[L ->]]]; fold approach in L |- *;
      destruct (Rle_dec _ _); (reflexivity || lra).
  Qed.
  (** the speed of the area at time 0 *)
  Definition drift : R := area s t 1 - area s t 0 - growth s t.
  (** no speed that the code takes for zero differs from zero *)
  Definition clear_front : Prop :=
    clear spread /\ clear approach /\ clear (growth s t) /\ (growth s t = 0 -> clear drift).

  (** the code's times, and its area roots: one of them or their midpoint *)
  Lemma front_times (now : R) sv areas : clear_front -> 0 <= now ->
    area_collapse_times s (x0 (t_v (ts s t))) (x1 (t_v (ts s t))) (x2 (t_v (ts s t))) = Ok areas ->
    exists te crash, collapse_time_edge s (c (ccw w)) (c (cw w)) = Ok te /\
      vertex_crash_time s (c (ccw w)) (c (cw w)) (c w) = Ok crash /\
      (adm sv now te -> len2 s t w te = 0) /\
      (forall tv : R, crash = Some tv -> gap l (vs s (c w)) tv = 0) /\
      (forall r : R, In r areas -> adm sv now r ->
         adm sv now te /\ r = te \/ exists tv : R, crash = Some tv /\ (r = tv \/ Rabs (r - tv) <= / 10^5 /\ (adm sv now tv \/ adm sv now te))).
  Proof.
    intros (CS & CA & CG & CD) P0 AT. destruct frame as (p0 & p1 & L & SP & AR & TE & _).
    assert (GL := gap_line). set (g0 := gap l (vs s (c w)) 0) in *.
    destruct (area_times _ _ _ AT) as (ca & cb & cc & sol & H1 & H2 & H3).
    assert (K : forall x, ca * x^2 + cb * x + cc = area s t x) by (intros x; apply area_coeffs, H1).
    assert (GR := growth_coeff _ _ _ _ _ H1).
    assert (K' : forall x, area s t x = (p0 + p1 * x) * (g0 - x * approach)) by (intros x; rewrite AR, GL; reflexivity).
    assert (E0 : cc = p0 * g0) by (pose proof (K 0) as Q; rewrite K' in Q; lra).
    assert (E1 : ca = p1 * - approach /\ cb = p0 * - approach + p1 * g0).
    { pose proof (K 1) as Q. pose proof (K (-1)) as Q'. rewrite K' in Q, Q'. lra. }
    destruct E1 as [E1 E2].
    assert (DR : drift = cb) by (unfold drift; rewrite <- GR, <- !K; ring).
    exists (if Rle_dec spread (/ 10^10) then -1 else - p0 / p1),
      (if Rle_dec (Rabs approach) (/ 10^10) then None else Some (g0 / approach)).
    split; [exact TE|]. split; [apply front_crash|].
    assert (NA : ~ adm sv now (-1)) by (destruct sv; cbn; lra).
    assert (S0' : spread <= / 10^10 -> p1 = 0).
    { intros Q. destruct CS as [Z|Z]; [nra|]. exfalso. rewrite SP in Q, Z. rewrite Rabs_pos_eq in Z by apply pow2_ge_0. lra. }
    assert (A0' : Rabs approach <= / 10^10 -> approach = 0) by (intros Q; destruct CA; [assumption|lra]).
    split.
    { destruct (Rle_dec _ _) as [Q|Q]; [intros; contradiction|intros _]. rewrite L.
      assert (p1 <> 0) by (intros ->; apply Q; rewrite SP; lra). replace (p0 + p1 * (- p0 / p1)) with 0 by (field; assumption). ring. }
    split.
    { intros tv. destruct (Rle_dec (Rabs approach) _) as [Q|Q]; intros E.
      1:{ change (@None R = @Some R tv) in E. discriminate E. }
      change (@Some R (g0 / approach) = @Some R tv) in E. injection E as <-. rewrite GL.
      assert (approach <> 0) by (intros Z; apply Q; rewrite Z, Rabs_R0; lra). field. assumption. }
    intros r Hr Ar. apply H3 in Hr. rewrite E0, E1, E2 in H2.
    destruct (product_roots p0 p1 g0 (- approach) sol r H2 Hr) as [[Z Q]|[[Z Q]|(Z1 & Z2 & Q & ->)]].
    - rewrite <- E1, GR. exact CG.
    - rewrite <- E1, <- E2, GR, <- DR. exact CD.
    - left. assert (r = - p0 / p1) as -> by (replace p0 with (- (p1 * r)) by lra; field; exact Z).
      destruct (Rle_dec spread _) as [X|X]; [destruct (Z (S0' X))|]. auto.
    - right. destruct (Rle_dec (Rabs approach) _) as [X|X]; [rewrite (A0' X) in Z; destruct Z; ring|].
      exists (g0 / approach). split; [reflexivity|]. left.
      assert (approach <> 0) by (intros Y; apply Z; rewrite Y; ring). replace g0 with (approach * r) by lra. field. assumption.
    - right. destruct (Rle_dec (Rabs approach) _) as [X|X]; [rewrite (A0' X) in Z2; destruct Z2; ring|].
      destruct (Rle_dec spread _) as [Y|Y]; [destruct (Z1 (S0' Y))|].
      assert (NZ : approach <> 0) by (intros Y'; apply Z2; rewrite Y'; ring).
      exists (g0 / approach). split; [reflexivity|]. right.
      replace (- g0 / - approach) with (g0 / approach) in * by (field; exact NZ).
      set (te := - p0 / p1) in *. set (tv := g0 / approach) in *. clearbody te tv.
      split.
      + replace ((te + tv) / 2 - tv) with ((te - tv) / 2) by lra. unfold Rdiv at 1.
        rewrite Rabs_mult, (Rabs_pos_eq (/ 2)) by lra. lra.
      + clear - Ar. destruct sv; cbn in *; lra.
  Qed.

  (** the apex reaches the front, and side [i] is the longest one, at (nearly) the time of [e] *)
  Definition touches (i : side) (x : R) : Prop :=
    (exists y, Rabs (y - x) <= / 10^5 /\ gap l (vs s (c w)) y = 0) /\
    (exists y, Rabs (y - x) <= / 10^5 /\ longest s t i y).

  Lemma touches_at i x : gap l (vs s (c w)) x = 0 -> longest s t i x -> touches i x.
  Proof.
    intros G L. assert (Z : Rabs (x - x) <= / 10^5) by (rewrite Rminus_diag_eq, Rabs_R0 by reflexivity; lra).
    split; exists x; auto.
  Qed.

  Lemma areas_ok : exists l, area_collapse_times s (x0 (t_v (ts s t))) (x1 (t_v (ts s t))) (x2 (t_v (ts s t))) = Ok l.
  Proof.
    unfold area_collapse_times. destruct (area_collapse_time_coeff _ _ _) as [[ca cb] cc]. rewrite solve_quadratic_R. eexists. reflexivity.
  Qed.

  Theorem one_truth (now : R) sv e :
    tri_type (ts s t) = 1%nat -> get3 (t_n (ts s t)) w = None -> clear_front -> 0 <= now ->
    collapse_event s t now sv = Ok (Some e) ->
    (ev_tp e = Edge /\ forall i, In i (ev_side e) -> len2 s t i (ev_time e) <= / 10^20) \/
    (ev_tp e = Split /\ ev_side e = [w] /\ touches w (ev_time e)) \/
    (ev_tp e = Flip /\ exists i, ev_side e = [i] /\ touches i (ev_time e)).
  Proof.
    intros TY NB CF P0 H. unfold collapse_event in H. destruct (is_some _); [discriminate|].
    rewrite (ordinary_finite s t O), TY in H. apply rbind_ok in H as ([e'|] & H & K).
    2:{ apply rbind_ok in K as (? & _ & K). discriminate K. }
    injection K as ->. unfold compute_event_1triangle in H. rewrite TY in H. cbn [Nat.eqb rassert rbind] in H.
    apply rbind_ok in H as (wf & WF & H).
    assert (U : forall i, get3 (t_n (ts s t)) i = None -> i = w).
    { intros i Hi. unfold tri_type, count3 in TY. destruct (t_n (ts s t)) as [[a|] [b|] [d|]]; destruct i, w; cbn in *; congruence. }
    assert (wf = w) as -> by (apply U, index3_none_nb, WF). clear WF.
    destruct areas_ok as [areas AT].
    destruct (front_times now sv areas CF P0 AT) as (te & crash & TE & VC & EL & VG & AR).
    rewrite VC in H. cbn [rbind] in H. rewrite AT, TE in H. cbn [rbind] in H.
    assert (Z5 : / 10^10 <= / 10^5) by lra.
    apply rbind_ok in H as ([e'|] & EA & H).
    - injection H as ->. unfold event1_degenerate in EA. destruct crash as [tv|]; [|discriminate].
      destruct (near_zero _) eqn:NZ; [|discriminate]. apply near_zero_R in NZ. ra_simp.
      rewrite (dists_val _ _ O) in EA. cbn [rbind] in EA.
      assert (TT : (sd <-- argmax3 (A:=RA) (map3 sqrt (lens s t now)) ;; Ok (Some (mkevent s t now [sd] (if side_eqb sd w then Split else Flip))))%res = Ok (Some e) ->
        (ev_tp e = Split /\ ev_side e = [w] /\ touches w (ev_time e)) \/
        (ev_tp e = Flip /\ exists i, ev_side e = [i] /\ touches i (ev_time e))).
      { intros K. apply rbind_ok in K as (i & K1 & K). apply max_longest_sqrt in K1.
        assert (T : touches i now).
        { split; [exists tv; split; [lra|apply VG; reflexivity]|].
          exists now. split; [rewrite Rminus_diag_eq, Rabs_R0 by reflexivity; lra|exact K1]. }
        injection K as <-. cbn [ev_tp ev_side ev_time mkevent]. destruct (side_eqb i w) eqn:SE.
        - apply side_eqb_eq in SE. subst i. left. auto.
        - right. split; [reflexivity|]. exists i. auto. }
      match type of EA with match ?W with _ => _ end = _ => destruct W as [|i [|j [|]]] eqn:WH end; try (right; exact (TT EA)).
      left. injection EA as <-. split; [reflexivity|]. cbn [ev_side ev_time mkevent]. intros ? [<-|[]].
      apply (near_where _ _ _ _ _ WH). left. reflexivity.
    - clear EA. destruct (run_sieve sv [Some te] now) as [te'|] eqn:RE; [apply sieve_some in RE; destruct RE as ([E|[]] & AE & _); injection E as <-|];
        (destruct (run_sieve sv [crash] now) as [tv|] eqn:RV; [apply sieve_some in RV; destruct RV as ([E|[]] & AV & _); subst crash|]).
      + (* D *) unfold event1_caseD in H. rewrite (dists2_val _ _ O), (dists_val _ _ O) in H. cbn [rbind] in H.
        destruct ((te <? tv) || (te =? tv))%num eqn:LE.
        * apply rbind_ok in H as (i & K & H). injection H as <-. left. split; [reflexivity|]. cbn [ev_side ev_time mkevent].
          intros ? [<-|[]]. pose proof (min_least s t te i w K) as M. rewrite (EL AE) in M. eapply Rle_trans; [exact M|]. lra.
        * destruct (tv <? te)%num; [|discriminate].
          assert (TT : (sd <-- argmax3 (A:=RA) (map3 sqrt (lens s t tv)) ;; Ok (Some (mkevent s t tv [sd] (if is_none (get3 (t_n (ts s t)) sd) then Split else Flip))))%res = Ok (Some e) ->
            (ev_tp e = Split /\ ev_side e = [w] /\ touches w (ev_time e)) \/
            (ev_tp e = Flip /\ exists i, ev_side e = [i] /\ touches i (ev_time e))).
          { intros K. apply rbind_ok in K as (i & K1 & K). apply max_longest_sqrt in K1.
            assert (T : touches i tv) by (apply touches_at; [apply VG; reflexivity|exact K1]).
            injection K as <-. cbn [ev_tp ev_side ev_time mkevent]. destruct (is_none (get3 (t_n (ts s t)) i)) eqn:SE.
            - assert (i = w) as -> by (apply U; destruct (get3 (t_n (ts s t)) i); [discriminate SE|reflexivity]). left. auto.
            - right. split; [reflexivity|]. exists i. auto. }
          match type of H with match ?W with _ => _ end = _ => destruct W as [|i [|j [|k [|]]]] eqn:WH end; try (right; exact (TT H)).
          -- injection H as <-. left. split; [reflexivity|]. cbn [ev_side ev_time mkevent]. intros x Hx. apply (near_where _ _ _ _ _ WH Hx).
          -- injection H as <-. left. split; [reflexivity|]. cbn [ev_side ev_time mkevent]. intros x _. apply (near_all _ _ _ _ _ _ _ _ WH).
      + (* C *) injection H as <-. left. split; [reflexivity|]. cbn [ev_side ev_time mkevent]. intros ? [<-|[]]. rewrite (EL AE). lra.
      + (* B *) unfold event1_caseB in H.
        set (time := match run_sieve sv (map Some areas) now with Some ta => if (ta <? tv)%num then ta else tv | None => tv end) in H.
        assert (T5 : Rabs (tv - time) <= / 10^5).
        { assert (Z : Rabs (tv - tv) <= / 10^5) by (rewrite Rminus_diag_eq, Rabs_R0 by reflexivity; lra).
          unfold time. destruct (run_sieve sv (map Some areas) now) as [ta|] eqn:RA'; [|exact Z].
          destruct (ta <? tv)%num; [|exact Z].
          apply sieve_some in RA'. destruct RA' as (K & AA & _). apply in_map_iff in K. destruct K as (r & K & Hr). injection K as ->.
          destruct (AR ta Hr AA) as [[X _]|(tv' & E & [-> |[X _]])].
          - exfalso. eapply sieve_none; [exact RE|left; reflexivity|exact X].
          - injection E as <-. exact Z.
          - injection E as <-. rewrite Rabs_minus_sym. exact X. }
        clearbody time. rewrite (dists_val _ _ O) in H. cbn [rbind] in H. cbv zeta in H.
        assert (TT : forall i x, longest s t i time -> x = tv \/ x = time -> touches i x).
        { intros i x L X. split; [exists tv|exists time].
          - split; [|apply VG; reflexivity]. destruct X as [-> | ->]; [rewrite Rminus_diag_eq, Rabs_R0 by reflexivity; lra|exact T5].
          - split; [|exact L]. destruct X as [-> | ->]; [rewrite Rabs_minus_sym; exact T5|rewrite Rminus_diag_eq, Rabs_R0 by reflexivity; lra]. }
        match type of H with (if ?c then _ else _) = _ => destruct c eqn:LG end.
        * injection H as <-. right. left. split; [reflexivity|]. split; [reflexivity|]. cbn [ev_time mkevent]. apply TT; [|auto].
          match type of LG with match ?W with _ => _ end = _ => destruct W as [|i [|j ll]] eqn:WH end; try discriminate LG.
          apply side_eqb_eq in LG. subst i. apply (longest_only _ _ _ _ WH).
        * destruct (count3 near_zero _ =? 1)%nat eqn:CN.
          -- apply rbind_ok in H as (i & K & H). injection H as <-. left. split; [reflexivity|]. cbn [ev_side ev_time mkevent].
             intros ? [<-|[]]. apply Nat.eqb_eq in CN. rewrite <- where3_length in CN.
             match type of CN with length ?W = _ => destruct W as [|j [|]] eqn:WH end; try discriminate CN.
             eapply Rle_trans; [apply (min_least_sqrt _ _ _ _ j K)|]. apply (near_where _ _ _ _ _ WH). left. reflexivity.
          -- apply rbind_ok in H as (i & K & H). injection H as <-. right. right. split; [reflexivity|]. exists i. split; [reflexivity|].
             cbn [ev_time mkevent]. apply TT; [apply max_longest_sqrt, K|auto].
      + (* A *) exfalso. unfold event1_caseA in H.
        assert (NR : run_sieve sv (map Some areas) now = None).
        { destruct (run_sieve sv (map Some areas) now) as [ta|] eqn:RA'; [|reflexivity]. exfalso.
          apply sieve_some in RA'. destruct RA' as (K & AA & _). apply in_map_iff in K. destruct K as (r & K & Hr). injection K as ->.
          assert (NE : ~ adm sv now te) by (apply (sieve_none _ _ _ RE); left; reflexivity).
          destruct (AR ta Hr AA) as [[X _]|(tv' & E & X)]; [exact (NE X)|].
          assert (NV : ~ adm sv now tv') by (apply (sieve_none _ _ _ RV); left; exact E).
          destruct X as [-> |[_ [X|X]]]; [exact (NV AA)|exact (NV X)|exact (NE X)]. }
        unfold area_collapse_times in AT. destruct (area_collapse_time_coeff _ _ _) as [[ca cb] cc].
        apply rbind_ok in AT as (sol & SQ & AT). rewrite SQ in H. cbn [rbind] in H. injection AT as <-.
        destruct (run_sieve sv (map Some sol) now) as [r|] eqn:RS; [|discriminate H].
        apply sieve_some in RS. destruct RS as (K & AA & _). apply in_map_iff in K. destruct K as (r' & K & Hr). injection K as ->.
        apply (sieve_none _ _ _ NR r); [|exact AA]. apply in_map.
        first [eapply Permutation.Permutation_in; [apply isort_perm|exact Hr]|eapply Permutation.Permutation_in; [apply Permutation.Permutation_sym; apply isort_perm|exact Hr]].
  Qed.
End Front.

(** ** Two sides on the wavefront *)
Section Two.
  Variable s : state (A:=RA).
  Variable t : nat.
  Hypothesis O : ordinary s t.
  Variables i j : side.
  Variables li lj : line2 (A:=RA).
  Hypothesis IJ : i <> j.
  Hypothesis Fi : on_front s t i li.
  Hypothesis Fj : on_front s t j lj.
  Notation c k := (get3 (t_v (ts s t)) k).

  (** the height above one side is a fixed multiple of the length of the other *)
  Lemma two_sides : exists p0 p1 r0 r1 k,
    (forall x, len2 s t i x = (p0 + p1 * x)^2) /\ spread s t i = p1^2 /\
    (forall x, len2 s t j x = (r0 + r1 * x)^2) /\ spread s t j = r1^2 /\
    collapse_time_edge s (c (ccw i)) (c (cw i)) = Ok (if Rle_dec (spread s t i) (/ 10^10) then -1 else - p0 / p1) /\
    collapse_time_edge s (c (ccw j)) (c (cw j)) = Ok (if Rle_dec (spread s t j) (/ 10^10) then -1 else - r0 / r1) /\
    (forall x, area s t x = (p0 + p1 * x) * (k * r0 + k * r1 * x)).
  Proof.
    destruct (frame s t i li Fi) as (p0 & p1 & L & SP & AR & TE & V).
    destruct (frame s t j lj Fj) as (r0 & r1 & L' & SP' & _ & TE' & V').
    destruct Fi as (_ & _ & G1 & G2).
    assert (HX : exists k, forall x, gap li (vs s (c i)) x = k * (r0 + r1 * x)).
    { assert (GG : forall m x, gap li (vs s (c m)) x = fst (lw li) * fst (place s t m x) + snd (lw li) * snd (place s t m x) + lb li - x).
      { intros m x. unfold gap, place. destruct (path (vs s (c m)) x). reflexivity. }
      assert (CI : j = ccw i \/ j = cw i) by (destruct i, j; auto; destruct (IJ eq_refl)).
      destruct CI as [-> | ->].
      - exists (fst (lw li) * snd (lw lj) - snd (lw li) * fst (lw lj)). intros x. specialize (G2 x). specialize (V' x).
        rewrite GG in *. replace (ccw (ccw i)) with (cw i) in V' by (destruct i; reflexivity).
        replace (cw (ccw i)) with i in V' by (destruct i; reflexivity). destruct V' as [-> ->]. lra.
      - exists (- (fst (lw li) * snd (lw lj) - snd (lw li) * fst (lw lj))). intros x. specialize (G1 x). specialize (V' x).
        rewrite GG in *. replace (cw (cw i)) with (ccw i) in V' by (destruct i; reflexivity).
        replace (ccw (cw i)) with i in V' by (destruct i; reflexivity). destruct V' as [E1 E2]. rewrite E1, E2 in G1. lra. }
    destruct HX as [k HX]. exists p0, p1, r0, r1, k. repeat (split; [assumption|]). intros x. rewrite AR, HX. ring.
  Qed.

  Definition clear_two : Prop :=
    clear (spread s t i) /\ clear (spread s t j) /\ clear (growth s t) /\ (growth s t = 0 -> clear (drift s t)).

  Definition two_collapse (x : R) : Prop :=
    len2 s t i x = 0 \/ len2 s t j x = 0 \/
    exists y z, len2 s t i y = 0 /\ len2 s t j z = 0 /\ Rabs (y - z) <= 2 / 10^5 /\ x = (y + z) / 2.

  Theorem two_truth (now : R) sv e :
    tri_type (ts s t) = 2%nat -> get3 (t_n (ts s t)) i = None -> get3 (t_n (ts s t)) j = None -> clear_two -> 0 <= now ->
    collapse_event s t now sv = Ok (Some e) ->
    ev_tp e = Edge /\ two_collapse (ev_time e) /\
    forall k m, In k (ev_side e) -> sqrt (len2 s t k (ev_time e)) <= sqrt (len2 s t m (ev_time e)) + / 10^10.
  Proof.
    intros TY NI NJ (CI & CJ & CG & CD) P0 H. unfold collapse_event in H. destruct (is_some _); [discriminate|].
    rewrite (ordinary_finite s t O), TY in H. apply rbind_ok in H as ([e'|] & H & K).
    2:{ apply rbind_ok in K as (? & _ & K). discriminate K. }
    injection K as ->. unfold compute_event_2triangle in H. rewrite TY in H. cbn [Nat.eqb rassert rbind] in H.
    destruct two_sides as (p0 & p1 & r0 & r1 & k & LI & SI & LJ & SJ & TI & TJ & AR).
    set (ti := if Rle_dec (spread s t i) (/ 10^10) then -1 else - p0 / p1) in *.
    set (tj := if Rle_dec (spread s t j) (/ 10^10) then -1 else - r0 / r1) in *.
    assert (NA : ~ adm sv now (-1)) by (destruct sv; cbn; lra).
    assert (EI : adm sv now ti -> len2 s t i ti = 0).
    { unfold ti. destruct (Rle_dec (spread s t i) _) as [Q|Q]; [intros X; destruct (NA X)|intros _]. rewrite LI.
      assert (p1 <> 0) by (intros ->; apply Q; rewrite SI; lra). replace (p0 + p1 * (- p0 / p1)) with 0 by (field; assumption). ring. }
    assert (EJ : adm sv now tj -> len2 s t j tj = 0).
    { unfold tj. destruct (Rle_dec (spread s t j) _) as [Q|Q]; [intros X; destruct (NA X)|intros _]. rewrite LJ.
      assert (r1 <> 0) by (intros ->; apply Q; rewrite SJ; lra). replace (r0 + r1 * (- r0 / r1)) with 0 by (field; assumption). ring. }
    assert (U : forall m, get3 (t_n (ts s t)) m = None -> m = i \/ m = j).
    { intros m Hm. unfold tri_type, count3 in TY. destruct (t_n (ts s t)) as [[?|] [?|] [?|]]; destruct i, j, m; cbn in *; auto; congruence. }
    apply rbind_ok in H as (x & HX & H). apply rbind_ok in H as (y & HY & H). apply rbind_ok in H as (z & HZ & H).
    apply rbind_ok in H as (times & UT & H). apply rbind_ok in H as (time & TM & H). destruct time as [time|]; [|discriminate].
    assert (TC : two_collapse time).
    { destruct (run_sieve sv (map Some times) now) as [tm|] eqn:RS.
      - injection TM as ->. apply sieve_some in RS. destruct RS as (K & AA & _). apply in_map_iff in K. destruct K as (r & K & Hr). injection K as ->.
        assert (time = ti \/ time = tj) as [-> | ->].
        { assert (SD : forall m (q : option R) v, (if is_none (get3 (t_n (ts s t)) m) then rmap Some (collapse_time_edge s (c (ccw m)) (c (cw m))) else Ok None) = Ok q ->
              q = Some v -> v = ti \/ v = tj).
          { intros m q v Q ->. destruct (get3 (t_n (ts s t)) m) eqn:NM; [discriminate Q|].
            destruct (U m NM) as [-> | ->]; cbn [is_none] in Q; [rewrite TI in Q|rewrite TJ in Q]; injection Q as <-; auto. }
          assert (IN : In time (somes [x; y; z])).
          { assert (NE : exists f, In f (somes [x; y; z])).
            { unfold get_unique_times in UT. destruct (somes [x; y; z]) as [|f fl]; [cbn in UT; discriminate UT|].
              exists f. left. reflexivity. }
            destruct NE as [f NE]. apply In_somes in NE.
            destruct (C05_unique_times_otherwise [x; y; z] f NE) as (out & Q1 & Q2).
            assert (Q3 : Ok times = Ok out) by (rewrite <- Q1; symmetry; exact UT). injection Q3 as ->. apply Q2, Hr. }
          apply In_somes in IN. destruct IN as [Q|[Q|[Q|[]]]].
          - exact (SD S2 x time HX Q).
          - exact (SD S0 y time HY Q).
          - exact (SD S1 z time HZ Q). }
        + left. auto.
        + right. left. auto.
      - apply rbind_ok in TM as (areas & AT & TM). injection TM as TM. apply sieve_some in TM. destruct TM as (K & AA & _).
        apply in_map_iff in K. destruct K as (r & K & Hr). injection K as ->.
        destruct (area_times _ _ _ AT) as (ca & cb & cc & sol & H1 & H2 & H3). apply H3 in Hr.
        assert (K : forall x, ca * x^2 + cb * x + cc = area s t x) by (intros q; apply area_coeffs, H1).
        assert (GR := growth_coeff _ _ _ _ _ H1).
        assert (E0 : cc = p0 * (k * r0)) by (pose proof (K 0) as Q; rewrite AR in Q; lra).
        assert (E1 : ca = p1 * (k * r1) /\ cb = p0 * (k * r1) + p1 * (k * r0)).
        { pose proof (K 1) as Q. pose proof (K (-1)) as Q'. rewrite AR in Q, Q'. lra. }
        destruct E1 as [E1 E2].
        assert (DR : drift s t = cb) by (unfold drift; rewrite <- GR, <- !K; ring).
        rewrite E0, E1, E2 in H2.
        destruct (product_roots p0 p1 (k * r0) (k * r1) sol time H2 Hr) as [[Z Q]|[[Z Q]|(Z1 & Z2 & Q & Q')]].
        + rewrite <- E1, GR. exact CG.
        + rewrite <- E1, <- E2, GR, <- DR. exact CD.
        + left. rewrite LI, Q. ring.
        + right. left. rewrite LJ. replace (r0 + r1 * time) with 0; [ring|].
          assert (k <> 0) by (intros ->; apply Z; ring). apply Rmult_eq_reg_l with k; [lra|assumption].
        + right. right. assert (k <> 0 /\ r1 <> 0) as [? ?] by (split; intros ->; apply Z2; ring).
          exists (- p0 / p1), (- (k * r0) / (k * r1)). rewrite LI, LJ.
          split; [replace (p0 + p1 * (- p0 / p1)) with 0 by (field; assumption); ring|].
          split; [replace (r0 + r1 * (- (k * r0) / (k * r1))) with 0 by (field; auto); ring|]. auto. }
    unfold event2_at in H. rewrite (dists_val _ _ O) in H. cbn [rbind] in H. cbv zeta in H.
    set (ds := map3 sqrt (lens s t time)) in H.
    set (sh := map3 (fun x : R => x - min3 (A:=RA) ds) ds : triple R).
    change (map3 (fun x : @num RA => nsub (Arith:=RA) x (min3 (A:=RA) ds)) ds) with sh in H.
    assert (N : forall m q, get3 sh m <= / 10^10 -> sqrt (len2 s t m time) <= sqrt (len2 s t q time) + / 10^10).
    { intros m q K. pose proof (min3_R ds q) as M. unfold sh in K. rewrite (get_map3 (fun x : R => x - min3 (A:=RA) ds)) in K.
      unfold ds in K at 1, M at 2. rewrite get_map3, get_lens in K, M. lra. }
    assert (N0 : forall m, In m (where3 (near_zero (A:=RA)) sh) -> get3 sh m <= / 10^10).
    { intros m K. apply where3_In in K. apply near_le in K. exact K. }
    rewrite <- where3_length in H.
    match type of H with match length ?W with _ => _ end = _ => destruct W as [|a [|b [|d [|]]]] eqn:WH end; cbn [length] in H; try discriminate H.
    - apply rbind_ok in H as (m & K & H). injection H as <-. split; [reflexivity|]. split; [exact TC|].
      cbn [ev_side ev_time mkevent]. intros ? q [<-|[]]. apply N.
      apply argmin3_R in K. pose proof (min3_R sh a) as M. rewrite <- K in M. eapply Rle_trans; [exact M|]. apply N0. left. reflexivity.
    - injection H as <-. split; [reflexivity|]. split; [exact TC|]. cbn [ev_side ev_time mkevent]. intros m q _. apply N, N0.
      pose proof (where3_NoDup (near_zero (A:=RA)) sh) as ND. rewrite WH in ND.
      clear - ND. inversion ND as [|? ? N1 ND1]; subst. inversion ND1 as [|? ? N2 _]; subst. cbn in N1, N2.
      destruct m, a, b, d; cbn; tauto.
  Qed.
End Two.

(** ** Three sides on the wavefront *)
(** no three different unit vectors are on one line *)
Lemma unit_det (a b d e f g : R) : a * a + b * b = 1 -> d * d + e * e = 1 -> f * f + g * g = 1 ->
  (a, b) <> (d, e) -> (d, e) <> (f, g) -> (f, g) <> (a, b) ->
  a * (e - g) - b * (d - f) + (d * g - e * f) <> 0.
Proof.
  intros U1 U2 U3 N1 N2 N3 Z.
  assert (P : forall x y z w : R, (x, y) <> (z, w) -> 0 < (x - z)^2 + (y - w)^2).
  { intros x y z w N. destruct (Req_dec x z) as [-> |X]; [destruct (Req_dec y w) as [-> |Y]; [destruct (N eq_refl)|]|].
    - assert (0 < (y - w)^2) by (rewrite <- Rsqr_pow2; apply Rsqr_pos_lt; lra). lra.
    - assert (0 < (x - z)^2) by (rewrite <- Rsqr_pow2; apply Rsqr_pos_lt; lra). assert (0 <= (y - w)^2) by apply pow2_ge_0. lra. }
  apply P in N1, N2, N3.
  (* 4 det^2 = product of the three squared distances (circumradius 1) *)
  assert (Q : 4 * (a * (e - g) - b * (d - f) + (d * g - e * f))^2 =
              ((a - d)^2 + (b - e)^2) * ((d - f)^2 + (e - g)^2) * ((f - a)^2 + (g - b)^2)).
  { set (A := a * d + b * e). set (B := d * f + e * g). set (C := f * a + g * b).
    assert (D1 : (a - d)^2 + (b - e)^2 = 2 - 2 * A) by (unfold A; lra).
    assert (D2 : (d - f)^2 + (e - g)^2 = 2 - 2 * B) by (unfold B; lra).
    assert (D3 : (f - a)^2 + (g - b)^2 = 2 - 2 * C) by (unfold C; lra).
    rewrite D1, D2, D3.
    set (X := a * e - b * d). set (Y := d * g - e * f). set (W := f * b - g * a).
    replace (a * (e - g) - b * (d - f) + Y) with (X + Y + W) by (unfold X, W; ring).
    assert (X2 : X^2 = 1 - A^2) by (unfold X, A; replace ((a * e - b * d)^2) with ((a*a+b*b)*(d*d+e*e) - (a * d + b * e)^2) by ring; rewrite U1, U2; ring).
    assert (Y2 : Y^2 = 1 - B^2) by (unfold Y, B; replace ((d * g - e * f)^2) with ((d*d+e*e)*(f*f+g*g) - (d * f + e * g)^2) by ring; rewrite U3, U2; ring).
    assert (W2 : W^2 = 1 - C^2) by (unfold W, C; replace ((f * b - g * a)^2) with ((a*a+b*b)*(f*f+g*g) - (f * a + g * b)^2) by ring; rewrite U3, U1; ring).
    assert (XY : X * Y = A * B - C) by (unfold X, Y, A, B, C; replace ((a * e - b * d) * (d * g - e * f)) with ((a * d + b * e) * (d * f + e * g) - (d*d+e*e) * (f * a + g * b)) by ring; rewrite U2; ring).
    assert (YW : Y * W = B * C - A) by (unfold Y, W, A, B, C; replace ((d * g - e * f) * (f * b - g * a)) with ((d * f + e * g) * (f * a + g * b) - (f*f+g*g) * (a * d + b * e)) by ring; rewrite U3; ring).
    assert (WX : W * X = C * A - B) by (unfold X, W, A, B, C; replace ((f * b - g * a) * (a * e - b * d)) with ((f * a + g * b) * (a * d + b * e) - (a*a+b*b) * (d * f + e * g)) by ring; rewrite U1; ring).
    assert (GR : 1 + 2 * A * B * C = A^2 + B^2 + C^2).
    { (* Gram determinant of three plane vectors *)
      assert ((X * Y)^2 = X^2 * Y^2) by ring. rewrite XY, X2, Y2 in H. lra. }
    replace ((X + Y + W)^2) with (X^2 + Y^2 + W^2 + 2 * (X * Y) + 2 * (Y * W) + 2 * (W * X)) by ring.
    rewrite X2, Y2, W2, XY, YW, WX. clear - GR. lra. }
  rewrite Z in Q. assert (0 < ((a - d)^2 + (b - e)^2) * ((d - f)^2 + (e - g)^2) * ((f - a)^2 + (g - b)^2)) by (repeat apply Rmult_lt_0_compat; assumption).
  lra.
Qed.

Section Three.
  Variable s : state (A:=RA).
  Variable t : nat.
  Hypothesis O : ordinary s t.
  Variable l : side -> line2 (A:=RA).
  Hypothesis F : forall w, on_front s t w (l w).
  Hypothesis ND : forall i j, i <> j -> lw (l i) <> lw (l j).
  Notation c k := (get3 (t_v (ts s t)) k).

  Lemma on_both i w x : i <> w -> fst (lw (l w)) * fst (place s t i x) + snd (lw (l w)) * snd (place s t i x) + lb (l w) - x = 0.
  Proof.
    intros N. destruct (F w) as (_ & _ & G1 & G2).
    assert (CI : i = ccw w \/ i = cw w) by (destruct i, w; auto; destruct (N eq_refl)).
    assert (GG : forall m y, gap (l w) (vs s (c m)) y = fst (lw (l w)) * fst (place s t m y) + snd (lw (l w)) * snd (place s t m y) + lb (l w) - y).
    { intros m y. unfold gap, place. destruct (path (vs s (c m)) y). reflexivity. }
    destruct CI as [-> | ->]; rewrite <- GG; auto.
  Qed.
  Lemma unit_of w : fst (lw (l w)) * fst (lw (l w)) + snd (lw (l w)) * snd (lw (l w)) = 1.
  Proof. destruct (F w) as (U & _). unfold unit_line in U. cbn in U. ra_simp. lra. Qed.
  Lemma place_move i x : place s t i x = (fst (k_origin (vs s (c i))) + x * fst (k_velocity (vs s (c i))), snd (k_origin (vs s (c i))) + x * snd (k_velocity (vs s (c i)))).
  Proof. unfold place, path, moving. destruct (k_origin _), (k_velocity _). reflexivity. Qed.
  Lemma with_front i w : i <> w -> fst (lw (l w)) * fst (k_velocity (vs s (c i))) + snd (lw (l w)) * snd (k_velocity (vs s (c i))) = 1.
  Proof.
    intros N. pose proof (on_both i w 0 N) as A. pose proof (on_both i w 1 N) as B. rewrite place_move in A, B. cbn [fst snd] in *. lra.
  Qed.
  (** no velocity keeps a point on all three fronts *)
  Lemma not_all vx vy : ~ (forall w, fst (lw (l w)) * vx + snd (lw (l w)) * vy = 1).
  Proof.
    intros H. pose proof (H S0) as A. pose proof (H S1) as B. pose proof (H S2) as D.
    pose proof (unit_of S0) as U0. pose proof (unit_of S1) as U1. pose proof (unit_of S2) as U2.
    pose proof (ND S0 S1 ltac:(discriminate)) as N1. pose proof (ND S1 S2 ltac:(discriminate)) as N2. pose proof (ND S2 S0 ltac:(discriminate)) as N3.
    destruct (lw (l S0)) as [a b], (lw (l S1)) as [d e], (lw (l S2)) as [f g]. cbn [fst snd num RA] in *.
    apply (unit_det a b d e f g U0 U1 U2 N1 N2 N3).
    replace (a * (e - g) - b * (d - f) + (d * g - e * f)) with (1 * (d * g - e * f) + 1 * (f * b - g * a) + 1 * (a * e - b * d)) by ring.
    rewrite <- A at 1. rewrite <- B at 1. rewrite <- D at 1. ring.
  Qed.
  Lemma not_parallel i j k : i <> j -> k <> i -> k <> j ->
    fst (lw (l i)) * snd (lw (l j)) - snd (lw (l i)) * fst (lw (l j)) <> 0.
  Proof.
    intros IJ KI KJ Z. pose proof (with_front k i KI) as A. pose proof (with_front k j KJ) as B.
    pose proof (unit_of i) as Ui. pose proof (unit_of j) as Uj. pose proof (ND i j IJ) as N.
    destruct (lw (l i)) as [a b], (lw (l j)) as [d e]. cbn [fst snd num RA] in *. apply N.
    set (q := a * d + b * e).
    assert (D : d = q * a) by (unfold q; replace ((a * d + b * e) * a) with ((a * a + b * b) * d + b * (a * e - b * d)) by ring; rewrite Ui, Z; ring).
    assert (E : e = q * b) by (unfold q; replace ((a * d + b * e) * b) with ((a * a + b * b) * e - a * (a * e - b * d)) by ring; rewrite Ui, Z; ring).
    set (vx := fst _) in *. set (vy := snd _) in *. clearbody vx vy q.
    assert (q = 1) as ->.
    { rewrite D, E in B. replace (q * a * vx + q * b * vy) with (q * (a * vx + b * vy)) in B by ring. rewrite A in B. lra. }
    f_equal; lra.
  Qed.

  (** all corners meet in one point *)
  Lemma meeting : exists T p, forall i, place s t i T = p.
  Proof.
    set (v := k_velocity (vs s (c S0))).
    set (d := 1 - (fst (lw (l S0)) * fst v + snd (lw (l S0)) * snd v)).
    assert (D : d <> 0).
    { intros Z. apply (not_all (fst v) (snd v)). intros [].
      - unfold d in Z. lra.
      - apply (with_front S0 S1). discriminate.
      - apply (with_front S0 S2). discriminate. }
    set (g := fst (lw (l S0)) * fst (place s t S0 0) + snd (lw (l S0)) * snd (place s t S0 0) + lb (l S0)).
    exists (g / d), (place s t S0 (g / d)). set (T := g / d).
    assert (ON : fst (lw (l S0)) * fst (place s t S0 T) + snd (lw (l S0)) * snd (place s t S0 T) + lb (l S0) - T = 0).
    { assert (Q : d * T = g) by (unfold T; field; exact D). unfold d, g in Q. rewrite !place_move in *. fold v in Q |- *. cbn [fst snd] in *. lra. }
    clearbody T.
    assert (SAME : forall i j k, i <> j -> k <> i -> k <> j ->
      (forall w, w = i \/ w = j -> fst (lw (l w)) * fst (place s t S0 T) + snd (lw (l w)) * snd (place s t S0 T) + lb (l w) - T = 0) ->
      place s t k T = place s t S0 T).
    { intros i j k IJ KI KJ ON'. pose proof (not_parallel i j k IJ KI KJ) as NP.
      pose proof (on_both k i T KI) as A1. pose proof (on_both k j T KJ) as A2.
      pose proof (ON' i (or_introl eq_refl)) as B1. pose proof (ON' j (or_intror eq_refl)) as B2.
      destruct (place s t k T) as [px py], (place s t S0 T) as [qx qy], (lw (l i)) as [a b], (lw (l j)) as [e f]. cbn [fst snd num RA] in *.
      assert (X : (a * f - b * e) * (px - qx) = 0) by (replace ((a * f - b * e) * (px - qx)) with (f * (a * (px - qx) + b * (py - qy)) - b * (e * (px - qx) + f * (py - qy))) by ring;
        replace (a * (px - qx) + b * (py - qy)) with 0 by lra; replace (e * (px - qx) + f * (py - qy)) with 0 by lra; ring).
      assert (Y : (a * f - b * e) * (py - qy) = 0) by (replace ((a * f - b * e) * (py - qy)) with (a * (e * (px - qx) + f * (py - qy)) - e * (a * (px - qx) + b * (py - qy))) by ring;
        replace (a * (px - qx) + b * (py - qy)) with 0 by lra; replace (e * (px - qx) + f * (py - qy)) with 0 by lra; ring).
      apply Rmult_integral in X, Y. f_equal; [destruct X|destruct Y]; lra. }
    intros [].
    - reflexivity.
    - apply (SAME S0 S2 S1); try discriminate. intros w [-> | ->]; [exact ON|apply on_both; discriminate].
    - apply (SAME S0 S1 S2); try discriminate. intros w [-> | ->]; [exact ON|apply on_both; discriminate].
  Qed.

  Lemma with_edge T : (forall i, exists p, place s t i T = p /\ forall j, place s t j T = p) -> forall w,
    spread s t w > / 10^10 -> collapse_time_edge s (c (ccw w)) (c (cw w)) = Ok T /\ len2 s t w T = 0.
  Proof.
    intros M w SP. destruct (frame s t w (l w) (F w)) as (p0 & p1 & L & E & _ & TE & _).
    destruct (M w) as (p & _ & P). assert (Z : len2 s t w T = 0).
    { unfold len2. rewrite !P. unfold sqdist. ring. }
    split; [|exact Z]. rewrite TE. f_equal. destruct (Rle_dec _ _) as [Q|Q]; [lra|].
    rewrite L in Z. assert (p1 <> 0) by (intros ->; rewrite E in SP; lra).
    assert (Z' : p0 + p1 * T = 0) by (apply Rsqr_0_uniq; rewrite Rsqr_pow2; exact Z). replace p0 with (- (p1 * T)) by lra. field. assumption.
  Qed.

  Theorem three_truth : (forall w, spread s t w > / 10^10) -> tri_type (ts s t) = 3%nat -> t_stops (ts s t) = None ->
    exists (T : R) p, (forall i, place s t i T = p) /\ forall (now : R) sv, 0 <= now ->
      (adm sv now T -> T <> 0 -> collapse_event s t now sv = Ok (Some (mkevent s t T [S0; S1; S2] Edge))) /\
      (~ adm sv now T \/ T = 0 -> collapse_event s t now sv = Ok None).
  Proof.
    intros SP TY ST. destruct meeting as (T & p & M). exists T, p. split; [exact M|].
    assert (W := fun w => with_edge T (fun i => ex_intro _ p (conj (M i) M)) w (SP w)).
    assert (AC : exists areas, area_collapse_times s (c S1) (c S2) (c S0) = Ok areas /\ forall r, In r areas -> r = T \/ r = T / 2).
    { unfold area_collapse_times. pose proof (area_coeff_R (vs s (c S1)) (vs s (c S2)) (vs s (c S0))) as AQ.
      destruct (area_collapse_time_coeff _ _ _) as [[ca cb] cc].
      assert (PL : forall i x, path (vs s (c i)) x = (fst p + (x - T) * fst (k_velocity (vs s (c i))), snd p + (x - T) * snd (k_velocity (vs s (c i))))).
      { intros i x. change (path (vs s (c i)) x) with (place s t i x). rewrite <- (M i), !place_move. cbn [fst snd].
        f_equal; ring. }
      set (v0 := k_velocity (vs s (c S0))) in *. set (v1 := k_velocity (vs s (c S1))) in *. set (v2 := k_velocity (vs s (c S2))) in *.
      set (g := area2 v1 v2 v0).
      assert (Q : forall x, ca * x^2 + cb * x + cc = g * (x - T)^2).
      { intros x. rewrite AQ, !PL. unfold g, v0, v1, v2, area2. cbn [fst snd num RA].
 ring. }
      pose proof (Q 0) as Q0. pose proof (Q 1) as Q1. pose proof (Q (-1)) as Q2. clear Q AQ. cbn [num RA] in *. clearbody g.
      assert (cc = g * (T * T)) by lra. assert (ca = g) by lra. assert (cb = g * (-2 * T)) by lra. subst ca cb cc. clear Q0 Q1 Q2.
      rewrite solve_quadratic_R. cbn [rbind]. eexists. split; [reflexivity|]. intros r Hr.
      apply (Permutation.Permutation_in r (Permutation.Permutation_sym (isort_perm _ _))) in Hr.
      destruct (Rle_dec (Rabs g) _) as [L|L].
      - destruct (Rle_dec (Rabs (g * _)) _) as [L2|L2]; [destruct Hr|]. destruct Hr as [<-|[]]. right.
        assert (NZ : g * (-2 * T) <> 0) by (intros Z; apply L2; rewrite Z, Rabs_R0; lra).
        assert (g <> 0 /\ T <> 0) as [? ?] by (split; intros Z; apply NZ; rewrite Z; ring). field. auto.
      - assert (g <> 0) by (intros Z; apply L; rewrite Z, Rabs_R0; lra). cbv zeta in Hr.
        set (u := / 4 * _ - _) in Hr. assert (u = 0) as U0 by (unfold u; field; assumption). clearbody u. subst u.
        destruct (Rle_dec _ _) as [_|Z]; [|rewrite Rabs_R0 in Z; lra]. destruct Hr as [<-|[]]. left. field. assumption. }
    destruct AC as (areas & AT & AR). intros now sv P0.
    assert (RS : adm sv now T /\ run_sieve (A:=RA) sv [Some T; Some T; Some T] now = Some T \/
                 ~ adm sv now T /\ run_sieve (A:=RA) sv [Some T; Some T; Some T] now = None).
    { destruct (run_sieve _ _ _) as [v|] eqn:R.
      - apply sieve_some in R. destruct R as (I & A & _). assert (v = T) as -> by (destruct I as [I|[I|[I|[]]]]; injection I as <-; reflexivity). auto.
      - right. split; [|reflexivity]. apply (sieve_none _ _ _ R). left. reflexivity. }
    assert (RA' : ~ adm sv now T \/ T = 0 -> forall r, run_sieve (A:=RA) sv (map Some areas) now = Some r -> r = 0).
    { intros H r R. apply sieve_some in R. destruct R as (I & A & _). apply in_map_iff in I. destruct I as (q & I & Hq). injection I as ->.
      destruct (AR r Hq) as [-> | ->]; destruct H as [H|H]; try lra.
      - destruct (H A).
      - exfalso. destruct sv; cbn in *; lra. }
    assert (EQ : collapse_event s t now sv =
       match truthy (run_sieve (A:=RA) sv [Some T; Some T; Some T] now) with
       | Some te => Ok (Some (mkevent s t te [S0; S1; S2] Edge))
       | None => match truthy (run_sieve (A:=RA) sv (map Some areas) now) with
                 | Some ta => Ok (Some (mkevent s t ta [S0; S1; S2] Edge))
                 | None => Ok None
                 end
       end).
    { unfold collapse_event. rewrite ST. cbn [is_some]. rewrite (ordinary_finite s t O), TY.
      unfold compute_event_3triangle. rewrite TY.
      change (x0 (t_v (ts s t))) with (c S0). change (x1 (t_v (ts s t))) with (c S1). change (x2 (t_v (ts s t))) with (c S2).
      destruct (W S0) as [T0 L0], (W S1) as [T1 L1], (W S2) as [T2 L2]. cbn [ccw cw] in T0, T1, T2.
      rewrite T0, T1, T2. cbn [rbind].
      rewrite (distance_place s t O S1 S2), (distance_place s t O S2 S0), (distance_place s t O S0 S1). cbn [rbind].
      change (sqdist (place s t S1 T) (place s t S2 T)) with (len2 s t S0 T).
      change (sqdist (place s t S2 T) (place s t S0 T)) with (len2 s t S1 T).
      change (sqdist (place s t S0 T) (place s t S1 T)) with (len2 s t S2 T). rewrite L0, L1, L2.
      assert (SQ : sqrt3 (A:=RA) (mk3 0 0 0) = Ok (mk3 0 0 0)).
      { rewrite (sqrt3_val (mk3 0 0 0)) by (intros []; cbn; lra). unfold map3. cbn [x0 x1 x2]. rewrite sqrt_0. reflexivity. }
      assert (NZ : near_zero (A:=RA) 0 = true) by (apply near_zero_R; lra).
      assert (WH : where3 (near_zero (A:=RA)) (mk3 0 0 0) = [S0; S1; S2]) by
        (unfold where3, sides; cbn [filter get3 x0 x1 x2]; rewrite NZ; reflexivity).
      change (@mk3 (@num RA)) with (@mk3 R). rewrite SQ. cbn [rbind]. 
      match goal with |- context [where3 ?f ?q] => change (where3 f q) with (where3 (near_zero (A:=RA)) (mk3 0 0 0)) end. rewrite WH.
      cbn [Nat.eqb rassert rbind]. rewrite AT. cbn [rbind].
      do 2 (match goal with |- rbind (match ?a with _ => _ end) _ = match ?b with _ => _ end => change a with b; destruct b end; [reflexivity|]).
      cbn [rbind].
      unfold list3. cbn [rmapl].
      rewrite (position_place s t O S0), (position_place s t O S1), (position_place s t O S2). reflexivity. }
    assert (TR : forall o : option R, truthy (A:=RA) o = match o with Some x => if Req_EM_T x 0 then None else Some x | None => None end).
    { intros [x|]; [|reflexivity]. unfold truthy.
      assert (E0 : @n0 RA = 0) by (unfold n0; ra_simp; try apply q0; reflexivity). rewrite E0. change (@neqb RA x 0) with (Reqb x 0).
      destruct (Req_EM_T x 0) as [-> |N]; destruct (Reqb _ _) eqn:E; try reflexivity.
      - apply Reqb_false in E. destruct (E eq_refl).
      - apply Reqb_true in E. destruct (N E). }
    rewrite !TR in EQ. rewrite EQ. split.
    - intros A NZ. destruct RS as [[_ ->]|[X _]]; [|destruct (X A)].
      destruct (Req_EM_T T 0); [contradiction|reflexivity].
    - intros H. match goal with |- match ?m with _ => _ end = _ => assert (E1 : m = None) end.
      { destruct RS as [[X ->]|[_ ->]]; [|reflexivity]. destruct H as [H|H]; [destruct (H X)|].
        destruct (Req_EM_T T 0); [reflexivity|contradiction]. }
      rewrite E1. specialize (RA' H). destruct (run_sieve sv (map Some areas) now) as [r|]; [|reflexivity].
      rewrite (RA' r eq_refl). destruct (Req_EM_T 0 0); [reflexivity|contradiction].
  Qed.
End Three.
