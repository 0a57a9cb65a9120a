(** Over the real numbers: where the corners of the triangles of the initial
    skeleton are, and that the bisectors point to the inner side of their
    wavefronts *)
From Coq Require Import Reals Lra.
From Verif Require Import Base Arith ArithR Calc CalcProofs VectorOps Line2d Line2dProofs RSquared Primitives Initialize StarProofs InitProofs
  InitState InitCirc Bisect InitBisect Mesh MeshRun InitMesh.
Local Open Scope R_scope.
Local Existing Instance RA.

(** ** Bisectors *)
Definition dotv (p q : R * R) : R := fst p * fst q + snd p * snd q.
Lemma unit_dot (p q : R * R) : dotv p p = 1 -> dotv q q = 1 -> -1 <= dotv p q.
Proof.
  unfold dotv. intros H1 H2.
  pose proof (Rle_0_sqr (fst p + fst q)) as K1. pose proof (Rle_0_sqr (snd p + snd q)) as K2. unfold Rsqr in *. lra.
Qed.
Lemma bisector_inward (l m : line2 (A:=RA)) v : unit_line l -> unit_line m -> get_bisector l m = Ok v ->
  0 <= dotv (lw l) v /\ 0 <= dotv (lw m) v.
Proof.
  intros Ul Um H. destruct (Rlt_le_dec (/ 10^10) (Rabs (det l m))) as [D|D].
  - destruct (get_bisector_R l m Ul Um D) as (v' & K & K1 & K2). rewrite K in H. injection H as <-.
    split; (apply (Rle_trans _ 1); [lra|]); right; symmetry; [exact K1|exact K2].
  - unfold unit_line in Ul, Um.
    assert (Q : -1 <= dotv (lw l) (lw m)) by (apply unit_dot; assumption).
    destruct (get_bisector_line l m D) as [K|K]; rewrite K in H; injection H as <-;
      unfold dotv, add2, mul2s in *; cbn [fst snd] in *; ra_simp; split; lra.
Qed.

(** ** The centroid *)
Lemma centroid_fold (d : dtriang (A:=RA)) (n : R) l : n <> 0 -> nofnat (A:=RA) (dt_nv d) = n -> forall a c,
  fold_left (fun acc v => rbind acc (fun '(ax, ay) => let p := dv_pos (dt_v d v) in
      rbind (pdiv (A:=RA) (fst p) (nofnat (A:=RA) (dt_nv d))) (fun x =>
      rbind (pdiv (A:=RA) (snd p) (nofnat (A:=RA) (dt_nv d))) (fun y => Ok (nadd (Arith:=RA) ax x, nadd (Arith:=RA) ay y))))) l (Ok a) = Ok c ->
  forall A B C : R, A * fst c + B * snd c + C =
    (A * fst a + B * snd a + C - C * (INR (length l) / n)) +
    fold_right (fun v acc => (A * fst (dv_pos (dt_v d v)) + B * snd (dv_pos (dt_v d v)) + C) / n + acc) 0 l.
Proof.
  intros N EN. rewrite EN. induction l as [|v l IH]; intros a c H A B C.
  - injection H as <-. cbn. field. exact N.
  - cbn [fold_left] in H. cbn [rbind] in H. destruct a as [ax ay]. rewrite !pdiv_R in H by exact N. cbn [rbind] in H.
    rewrite (IH _ _ H A B C). cbn [fold_right length fst snd]. rewrite S_INR. ra_simp. field. exact N.
Qed.

(** the centroid lies on the side of a line on which all the vertices lie *)
Lemma centroid_side (d : dtriang (A:=RA)) c (p q : R * R) : centroid d = Ok c -> node_keys d = seq 0 (dt_nv d) -> (0 < dt_nv d)%nat ->
  (forall v, (v < dt_nv d)%nat -> orient p q (dv_pos (dt_v d v)) <= 0) -> orient p q c <= 0.
Proof.
  intros H K L S. unfold centroid in H. rewrite K in H.
  pose proof (nofnat_INR (dt_nv d)) as EN. assert (N : 0 < INR (dt_nv d)) by (apply lt_0_INR; exact L).
  pose proof (centroid_fold d _ _ (Rgt_not_eq _ _ N) EN _ _ H) as G.
  set (A := - (snd q - snd p)). set (B := fst q - fst p). set (C := - A * fst p - B * snd p).
  specialize (G A B C). rewrite seq_length in G. ra_simp.
  assert (O : forall r : R * R, orient p q r = A * fst r + B * snd r + C) by (intros r; unfold orient, C, A, B; ring).
  rewrite O, G. clear G H.
  assert (Z : forall l, (forall v, In v l -> (v < dt_nv d)%nat) ->
    fold_right (fun v acc => (A * fst (dv_pos (dt_v d v)) + B * snd (dv_pos (dt_v d v)) + C) / INR (dt_nv d) + acc) 0 l <= 0).
  { induction l as [|v l IH]; intros Hl; cbn [fold_right]; [lra|].
    assert (I1 : fold_right (fun v acc => (A * fst (dv_pos (dt_v d v)) + B * snd (dv_pos (dt_v d v)) + C) / INR (dt_nv d) + acc) 0 l <= 0)
      by (apply IH; intros; apply Hl; right; assumption).
    assert (I2 : (A * fst (dv_pos (dt_v d v)) + B * snd (dv_pos (dt_v d v)) + C) / INR (dt_nv d) <= 0).
    { rewrite <- O. unfold Rdiv. pose proof (S v (Hl v (or_introl eq_refl))) as SV.
      pose proof (Rinv_0_lt_compat _ N). nra. }
    lra. }
  specialize (Z (seq 0 (dt_nv d))). assert (Z' := Z (fun v Hv => proj2 (proj1 (in_seq _ _ _) Hv))). clear Z.
  cbn [fst snd]. qlit.
  apply (Rle_trans _ (0 + 0)); [apply Rplus_le_compat; [right; field; lra|exact Z']|lra].
Qed.

(** ** Wavefront sides *)
Lemma support_line_points (d : dtriang (A:=RA)) t sd w : make_support_line d t sd = Ok (Some w) ->
  exists a b, get3 (d_v (dt_t d t)) (ccw sd) = Some a /\ get3 (d_v (dt_t d t)) (cw sd) = Some b /\
    from_points (dv_pos (dt_v d a)) (dv_pos (dt_v d b)) = Ok (wf_line w).
Proof.
  unfold make_support_line. destruct (constrained d t sd) eqn:C; [|discriminate].
  unfold dsegment. intros H. apply rbind_ok in H. destruct H as (a & Ha & H).
  apply rbind_ok in H. destruct H as (b & Hb & H).
  apply rbind_ok in H. destruct H as (w' & Hw & H). injection H as <-.
  destruct (get3 (d_v (dt_t d t)) (ccw sd)) as [a'|]; [|discriminate]. injection Ha as ->.
  destruct (get3 (d_v (dt_t d t)) (cw sd)) as [b'|]; [|discriminate]. injection Hb as ->.
  unfold WaveFront in Hw. apply rbind_ok in Hw. destruct Hw as (l & Hl & Hw). injection Hw as <-.
  exists a, b. auto.
Qed.
Lemma wf_index_inj t i t' i' : wf_index t i = wf_index t' i' -> t = t' /\ i = i'.
Proof. unfold wf_index. intros H. destruct i, i'; cbn in H; split; solve [lia|reflexivity|exfalso; lia]. Qed.

Lemma inward_side (l : line2 (A:=RA)) (p q v : R * R) : from_points p q = Ok l -> 0 <= dotv (lw l) v ->
  0 <= orient p q (fst q + fst v, snd q + snd v).
Proof.
  intros F D.
  assert (NE : p <> q) by (intros K; rewrite K, from_points_eq in F; discriminate).
  destruct (from_points_spec p q NE) as (l' & F' & U & _ & _ & SD). rewrite F in F'. injection F' as <-.
  pose proof (SD (fst q + fst v, snd q + snd v)) as K. pose proof (SD q) as K0. rewrite signed_distance_R in K, K0.
  assert (LN : 0 < len (fst q - fst p) (snd q - snd p)).
  { apply len_pos. destruct p as [px py], q as [qx qy]. cbn [fst snd] in *.
    destruct (Req_dec qx px) as [->|]; [|left; lra]. destruct (Req_dec qy py) as [->|]; [congruence|right; lra]. }
  set (n := len _ _) in *.
  assert (Q0 : orient p q q = 0) by (unfold orient; ring). rewrite Q0 in K0.
  assert (Q1 : eval l (fst q + fst v, snd q + snd v) = eval l q + dotv (lw l) v).
  { destruct l as [[la lb'] lc]. unfold eval, dotv. cbn [fst snd lw lb]. ring. }
  assert (Q2 : orient p q (fst q + fst v, snd q + snd v) = n * dotv (lw l) v).
  { rewrite Q1, K0 in K. replace (0 / n + dotv (lw l) v) with (dotv (lw l) v) in K by (field; lra). rewrite K. field. lra. }
  rewrite Q2. apply Rmult_le_pos; [left; exact LN|exact D].
Qed.

Section S.
  Context {E : Env RA}.
  Variables (d : dtriang (A:=RA)) (s : state).
  Hypothesis HI : init_skeleton d = Ok s.
  Hypothesis TG : triangulation d.
  Notation dcorner t i := (get3 (d_v (dt_t d t)) i).

  Lemma ti_wf_points ti t sd w : ti_of d ti -> get3 (ti_wf (ti t)) sd = Some w ->
    exists a b, dcorner t (ccw sd) = Some a /\ dcorner t (cw sd) = Some b /\
    from_points (dv_pos (dt_v d a)) (dv_pos (dt_v d b)) = Ok (wf_line w).
  Proof.
    intros [T1 T2] H. destruct (Nat.lt_ge_cases t (dt_nt d)) as [L|L].
    - specialize (T1 t L). unfold init_triangle in T1.
      apply rbind_ok in T1; destruct T1 as (w0 & H0 & T1).
      apply rbind_ok in T1; destruct T1 as (w1 & H1 & T1).
      apply rbind_ok in T1; destruct T1 as (w2 & H2 & T1).
      do 3 (apply rbind_ok in T1; destruct T1 as (? & _ & T1)). injection T1 as T1. rewrite <- T1 in H. cbn in H.
      apply support_line_points. destruct sd; cbn in H; subst; assumption.
    - rewrite (T2 t L) in H. destruct sd; discriminate.
  Qed.

  (** what a vertex of the initial skeleton is: at a vertex of the input, between
      the fronts of two sides that end and begin there *)
  Lemma init_vertex v : k_inf (vs s v) = false -> exists x tl il tr ir lf rf,
    k_ul (vs s v) = Some (wf_index tl il) /\ k_ur (vs s v) = Some (wf_index tr ir) /\
    dcorner tl (cw il) = Some x /\ dcorner tr (ccw ir) = Some x /\
    (forall a, dcorner tl (ccw il) = Some a -> from_points (dv_pos (dt_v d a)) (dv_pos (dt_v d x)) = Ok lf) /\
    (forall a, dcorner tr (cw ir) = Some a -> from_points (dv_pos (dt_v d x)) (dv_pos (dt_v d a)) = Ok rf) /\
    k_inf_fast (vs s v) = false /\ k_origin (vs s v) = dv_pos (dt_v d x) /\
    unit_line lf /\ unit_line rf /\ get_bisector lf rf = Ok (k_velocity (vs s v)).
  Proof.
    intros I.
    destruct (init_skeleton_parts d s HI) as (cpos & ti & b & kvs & ls & un & P).
    destruct (init_vertices_built d ti b (pa_b _ _ _ _ _ _ _ _ P)) as [B _].
    destruct (links_built d ti b B) as [L1 L2]. rewrite <- (pa_kvs _ _ _ _ _ _ _ _ P) in L1, L2.
    pose proof (pa_s _ _ _ _ _ _ _ _ P) as (_ & s1 & _ & _ & ES).
    assert (VS : forall i, vs s i = nth i kvs (inf_vertex cpos)) by (intros i; rewrite ES; reflexivity).
    destruct (nth_error (all_groups d) v) as [[x g]|] eqn:N.
    2:{ apply nth_error_None in N. rewrite VS, nth_overflow in I by lia. discriminate I. }
    destruct (L2 v x g N) as (k & K1 & _ & K3).
    assert (K4 : vs s v = linked_kv (b_tv b) (link_for v g) k) by (rewrite VS; apply nth_error_nth; exact K3).
    destruct K1 as (lw' & rw' & bi & node & info & NE & _ & _ & WL & WR & BI & _ & EK). cbn [fst snd] in *.
    unfold side_wf, left_side, right_side in WL, WR. cbn [fst snd] in WL, WR.
    destruct (all_groups_in d v x g N) as (Lx & _ & Sx). destruct (tg_stars_right d TG x Lx) as [_ C].
    destruct (ti_wf_points _ _ _ _ (pa_ti _ _ _ _ _ _ _ _ P) WL) as (a1 & b1 & A1 & A2 & F1).
    destruct (ti_wf_points _ _ _ _ (pa_ti _ _ _ _ _ _ _ _ P) WR) as (a2 & b2 & B1 & B2 & F2).
    assert (X1 : b1 = x).
    { specialize (C (fst (last g (0%nat, S0))) (snd (last g (0%nat, S0)))).
      rewrite <- surjective_pairing in C. specialize (C (Sx _ (last_In g _ NE))).
      destruct (snd (last g (0%nat, S0))); cbn in *; congruence. }
    assert (X2 : a2 = x).
    { specialize (C (fst (hd (0%nat, S0) g)) (snd (hd (0%nat, S0) g))).
      rewrite <- surjective_pairing in C. specialize (C (Sx _ (hd_In g _ NE))).
      destruct (snd (hd (0%nat, S0) g)); cbn in *; congruence. }
    subst b1 a2. rewrite K4, EK.
    do 7 eexists. cbn -[wf_index left_side right_side].
    split; [reflexivity|]. split; [reflexivity|]. split; [exact A2|]. split; [exact B1|].
    split; [intros a Ha; pose proof (eq_trans (eq_sym Ha) A1) as Q; injection Q as ->; exact F1|].
    split; [intros a Ha; pose proof (eq_trans (eq_sym Ha) B2) as Q; injection Q as ->; exact F2|].
    do 2 (split; [reflexivity|]). split; [|split; [|exact BI]].
    - destruct (ti_wf_R d _ _ _ _ (pa_ti _ _ _ _ _ _ _ _ P) WL) as (? & ? & _ & _ & U & _). exact U.
    - destruct (ti_wf_R d _ _ _ _ (pa_ti _ _ _ _ _ _ _ _ P) WR) as (? & ? & _ & _ & U & _). exact U.
  Qed.

  (** the corners of a triangle of the initial skeleton: a vertex of the input, or
      the infinite vertex in the centroid *)
  Lemma init_corners : exists cpos, centroid d = Ok cpos /\ node_keys d = seq 0 (dt_nv d) /\ (0 < dt_nv d)%nat /\
    forall t, active s t -> (t < dt_nt d)%nat /\ forall i,
    (exists x, dcorner t i = Some x /\ dv_finite (dt_v d x) = true /\ k_inf (vs s (corner s t i)) = false /\
       k_inf_fast (vs s (corner s t i)) = false /\ k_origin (vs s (corner s t i)) = dv_pos (dt_v d x)) \/
    (exists x, dcorner t i = Some x /\ dv_finite (dt_v d x) = false /\ vs s (corner s t i) = inf_vertex cpos /\
       corner s t i = length (all_groups d)).
  Proof.
    destruct (init_skeleton_parts d s HI) as (cpos & ti & b & kvs & ls & un & P).
    exists cpos. split; [apply P|]. split.
    { unfold node_keys. assert (F : forall v, In v (seq 0 (dt_nv d)) -> dv_finite (dt_v d v) = true).
      { intros v Hv. apply in_seq in Hv. destruct (init_sk_vertices d s HI v) as [F _]; [lia|exact F]. }
      revert F. generalize (seq 0 (dt_nv d)). induction l as [|v l IH]; intros F; [reflexivity|]. cbn.
      rewrite (F v (or_introl eq_refl)), IH by (intros w Hw; apply F; right; exact Hw). reflexivity. }
    split.
    { pose proof (pa_three _ _ _ _ _ _ _ _ P) as H3. destruct un as [|u un]; [discriminate|].
      assert (U : (u < dt_nt d)%nat) by (apply (un_spec d s cpos ti b kvs ls (u :: un) P u); left; reflexivity).
      destruct (tg_finite d TG u U) as (i & v & D & F). pose proof (tg_listed d TG u i v U D F). lia. }
    destruct (init_vertices_cases d s HI) as (cpos' & ti' & b' & C1 & C2 & C3 & C4 & C5 & C6 & C7).
    assert (CP : cpos' = cpos) by (pose proof (pa_centroid _ _ _ _ _ _ _ _ P); congruence). subst cpos'.
    pose proof (pa_s _ _ _ _ _ _ _ _ P) as (_ & s1 & _ & _ & ES).
    intros t [T1 T2]. rewrite ES in T1. cbn [sk_triangles init_state] in T1. apply In_isort, filter_In in T1.
    destruct T1 as [L U]. apply in_seq in L. apply negb_true_iff in U. assert (Lt : (t < dt_nt d)%nat) by lia. split; [exact Lt|].
    intros i. destruct (tv_full d s cpos ti b kvs ls un P t i Lt) as (k & K).
    assert (CO : corner s t i = k). { unfold corner. rewrite ES. cbn [ts t_v init_state]. rewrite U, g3m3, K. reflexivity. }
    destruct (tv_corner d TG s cpos ti b kvs ls un HI P t i k Lt K) as (x & D). rewrite CO.
    rewrite tv_get in K by exact Lt. unfold infinite_corner in K. rewrite D in K.
    destruct (dv_finite (dt_v d x)) eqn:F; cbn [is_some] in K.
    - left. exists x. split; [exact D|]. split; [exact F|].
      destruct (corner_back d TG s cpos ti b kvs ls un HI P t i k K) as (v & g & N & _ & _ & _ & C & _).
      assert (v = x) by congruence. subst v. destruct (C7 _ _ _ N) as (kv & (? & ? & ? & ? & ? & Q) & _ & ->).
      destruct Q as (_ & _ & _ & _ & _ & _ & _ & ->). cbn. auto.
    - right. exists x. split; [exact D|]. split; [exact F|]. injection K as <-.
      rewrite (c_groups d s cpos ti b kvs ls un P). split; [apply C6; lia|reflexivity].
  Qed.

  (** the end of a wavefront side moves to the left of the side *)
  Lemma init_inward a b : k_inf (vs s a) = false -> k_inf (vs s b) = false -> k_ur (vs s a) = k_ul (vs s b) ->
    let p := k_origin (vs s a) in let q := k_origin (vs s b) in let v := k_velocity (vs s b) in
    0 <= orient p q (fst q + fst v, snd q + snd v).
  Proof.
    intros IA IB J p q v.
    destruct (init_vertex a IA) as (x & t1 & i1 & t2 & i2 & l1 & l2 & _ & R1 & _ & C1 & _ & F1 & _ & O1 & _).
    destruct (init_vertex b IB) as (y & t3 & i3 & t4 & i4 & l3 & l4 & R2 & _ & C2 & C4 & F2 & F4 & _ & O2 & _ & U4 & BI).
    rewrite R1, R2 in J. injection J as J. apply wf_index_inj in J. destruct J as [<- <-].
    specialize (F1 y C2). specialize (F2 x C1). rewrite F1 in F2. injection F2 as <-. unfold p, q, v. rewrite O1, O2.
    clear p q v. set (p := dv_pos (dt_v d x)) in *. set (q := dv_pos (dt_v d y)) in *. set (v := k_velocity (vs s b)) in *.
    assert (NE : p <> q) by (intros K; rewrite K, from_points_eq in F1; discriminate).
    destruct (from_points_spec p q NE) as (l & F & U & _). rewrite F in F1. injection F1 as <-.
    destruct (bisector_inward l l4 v U U4 BI) as [D _].
    exact (inward_side l p q v F D).
  Qed.
End S.
