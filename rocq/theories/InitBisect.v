(** Over the real numbers: the initial wavefronts have unit normals and the
    initial vertices are at every time on both of their wavefronts. *)
From Coq Require Import Reals Lra.
From Verif Require Import Base Arith ArithR Calc VectorOps Line2d Line2dProofs Primitives Initialize StarProofs InitProofs InitState InitCirc Bisect.
Local Open Scope R_scope.
Local Existing Instance RA.

Lemma pair_R_dec (p q : R * R) : p = q \/ p <> q.
Proof.
  destruct p as [a b], q as [c e]. destruct (Req_dec a c) as [->|H]; [|right; congruence].
  destruct (Req_dec b e) as [->|H]; [left; reflexivity|right; congruence].
Qed.

Lemma support_line_R (d : dtriang (A:=RA)) t sd o : make_support_line d t sd = Ok o ->
  (o = None /\ constrained d t sd = false) \/
  exists a b w, o = Some w /\ constrained d t sd = true /\
    get3 (d_v (dt_t d t)) (ccw sd) = Some a /\ get3 (d_v (dt_t d t)) (cw sd) = Some b /\
    unit_line (wf_line w) /\ on (wf_line w) (dv_pos (dt_v d a)) /\ on (wf_line w) (dv_pos (dt_v d b)).
Proof.
  unfold make_support_line. destruct (constrained d t sd) eqn:C; [|intros H; injection H as <-; auto].
  unfold dsegment. intros H. apply rbind_ok in H. destruct H as (a & Ha & H).
  apply rbind_ok in H. destruct H as (b & Hb & H).
  apply rbind_ok in H. destruct H as (w & Hw & H). injection H as <-.
  destruct (get3 (d_v (dt_t d t)) (ccw sd)) as [a'|]; [|discriminate]. injection Ha as ->.
  destruct (get3 (d_v (dt_t d t)) (cw sd)) as [b'|]; [|discriminate]. injection Hb as ->.
  unfold WaveFront in Hw. apply rbind_ok in Hw. destruct Hw as (l & Hl & Hw). injection Hw as <-.
  right. exists a, b. eexists. split; [reflexivity|]. do 3 (split; [reflexivity|]). cbn [wf_line].
  destruct (pair_R_dec (dv_pos (dt_v d a)) (dv_pos (dt_v d b))) as [EQ|NE].
  - rewrite EQ, from_points_eq in Hl. discriminate.
  - destruct (from_points_spec _ _ NE) as (l' & F & U & O1 & O2 & _). rewrite F in Hl. injection Hl as <-. auto.
Qed.

Section S.
  Context {E : Env RA}.
  Variables (d : dtriang (A:=RA)) (s : state).
  Hypothesis HI : init_skeleton d = Ok s.

  Lemma ti_wf_R ti t sd w : ti_of d ti -> get3 (ti_wf (ti t)) sd = Some w ->
    exists a b, get3 (d_v (dt_t d t)) (ccw sd) = Some a /\ get3 (d_v (dt_t d t)) (cw sd) = Some b /\
    unit_line (wf_line w) /\ on (wf_line w) (dv_pos (dt_v d a)) /\ on (wf_line w) (dv_pos (dt_v d b)).
  Proof.
    intros [T1 T2] H. destruct (Nat.lt_ge_cases t (dt_nt d)) as [L|L].
    - specialize (T1 t L). unfold init_triangle in T1.
      apply rbind_ok in T1; destruct T1 as (w0 & H0 & T1).
      apply rbind_ok in T1; destruct T1 as (w1 & H1 & T1).
      apply rbind_ok in T1; destruct T1 as (w2 & H2 & T1).
      do 3 (apply rbind_ok in T1; destruct T1 as (? & _ & T1)). injection T1 as T1. rewrite <- T1 in H. cbn in H.
      assert (G : forall o, make_support_line d t sd = Ok o -> o = Some w -> exists a b, get3 (d_v (dt_t d t)) (ccw sd) = Some a /\ get3 (d_v (dt_t d t)) (cw sd) = Some b /\
        unit_line (wf_line w) /\ on (wf_line w) (dv_pos (dt_v d a)) /\ on (wf_line w) (dv_pos (dt_v d b))).
      { intros o Ho ->. destruct (support_line_R d t sd _ Ho) as [[K _]|(a & b & w' & K & _ & R)]; [discriminate|].
        injection K as <-. exists a, b. exact R. }
      destruct sd; cbn in H; [apply (G _ H0 H)|apply (G _ H1 H)|apply (G _ H2 H)].
    - rewrite (T2 t L) in H. destruct sd; discriminate.
  Qed.

  Theorem init_units : units s.
  Proof.
    destruct (init_skeleton_parts d s HI) as (cpos & ti & b & kvs & ls & un & P).
    destruct (pa_s _ _ _ _ _ _ _ _ P) as (_ & s1 & _ & _ & ES). intros w. rewrite ES. cbn [wfs init_state].
    destruct (get3 _ _) as [wf|] eqn:G.
    - destruct (ti_wf_R _ _ _ _ (pa_ti _ _ _ _ _ _ _ _ P) G) as (a & c & _ & _ & U & _). exact U.
    - unfold unit_line. cbn. lra.
  Qed.

  Lemma wfs_side ti t sd w cpos b kvs ls un : parts d s cpos ti b kvs ls un ->
    get3 (ti_wf (ti t)) sd = Some w -> wfs s (wf_index t sd) = w.
  Proof.
    intros P G. destruct (pa_s _ _ _ _ _ _ _ _ P) as (_ & s1 & _ & _ & ES). rewrite ES. cbn [wfs init_state].
    assert (D : (wf_index t sd / 3 = t)%nat /\ (wf_index t sd mod 3 = side_nat sd)%nat).
    { unfold wf_index. assert (side_nat sd < 3)%nat by (destruct sd; cbn; lia). rewrite (Nat.mul_comm 3 t). split.
      - rewrite Nat.div_add_l by lia. rewrite Nat.div_small by lia. lia.
      - rewrite Nat.add_comm, Nat.mod_add by lia. apply Nat.mod_small. lia. }
    destruct D as [-> ->]. assert (nat_side (side_nat sd) = sd) as -> by (destruct sd; reflexivity). rewrite G. reflexivity.
  Qed.

  Theorem init_tracks : stars_right d -> forall v, tracks s v.
  Proof.
    intros W v I F l r Hl Hr D t p HP.
    destruct (init_skeleton_parts d s HI) as (cpos & ti & b & kvs & ls & un & P).
    destruct (init_vertices_built d ti b (pa_b _ _ _ _ _ _ _ _ P)) as [B _].
    destruct (links_built d ti b B) as [L1 L2]. rewrite <- (pa_kvs _ _ _ _ _ _ _ _ P) in L1, L2.
    pose proof (pa_s _ _ _ _ _ _ _ _ P) as (_ & s1 & _ & _ & ES).
    assert (VS : forall i, vs s i = nth i kvs (inf_vertex cpos)) by (intros i; rewrite ES; reflexivity).
    destruct (nth_error (all_groups d) v) as [[x g]|] eqn:N.
    2:{ apply nth_error_None in N. rewrite VS, nth_overflow in I by lia. discriminate I. }
    destruct (L2 v x g N) as (k & K1 & _ & K3).
    assert (K4 : vs s v = linked_kv (b_tv b) (link_for v g) k) by (rewrite VS; apply nth_error_nth; exact K3).
    destruct K1 as (lw' & rw' & bi & node & info & NE & _ & _ & WL & WR & BI & _ & EK). cbn [fst snd] in *.
    rewrite K4, EK in Hl, Hr. cbn -[wf_index left_side right_side] in Hl, Hr. injection Hl as <-. injection Hr as <-.
    unfold side_wf, left_side, right_side in WL, WR. cbn [fst snd] in WL, WR.
    rewrite (wfs_side _ _ _ _ _ _ _ _ _ P WL), (wfs_side _ _ _ _ _ _ _ _ _ P WR) in *.
    unfold position_at in HP. rewrite K4, EK in HP. cbn in HP. injection HP as <-.
    destruct (all_groups_in d v x g N) as (Lx & _ & Sx). destruct (W x Lx) as [_ C].
    destruct (ti_wf_R _ _ _ _ (pa_ti _ _ _ _ _ _ _ _ P) WL) as (a1 & b1 & _ & A2 & U1 & _ & O1).
    destruct (ti_wf_R _ _ _ _ (pa_ti _ _ _ _ _ _ _ _ P) WR) as (a2 & b2 & B1 & _ & U2 & O2 & _).
    destruct (get_bisector_R _ _ U1 U2 D) as (vel & V & V1 & V2). rewrite V in BI. injection BI as <-.
    assert (X1 : b1 = x).
    { specialize (C (fst (last g (0%nat, S0))) (snd (last g (0%nat, S0)))).
      rewrite <- surjective_pairing in C. specialize (C (Sx _ (last_In g _ NE))).
      destruct (snd (last g (0%nat, S0))); cbn in *; congruence. }
    assert (X2 : a2 = x).
    { specialize (C (fst (hd (0%nat, S0) g)) (snd (hd (0%nat, S0) g))).
      rewrite <- surjective_pairing in C. specialize (C (Sx _ (hd_In g _ NE))).
      destruct (snd (hd (0%nat, S0) g)); cbn in *; congruence. }
    subst b1 a2. apply (on_both_move _ _ _ _ O1 O2 V1 V2 t).
  Qed.
End S.
