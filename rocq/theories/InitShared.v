(** In the initial skeleton neighbours share their wavefronts, and the wavefronts
    are those of the constrained sides (any arithmetic) *)
From Verif Require Import Base Arith Calc VectorOps Line2d Primitives Initialize EventsLib StarProofs InitProofs InitState InitCirc Pass OpSpec RunBase EventLoop RunLoop Decent Total TotalRun RingSpec Shared.
Local Open Scope nat_scope.

Section InitShared.
  Context {A : Arith} {E : Env A}.
  Variable d : dtriang (A:=A).
  Variable s : state (A:=A).
  Hypothesis HI : init_skeleton d = Ok s.

  (** a constrained side of the triangulation from [p] to [q] *)
  Definition input_side (p q : pt) : Prop :=
    exists t i a b, t < dt_nt d /\ constrained d t i = true /\
      get3 (d_v (dt_t d t)) (ccw i) = Some a /\ get3 (d_v (dt_t d t)) (cw i) = Some b /\
      p = dv_pos (dt_v d a) /\ q = dv_pos (dt_v d b).
  (** the front number [x] is that of such a side *)
  Definition input_front (x : nat) : Prop :=
    exists p q, input_side p q /\ from_points p q = Ok (wf_line (wfs s x)).

  Lemma support_line_side t sd w : t < dt_nt d -> make_support_line d t sd = Ok (Some w) ->
    exists p q, input_side p q /\ from_points p q = Ok (wf_line w).
  Proof.
    intros L. unfold make_support_line. destruct (constrained d t sd) eqn:C; [|discriminate].
    unfold dsegment. intros H. apply rbind_ok in H. destruct H as (a & Ha & H).
    apply rbind_ok in H. destruct H as (b & Hb & H).
    apply rbind_ok in H. destruct H as (w' & Hw & H). injection H as <-.
    destruct (get3 (d_v (dt_t d t)) (ccw sd)) as [a'|] eqn:Ea; [|discriminate]. injection Ha as ->.
    destruct (get3 (d_v (dt_t d t)) (cw sd)) as [b'|] eqn:Eb; [|discriminate]. injection Hb as ->.
    unfold WaveFront in Hw. apply rbind_ok in Hw. destruct Hw as (l & Hl & Hw). injection Hw as <-.
    eexists _, _. split; [exists t, sd, a, b; repeat split; auto|exact Hl].
  Qed.

  Lemma ti_wf_side ti t sd w : ti_of d ti -> get3 (ti_wf (ti t)) sd = Some w ->
    exists p q, input_side p q /\ from_points p q = Ok (wf_line w).
  Proof.
    intros [T1 T2] H. destruct (Nat.lt_ge_cases t (dt_nt d)) as [L|L].
    - specialize (T1 t L). unfold init_triangle in T1.
      apply rbind_ok in T1; destruct T1 as (w0 & H0 & T1).
      apply rbind_ok in T1; destruct T1 as (w1 & H1 & T1).
      apply rbind_ok in T1; destruct T1 as (w2 & H2 & T1).
      do 3 (apply rbind_ok in T1; destruct T1 as (? & _ & T1)). injection T1 as T1. rewrite <- T1 in H. cbn in H.
      apply (support_line_side t sd w L). destruct sd; cbn in H; subst; assumption.
    - rewrite (T2 t L) in H. destruct sd; discriminate.
  Qed.

  Lemma front_of_side ti t sd w cpos b kvs ls un : parts d s cpos ti b kvs ls un ->
    get3 (ti_wf (ti t)) sd = Some w -> wfs s (wf_index t sd) = w.
  Proof.
    intros P G. destruct (pa_s _ _ _ _ _ _ _ _ P) as (_ & s1 & _ & _ & ES). rewrite ES. cbn [wfs init_state].
    assert (D : (wf_index t sd / 3 = t)%nat /\ (wf_index t sd mod 3 = side_nat sd)%nat).
    { unfold wf_index. assert (side_nat sd < 3)%nat by (destruct sd; cbn; lia). rewrite (Nat.mul_comm 3 t). split.
      - rewrite Nat.div_add_l by lia. rewrite Nat.div_small by lia. lia.
      - rewrite Nat.add_comm, Nat.mod_add by lia. apply Nat.mod_small. lia. }
    destruct D as [-> ->]. assert (nat_side (side_nat sd) = sd) as -> by (destruct sd; reflexivity). rewrite G. reflexivity.
  Qed.

  Lemma init_front v : match nth_error (all_groups d) v with
    | None => k_inf (vs s v) = true /\ k_ul (vs s v) = None /\ k_ur (vs s v) = None /\ k_left (vs s v) = [] /\ k_right (vs s v) = []
    | Some _ => k_inf (vs s v) = false /\ exists l r, k_ul (vs s v) = Some l /\ k_ur (vs s v) = Some r /\ input_front l /\ input_front r /\
                k_wfl (vs s v) = Some l /\ k_wfr (vs s v) = Some r
    end.
  Proof.
    destruct (init_skeleton_parts d s HI) as (cpos & ti & b & kvs & ls & un & P).
    destruct (init_vertices_built d ti b (pa_b _ _ _ _ _ _ _ _ P)) as [B _].
    destruct (links_built d ti b B) as [L1 L2]. rewrite <- (pa_kvs _ _ _ _ _ _ _ _ P) in L1, L2.
    pose proof (pa_s _ _ _ _ _ _ _ _ P) as (_ & s1 & _ & _ & ES).
    assert (VS : forall i, vs s i = nth i kvs (inf_vertex cpos)) by (intros i; rewrite ES; reflexivity).
    destruct (nth_error (all_groups d) v) as [[x g]|] eqn:N.
    - destruct (L2 v x g N) as (k & K1 & _ & K3).
      assert (K4 : vs s v = linked_kv (b_tv b) (link_for v g) k) by (rewrite VS; apply nth_error_nth; exact K3).
      destruct K1 as (lw' & rw' & bi & node & info & NE & _ & _ & WL & WR & BI & _ & EK). cbn [fst snd] in *.
      rewrite K4, EK. cbn -[wf_index left_side right_side]. split; [reflexivity|].
      unfold side_wf in WL, WR. cbn [fst snd] in WL, WR.
      exists (wf_index (fst (left_side g)) (snd (left_side g))), (wf_index (fst (right_side g)) (snd (right_side g))).
      do 2 (split; [reflexivity|]). split; [|split; [|split; reflexivity]].
      + unfold input_front. rewrite (front_of_side _ _ _ _ _ _ _ _ _ P WL). apply (ti_wf_side _ _ _ _ (pa_ti _ _ _ _ _ _ _ _ P) WL).
      + unfold input_front. rewrite (front_of_side _ _ _ _ _ _ _ _ _ P WR). apply (ti_wf_side _ _ _ _ (pa_ti _ _ _ _ _ _ _ _ P) WR).
    - apply nth_error_None in N. rewrite VS, nth_overflow by lia. cbn. auto.
  Qed.

  Theorem init_shared : stars_right d -> shared input_front s.
  Proof.
    intros SR. destruct (init_vertices_cases d s HI) as (_ & _ & _ & _ & _ & _ & C1 & C2 & _ & _).
    assert (IN : forall v, In v (sk_vertices s) -> v < nv s) by (intros v; rewrite C1, C2, in_seq; lia).
    assert (CI : forall v, k_left (vs s v) = [] /\ k_right (vs s v) = [] \/
      exists l r, k_left (vs s v) = [(n0, None, Some l)] /\ k_right (vs s v) = [(n0, None, Some r)] /\
        left_ok s (k_ul (vs s v)) l /\ right_ok s (k_ur (vs s v)) r).
    { intros v. pose proof (init_front v) as F. destruct (nth_error (all_groups d) v) as [g|] eqn:N; [right|left; tauto].
      assert (V : In v (sk_vertices s)) by (rewrite C2, in_seq; assert (v < length (all_groups d)) by (apply nth_error_Some; congruence); lia).
      destruct (init_circular d s HI SR v V) as (l & r & Il & Ir & Hl & Hr & _ & _ & W1 & W2 & _).
      exists l, r. split; [exact Hl|]. split; [exact Hr|]. destruct F as (_ & l0 & r0 & -> & -> & _ & _ & F1 & F2). rewrite F1, F2 in *.
      assert (G : forall w, In w (sk_vertices s) -> k_ul (vs s w) = k_wfl (vs s w) /\ k_ur (vs s w) = k_wfr (vs s w)).
      { intros w Hw. rewrite C2, in_seq in Hw. pose proof (init_front w) as Q. destruct (nth_error (all_groups d) w) eqn:M.
        - destruct Q as (_ & ? & ? & -> & -> & _ & _ & -> & ->). auto.
        - apply nth_error_None in M. lia. }
      split; (split; [auto|]); [destruct (G l Il) as [_ ->]|destruct (G r Ir) as [-> _]]; assumption. }
    split.
    - intros v w (a & b & H). destruct (CI v) as [[K1 K2]|(l & r & K1 & K2 & K3 & K4)]; rewrite K1 in H; [destruct H|].
      destruct H as [H|[]]. injection H as _ _ <-. exact K3.
    - intros v w (a & b & H). destruct (CI v) as [[K1 K2]|(l & r & K1 & K2 & K3 & K4)]; rewrite K2 in H; [destruct H|].
      destruct H as [H|[]]. injection H as _ _ <-. exact K4.
    - intros v x Hx. pose proof (init_front v) as F. destruct (nth_error (all_groups d) v).
      + destruct F as (_ & l0 & r0 & H1 & H2 & H3 & H4 & _). congruence.
      + destruct F as (_ & H & _). congruence.
    - intros v x Hx. pose proof (init_front v) as F. destruct (nth_error (all_groups d) v).
      + destruct F as (_ & l0 & r0 & H1 & H2 & H3 & H4 & _). congruence.
      + destruct F as (_ & _ & H & _). congruence.
    - intros v. pose proof (init_front v) as F. destruct (nth_error (all_groups d) v).
      + destruct F as (-> & l0 & r0 & -> & -> & _). split; discriminate.
      + destruct F as (-> & H1 & H2 & _). auto.
  Qed.
End InitShared.

(** ** From the initial skeleton to the start of the loop, in any arithmetic *)
Section StartAny.
  Context {A : Arith} {E : Env A}.

  Theorem init_registered (d : dtriang (A:=A)) s : init_skeleton d = Ok s -> registered s.
  Proof.
    intros HI. destruct (init_vertices_cases d s HI) as (cpos & ti & b & _ & _ & _ & C1 & C2 & C3 & C4).
    destruct (init_skeleton_parts d s HI) as (cpos' & ti' & b' & kvs & ls & un & P).
    destruct (pa_s _ _ _ _ _ _ _ _ P) as (_ & s1 & _ & _ & ES).
    assert (K : forall v, k_stop_node (vs s v) = None /\ forall n, k_start_node (vs s v) = Some n -> n < length (node_keys d)).
    { intros v. destruct (nth_error (all_groups d) v) as [[x g]|] eqn:N.
      - destruct (C4 _ _ _ N) as (k & K1 & _ & ->). destruct K1 as (lw & rw & bi & node & info & K).
        destruct K as (_ & _ & _ & _ & _ & _ & K & ->). cbn. split; [reflexivity|].
        intros n Hn. injection Hn as <-. eapply node_of_lt; eauto.
      - apply nth_error_None in N. rewrite (C3 _ N). cbn. split; [reflexivity|discriminate]. }
    constructor.
    - intros v n Hn. destruct (K v) as [_ K4]. specialize (K4 n Hn). rewrite ES. cbn. apply in_seq. lia.
    - intros v n Hn. destruct (K v) as [K2 _]. congruence.
    - intros n Hn. rewrite ES in *. cbn in *. apply in_seq in Hn. lia.
    - intros v Hv. rewrite C2 in Hv. rewrite C1. apply in_seq in Hv. lia.
  Qed.

  Definition same_start (s s' : state (A:=A)) : Prop :=
    vs s' = vs s /\ nv s' = nv s /\ nn s' = nn s /\ nt s' = nt s /\ wfs s' = wfs s /\ sk_nodes s' = sk_nodes s /\ sk_vertices s' = sk_vertices s /\
    forall t, t_v (ts s' t) = t_v (ts s t) /\ t_n (ts s' t) = t_n (ts s t).
  Lemma same_start_trans s1 s2 s3 : same_start s1 s2 -> same_start s2 s3 -> same_start s1 s3.
  Proof.
    intros (P1 & P2 & P3 & P4 & P5 & P6 & P7 & P8) (Q1 & Q2 & Q3 & Q4 & Q5 & Q6 & Q7 & Q8).
    do 7 (split; [congruence|]). intros t. destruct (P8 t), (Q8 t). split; congruence.
  Qed.
  Lemma same_start_shaped s s' : same_start s s' -> (registered s -> registered s') /\ (shaped s -> shaped s').
  Proof.
    intros (P1 & P2 & P3 & P4 & P5 & P6 & P7 & P8). split.
    - intros [R1 R2 R3 R4]. constructor; rewrite ?P1, ?P2, ?P3, ?P6, ?P7; auto.
    - intros [S1 S2]. constructor; rewrite ?P2, ?P4; intros t; destruct (P8 t) as [Q1 Q2]; rewrite ?Q1, ?Q2; eauto.
  Qed.
  Lemma started_same s s0 : started s s0 -> same_start s s0.
  Proof.
    intros (s1 & H & ->). unfold init_event_list in H.
    apply bind_ok in H. destruct H as ([] & s2 & H & K). injection H as <-.
    apply bind_ok in K. destruct K as (tris & s2 & H & K). injection H as <- <-.
    set (s2 := mkSt _ _ _ _ _ _ _ _ _ _ _ _ _ _) in K.
    apply (same_start_trans s s2). { repeat split. }
    apply (same_start_trans s2 s1); [|repeat split]. cbn [sk_triangles] in K. clearbody s2. revert s2 K. generalize (sk_triangles s). clear s. intros tris.
    induction tris as [|t tris IH]; intros s2 K.
    { injection K as <-. repeat split. }
    cbn [forM] in K. apply bind_ok in K. destruct K as ([] & s3 & H & K). apply IH in K. apply (same_start_trans _ s3); [|exact K].
    apply init_tri in H. destruct H as [[_ ->]|(e & _ & ->)]; [repeat split|]. do 7 (split; [reflexivity|]). intros t'. cbn.
    destruct (Nat.eqb_spec t t') as [<-|N]; [rewrite upd_same; auto|rewrite upd_other by auto; auto].
  Qed.
  Lemma same_start_shared W s s' : same_start s s' -> shared W s -> shared W s'.
  Proof. intros (P1 & P2 & _). apply same_shared. split; [exact P2|]. rewrite P1. auto. Qed.
End StartAny.
