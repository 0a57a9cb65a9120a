(** A split event keeps the rings fitting (any arithmetic) *)
From Verif Require Import Base Arith Calc VectorOps Line2d Primitives Collapse EventsLib
  FlipEvent ParallelEvent EdgeEvent SplitEvent EventLoop Pass OpSpec StopSpec RunBase Fan FanProofs Decent Total TotalRun
  Mesh MeshEvents MeshEdge MeshRun Rings RingEdge.
Local Open Scope nat_scope.

Section Split.
  Context {A : Arith} {E : Env A}.
  Variables (s s' : state) (t : nat) (e : side) (va vb : nat) (fa fb : list nat).
  Let v := corner s t e.
  Let v1 := corner s t (ccw e).
  Let v2 := corner s t (cw e).

  Hypothesis F : fitting s.
  Hypothesis SH : shaped s.
  Hypothesis DI : forall u, active s u -> distinct s u.
  Hypothesis Dt : active s t.
  Hypothesis AP : apart s t.
  Hypothesis FIN : k_inf (vs s v) = false.
  Hypothesis FIN1 : k_inf (vs s v1) = false.
  Hypothesis FIN2 : k_inf (vs s v2) = false.
  (** no left-over side touches the splitting vertex, and the side split is none *)
  Hypothesis LO : forall u j, left_over s u j -> ~ touches s u j v.
  Hypothesis LOe : ~ left_over s t e.
  (** the triangles *)
  Hypothesis ACT : forall u, active s' u <-> active s u /\ u <> t.
  Hypothesis VB : vb = nv s.
  Hypothesis VA : va = S (nv s).
  Hypothesis TE : link s t e = None.
  Hypothesis TB : link s t (ccw e) <> None.
  Hypothesis TA : link s t (cw e) <> None.
  Hypothesis FA : side_fan s t e cw fa.
  Hypothesis FB : side_fan s t e ccw fb.
  Hypothesis C : forall u i, corner s' u i = sub1 v va fa u (sub1 v vb fb u (corner s u i)).
  Hypothesis U : unl (active s) s t (fun _ => Some None) s'.
  (** the vertices *)
  Hypothesis RI : forall x, x <> va -> x <> vb -> x <> v1 -> kleft (vs s v) <> Some x -> kright (vs s' x) = kright (vs s x).
  Hypothesis RIl : forall x, kleft (vs s v) = Some x -> x <> va -> x <> vb -> x <> v1 -> kright (vs s' x) = Some vb.
  Hypothesis RIb : kright (vs s' vb) = Some v2.
  Hypothesis RI1 : kright (vs s' v1) = Some va.
  Hypothesis RIa : kleft (vs s v) <> Some v -> kright (vs s' va) = kright (vs s v).
  Hypothesis LEl : forall x, x <> va -> x <> vb -> x <> v2 -> kright (vs s' va) <> Some x -> kleft (vs s' x) = kleft (vs s x).
  Hypothesis LEr : forall x, kright (vs s' va) = Some x -> kleft (vs s' x) = Some va.
  Hypothesis LE2 : kright (vs s' va) <> Some v2 -> kleft (vs s' v2) = Some vb.
  Hypothesis LEb : kright (vs s' va) <> Some vb -> kleft (vs s' vb) = kleft (vs s v).
  Hypothesis LEa : kright (vs s' va) <> Some va -> kleft (vs s' va) = Some v1.
  Hypothesis OLD : forall x, x <> va -> x <> vb -> k_inf (vs s' x) = k_inf (vs s x) /\ k_wfl (vs s' x) = k_wfl (vs s x) /\
    k_wfr (vs s' x) = k_wfr (vs s x) /\ k_ul (vs s' x) = k_ul (vs s x) /\ k_ur (vs s' x) = k_ur (vs s x).
  Hypothesis NEWb : k_wfl (vs s' vb) = k_wfl (vs s v) /\ k_wfr (vs s' vb) = k_wfl (vs s v2) /\
    k_ul (vs s' vb) = k_ul (vs s v) /\ k_ur (vs s' vb) = k_ul (vs s v2) /\ k_stops (vs s' vb) = None.
  Hypothesis NEWa : k_wfl (vs s' va) = k_wfr (vs s v1) /\ k_wfr (vs s' va) = k_wfr (vs s v) /\
    k_ul (vs s' va) = k_ur (vs s v1) /\ k_ur (vs s' va) = k_ur (vs s v) /\ k_stops (vs s' va) = None.
  Hypothesis STAY : forall x, x <> va -> x <> vb -> x <> v -> k_stops (vs s' x) = k_stops (vs s x).

  Let L := fi_linked _ F.

  Lemma sLT u i : corner s u i < nv s.
  Proof. apply (sh_v _ SH). Qed.
  Lemma M12 : v1 <> v2.
  Proof. intros Q. apply (DI t Dt) in Q. exact (ccw_cw_ne e Q). Qed.
  Lemma M01 : v <> v1.
  Proof. intros Q. apply (DI t Dt) in Q. exact (ccw_ne e (eq_sym Q)). Qed.
  Lemma M02 : v <> v2.
  Proof. intros Q. apply (DI t Dt) in Q. exact (cw_ne e (eq_sym Q)). Qed.
  Lemma old_ne x : x < nv s -> x <> va /\ x <> vb.
  Proof. rewrite VA, VB. clear. intros. lia. Qed.
  Lemma old_corner u i : corner s u i <> va /\ corner s u i <> vb.
  Proof. apply old_ne, sLT. Qed.

  Lemma split_stars : exists X Y Y1 X2,
    star s v (X ++ (t, e) :: Y) /\ star s v1 ((t, ccw e) :: Y1) /\ star s v2 (X2 ++ [(t, cw e)]) /\
    fb = map fst Y /\ fa = rev (map fst X).
  Proof.
    destruct (fi_star _ F v FIN) as [l S0]. destruct (fi_star _ F v1 FIN1) as [l1 S1]. destruct (fi_star _ F v2 FIN2) as [l2 S2'].
    destruct (star_split s v l t e S0 Dt eq_refl) as (X & Y & ->).
    destruct (star_first s v1 l1 t (ccw e) S1 Dt eq_refl) as (Y1 & ->); [rewrite cw_ccw; exact TE|].
    destruct (star_last s v2 l2 t (cw e) S2' Dt eq_refl) as (X2 & ->); [rewrite ccw_cw; exact TE|].
    exists X, Y, Y1, X2. split; [exact S0|]. split; [exact S1|]. split; [exact S2'|].
    pose proof (chain_at _ _ _ _ _ _ _ (st_chain _ _ _ S0)) as (G1 & G2 & H1 & H2). split.
    - unfold side_fan in FB. destruct (link s t (ccw e)) as [b|] eqn:Lb; [|congruence].
      destruct FB as [Fb _]. apply (fan_ccw _ _ _ _ Fb (Some t) Y H2 H1).
      intros u i Hu. assert (K : In (u, i) (X ++ (t, e) :: Y)) by (apply in_or_app; cbn; auto).
      apply (st_all _ _ _ S0) in K. split; [apply K|apply DI, K].
    - unfold side_fan in FA. destruct (link s t (cw e)) as [a|] eqn:La; [|congruence].
      destruct FA as [Fa _]. apply (fan_cw _ _ _ _ Fa (Some t) X G1 G2).
      intros u i Hu. assert (K : In (u, i) (X ++ (t, e) :: Y)) by (apply in_or_app; cbn; auto).
      apply (st_all _ _ _ S0) in K. split; [apply K|apply DI, K].
  Qed.

  Section Parts.
    Variables X Y Y1 X2 : list (nat * side).
    Hypothesis S0 : star s v (X ++ (t, e) :: Y).
    Hypothesis S1 : star s v1 ((t, ccw e) :: Y1).
    Hypothesis S2 : star s v2 (X2 ++ [(t, cw e)]).
    Hypothesis EB : fb = map fst Y.
    Hypothesis EA : fa = rev (map fst X).

    Lemma in0 u i : active s u -> u <> t -> corner s u i = v -> In (u, i) X \/ In (u, i) Y.
    Proof.
      intros Du Nu H. assert (K : In (u, i) (X ++ (t, e) :: Y)) by (apply (st_all _ _ _ S0); auto).
      apply in_app_or in K. destruct K as [K|[K|K]]; [auto|congruence|auto].
    Qed.
    Lemma of0 u i : In (u, i) X \/ In (u, i) Y -> active s u /\ u <> t /\ corner s u i = v.
    Proof.
      intros H. assert (K : In (u, i) (X ++ (t, e) :: Y)) by (apply in_or_app; cbn; tauto).
      apply (st_all _ _ _ S0) in K. split; [apply K|]. split; [|apply K]. intros ->.
      destruct (star_out _ _ _ _ _ _ DI S0) as [O1 O2]. destruct H as [H|H]; apply (in_map fst) in H; contradiction.
    Qed.
    Lemma corner_a u i : In (u, i) X -> corner s' u i = va.
    Proof.
      intros H. destruct (of0 u i (or_introl H)) as (Du & Nu & K). rewrite C, K.
      rewrite (sub1_out v vb fb u).
      - apply sub1_in. rewrite EA, <- in_rev. apply (in_map fst) in H. exact H.
      - rewrite EB. intros M. apply in_map_iff in M. destruct M as ([w j] & Hw & M). cbn in Hw. subst w.
        destruct (of0 u j (or_intror M)) as (_ & _ & K2). assert (i = j) by (apply (DI u Du); congruence). subst j.
        destruct (star_nodup _ _ _ _ _ _ S0) as (_ & _ & _ & DJ). exact (DJ _ H M).
    Qed.
    Lemma corner_b u i : In (u, i) Y -> corner s' u i = vb.
    Proof.
      intros H. destruct (of0 u i (or_intror H)) as (Du & Nu & K). rewrite C, K.
      rewrite (sub1_in v vb fb u); [|rewrite EB; apply (in_map fst) in H; exact H].
      apply sub1_other. intros Q. destruct (old_corner t e) as [_ Z]. exact (Z (eq_sym Q)).
    Qed.
    Lemma corner_other u i : corner s u i <> v -> corner s' u i = corner s u i.
    Proof. intros H. rewrite C. rewrite !sub1_other; auto. rewrite sub1_other; auto. Qed.
    Lemma no_v u i : active s u -> u <> t -> corner s' u i <> v.
    Proof.
      intros Du Nu. destruct (old_corner t e) as [Z1 Z2]. fold v in Z1, Z2.
      destruct (Nat.eq_dec (corner s u i) v) as [K|K]; [|rewrite corner_other; auto].
      destruct (in0 u i Du Nu K) as [H|H]; [rewrite corner_a|rewrite corner_b]; auto.
    Qed.

    Lemma t_ccw : link s t (ccw e) = hd_t Y None.
    Proof. pose proof (chain_at _ _ _ _ _ _ _ (st_chain _ _ _ S0)) as (_ & _ & H & _). exact H. Qed.
    Lemma t_cw : link s t (cw e) = last_t None X.
    Proof. pose proof (chain_at _ _ _ _ _ _ _ (st_chain _ _ _ S0)) as (_ & H & _). exact H. Qed.
    Lemma J12 : joint s v1 v2.
    Proof. destruct (fi_ring _ F t e Dt TE) as [Q|Q]; [contradiction|exact Q]. Qed.

    Lemma split_left : exists l0, kleft (vs s v) = Some l0 /\ joint s l0 v /\ l0 < nv s /\ l0 <> v1 /\ l0 <> v.
    Proof.
      destruct (star_ends s v _ t e S0) as [_ (w & k & K1 & K2)]; [apply in_or_app; cbn; auto|].
      pose proof (proj1 (st_all _ _ _ S0 w k) K1) as [Dw Cw].
      destruct (fi_ring _ F w (ccw k) Dw K2) as [Q|Q].
      - exfalso. apply (LO w (ccw k) Q). right. rewrite cw_ccw. congruence.
      - rewrite cw_ccw, ccw_ccw in Q. rewrite Cw in Q. exists (corner s w (cw k)).
        split; [apply Q|]. split; [exact Q|]. split; [apply sLT|]. split.
        + intros Q2. rewrite Q2 in Q. destruct Q as (Q & _), J12 as (Z & _). apply M02. congruence.
        + intros Q2. rewrite <- Cw in Q2. apply (DI w Dw) in Q2. exact (cw_ne k Q2).
    Qed.
    Lemma split_right : exists r0, kright (vs s v) = Some r0 /\ joint s v r0 /\ r0 < nv s /\ r0 <> v2.
    Proof.
      destruct (star_ends s v _ t e S0) as [(w & k & K1 & K2) _]; [apply in_or_app; cbn; auto|].
      pose proof (proj1 (st_all _ _ _ S0 w k) K1) as [Dw Cw].
      destruct (fi_ring _ F w (cw k) Dw K2) as [Q|Q].
      - exfalso. apply (LO w (cw k) Q). left. rewrite ccw_cw. congruence.
      - rewrite ccw_cw, cw_cw in Q. rewrite Cw in Q. exists (corner s w (ccw k)).
        split; [apply Q|]. split; [exact Q|]. split; [apply sLT|].
        intros Q2. rewrite Q2 in Q. destruct Q as (_ & Q & _), J12 as (_ & Z & _). apply M01. congruence.
    Qed.

    Lemma split_effect_ring : exists l0 r0, joint s l0 v /\ joint s v r0 /\
      joint s' l0 vb /\ joint s' vb v2 /\ joint s' v1 va /\ joint s' va r0 /\
      (forall a b, joint s a b -> a <> l0 -> a <> v1 -> b <> r0 -> b <> v2 -> a < nv s -> b < nv s -> joint s' a b).
    Proof.
      destruct split_left as (l0 & HL & JL & Ll & Nl1 & Nlv). destruct split_right as (r0 & HR & JR & Lr & Nr2).
      exists l0, r0.
      assert (RK : kright (vs s' va) = Some r0).
      { rewrite RIa; [exact HR|]. rewrite HL. congruence. }
      destruct (old_corner t (ccw e)) as [Z1 Z2]. fold v1 in Z1, Z2.
      destruct (old_corner t (cw e)) as [Z3 Z4]. fold v2 in Z3, Z4.
      pose proof (old_ne l0 Ll) as Kl. pose proof (old_ne r0 Lr) as Kr.
      destruct NEWa as (A1 & A2 & A3 & A4 & _). destruct NEWb as (B1 & B2 & B3 & B4 & _).
      destruct JL as (JL1 & JL2 & JL3 & JL4). destruct JR as (JR1 & JR2 & JR3 & JR4).
      destruct (OLD l0 (proj1 Kl) (proj2 Kl)) as (_ & O1 & O2 & O3 & O4).
      destruct (OLD r0 (proj1 Kr) (proj2 Kr)) as (_ & P1 & P2 & P3 & P4).
      destruct (OLD v1 Z1 Z2) as (_ & Q1 & Q2 & Q3 & Q4). destruct (OLD v2 Z3 Z4) as (_ & T1 & T2 & T3 & T4).
      split; [split; auto|]. split; [split; auto|]. split; [|split; [|split; [|split]]].
      - split; [apply RIl; tauto|]. split; [rewrite LEb; [exact HL|rewrite RK; intros Z; injection Z as Z; tauto]|]. split; congruence.
      - split; [exact RIb|]. split; [apply LE2; rewrite RK; congruence|]. split; congruence.
      - split; [exact RI1|]. split; [apply LEa; rewrite RK; intros Z; injection Z as Z; tauto|]. split; congruence.
      - split; [exact RK|]. split; [apply LEr, RK|]. split; congruence.
      - intros a b (J1 & J2 & J3 & J4) Na1 Na2 Nb1 Nb2 La Lb.
        pose proof (old_ne a La) as Ka. pose proof (old_ne b Lb) as Kb.
        destruct (OLD a (proj1 Ka) (proj2 Ka)) as (_ & D1 & D2 & D3 & D4).
        destruct (OLD b (proj1 Kb) (proj2 Kb)) as (_ & E1 & E2 & E3 & E4).
        split; [|split; [|split; congruence]].
        + rewrite RI; try tauto. rewrite HL. congruence.
        + rewrite LEl; try tauto. rewrite RK. congruence.
    Qed.

    Lemma split_left_over u j : left_over s u j -> u <> t -> left_over s' u j /\
      corner s' u (ccw j) = corner s u (ccw j) /\ corner s' u (cw j) = corner s u (cw j).
    Proof.
      intros H Nu. pose proof H as (Du & H1 & H2 & H3).
      assert (N1 : corner s u (ccw j) <> v) by (intros Q; apply (LO u j H); left; auto).
      assert (N2 : corner s u (cw j) <> v) by (intros Q; apply (LO u j H); right; auto).
      split; [|rewrite !corner_other; auto]. split; [apply ACT; auto|]. split.
      - rewrite (gone_same s s' t _ u j Du Nu U); [exact H1|congruence].
      - rewrite !corner_other by auto. unfold stopped in *. rewrite !STAY; auto; apply old_corner.
    Qed.

    Lemma split_ring u i : active s' u -> link s' u i = None -> left_over s' u i \/ joint s' (corner s' u (ccw i)) (corner s' u (cw i)).
    Proof.
      intros Du' Hl. pose proof (proj1 (ACT u) Du') as [Du Nu].
      destruct split_effect_ring as (l0 & r0 & JL & JR & J1 & J2 & J3 & J4 & JO).
      destruct (option_eq_dec (link s u i) (Some t)) as [T|T].
      - right. destruct (L u i t Du T) as (_ & m & M1 & M2 & M3).
        destruct (side_cases m e) as [->|[->| ->]]; [congruence| |].
        + rewrite cw_ccw in M3. rewrite ccw_ccw in M2. fold v in M3. fold v2 in M2.
          pose proof t_ccw as T1. rewrite M1 in T1. symmetry in T1. apply hd_in in T1. destruct T1 as (k & T1).
          destruct (of0 u k (or_intror T1)) as (_ & _ & Q).
          assert (k = ccw i) by (apply (DI u Du); congruence). subst k.
          rewrite (corner_b u (ccw i) T1), corner_other; [rewrite <- M2; exact J2|]. rewrite <- M2. intros Z. exact (M02 (eq_sym Z)).
        + rewrite cw_cw in M3. rewrite ccw_cw in M2. fold v1 in M3. fold v in M2.
          pose proof t_cw as T1. rewrite M1 in T1. symmetry in T1. apply last_in in T1. destruct T1 as (k & T1).
          destruct (of0 u k (or_introl T1)) as (_ & _ & Q).
          assert (k = cw i) by (apply (DI u Du); congruence). subst k.
          rewrite (corner_a u (cw i) T1), corner_other; [rewrite <- M3; exact J3|]. rewrite <- M3. intros Z. exact (M01 (eq_sym Z)).
      - rewrite (gone_same s s' t _ u i Du Nu U T) in Hl.
        destruct (fi_ring _ F u i Du Hl) as [Q|Q]; [left; apply split_left_over; auto|right].
        destruct (Nat.eq_dec (corner s u (ccw i)) v) as [K|K].
        + destruct (in0 u (ccw i) Du Nu K) as [H|H].
          * rewrite (corner_a u _ H), corner_other.
            -- rewrite K in Q. assert (ER : corner s u (cw i) = r0) by (destruct JR as (JR & _), Q as (Q & _); congruence).
               rewrite ER. exact J4.
            -- rewrite <- K. intros Z. apply (DI u Du) in Z. exact (ccw_cw_ne i (eq_sym Z)).
          * destruct (first_not_later _ _ _ _ _ _ _ S0 H). rewrite cw_ccw. exact Hl.
        + destruct (Nat.eq_dec (corner s u (cw i)) v) as [M|M].
          * destruct (in0 u (cw i) Du Nu M) as [H|H].
            -- destruct (last_not_earlier _ _ _ _ _ _ _ S0 H). rewrite ccw_cw. exact Hl.
            -- rewrite (corner_b u _ H), corner_other by exact K. rewrite M in Q.
               assert (EL : corner s u (ccw i) = l0) by (destruct JL as (_ & JL & _), Q as (_ & Q & _); congruence).
               rewrite EL. exact J1.
          * rewrite !corner_other by auto. apply JO; auto using sLT.
            -- intros Z. rewrite Z in Q. apply M. destruct JL as (JL & _), Q as (Q & _); congruence.
            -- intros Z. destruct (star_first _ _ _ u (ccw i) S1 Du Z) as (r & R); [rewrite cw_ccw; exact Hl|].
               injection R as R _. congruence.
            -- intros Z. rewrite Z in Q. apply K. destruct JR as (_ & JR & _), Q as (_ & Q & _); congruence.
            -- intros Z. destruct (star_last _ _ _ u (cw i) S2 Du Z) as (r & R); [rewrite ccw_cw; exact Hl|].
               apply app_inj_tail in R. destruct R as [_ R]. congruence.
    Qed.

    Lemma split_stop u i : active s' u -> stopped s' (corner s' u i) ->
      k_inf (vs s' (corner s' u i)) = false -> exists w j, left_over s' w j /\ touches s' w j (corner s' u i).
    Proof.
      intros Du' Hs Hi. pose proof (proj1 (ACT u) Du') as [Du Nu].
      destruct NEWa as (_ & _ & _ & _ & A5). destruct NEWb as (_ & _ & _ & _ & B5).
      destruct (Nat.eq_dec (corner s u i) v) as [K|K].
      { destruct (in0 u i Du Nu K) as [H|H]; [rewrite (corner_a u i H) in Hs; destruct (Hs A5)|rewrite (corner_b u i H) in Hs; destruct (Hs B5)]. }
      rewrite corner_other in * by exact K. destruct (old_corner u i) as [Z1 Z2].
      unfold stopped in Hs. rewrite STAY in Hs by auto. destruct (OLD _ Z1 Z2) as (O1 & _). rewrite O1 in Hi.
      destruct (fi_stop _ F u i Du Hi Hs) as (w & j & P1 & P2).
      assert (Nw : w <> t).
      { intros ->. destruct (side_cases j e) as [->|[->| ->]]; [contradiction| |]; destruct P1 as (_ & P1 & _); congruence. }
      destruct (split_left_over w j P1 Nw) as (Q1 & Q2 & Q3). exists w, j. split; [exact Q1|].
      unfold touches in *. rewrite Q2, Q3. exact P2.
    Qed.

    Lemma split_star v' : k_inf (vs s' v') = false -> exists l, star s' v' l.
    Proof.
      intros Hi.
      pose proof (chain_at _ _ _ _ _ _ _ (st_chain _ _ _ S0)) as (G1 & _ & _ & G2).
      destruct (star_nodup _ _ _ _ _ _ S0) as (ND1 & ND2 & _ & DJ).
      destruct (star_out _ _ _ _ _ _ DI S0) as [O1 O2].
      assert (IX : forall (X Y : list (nat * side)) y, (forall x, In x X -> In x (X ++ y :: Y)) /\ (forall x, In x Y -> In x (X ++ y :: Y)))
        by (intros; split; intros; apply in_or_app; cbn; auto).
      assert (NE : va <> vb) by (rewrite VA, VB; clear; lia).
      destruct (Nat.eq_dec v' va) as [->|Na].
      { exists X. constructor; [exact ND1| |].
        - eapply (part_chain s s' t (fun _ => None)); [exact L|exact AP|exact U|exact S0|apply IX|exact O1|exact G1| |].
          + left. split; [reflexivity|discriminate].
          + right. exists (cw e). split; [reflexivity|]. split; [reflexivity|]. intros u Hu. rewrite t_cw. exact Hu.
        - intros u i. split.
          + intros H. split; [|apply corner_a, H]. apply ACT. destruct (of0 u i (or_introl H)) as (? & ? & _). auto.
          + intros [Du H]. apply ACT in Du. destruct Du as [Du Nu]. destruct (old_corner u i) as [Z1 Z2].
            destruct (Nat.eq_dec (corner s u i) v) as [K|K]; [|rewrite corner_other in H by auto; congruence].
            destruct (in0 u i Du Nu K) as [Q|Q]; [exact Q|]. rewrite (corner_b u i Q) in H. congruence. }
      destruct (Nat.eq_dec v' vb) as [->|Nb].
      { exists Y. constructor; [exact ND2| |].
        - eapply (part_chain s s' t (fun _ => None)); [exact L|exact AP|exact U|exact S0|apply IX|exact O2|exact G2| |].
          + right. exists (ccw e). split; [reflexivity|]. split; [reflexivity|]. intros u Hu. rewrite t_ccw. exact Hu.
          + left. split; [reflexivity|discriminate].
        - intros u i. split.
          + intros H. split; [|apply corner_b, H]. apply ACT. destruct (of0 u i (or_intror H)) as (? & ? & _). auto.
          + intros [Du H]. apply ACT in Du. destruct Du as [Du Nu]. destruct (old_corner u i) as [Z1 Z2].
            destruct (Nat.eq_dec (corner s u i) v) as [K|K]; [|rewrite corner_other in H by auto; congruence].
            destruct (in0 u i Du Nu K) as [Q|Q]; [|exact Q]. rewrite (corner_a u i Q) in H. congruence. }
      destruct (OLD v' Na Nb) as (OI & _). rewrite OI in Hi.
      destruct (Nat.eq_dec v' v) as [->|Nv].
      { exists []. constructor; [constructor|exact I|]. intros u i. split; [intros []|]. intros [Du H]. apply ACT in Du.
        exact (no_v u i (proj1 Du) (proj2 Du) H). }
      assert (BACK : forall u i, active s' u -> corner s' u i = v' -> active s u /\ u <> t /\ corner s u i = v').
      { intros u i Du H. apply ACT in Du. destruct Du as [Du Nu]. split; [exact Du|]. split; [exact Nu|].
        destruct (Nat.eq_dec (corner s u i) v) as [K|K]; [|rewrite corner_other in H by auto; exact H].
        destruct (in0 u i Du Nu K) as [Q|Q]; [rewrite (corner_a u i Q) in H|rewrite (corner_b u i Q) in H]; congruence. }
      assert (FORTH : forall u i, active s u -> u <> t -> corner s u i = v' -> active s' u /\ corner s' u i = v').
      { intros u i Du Nu H. split; [apply ACT; auto|]. rewrite corner_other; congruence. }
      (* the star without [t] *)
      assert (PART : forall X' i Y', star s v' (X' ++ (t, i) :: Y') -> chain s' None (X' ++ Y') None -> star s' v' (X' ++ Y')).
      { intros X' i Y' ST CH. constructor; [apply (star_nodup _ _ _ _ _ _ ST)|exact CH|].
        destruct (star_out _ _ _ _ _ _ DI ST) as [OX OY]. intros u j. split.
        - intros H. assert (K : In (u, j) (X' ++ (t, i) :: Y')) by (apply in_or_app; apply in_app_or in H; cbn; tauto).
          apply (st_all _ _ _ ST) in K. destruct K as [K1 K2]. apply FORTH; auto. intros ->.
          apply in_app_or in H. destruct H as [H|H]; apply (in_map fst) in H; contradiction.
        - intros [Du H]. destruct (BACK u j Du H) as (Du0 & Nu & K).
          assert (Z : In (u, j) (X' ++ (t, i) :: Y')) by (apply (st_all _ _ _ ST); auto).
          apply in_or_app. apply in_app_or in Z. destruct Z as [Z|[Z|Z]]; [auto|congruence|auto]. }
      destruct (Nat.eq_dec v' v1) as [->|Nv1].
      { exists Y1. apply (PART [] (ccw e) Y1 S1). cbn [app].
        destruct (star_out s v1 [] t (ccw e) Y1 DI S1) as [_ OY]. destruct (st_chain _ _ _ S1) as (H1 & H2 & H3).
        eapply (part_chain s s' t (fun _ => None)); [exact L|exact AP|exact U|exact S1|cbn; auto|exact OY|exact H3| |].
        + right. exists (cw e). split; [reflexivity|]. split; [reflexivity|]. intros u Hu. rewrite ccw_ccw in H2. rewrite H2. exact Hu.
        + left. split; [reflexivity|discriminate]. }
      destruct (Nat.eq_dec v' v2) as [->|Nv2].
      { exists (X2 ++ []). apply (PART X2 (cw e) [] S2). rewrite app_nil_r.
        destruct (star_out s v2 X2 t (cw e) [] DI S2) as [OX _].
        pose proof (chain_at _ _ _ _ _ _ _ (st_chain _ _ _ S2)) as (H1 & H2 & _).
        eapply (part_chain s s' t (fun _ => None)); [exact L|exact AP|exact U|exact S2|apply IX|exact OX|exact H1| |].
        + left. split; [reflexivity|discriminate].
        + right. exists (ccw e). split; [reflexivity|]. split; [reflexivity|]. intros u Hu. rewrite cw_cw in H2. rewrite H2. exact Hu. }
      destruct (fi_star _ F v' Hi) as [l Sl].
      assert (NT : ~ In t (map fst l)).
      { intros H. apply in_map_iff in H. destruct H as ([w k] & Hw & H). cbn in Hw. subst w.
        apply (st_all _ _ _ Sl) in H. destruct H as [_ H].
        destruct (side_cases k e) as [->|[->| ->]]; [exact (Nv (eq_sym H))|exact (Nv1 (eq_sym H))|exact (Nv2 (eq_sym H))]. }
      exists l. constructor; [apply Sl| |].
      - eapply (part_chain s s' t (fun _ => None)); [exact L|exact AP|exact U|exact Sl|auto|exact NT|apply Sl| |];
          left; (split; [reflexivity|discriminate]).
      - intros u i. rewrite (st_all _ _ _ Sl). split.
        + intros [Du H]. apply FORTH; auto. intros ->. apply NT.
          assert (Z : In (t, i) l) by (apply (st_all _ _ _ Sl); auto). apply (in_map fst) in Z. exact Z.
        + intros [Du H]. destruct (BACK u i Du H) as (Du0 & _ & K). auto.
    Qed.
  End Parts.

  Theorem split_fitting : linked (active s') s' -> fitting s'.
  Proof.
    intros L'. destruct split_stars as (X & Y & Y1 & X2 & S0 & S1 & S2 & EB & EA). constructor; [exact L'| | |].
    - intros u i. apply (split_ring X Y Y1 X2); auto.
    - intros v'. apply (split_star X Y Y1 X2); auto.
    - intros u i H1 H2 H3. apply (split_stop X Y); auto.
  Qed.
End Split.
