(** A flip event keeps the rings fitting (any arithmetic) *)
From Verif Require Import Base Arith Calc VectorOps Line2d Primitives Collapse EventsLib
  FlipEvent ParallelEvent EdgeEvent SplitEvent EventLoop Pass OpSpec StopSpec RunBase Fan FanProofs Decent Total TotalRun
  Mesh MeshEvents MeshEdge MeshRun Rings RingEdge.
Local Open Scope nat_scope.

Section Flip.
  Context {A : Arith} {E : Env A}.

  (** [t0] and [t1], neighbours across [i0] and [i1], exchange the diagonal *)
  Record flipped (s s' : state) (t0 : nat) (i0 : side) (t1 : nat) (i1 : side) : Prop := {
    fl_vs : vs s' = vs s;
    fl_act : forall u, active s' u <-> active s u;
    fl_ne : t0 <> t1;
    fl_d0 : active s t0;
    fl_d1 : active s t1;
    fl_l0 : link s t0 i0 = Some t1;
    fl_l1 : link s t1 i1 = Some t0;
    fl_sh : shares s t0 i0 t1 i1;
    fl_op : corner s t0 i0 <> corner s t1 i1;
    fl_v0 : t_v (ts s' t0) = mk3 (corner s t0 i0) (corner s t0 (ccw i0)) (corner s t1 i1);
    fl_n0 : t_n (ts s' t0) = mk3 (link s t1 (ccw i1)) (Some t1) (link s t0 (cw i0));
    fl_v1 : t_v (ts s' t1) = mk3 (corner s t1 i1) (corner s t1 (ccw i1)) (corner s t0 i0);
    fl_n1 : t_n (ts s' t1) = mk3 (link s t0 (ccw i0)) (Some t0) (link s t1 (cw i1));
    fl_v : forall u i, u <> t0 -> u <> t1 -> corner s' u i = corner s u i;
    fl_n : forall u j, u <> t0 -> u <> t1 -> link s' u j = link s u j \/
      (link s u j = Some t0 \/ link s u j = Some t1) /\ (link s' u j = Some t0 \/ link s' u j = Some t1) }.

  Lemma flipped_sym s s' t0 i0 t1 i1 : flipped s s' t0 i0 t1 i1 -> flipped s s' t1 i1 t0 i0.
  Proof.
    intros H. destruct H. constructor; auto using shares_sym.
    intros u j H0 H1. destruct (fl_n4 u j H1 H0); tauto.
  Qed.

  Section One.
    Variables (s s' : state) (t0 : nat) (i0 : side) (t1 : nat) (i1 : side).
    Hypothesis FL : flipped s s' t0 i0 t1 i1.
    Hypothesis L : linked (active s) s.
    Hypothesis L' : linked (active s') s'.
    Hypothesis DI : forall u, active s u -> distinct s u.
    Hypothesis DI' : forall u, active s' u -> distinct s' u.

    Lemma fc0 i : corner s' t0 i = match i with S0 => corner s t0 i0 | S1 => corner s t0 (ccw i0) | S2 => corner s t1 i1 end.
    Proof. unfold corner at 1. rewrite (fl_v0 _ _ _ _ _ _ FL). destruct i; reflexivity. Qed.
    Lemma fc1 i : corner s' t1 i = match i with S0 => corner s t1 i1 | S1 => corner s t1 (ccw i1) | S2 => corner s t0 i0 end.
    Proof. unfold corner at 1. rewrite (fl_v1 _ _ _ _ _ _ FL). destruct i; reflexivity. Qed.
    Lemma fn0 i : link s' t0 i = match i with S0 => link s t1 (ccw i1) | S1 => Some t1 | S2 => link s t0 (cw i0) end.
    Proof. unfold link at 1. rewrite (fl_n0 _ _ _ _ _ _ FL). destruct i; reflexivity. Qed.
    Lemma fn1 i : link s' t1 i = match i with S0 => link s t0 (ccw i0) | S1 => Some t0 | S2 => link s t1 (cw i1) end.
    Proof. unfold link at 1. rewrite (fl_n1 _ _ _ _ _ _ FL). destruct i; reflexivity. Qed.
    Lemma fstay u j w : u <> t0 -> u <> t1 -> link s u j = w -> w <> Some t0 -> w <> Some t1 -> link s' u j = w.
    Proof. intros H0 H1 K N0 N1. destruct (fl_n _ _ _ _ _ _ FL u j H0 H1) as [Q|[Q _]]; [congruence|]. rewrite K in Q. tauto. Qed.

    Lemma flip_before v l X q t k : star s v l -> (forall x, In x X -> In x l) -> ~ In t0 (map fst X) -> ~ In t1 (map fst X) ->
      chain s None X q -> active s' t -> corner s' t k = v -> link s' t (cw k) = last_t None X -> chain s' None X (Some t).
    Proof.
      intros ST IN N0 N1 C Dt Ct Lt.
      assert (AC : forall u i, In (u, i) X -> active s u /\ corner s u i = v /\ u <> t0 /\ u <> t1).
      { intros u i H. pose proof (proj1 (st_all _ _ _ ST u i) (IN _ H)) as [? ?]. apply (in_map fst) in H. cbn in H.
        split; [auto|]. split; [auto|]. split; congruence. }
      apply (chain_change s s' X None q); auto.
      - intros u i j w Hu Hj Hl Hw. destruct (AC u i Hu) as (_ & _ & Z0 & Z1). apply fstay; auto; intros Q; injection Q as ->; contradiction.
      - intros u i r ->. destruct (AC u i (or_introl eq_refl)) as (_ & _ & Z0 & Z1). destruct C as (C & _). apply fstay; auto; discriminate.
      - intros u i r ->. destruct (AC u i) as (Du & Cu & Z0 & Z1); [apply in_or_app; cbn; auto|].
        rewrite last_app in Lt. cbn in Lt. apply (link_forth s' t k); auto.
        rewrite (fl_v _ _ _ _ _ _ FL) by auto. congruence.
    Qed.
    Lemma flip_after v l Y p t k : star s v l -> (forall x, In x Y -> In x l) -> ~ In t0 (map fst Y) -> ~ In t1 (map fst Y) ->
      chain s p Y None -> active s' t -> corner s' t k = v -> link s' t (ccw k) = hd_t Y None -> chain s' (Some t) Y None.
    Proof.
      intros ST IN N0 N1 C Dt Ct Lt.
      assert (AC : forall u i, In (u, i) Y -> active s u /\ corner s u i = v /\ u <> t0 /\ u <> t1).
      { intros u i H. pose proof (proj1 (st_all _ _ _ ST u i) (IN _ H)) as [? ?]. apply (in_map fst) in H. cbn in H.
        split; [auto|]. split; [auto|]. split; congruence. }
      apply (chain_change s s' Y p None); auto.
      - intros u i j w Hu Hj Hl Hw. destruct (AC u i Hu) as (_ & _ & Z0 & Z1). apply fstay; auto; intros Q; injection Q as ->; contradiction.
      - intros u i r ->. destruct (AC u i (or_introl eq_refl)) as (Du & Cu & Z0 & Z1).
        cbn in Lt. apply (link_back s' t k); auto. rewrite (fl_v _ _ _ _ _ _ FL) by auto. congruence.
      - intros u i r ->. destruct (AC u i) as (_ & _ & Z0 & Z1); [apply in_or_app; cbn; auto|].
        apply chain_at in C. destruct C as (_ & _ & C & _). cbn in C. apply fstay; auto; discriminate.
    Qed.

    (** the vertices *)
    Let pA := corner s t0 i0.
    Let pB := corner s t0 (ccw i0).
    Let pC := corner s t1 i1.
    Let pD := corner s t0 (cw i0).
    Lemma fD1 : corner s t1 (ccw i1) = pD. Proof. apply (fl_sh _ _ _ _ _ _ FL). Qed.
    Lemma fB1 : corner s t1 (cw i1) = pB. Proof. apply (fl_sh _ _ _ _ _ _ FL). Qed.
    Lemma fAB : pA <> pB. Proof. intros Q. apply (DI t0 (fl_d0 _ _ _ _ _ _ FL)) in Q. exact (ccw_ne _ (eq_sym Q)). Qed.
    Lemma fAD : pA <> pD. Proof. intros Q. apply (DI t0 (fl_d0 _ _ _ _ _ _ FL)) in Q. exact (cw_ne _ (eq_sym Q)). Qed.
    Lemma fBD : pB <> pD. Proof. intros Q. apply (DI t0 (fl_d0 _ _ _ _ _ _ FL)) in Q. exact (ccw_cw_ne _ Q). Qed.
    Lemma fCB : pC <> pB. Proof. rewrite <- fB1. intros Q. apply (DI t1 (fl_d1 _ _ _ _ _ _ FL)) in Q. exact (cw_ne _ (eq_sym Q)). Qed.
    Lemma fCD : pC <> pD. Proof. rewrite <- fD1. intros Q. apply (DI t1 (fl_d1 _ _ _ _ _ _ FL)) in Q. exact (ccw_ne _ (eq_sym Q)). Qed.
    Lemma fAC : pA <> pC. Proof. apply (fl_op _ _ _ _ _ _ FL). Qed.

    Lemma flip_star_A l : star s pA l -> exists l', star s' pA l'.
    Proof.
      intros ST. destruct (star_split s pA l t0 i0 ST (fl_d0 _ _ _ _ _ _ FL) eq_refl) as (X & Y & ->).
      pose proof (chain_at _ _ _ _ _ _ _ (st_chain _ _ _ ST)) as (G1 & G2 & G3 & G4).
      destruct (star_nodup _ _ _ _ _ _ ST) as (N1 & N2 & N3 & N4). destruct (star_out _ _ _ _ _ _ DI ST) as [O1 O2].
      assert (T1 : forall i, ~ In (t1, i) (X ++ (t0, i0) :: Y)).
      { intros i H. apply (st_all _ _ _ ST) in H. destruct H as [_ H].
        destruct (side_cases i i1) as [->|[->| ->]]; [exact (fAC (eq_sym H))|rewrite fD1 in H; exact (fAD (eq_sym H))|rewrite fB1 in H; exact (fAB (eq_sym H))]. }
      assert (IX : forall x, In x X \/ In x Y -> In x (X ++ (t0, i0) :: Y)) by (intros x Hx; apply in_or_app; cbn; tauto).
      assert (M : forall P, (forall x, In x P -> In x (X ++ (t0, i0) :: Y)) -> ~ In t1 (map fst P)).
      { intros P HP H. apply in_map_iff in H. destruct H as ([w i] & Hw & H). cbn in Hw. subst w. exact (T1 i (HP _ H)). }
      assert (D0' : active s' t0) by apply (fl_act _ _ _ _ _ _ FL), (fl_d0 _ _ _ _ _ _ FL).
      assert (D1' : active s' t1) by apply (fl_act _ _ _ _ _ _ FL), (fl_d1 _ _ _ _ _ _ FL).
      assert (C0 : corner s' t0 S0 = pA) by (rewrite fc0; reflexivity). assert (C1 : corner s' t1 S2 = pA) by (rewrite fc1; reflexivity).
      exists (X ++ (t0, S0) :: (t1, S2) :: Y). constructor.
      - assert (Q : NoDup ((t0, S0) :: (t1, S2) :: X ++ Y)).
        { constructor; [|constructor; [|exact N3]].
          - intros [H|H]; [injection H as H; exact (fl_ne _ _ _ _ _ _ FL (eq_sym H))|].
            apply in_app_or in H. destruct H as [H|H]; apply (in_map fst) in H; contradiction.
          - intros H. apply in_app_or in H. apply IX in H. exact (T1 S2 H). }
        revert Q. clear. intros Q. apply (Permutation.Permutation_NoDup (l := (t0, S0) :: (t1, S2) :: X ++ Y)); [|exact Q].
        eapply Permutation.perm_trans; [|apply Permutation.Permutation_middle]. apply Permutation.perm_skip, Permutation.Permutation_middle.
      - apply chain_cut.
        + apply (flip_before pA _ X (Some t0) t0 S0 ST); auto. rewrite fn0. exact G2.
        + rewrite fn0. exact G2.
        + rewrite fn0. reflexivity.
        + cbn [chain]. rewrite !fn1. split; [reflexivity|]. split; [exact G3|].
          apply (flip_after pA _ Y (Some t0) t1 S2 ST); auto. rewrite fn1. exact G3.
      - intros u i. split.
        + intros H. apply in_app_or in H. destruct H as [H|[H|[H|H]]]; [|injection H as <- <-; auto|injection H as <- <-; auto|];
            pose proof (in_map fst _ _ H) as Hu; cbn in Hu.
          * pose proof (proj1 (st_all _ _ _ ST u i) (IX _ (or_introl H))) as [K1 K2]. split; [apply (fl_act _ _ _ _ _ _ FL), K1|].
            rewrite (fl_v _ _ _ _ _ _ FL); [exact K2|congruence|]. intros ->. exact (M X (fun x Hx => IX x (or_introl Hx)) Hu).
          * pose proof (proj1 (st_all _ _ _ ST u i) (IX _ (or_intror H))) as [K1 K2]. split; [apply (fl_act _ _ _ _ _ _ FL), K1|].
            rewrite (fl_v _ _ _ _ _ _ FL); [exact K2|congruence|]. intros ->. exact (M Y (fun x Hx => IX x (or_intror Hx)) Hu).
        + intros [Du H]. apply in_or_app. cbn.
          destruct (Nat.eq_dec u t0) as [->|Nu0].
          { right. left. f_equal. apply (DI' t0 D0'). congruence. }
          destruct (Nat.eq_dec u t1) as [->|Nu1].
          { right. right. left. f_equal. apply (DI' t1 D1'). congruence. }
          rewrite (fl_v _ _ _ _ _ _ FL) in H by auto. apply (fl_act _ _ _ _ _ _ FL) in Du.
          pose proof (proj2 (st_all _ _ _ ST u i) (conj Du H)) as K. apply in_app_or in K.
          destruct K as [K|[K|K]]; [auto|congruence|auto].
    Qed.

    Lemma flip_star_B l : star s pB l -> exists l', star s' pB l'.
    Proof.
      intros ST. destruct (star_split s pB l t1 (cw i1) ST (fl_d1 _ _ _ _ _ _ FL) fB1) as (X & Y & ->).
      pose proof (chain_at _ _ _ _ _ _ _ (st_chain _ _ _ ST)) as (G1 & G2 & G3 & G4).
      rewrite ccw_cw, (fl_l1 _ _ _ _ _ _ FL) in G3. destruct Y as [|[w k] Y]; [discriminate G3|]. injection G3 as <-.
      destruct G4 as (_ & G5 & G6). rewrite cw_cw in G2.
      assert (K : k = ccw i0).
      { pose proof (proj1 (st_all _ _ _ ST t0 k)) as Q. destruct Q as [Q1 Q2]; [apply in_or_app; cbn; auto|].
        apply (DI t0 (fl_d0 _ _ _ _ _ _ FL)). exact Q2. }
      subst k. rewrite ccw_ccw in G5.
      destruct (star_out _ _ _ _ _ _ DI ST) as [O1 O2]. cbn [map fst In] in O2.
      assert (ST2 : star s pB ((X ++ [(t1, cw i1)]) ++ (t0, ccw i0) :: Y)) by (rewrite <- app_assoc; exact ST).
      destruct (star_out _ _ _ _ _ _ DI ST2) as [O3 O4]. rewrite map_app in O3.
      assert (O5 : ~ In t0 (map fst X)) by (intros H; apply O3, in_or_app; auto).
      assert (O6 : ~ In t1 (map fst Y)) by (intros H; apply O2; auto).
      assert (IX : forall x, In x X \/ In x Y -> In x (X ++ (t1, cw i1) :: (t0, ccw i0) :: Y)) by (intros x Hx; apply in_or_app; cbn; tauto).
      assert (D0' : active s' t0) by apply (fl_act _ _ _ _ _ _ FL), (fl_d0 _ _ _ _ _ _ FL).
      assert (C0 : corner s' t0 S1 = pB) by (rewrite fc0; reflexivity).
      assert (N3 : NoDup (X ++ Y)).
      { destruct (star_nodup _ _ _ _ _ _ ST) as (_ & _ & Q & _). exact (NoDup_remove_1 _ _ _ Q). }
      exists (X ++ (t0, S1) :: Y). constructor.
      - apply (Permutation.Permutation_NoDup (l := (t0, S1) :: X ++ Y)); [apply Permutation.Permutation_middle|].
        constructor; [|exact N3]. intros H. apply in_app_or in H. destruct H as [H|H]; apply (in_map fst) in H; contradiction.
      - apply chain_cut.
        + apply (flip_before pB _ X (Some t1) t0 S1 ST); auto. rewrite fn0. exact G2.
        + rewrite fn0. exact G2.
        + rewrite fn0. exact G5.
        + apply (flip_after pB _ Y (Some t0) t0 S1 ST); auto. rewrite fn0. exact G5.
      - intros u i. split.
        + intros H. apply in_app_or in H. destruct H as [H|[H|H]]; [|injection H as <- <-; auto|];
            pose proof (in_map fst _ _ H) as Hu; cbn in Hu.
          * pose proof (proj1 (st_all _ _ _ ST u i) (IX _ (or_introl H))) as [K1 K2]. split; [apply (fl_act _ _ _ _ _ _ FL), K1|].
            rewrite (fl_v _ _ _ _ _ _ FL); [exact K2| |]; intros ->; contradiction.
          * pose proof (proj1 (st_all _ _ _ ST u i) (IX _ (or_intror H))) as [K1 K2]. split; [apply (fl_act _ _ _ _ _ _ FL), K1|].
            rewrite (fl_v _ _ _ _ _ _ FL); [exact K2| |]; intros ->; contradiction.
        + intros [Du H]. apply in_or_app. cbn.
          destruct (Nat.eq_dec u t0) as [->|Nu0].
          { right. left. f_equal. apply (DI' t0 D0'). congruence. }
          destruct (Nat.eq_dec u t1) as [->|Nu1].
          { exfalso. rewrite fc1 in H. destruct i; [exact (fCB H)|rewrite fD1 in H; exact (fBD (eq_sym H))|exact (fAB H)]. }
          rewrite (fl_v _ _ _ _ _ _ FL) in H by auto. apply (fl_act _ _ _ _ _ _ FL) in Du.
          pose proof (proj2 (st_all _ _ _ ST u i) (conj Du H)) as K. apply in_app_or in K.
          destruct K as [K|[K|[K|K]]]; [auto|congruence|congruence|auto].
    Qed.

    Lemma flip_star_other v l : v <> pA -> v <> pB -> v <> pC -> v <> pD -> star s v l -> star s' v l.
    Proof.
      intros NA NB NC ND ST.
      assert (T : forall u i, In (u, i) l -> u <> t0 /\ u <> t1).
      { intros u i H. apply (st_all _ _ _ ST) in H. destruct H as [_ H]. split; intros ->.
        - destruct (side_cases i i0) as [->|[->| ->]]; [exact (NA (eq_sym H))|exact (NB (eq_sym H))|exact (ND (eq_sym H))].
        - destruct (side_cases i i1) as [->|[->| ->]]; [exact (NC (eq_sym H))|rewrite fD1 in H; exact (ND (eq_sym H))|rewrite fB1 in H; exact (NB (eq_sym H))]. }
      assert (TI : forall w, In w (map fst l) -> w <> t0 /\ w <> t1).
      { intros w H. apply in_map_iff in H. destruct H as ([u i] & <- & H). apply (T u i H). }
      constructor; [apply ST| |].
      - apply (chain_change s s' l None None); [apply ST| | |].
        + intros u i j w Hu _ Hl Hw. apply TI in Hw. destruct (T u i Hu), Hw. apply fstay; auto; congruence.
        + intros u i r ->. destruct (T u i (or_introl eq_refl)). pose proof (st_chain _ _ _ ST) as (C & _). apply fstay; auto; discriminate.
        + intros u i r ->. destruct (T u i) as [? ?]; [apply in_or_app; cbn; auto|].
          pose proof (chain_at _ _ _ _ _ _ _ (st_chain _ _ _ ST)) as (_ & _ & C & _). cbn in C. apply fstay; auto; discriminate.
      - intros u i. rewrite (st_all _ _ _ ST), (fl_act _ _ _ _ _ _ FL u). split.
        + intros [Du H]. split; [exact Du|]. destruct (T u i) as [? ?]; [apply (st_all _ _ _ ST); auto|].
          rewrite (fl_v _ _ _ _ _ _ FL); auto.
        + intros [Du H]. split; [exact Du|].
          destruct (Nat.eq_dec u t0) as [->|Nu0].
          { exfalso. rewrite fc0 in H. destruct i; [exact (NA (eq_sym H))|exact (NB (eq_sym H))|exact (NC (eq_sym H))]. }
          destruct (Nat.eq_dec u t1) as [->|Nu1].
          { exfalso. rewrite fc1 in H. destruct i; [exact (NC (eq_sym H))|rewrite fD1 in H; exact (ND (eq_sym H))|exact (NA (eq_sym H))]. }
          rewrite (fl_v _ _ _ _ _ _ FL) in H; auto.
    Qed.

    (** wavefront sides go over into wavefront sides *)
    Lemma flip_side_back u i : active s' u -> link s' u i = None -> u <> t1 -> exists u0 j, active s u0 /\ link s u0 j = None /\
      corner s u0 (ccw j) = corner s' u (ccw i) /\ corner s u0 (cw j) = corner s' u (cw i).
    Proof.
      intros Du H N1. destruct (Nat.eq_dec u t0) as [->|N0].
      - rewrite fn0 in H. destruct i; [|discriminate|].
        + exists t1, (ccw i1). split; [apply (fl_d1 _ _ _ _ _ _ FL)|]. split; [exact H|]. rewrite !fc0, cw_ccw, ccw_ccw. cbn.
          split; [apply fB1|reflexivity].
        + exists t0, (cw i0). split; [apply (fl_d0 _ _ _ _ _ _ FL)|]. split; [exact H|]. rewrite !fc0, ccw_cw, cw_cw. cbn. auto.
      - exists u, i. split; [apply (fl_act _ _ _ _ _ _ FL), Du|]. rewrite !(fl_v _ _ _ _ _ _ FL) by auto. split; [|auto].
        destruct (fl_n _ _ _ _ _ _ FL u i N0 N1) as [Q|[_ Q]]; [congruence|]. rewrite H in Q. destruct Q; discriminate.
    Qed.
    Lemma flip_side_forth u i : active s u -> link s u i = None -> u <> t1 -> exists u0 j, active s' u0 /\ link s' u0 j = None /\
      corner s' u0 (ccw j) = corner s u (ccw i) /\ corner s' u0 (cw j) = corner s u (cw i).
    Proof.
      intros Du H N1. destruct (Nat.eq_dec u t0) as [->|N0].
      - destruct (side_cases i i0) as [->|[->| ->]]; [rewrite (fl_l0 _ _ _ _ _ _ FL) in H; discriminate| |].
        + exists t1, S0. split; [apply (fl_act _ _ _ _ _ _ FL), (fl_d1 _ _ _ _ _ _ FL)|]. rewrite fn1, !fc1, cw_ccw, ccw_ccw.
          split; [exact H|]. cbn. split; [apply fD1|reflexivity].
        + exists t0, S2. split; [apply (fl_act _ _ _ _ _ _ FL), (fl_d0 _ _ _ _ _ _ FL)|]. rewrite fn0, !fc0, ccw_cw, cw_cw.
          split; [exact H|]. cbn. auto.
      - exists u, i. split; [apply (fl_act _ _ _ _ _ _ FL), Du|]. rewrite !(fl_v _ _ _ _ _ _ FL) by auto. split; [|auto].
        apply fstay; auto; discriminate.
    Qed.
  End One.

  Theorem flip_fitting s s' t0 i0 t1 i1 : fitting s -> flipped s s' t0 i0 t1 i1 ->
    (forall u, active s u -> distinct s u) -> (forall u, active s' u -> distinct s' u) ->
    linked (active s') s' -> fitting s'.
  Proof.
    intros F FL DI DI' L'. pose proof (flipped_sym _ _ _ _ _ _ FL) as GL. pose proof (fi_linked _ F) as L.
    assert (VS : vs s' = vs s) by apply FL.
    assert (BACK : forall u i, active s' u -> link s' u i = None -> exists u0 j, active s u0 /\ link s u0 j = None /\
      corner s u0 (ccw j) = corner s' u (ccw i) /\ corner s u0 (cw j) = corner s' u (cw i)).
    { intros u i Du H. destruct (Nat.eq_dec u t1) as [->|N].
      - apply (flip_side_back _ _ _ _ _ _ GL); auto. intros Q. exact (fl_ne _ _ _ _ _ _ GL Q).
      - apply (flip_side_back _ _ _ _ _ _ FL); auto. }
    assert (FORTH : forall u i, active s u -> link s u i = None -> exists u0 j, active s' u0 /\ link s' u0 j = None /\
      corner s' u0 (ccw j) = corner s u (ccw i) /\ corner s' u0 (cw j) = corner s u (cw i)).
    { intros u i Du H. destruct (Nat.eq_dec u t1) as [->|N].
      - apply (flip_side_forth _ _ _ _ _ _ GL); auto. intros Q. exact (fl_ne _ _ _ _ _ _ GL Q).
      - apply (flip_side_forth _ _ _ _ _ _ FL); auto. }
    constructor; [exact L'| | |].
    - intros u i Du H. destruct (BACK u i Du H) as (u0 & j & K1 & K2 & K3 & K4).
      destruct (fi_ring _ F u0 j K1 K2) as [(_ & _ & Q1 & Q2)|Q].
      + left. split; [exact Du|]. split; [exact H|]. unfold stopped in *. rewrite VS, <- K3, <- K4. auto.
      + right. unfold joint in *. rewrite VS, <- K3, <- K4. exact Q.
    - intros v Hv. rewrite VS in Hv. destruct (fi_star _ F v Hv) as [l ST].
      destruct (Nat.eq_dec v (corner s t0 i0)) as [->|NA]; [apply (flip_star_A _ _ _ _ _ _ FL L' DI DI' l ST)|].
      destruct (Nat.eq_dec v (corner s t0 (ccw i0))) as [->|NB]; [apply (flip_star_B _ _ _ _ _ _ FL L' DI DI' l ST)|].
      destruct (Nat.eq_dec v (corner s t1 i1)) as [->|NC]; [apply (flip_star_A _ _ _ _ _ _ GL L' DI DI' l ST)|].
      destruct (Nat.eq_dec v (corner s t0 (cw i0))) as [->|ND].
      + assert (Q : corner s t1 (ccw i1) = corner s t0 (cw i0)) by apply (fl_sh _ _ _ _ _ _ FL).
        rewrite <- Q in *. apply (flip_star_B _ _ _ _ _ _ GL L' DI DI' l ST).
      + exists l. apply (flip_star_other _ _ _ _ _ _ FL v l); auto.
    - intros u i Du Hi Hs. unfold stopped in Hs. rewrite VS in Hi, Hs.
      assert (W : exists w k, active s w /\ corner s w k = corner s' u i).
      { pose proof (proj1 (fl_act _ _ _ _ _ _ FL u) Du) as Du0.
        destruct (Nat.eq_dec u t0) as [->|N0].
        { rewrite (fc0 _ _ _ _ _ _ FL). destruct i; [exists t0, i0|exists t0, (ccw i0)|exists t1, i1]; (split; [first [exact (fl_d0 _ _ _ _ _ _ FL)|exact (fl_d1 _ _ _ _ _ _ FL)]|reflexivity]). }
        destruct (Nat.eq_dec u t1) as [->|N1].
        { rewrite (fc1 _ _ _ _ _ _ FL). destruct i; [exists t1, i1|exists t1, (ccw i1)|exists t0, i0]; (split; [first [exact (fl_d0 _ _ _ _ _ _ FL)|exact (fl_d1 _ _ _ _ _ _ FL)]|reflexivity]). }
        exists u, i. split; [exact Du0|]. symmetry. apply (fl_v _ _ _ _ _ _ FL); auto. }
      destruct W as (w & k & Dw & Cw). rewrite <- Cw in *.
      destruct (fi_stop _ F w k Dw Hi Hs) as (x & j & (Q1 & Q2 & Q3 & Q4) & Q5).
      destruct (FORTH x j Q1 Q2) as (y & m & P1 & P2 & P3 & P4). exists y, m. split.
      + split; [exact P1|]. split; [exact P2|]. unfold stopped in *. rewrite VS, P3, P4. auto.
      + unfold touches in *. rewrite P3, P4. exact Q5.
  Qed.
End Flip.
