(** An edge event keeps the rings fitting (any arithmetic) *)
From Verif Require Import Base Arith Calc VectorOps Line2d Primitives Collapse EventsLib
  FlipEvent ParallelEvent EdgeEvent SplitEvent EventLoop Pass OpSpec StopSpec RunBase Fan FanProofs Decent Total TotalRun Mesh MeshEvents MeshEdge MeshRun Rings.
Local Open Scope nat_scope.

Section Basics.
  Context {A : Arith} {E : Env A}.

  (** the triangle [t] is gone, the others keep their links except those to [t] *)
  Lemma gone_back s s' t f u j m : linked (active s) s -> active s u -> u <> t -> apart s t ->
    unl (active s) s t (fun k => Some (f k)) s' -> link s u j = Some t -> link s t m = Some u -> link s' u j = f m.
  Proof.
    intros L Du Nu AP U H K. destruct (L u j t Du H) as (_ & m' & M1 & M2).
    rewrite (AP m m' u K M1). rewrite (un_back _ _ _ _ _ U u j m'); auto. apply shares_sym, M2.
  Qed.
  Lemma gone_same s s' t f u j : active s u -> u <> t ->
    unl (active s) s t f s' -> link s u j <> Some t -> link s' u j = link s u j.
  Proof. intros Du Nu U H. apply (un_other _ _ _ _ _ U); auto. Qed.

  (** part of a star, when [t] is gone *)
  Lemma part_chain s s' t f v l p q p' q' X : linked (active s) s -> apart s t -> unl (active s) s t (fun k => Some (f k)) s' ->
    star s v l -> (forall x, In x X -> In x l) -> ~ In t (map fst X) -> chain s p X q ->
    (p' = p /\ p <> Some t \/ exists m, p = Some t /\ p' = f m /\ forall u, hd_t X None = Some u -> link s t m = Some u) ->
    (q' = q /\ q <> Some t \/ exists m, q = Some t /\ q' = f m /\ forall u, last_t None X = Some u -> link s t m = Some u) ->
    chain s' p' X q'.
  Proof.
    intros L AP U ST IN NT C P Q.
    assert (AC : forall u i, In (u, i) X -> active s u /\ u <> t).
    { intros u i H. split; [apply (st_all _ _ _ ST u i), IN, H|]. intros ->. apply NT. apply (in_map fst) in H. exact H. }
    apply (chain_change s s' X p q); auto.
    - intros u i j w Hu Hj Hl Hw. destruct (AC u i Hu) as [D1 D2]. rewrite (gone_same s s' t _ u j D1 D2 U); [exact Hl|].
      intros K. rewrite Hl in K. injection K as ->. contradiction.
    - intros u i r ->. destruct (AC u i (or_introl eq_refl)) as [D1 D2]. destruct C as (C1 & _).
      destruct P as [[-> P]|(m & -> & -> & P)].
      + rewrite (gone_same s s' t _ u (cw i) D1 D2 U); [exact C1|]. rewrite C1. exact P.
      + apply (gone_back s s' t f u (cw i) m); auto.
    - intros u i r ->. destruct (AC u i) as [D1 D2]; [apply in_or_app; cbn; auto|].
      apply chain_at in C. destruct C as (_ & _ & C & _). cbn in C.
      destruct Q as [[-> Q]|(m & -> & -> & Q)].
      + rewrite (gone_same s s' t _ u (ccw i) D1 D2 U); [exact C|]. rewrite C. exact Q.
      + apply (gone_back s s' t f u (ccw i) m); auto. apply Q. rewrite last_app. reflexivity.
  Qed.

  Lemma side_cases (m e : side) : m = e \/ m = ccw e \/ m = cw e.
  Proof. destruct m, e; auto. Qed.
  Lemma ccw_ne e : ccw e <> e. Proof. destruct e; discriminate. Qed.
  Lemma cw_ne e : cw e <> e. Proof. destruct e; discriminate. Qed.
  Lemma ccw_cw_ne e : ccw e <> cw e. Proof. destruct e; discriminate. Qed.
End Basics.

Section Edge.
  Context {A : Arith} {E : Env A}.
  Variables (s s' : state) (t : nat) (e : side) (kv : nat) (fa fb : list nat).
  Let v0 := corner s t e.
  Let v1 := corner s t (ccw e).
  Let v2 := corner s t (cw e).

  Hypothesis F : fitting s.
  Hypothesis SH : shaped s.
  Hypothesis DI : forall u, active s u -> distinct s u.
  Hypothesis DI' : forall u, active s' u -> distinct s' u.
  Hypothesis Dt : active s t.
  Hypothesis AP : apart s t.
  Hypothesis FIN1 : k_inf (vs s v1) = false.
  Hypothesis FIN2 : k_inf (vs s v2) = false.
  (** no other left-over side touches the ends *)
  Hypothesis LO : forall u j, left_over s u j -> touches s u j v1 \/ touches s u j v2 -> u = t /\ j = e.
  (** the triangles *)
  Hypothesis ACT : forall u, active s' u <-> active s u /\ u <> t.
  Hypothesis KV : kv = nv s.
  Hypothesis FA : side_fan s t (cw e) cw fa.
  Hypothesis FB : side_fan s t (ccw e) ccw fb.
  Hypothesis C : forall u i, corner s' u i = sub2 v2 v1 kv fa fb u (corner s u i).
  Hypothesis U : unl (active s) s t (fun k => Some (joined s t e k)) s'.
  (** the vertices *)
  Hypothesis RI : forall v, v <> kv -> kright (vs s' v) = if onat_eqb (kleft (vs s v1)) (Some v) then Some kv else kright (vs s v).
  Hypothesis RIk : kright (vs s' kv) = if onat_eqb (kleft (vs s v1)) (Some v2) then Some kv else kright (vs s v2).
  Hypothesis LE : forall v, v <> kv -> kright (vs s' kv) <> Some v -> kleft (vs s' v) = kleft (vs s v).
  Hypothesis LE' : forall v, kright (vs s' kv) = Some v -> kleft (vs s' v) = Some kv.
  Hypothesis LEk : kright (vs s' kv) <> Some kv -> kleft (vs s' kv) = kleft (vs s v1).
  Hypothesis OLD : forall v, v <> kv -> k_inf (vs s' v) = k_inf (vs s v) /\ k_wfl (vs s' v) = k_wfl (vs s v) /\
    k_wfr (vs s' v) = k_wfr (vs s v) /\ k_ul (vs s' v) = k_ul (vs s v) /\ k_ur (vs s' v) = k_ur (vs s v).
  Hypothesis NEW : k_inf (vs s' kv) = false /\ k_wfl (vs s' kv) = k_wfl (vs s v1) /\ k_wfr (vs s' kv) = k_wfr (vs s v2) /\
    k_ul (vs s' kv) = k_ul (vs s v1) /\ k_ur (vs s' kv) = k_ur (vs s v2) /\ k_stops (vs s' kv) = None.
  Hypothesis STOP : stopped s' v1 /\ stopped s' v2.
  Hypothesis STAY : forall v, v <> kv -> v <> v1 -> v <> v2 -> k_stops (vs s' v) = k_stops (vs s v).

  Let L := fi_linked _ F.

  Lemma LT u i : corner s u i < nv s.
  Proof. apply (sh_v _ SH). Qed.
  Lemma N12 : v1 <> v2.
  Proof. intros Q. apply (DI t Dt) in Q. exact (ccw_cw_ne e Q). Qed.
  Lemma N01 : v0 <> v1.
  Proof. intros Q. apply (DI t Dt) in Q. exact (ccw_ne e (eq_sym Q)). Qed.
  Lemma N02 : v0 <> v2.
  Proof. intros Q. apply (DI t Dt) in Q. exact (cw_ne e (eq_sym Q)). Qed.
  Lemma kv_new u i : corner s u i <> kv.
  Proof. pose proof (LT u i). lia. Qed.

  Lemma edge_stars : exists X1 Y1 X2 Y2,
    star s v1 (X1 ++ (t, ccw e) :: Y1) /\ star s v2 (X2 ++ (t, cw e) :: Y2) /\
    fb = map fst Y1 /\ fa = rev (map fst X2).
  Proof.
    destruct (fi_star _ F v1 FIN1) as [l1 S1]. destruct (fi_star _ F v2 FIN2) as [l2 S2].
    destruct (star_split s v1 l1 t (ccw e) S1 Dt eq_refl) as (X1 & Y1 & ->).
    destruct (star_split s v2 l2 t (cw e) S2 Dt eq_refl) as (X2 & Y2 & ->).
    exists X1, Y1, X2, Y2. split; [exact S1|]. split; [exact S2|].
    pose proof (chain_at _ _ _ _ _ _ _ (st_chain _ _ _ S1)) as (_ & _ & H1 & H2).
    pose proof (chain_at _ _ _ _ _ _ _ (st_chain _ _ _ S2)) as (G1 & G2 & _ & _).
    split.
    - unfold side_fan in FB. destruct (link s t (ccw (ccw e))) as [b|] eqn:Lb.
      + destruct FB as [Fb _]. apply (fan_ccw _ _ _ _ Fb (Some t) Y1 H2 H1).
        intros u i Hu. assert (K : In (u, i) (X1 ++ (t, ccw e) :: Y1)) by (apply in_or_app; cbn; auto).
        apply (st_all _ _ _ S1) in K. split; [apply K|apply DI, K].
      + symmetry in H1. apply hd_none in H1. subst Y1. exact FB.
    - unfold side_fan in FA. destruct (link s t (cw (cw e))) as [a|] eqn:La.
      + destruct FA as [Fa _]. apply (fan_cw _ _ _ _ Fa (Some t) X2 G1 G2).
        intros u i Hu. assert (K : In (u, i) (X2 ++ (t, cw e) :: Y2)) by (apply in_or_app; cbn; auto).
        apply (st_all _ _ _ S2) in K. split; [apply K|apply DI, K].
      + symmetry in G2. apply last_none in G2. subst X2. exact FA.
  Qed.

  Section Parts.
    Variables X1 Y1 X2 Y2 : list (nat * side).
    Hypothesis S1 : star s v1 (X1 ++ (t, ccw e) :: Y1).
    Hypothesis S2 : star s v2 (X2 ++ (t, cw e) :: Y2).
    Hypothesis EB : fb = map fst Y1.
    Hypothesis EA : fa = rev (map fst X2).

    Lemma in1 u i : active s u -> u <> t -> corner s u i = v1 -> In (u, i) X1 \/ In (u, i) Y1.
    Proof.
      intros Du Nu H. assert (K : In (u, i) (X1 ++ (t, ccw e) :: Y1)) by (apply (st_all _ _ _ S1); auto).
      apply in_app_or in K. destruct K as [K|[K|K]]; [auto|congruence|auto].
    Qed.
    Lemma in2 u i : active s u -> u <> t -> corner s u i = v2 -> In (u, i) X2 \/ In (u, i) Y2.
    Proof.
      intros Du Nu H. assert (K : In (u, i) (X2 ++ (t, cw e) :: Y2)) by (apply (st_all _ _ _ S2); auto).
      apply in_app_or in K. destruct K as [K|[K|K]]; [auto|congruence|auto].
    Qed.
    Lemma of1 u i : In (u, i) X1 \/ In (u, i) Y1 -> active s u /\ u <> t /\ corner s u i = v1.
    Proof.
      intros H. assert (K : In (u, i) (X1 ++ (t, ccw e) :: Y1)) by (apply in_or_app; cbn; tauto).
      apply (st_all _ _ _ S1) in K. split; [apply K|]. split; [|apply K]. intros ->.
      destruct (star_out _ _ _ _ _ _ DI S1) as [O1 O2]. destruct H as [H|H]; apply (in_map fst) in H; contradiction.
    Qed.
    Lemma of2 u i : In (u, i) X2 \/ In (u, i) Y2 -> active s u /\ u <> t /\ corner s u i = v2.
    Proof.
      intros H. assert (K : In (u, i) (X2 ++ (t, cw e) :: Y2)) by (apply in_or_app; cbn; tauto).
      apply (st_all _ _ _ S2) in K. split; [apply K|]. split; [|apply K]. intros ->.
      destruct (star_out _ _ _ _ _ _ DI S2) as [O1 O2]. destruct H as [H|H]; apply (in_map fst) in H; contradiction.
    Qed.

    (** the corners afterwards *)
    Definition moved (u : nat) (i : side) : Prop := In (u, i) X2 \/ In (u, i) Y1.
    Lemma moved_corner u i : moved u i -> corner s' u i = kv.
    Proof.
      intros [H|H].
      - destruct (of2 u i (or_introl H)) as (Du & Nu & K). rewrite C, K. unfold sub2.
        rewrite (sub1_in v2 kv fa u). 1:{ rewrite sub1_other; [reflexivity|]. unfold v1. intros Q. exact (kv_new _ _ (eq_sym Q)). }
        rewrite EA, <- in_rev. apply (in_map fst) in H. exact H.
      - destruct (of1 u i (or_intror H)) as (Du & Nu & K). rewrite C, K. unfold sub2.
        rewrite (sub1_other v2 kv fa u v1) by apply N12.
        rewrite sub1_in; [reflexivity|]. rewrite EB. apply (in_map fst) in H. exact H.
    Qed.
    Lemma still_corner u i : active s u -> u <> t -> ~ moved u i -> corner s' u i = corner s u i.
    Proof.
      intros Du Nu H. rewrite C. unfold sub2.
      assert (Q : sub1 v2 kv fa u (corner s u i) = corner s u i).
      { destruct (Nat.eq_dec (corner s u i) v2) as [K|K]; [|apply sub1_other, K]. apply sub1_out.
        rewrite EA, <- in_rev. intros M. apply in_map_iff in M. destruct M as ([w j] & <- & M). cbn [fst] in *.
        destruct (of2 w j (or_introl M)) as (_ & _ & K2). assert (i = j) by (apply (DI w Du); congruence). subst j.
        apply H. left. exact M. }
      rewrite Q. destruct (Nat.eq_dec (corner s u i) v1) as [K|K]; [|apply sub1_other, K]. apply sub1_out.
      rewrite EB. intros M. apply in_map_iff in M. destruct M as ([w j] & <- & M). cbn [fst] in *.
      destruct (of1 w j (or_intror M)) as (_ & _ & K2). assert (i = j) by (apply (DI w Du); congruence). subst j.
      apply H. right. exact M.
    Qed.
    Lemma moved_dec u i : moved u i \/ ~ moved u i.
    Proof.
      unfold moved. assert (Q : forall l, In (u, i) l \/ ~ In (u, i) l).
      { intros l. destruct (in_dec (fun x y : nat * side => ltac:(decide equality; [apply side_eq_dec|apply Nat.eq_dec])) (u, i) l); auto. }
      destruct (Q X2), (Q Y1); tauto.
    Qed.

    Lemma link_t_e : link s t e = last_t None X1 /\ link s t e = hd_t Y2 None.
    Proof.
      pose proof (chain_at _ _ _ _ _ _ _ (st_chain _ _ _ S1)) as (_ & H1 & _ & _). rewrite cw_ccw in H1.
      pose proof (chain_at _ _ _ _ _ _ _ (st_chain _ _ _ S2)) as (_ & _ & H2 & _). rewrite ccw_cw in H2. auto.
    Qed.
    Lemma link_t_ccw : link s t (ccw e) = last_t None X2.
    Proof. pose proof (chain_at _ _ _ _ _ _ _ (st_chain _ _ _ S2)) as (_ & H & _ & _). rewrite cw_cw in H. exact H. Qed.
    Lemma link_t_cw : link s t (cw e) = hd_t Y1 None.
    Proof. pose proof (chain_at _ _ _ _ _ _ _ (st_chain _ _ _ S1)) as (_ & _ & H & _). rewrite ccw_ccw in H. exact H. Qed.

    Lemma jo_e : joined s t e e = None.
    Proof. unfold joined. destruct (side_eqb_spec e e); congruence. Qed.
    Lemma jo_ccw : joined s t e (ccw e) = link s t (cw e).
    Proof.
      unfold joined. destruct (side_eqb_spec (ccw e) e) as [Q|_]; [destruct (ccw_ne e Q)|].
      destruct (side_eqb_spec (ccw e) (ccw e)); congruence.
    Qed.
    Lemma jo_cw : joined s t e (cw e) = link s t (ccw e).
    Proof.
      unfold joined. destruct (side_eqb_spec (cw e) e) as [Q|_]; [destruct (cw_ne e Q)|].
      destruct (side_eqb_spec (cw e) (ccw e)) as [Q|_]; [destruct (ccw_cw_ne e (eq_sym Q))|reflexivity].
    Qed.

    (** the neighbour across a spoke keeps a left-over side *)
    Lemma spoke n j : active s n -> n <> t -> link s t e = Some n -> link s n j = Some t ->
      left_over s' n j /\ touches s' n j v1 /\ touches s' n j v2.
    Proof.
      intros Dn Nn H J1.
      assert (SHR : shares s t e n j).
      { destruct (L n j t Dn J1) as (_ & m & M1 & M2). rewrite (AP e m n H M1). apply shares_sym, M2. }
      destruct SHR as [J2 J3]. fold v2 in J2. fold v1 in J3. destruct link_t_e as [T1 T2].
      assert (K1 : In (n, cw j) X1).
      { rewrite H in T1. symmetry in T1. apply last_in in T1. destruct T1 as (k & T1).
        destruct (of1 n k (or_introl T1)) as (_ & _ & Q).
        assert (k = cw j) by (apply (DI n Dn); congruence). subst k. exact T1. }
      assert (K2 : In (n, ccw j) Y2).
      { rewrite H in T2. symmetry in T2. apply hd_in in T2. destruct T2 as (k & T2).
        destruct (of2 n k (or_intror T2)) as (_ & _ & Q).
        assert (k = ccw j) by (apply (DI n Dn); congruence). subst k. exact T2. }
      assert (M1 : ~ moved n (cw j)).
      { intros [Q|Q]; [destruct (of2 n (cw j) (or_introl Q)) as (_ & _ & Q2); rewrite J3 in Q2; exact (N12 Q2)|].
        destruct (star_nodup _ _ _ _ _ _ S1) as (_ & _ & _ & N). exact (N _ K1 Q). }
      assert (M2 : ~ moved n (ccw j)).
      { intros [Q|Q]; [|destruct (of1 n (ccw j) (or_intror Q)) as (_ & _ & Q2); rewrite J2 in Q2; exact (N12 (eq_sym Q2))].
        destruct (star_nodup _ _ _ _ _ _ S2) as (_ & _ & _ & N). exact (N _ Q K2). }
      pose proof (still_corner n (cw j) Dn Nn M1) as E1. pose proof (still_corner n (ccw j) Dn Nn M2) as E2.
      rewrite J3 in E1. rewrite J2 in E2.
      split; [|split; [right; congruence|left; congruence]].
      split; [apply ACT; auto|]. split; [|rewrite E1, E2; split; apply STOP].
      rewrite (gone_back s s' t (joined s t e) n j e); auto. apply jo_e.
    Qed.

    (** the ends of the two stars *)
    Lemma left_end : exists l0, kleft (vs s v1) = Some l0 /\ joint s l0 v1 /\ l0 < nv s /\ l0 <> v2.
    Proof.
      destruct (star_ends s v1 _ t (ccw e) S1) as [_ (w & k & K1 & K2)]; [apply in_or_app; cbn; auto|].
      pose proof (proj1 (st_all _ _ _ S1 w k) K1) as [Dw Cw].
      destruct (fi_ring _ F w (ccw k) Dw K2) as [Q|Q]; rewrite ?ccw_ccw, ?cw_ccw in *.
      - exfalso. destruct (LO w (ccw k) Q) as [-> Q2]; [left; right; rewrite cw_ccw; congruence|].
        assert (k = ccw e) by (apply (DI t Dt); exact Cw). subst k. rewrite ccw_ccw in Q2. exact (cw_ne e Q2).
      - rewrite Cw in Q. exists (corner s w (cw k)). split; [apply Q|]. split; [exact Q|]. split; [apply LT|].
        intros Q2.
        assert (Nw : w <> t).
        { intros ->. assert (k = ccw e) by (apply (DI t Dt); exact Cw). subst k. rewrite cw_ccw in Q2. exact (N02 Q2). }
        (* [w] has both ends and keeps neither *)
        assert (M1 : moved w k).
        { right. destruct (in1 w k Dw Nw Cw) as [M|M]; [|exact M]. destruct (last_not_earlier _ _ _ _ _ _ _ S1 M K2). }
        assert (M2 : moved w (cw k)).
        { left. destruct (in2 w (cw k) Dw Nw Q2) as [M|M]; [exact M|].
          destruct (first_not_later _ _ _ _ _ _ _ S2 M). rewrite cw_cw. exact K2. }
        assert (D' : active s' w) by (apply ACT; auto).
        assert (k = cw k) by (apply (DI' w D'); rewrite !moved_corner; auto). destruct k; discriminate.
    Qed.
    Lemma right_end : exists r0, kright (vs s v2) = Some r0 /\ joint s v2 r0 /\ r0 < nv s /\ r0 <> v1.
    Proof.
      destruct left_end as (l0 & HL & JL & _ & Nl).
      destruct (star_ends s v2 _ t (cw e) S2) as [(w & k & K1 & K2) _]; [apply in_or_app; cbn; auto|].
      pose proof (proj1 (st_all _ _ _ S2 w k) K1) as [Dw Cw].
      destruct (fi_ring _ F w (cw k) Dw K2) as [Q|Q]; rewrite ?ccw_cw, ?cw_cw in *.
      - exfalso. destruct (LO w (cw k) Q) as [-> Q2]; [right; left; rewrite ccw_cw; congruence|].
        assert (k = cw e) by (apply (DI t Dt); exact Cw). subst k. rewrite cw_cw in Q2. exact (ccw_ne e Q2).
      - rewrite Cw in Q. exists (corner s w (ccw k)). split; [apply Q|]. split; [exact Q|]. split; [apply LT|].
        intros Q2. rewrite Q2 in Q. destruct Q as (_ & Q & _). congruence.
    Qed.

    Lemma ring_effect : exists l0 r0, joint s l0 v1 /\ joint s v2 r0 /\ l0 <> kv /\ r0 <> kv /\ l0 <> v2 /\ r0 <> v1 /\
      joint s' l0 kv /\ joint s' kv r0 /\
      (forall a b, joint s a b -> a <> l0 -> b <> r0 -> a < nv s -> b < nv s -> joint s' a b).
    Proof.
      destruct left_end as (l0 & HL & JL & Ll & Nl). destruct right_end as (r0 & HR & JR & Lr & Nr).
      exists l0, r0.
      assert (K1 : l0 <> kv) by lia. assert (K2 : r0 <> kv) by lia.
      assert (RK : kright (vs s' kv) = Some r0).
      { rewrite RIk, HL. cbn [onat_eqb]. apply Nat.eqb_neq in Nl. rewrite Nl. exact HR. }
      destruct NEW as (_ & W1 & W2 & W3 & W4 & _).
      split; [exact JL|]. split; [exact JR|]. split; [exact K1|]. split; [exact K2|]. split; [exact Nl|]. split; [exact Nr|].
      destruct JL as (JL1 & JL2 & JL3 & JL4). destruct JR as (JR1 & JR2 & JR3 & JR4).
      destruct (OLD l0 K1) as (_ & O1 & O2 & O3 & O4). destruct (OLD r0 K2) as (_ & P1 & P2 & P3 & P4).
      split; [|split].
      - split; [rewrite RI by exact K1; rewrite HL; cbn [onat_eqb]; rewrite Nat.eqb_refl; reflexivity|].
        split; [rewrite LEk by (rewrite RK; intros Q; injection Q as Q; auto); exact HL|]. split; congruence.
      - split; [exact RK|]. split; [apply LE', RK|]. split; congruence.
      - intros a b (J1 & J2 & J3 & J4) Na Nb La Lb.
        assert (Ka : a <> kv) by lia. assert (Kb : b <> kv) by lia.
        destruct (OLD a Ka) as (_ & A1 & A2 & A3 & A4). destruct (OLD b Kb) as (_ & B1 & B2 & B3 & B4).
        split; [|split; [|split; congruence]].
        + rewrite RI by exact Ka. rewrite HL. cbn [onat_eqb]. destruct (Nat.eqb_spec l0 a); [congruence|exact J1].
        + rewrite LE; [exact J2|exact Kb|]. rewrite RK. congruence.
    Qed.

    Lemma stopped_more v : v <> kv -> stopped s v -> stopped s' v.
    Proof.
      intros N H. destruct (Nat.eq_dec v v1) as [->|N1]; [apply STOP|]. destruct (Nat.eq_dec v v2) as [->|N2]; [apply STOP|].
      unfold stopped. rewrite STAY; auto.
    Qed.
    (** a left-over side elsewhere remains *)
    Lemma left_over_more u j : left_over s u j -> u <> t -> left_over s' u j /\
      corner s' u (ccw j) = corner s u (ccw j) /\ corner s' u (cw j) = corner s u (cw j).
    Proof.
      intros H Nu. pose proof H as (Du & H1 & H2 & H3).
      assert (K : forall v, touches s u j v -> v <> v1 /\ v <> v2).
      { intros v Hv. split; intros ->; destruct (LO u j H); auto. }
      assert (M : forall k, touches s u j (corner s u k) -> corner s' u k = corner s u k).
      { intros k Hk. apply still_corner; auto. destruct (K _ Hk) as [K1 K2]. intros [Q|Q].
        - apply K2. apply (of2 u k). auto.
        - apply K1. apply (of1 u k). auto. }
      assert (M1 : corner s' u (ccw j) = corner s u (ccw j)) by (apply M; left; reflexivity).
      assert (M2 : corner s' u (cw j) = corner s u (cw j)) by (apply M; right; reflexivity).
      split; [|auto]. split; [apply ACT; auto|]. split.
      - rewrite (gone_same s s' t _ u j Du Nu U); [exact H1|congruence].
      - rewrite M1, M2. split; apply stopped_more; auto using kv_new.
    Qed.

    Lemma edge_ring u i : active s' u -> link s' u i = None -> left_over s' u i \/ joint s' (corner s' u (ccw i)) (corner s' u (cw i)).
    Proof.
      intros Du' Hl. pose proof (proj1 (ACT u) Du') as [Du Nu].
      destruct ring_effect as (l0 & r0 & JL & JR & Kl & Kr & Nl & Nr & JL' & JR' & JO).
      destruct (option_eq_dec (link s u i) (Some t)) as [T|T].
      - (* a side of [t] *)
        destruct (L u i t Du T) as (_ & m & M1 & M2 & M3).
        pose proof (gone_back s s' t (joined s t e) u i m L Du Nu AP U T M1) as B. rewrite Hl in B.
        destruct (side_cases m e) as [->|[->| ->]].
        + left. apply spoke; auto.
        + (* the neighbour [a], when there is no [b] *)
          rewrite jo_ccw in B. symmetry in B. right.
          destruct (fi_ring _ F t (cw e) Dt B) as [Q|Q].
          { exfalso. destruct (LO t (cw e) Q) as [_ Q2]; [left; right; rewrite cw_cw; reflexivity|]. exact (cw_ne e Q2). }
          rewrite ccw_cw, cw_cw in Q. fold v0 v1 in Q.
          assert (EL : l0 = v0) by (destruct JL as (_ & JL & _); destruct Q as (_ & Q & _); congruence).
          rewrite cw_ccw in M3. rewrite ccw_ccw in M2. fold v0 in M3. fold v2 in M2.
          assert (K : moved u (cw i)).
          { left. pose proof link_t_ccw as T1. rewrite M1 in T1. symmetry in T1. apply last_in in T1. destruct T1 as (k & T1).
            destruct (of2 u k (or_introl T1)) as (_ & _ & Q1).
            assert (k = cw i) by (apply (DI u Du); congruence). subst k. exact T1. }
          rewrite (moved_corner u (cw i) K), still_corner; auto.
          * rewrite <- M3, <- EL. exact JL'.
          * intros [Q1|Q1]; [apply N02; rewrite M3; apply (of2 u (ccw i)); auto|apply N01; rewrite M3; apply (of1 u (ccw i)); auto].
        + (* the neighbour [b], when there is no [a] *)
          rewrite jo_cw in B. symmetry in B. right.
          destruct (fi_ring _ F t (ccw e) Dt B) as [Q|Q].
          { exfalso. destruct (LO t (ccw e) Q) as [_ Q2]; [right; left; rewrite ccw_ccw; reflexivity|]. exact (ccw_ne e Q2). }
          rewrite cw_ccw, ccw_ccw in Q. fold v0 v2 in Q.
          assert (ER : r0 = v0) by (destruct JR as (JR & _); destruct Q as (Q & _); congruence).
          rewrite cw_cw in M3. rewrite ccw_cw in M2. fold v1 in M3. fold v0 in M2.
          assert (K : moved u (ccw i)).
          { right. pose proof link_t_cw as T1. rewrite M1 in T1. symmetry in T1. apply hd_in in T1. destruct T1 as (k & T1).
            destruct (of1 u k (or_intror T1)) as (_ & _ & Q1).
            assert (k = ccw i) by (apply (DI u Du); congruence). subst k. exact T1. }
          rewrite (moved_corner u (ccw i) K), still_corner; auto.
          * rewrite <- M2, <- ER. exact JR'.
          * intros [Q1|Q1]; [apply N02; rewrite M2; apply (of2 u (cw i)); auto|apply N01; rewrite M2; apply (of1 u (cw i)); auto].
      - (* a side that was there before *)
        rewrite (gone_same s s' t _ u i Du Nu U T) in Hl.
        destruct (fi_ring _ F u i Du Hl) as [Q|Q]; [left; apply left_over_more; auto|right].
        assert (W : forall k, corner s u k <> v1 -> corner s u k <> v2 -> corner s' u k = corner s u k).
        { intros k H1 H2. apply still_corner; auto. intros [K|K]; [apply H2, (of2 u k); auto|apply H1, (of1 u k); auto]. }
        destruct (moved_dec u (ccw i)) as [[K|K]|K].
        + destruct (of2 u (ccw i) (or_introl K)) as (_ & _ & K2). rewrite K2 in Q.
          assert (ER : corner s u (cw i) = r0) by (destruct JR as (JR & _); destruct Q as (Q & _); congruence).
          rewrite (moved_corner u (ccw i) (or_introl K)), W; [rewrite ER; exact JR'|congruence|].
          intros K3. rewrite <- K2 in K3. apply (DI u Du) in K3. exact (ccw_cw_ne i (eq_sym K3)).
        + destruct (first_not_later _ _ _ _ _ _ _ S1 K). rewrite cw_ccw. exact Hl.
        + destruct (moved_dec u (cw i)) as [[M|M]|M].
          * destruct (last_not_earlier _ _ _ _ _ _ _ S2 M). rewrite ccw_cw. exact Hl.
          * destruct (of1 u (cw i) (or_intror M)) as (_ & _ & M2). rewrite M2 in Q.
            assert (EL : corner s u (ccw i) = l0) by (destruct JL as (_ & JL & _); destruct Q as (_ & Q & _); congruence).
            rewrite (moved_corner u (cw i) (or_intror M)), still_corner by auto. rewrite EL. exact JL'.
          * rewrite !still_corner by auto. apply JO; auto using LT.
            -- intros K2. rewrite K2 in Q. assert (K3 : corner s u (cw i) = v1) by (destruct JL as (JL & _); destruct Q as (Q & _); congruence).
               destruct (in1 u (cw i) Du Nu K3) as [K4|K4]; [|apply M; right; exact K4].
               destruct (last_not_earlier _ _ _ _ _ _ _ S1 K4). rewrite ccw_cw. exact Hl.
            -- intros K2. rewrite K2 in Q. assert (K3 : corner s u (ccw i) = v2) by (destruct JR as (_ & JR & _); destruct Q as (_ & Q & _); congruence).
               destruct (in2 u (ccw i) Du Nu K3) as [K4|K4]; [apply K; left; exact K4|].
               destruct (first_not_later _ _ _ _ _ _ _ S2 K4). rewrite cw_ccw. exact Hl.
    Qed.

    Lemma edge_stop u i : active s' u -> stopped s' (corner s' u i) ->
      k_inf (vs s' (corner s' u i)) = false -> exists w j, left_over s' w j /\ touches s' w j (corner s' u i).
    Proof.
      intros Du' Hs Hi. pose proof (proj1 (ACT u) Du') as [Du Nu].
      destruct (moved_dec u i) as [K|K].
      { rewrite moved_corner in Hs by exact K. destruct NEW as (_ & _ & _ & _ & _ & N). destruct (Hs N). }
      rewrite still_corner in * by auto.
      assert (SP : link s t e <> None -> exists w j, left_over s' w j /\ touches s' w j v1 /\ touches s' w j v2).
      { intros H. destruct (link s t e) as [n|] eqn:Hn; [|congruence].
        destruct (L t e n Dt Hn) as (Dn & j & J1 & J2).
        assert (Nn : n <> t) by (intros ->; eapply (self_shares (active s) s t); eauto).
        exists n, j. apply spoke; auto. }
      destruct (Nat.eq_dec (corner s u i) v1) as [E1|N1].
      { rewrite E1. destruct SP as (w & j & P1 & P2 & P3); [|eauto].
        destruct (in1 u i Du Nu E1) as [Q|Q]; [|destruct K; right; exact Q].
        destruct link_t_e as [-> _]. intros Z. apply last_none in Z. rewrite Z in Q. contradiction. }
      destruct (Nat.eq_dec (corner s u i) v2) as [E2|N2].
      { rewrite E2. destruct SP as (w & j & P1 & P2 & P3); [|eauto].
        destruct (in2 u i Du Nu E2) as [Q|Q]; [destruct K; left; exact Q|].
        destruct link_t_e as [_ ->]. intros Z. apply hd_none in Z. rewrite Z in Q. contradiction. }
      pose proof (kv_new u i) as NK.
      assert (Hs0 : stopped s (corner s u i)) by (unfold stopped in *; rewrite STAY in Hs; auto).
      destruct (OLD (corner s u i) NK) as (O1 & _). rewrite O1 in Hi.
      destruct (fi_stop _ F u i Du Hi Hs0) as (w & j & P1 & P2).
      assert (Nw : w <> t).
      { intros ->. destruct (side_cases j e) as [->|[->| ->]].
        - destruct P2 as [P2|P2]; [exact (N1 P2)|exact (N2 P2)].
        - destruct (LO t (ccw e) P1) as [_ Z]; [right; left; rewrite ccw_ccw; reflexivity|]. exact (ccw_ne e Z).
        - destruct (LO t (cw e) P1) as [_ Z]; [left; right; rewrite cw_cw; reflexivity|]. exact (cw_ne e Z). }
      destruct (left_over_more w j P1 Nw) as (Q1 & Q2 & Q3). exists w, j. split; [exact Q1|].
      unfold touches in *. rewrite Q2, Q3. exact P2.
    Qed.

    Lemma edge_star v : k_inf (vs s' v) = false -> exists l, star s' v l.
    Proof.
      intros Hi.
      pose proof (chain_at _ _ _ _ _ _ _ (st_chain _ _ _ S1)) as (G1 & _ & _ & G2).
      pose proof (chain_at _ _ _ _ _ _ _ (st_chain _ _ _ S2)) as (G3 & _ & _ & G4).
      destruct (star_nodup _ _ _ _ _ _ S1) as (ND1 & ND2 & _ & DJ1).
      destruct (star_nodup _ _ _ _ _ _ S2) as (ND3 & ND4 & _ & DJ2).
      destruct (star_out _ _ _ _ _ _ DI S1) as [O1 O2]. destruct (star_out _ _ _ _ _ _ DI S2) as [O3 O4].
      destruct link_t_e as [T1 T2].
      assert (IX : forall (X Y : list (nat * side)) y, (forall x, In x X -> In x (X ++ y :: Y)) /\ (forall x, In x Y -> In x (X ++ y :: Y)))
        by (intros; split; intros; apply in_or_app; cbn; auto).
      destruct (Nat.eq_dec v kv) as [->|Nk].
      { exists (X2 ++ Y1). constructor.
        - assert (Z : forall x, In x X2 -> In x Y1 -> False).
          { intros [u i] H1 H2. destruct (of2 u i (or_introl H1)) as (_ & _ & H3), (of1 u i (or_intror H2)) as (_ & _ & H4).
            apply N12. congruence. }
          clear - ND3 ND2 Z. induction ND3 as [|x l H1 H2 IH]; cbn; [exact ND2|]. constructor.
          + intros K. apply in_app_or in K. destruct K as [K|K]; [auto|]. eapply Z; [left; reflexivity|exact K].
          + apply IH. intros y Hy. apply Z. right. exact Hy.
        - apply chain_app. split.
          + eapply (part_chain s s' t (joined s t e)); [exact L|exact AP|exact U|exact S2|apply IX|exact O3|exact G3| |].
            * left. split; [reflexivity|discriminate].
            * right. exists (ccw e). split; [reflexivity|]. split; [rewrite jo_ccw; symmetry; apply link_t_cw|].
              intros u Hu. rewrite link_t_ccw. exact Hu.
          + eapply (part_chain s s' t (joined s t e)); [exact L|exact AP|exact U|exact S1|apply IX|exact O2|exact G2| |].
            * right. exists (cw e). split; [reflexivity|]. split; [rewrite jo_cw; symmetry; apply link_t_ccw|].
              intros u Hu. rewrite link_t_cw. exact Hu.
            * left. split; [reflexivity|discriminate].
        - intros u i. rewrite in_app_iff. split.
          + intros H. split; [|apply moved_corner, H]. apply ACT. destruct H as [H|H]; [destruct (of2 u i (or_introl H)) as (? & ? & _)|destruct (of1 u i (or_intror H)) as (? & ? & _)]; auto.
          + intros [Du H]. apply ACT in Du. destruct Du as [Du Nu]. destruct (moved_dec u i) as [K|K]; [exact K|].
            rewrite still_corner in H by auto. destruct (kv_new u i H). }
      destruct (OLD v Nk) as (OI & _). rewrite OI in Hi.
      assert (BACK : forall u i, active s' u -> corner s' u i = v -> active s u /\ u <> t /\ corner s u i = v /\ ~ moved u i).
      { intros u i Du H. apply ACT in Du. destruct Du as [Du Nu]. split; [exact Du|]. split; [exact Nu|].
        destruct (moved_dec u i) as [K|K]; [rewrite moved_corner in H by exact K; congruence|].
        rewrite still_corner in H by auto. auto. }
      destruct (Nat.eq_dec v v1) as [->|Nv1].
      { exists X1. constructor; [exact ND1| |].
        - eapply (part_chain s s' t (joined s t e)); [exact L|exact AP|exact U|exact S1|apply IX|exact O1|exact G1| |].
          + left. split; [reflexivity|discriminate].
          + right. exists e. split; [reflexivity|]. split; [symmetry; apply jo_e|]. intros u Hu. rewrite T1. exact Hu.
        - intros u i. split.
          + intros H. destruct (of1 u i (or_introl H)) as (Du & Nu & K). split; [apply ACT; auto|].
            rewrite still_corner; auto. intros [M|M]; [apply N12; rewrite <- K; apply (of2 u i); auto|exact (DJ1 _ H M)].
          + intros [Du H]. destruct (BACK u i Du H) as (Du0 & Nu & K & M). destruct (in1 u i Du0 Nu K) as [Z|Z]; [exact Z|].
            destruct M. right. exact Z. }
      destruct (Nat.eq_dec v v2) as [->|Nv2].
      { exists Y2. constructor; [exact ND4| |].
        - eapply (part_chain s s' t (joined s t e)); [exact L|exact AP|exact U|exact S2|apply IX|exact O4|exact G4| |].
          + right. exists e. split; [reflexivity|]. split; [symmetry; apply jo_e|]. intros u Hu. rewrite T2. exact Hu.
          + left. split; [reflexivity|discriminate].
        - intros u i. split.
          + intros H. destruct (of2 u i (or_intror H)) as (Du & Nu & K). split; [apply ACT; auto|].
            rewrite still_corner; auto. intros [M|M]; [exact (DJ2 _ M H)|apply N12; rewrite <- K; symmetry; apply (of1 u i); auto].
          + intros [Du H]. destruct (BACK u i Du H) as (Du0 & Nu & K & M). destruct (in2 u i Du0 Nu K) as [Z|Z]; [|exact Z].
            destruct M. left. exact Z. }
      assert (FORTH : forall u i, active s u -> u <> t -> corner s u i = v -> active s' u /\ corner s' u i = v).
      { intros u i Du Nu H. split; [apply ACT; auto|]. rewrite still_corner; auto.
        intros [M|M]; [apply Nv2; rewrite <- H; apply (of2 u i); auto|apply Nv1; rewrite <- H; apply (of1 u i); auto]. }
      destruct (fi_star _ F v Hi) as [l Sl].
      destruct (Nat.eq_dec v v0) as [->|Nv0].
      { destruct (star_split s v0 l t e Sl Dt eq_refl) as (X & Y & ->).
        pose proof (chain_at _ _ _ _ _ _ _ (st_chain _ _ _ Sl)) as (H1 & H2 & H3 & H4).
        destruct (star_nodup _ _ _ _ _ _ Sl) as (NX & NY & NXY & DJ).
        destruct (star_out _ _ _ _ _ _ DI Sl) as [OX OY].
        exists (X ++ Y). constructor; [exact NXY| |].
        - apply chain_app. split.
          + eapply (part_chain s s' t (joined s t e)); [exact L|exact AP|exact U|exact Sl|apply IX|exact OX|exact H1| |].
            * left. split; [reflexivity|discriminate].
            * right. exists (cw e). split; [reflexivity|]. split; [rewrite jo_cw; symmetry; exact H3|].
              intros u Hu. rewrite H2. exact Hu.
          + eapply (part_chain s s' t (joined s t e)); [exact L|exact AP|exact U|exact Sl|apply IX|exact OY|exact H4| |].
            * right. exists (ccw e). split; [reflexivity|]. split; [rewrite jo_ccw; symmetry; exact H2|].
              intros u Hu. rewrite H3. exact Hu.
            * left. split; [reflexivity|discriminate].
        - intros u i. split.
          + intros H. assert (K : In (u, i) (X ++ (t, e) :: Y)) by (apply in_or_app; apply in_app_or in H; cbn; tauto).
            apply (st_all _ _ _ Sl) in K. destruct K as [K1 K2]. apply FORTH; auto. intros ->.
            apply in_app_or in H. destruct H as [H|H]; apply (in_map fst) in H; contradiction.
          + intros [Du H]. destruct (BACK u i Du H) as (Du0 & Nu & K & _).
            assert (Z : In (u, i) (X ++ (t, e) :: Y)) by (apply (st_all _ _ _ Sl); auto).
            apply in_or_app. apply in_app_or in Z. destruct Z as [Z|[Z|Z]]; [auto|congruence|auto]. }
      assert (NT : ~ In t (map fst l)).
      { intros H. apply in_map_iff in H. destruct H as ([w k] & Hw & H). cbn in Hw. subst w.
        apply (st_all _ _ _ Sl) in H. destruct H as [_ H].
        destruct (side_cases k e) as [->|[->| ->]]; [exact (Nv0 (eq_sym H))|exact (Nv1 (eq_sym H))|exact (Nv2 (eq_sym H))]. }
      exists l. constructor; [apply Sl| |].
      - eapply (part_chain s s' t (joined s t e)); [exact L|exact AP|exact U|exact Sl|auto|exact NT|apply Sl| |];
          left; (split; [reflexivity|discriminate]).
      - intros u i. rewrite (st_all _ _ _ Sl). split.
        + intros [Du H]. apply FORTH; auto. intros ->. apply NT.
          assert (Z : In (t, i) l) by (apply (st_all _ _ _ Sl); auto). apply (in_map fst) in Z. exact Z.
        + intros [Du H]. destruct (BACK u i Du H) as (Du0 & _ & K & _). auto.
    Qed.
  End Parts.

  Theorem edge_fitting : linked (active s') s' -> fitting s'.
  Proof.
    intros L'. destruct edge_stars as (X1 & Y1 & X2 & Y2 & S1 & S2 & EB & EA). constructor; [exact L'| | |].
    - intros u i. apply (edge_ring X1 Y1 X2 Y2); auto.
    - intros v. apply (edge_star X1 Y1 X2 Y2); auto.
    - intros u i H1 H2 H3. apply (edge_stop X1 Y1 X2 Y2); auto.
  Qed.
End Edge.
