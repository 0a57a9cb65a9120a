(** An event that only removes a triangle keeps the rings fitting (any arithmetic) *)
From Verif Require Import Base Arith Calc VectorOps Line2d Primitives Collapse EventsLib
  FlipEvent ParallelEvent EdgeEvent SplitEvent EventLoop Pass OpSpec StopSpec RunBase Fan FanProofs Decent Total TotalRun
  Mesh MeshEvents MeshEdge MeshRun Rings RingEdge EdgeHead RingSpec.
Local Open Scope nat_scope.

Section Gone.
  Context {A : Arith} {E : Env A}.
  Variables (s s' : state) (t : nat) (m0 : side).

  Hypothesis F : fitting s.
  Hypothesis SH : shaped s.
  Hypothesis DI : forall u, active s u -> distinct s u.
  Hypothesis Dt : active s t.
  (** [t] has at most one neighbour *)
  Hypothesis ONE : forall m, m <> m0 -> link s t m = None.
  Hypothesis ACT : forall u, active s' u <-> active s u /\ u <> t.
  Hypothesis C : forall u i, corner s' u i = corner s u i.
  Hypothesis N1 : forall u i, active s u -> u <> t -> link s u i <> Some t -> link s' u i = link s u i.
  Hypothesis N2 : forall u i, active s u -> u <> t -> link s u i = Some t -> link s' u i = None.
  Hypothesis OLD : forall x, x < nv s -> k_inf (vs s' x) = k_inf (vs s x) /\ k_wfl (vs s' x) = k_wfl (vs s x) /\
    k_wfr (vs s' x) = k_wfr (vs s x) /\ k_ul (vs s' x) = k_ul (vs s x) /\ k_ur (vs s' x) = k_ur (vs s x) /\
    kleft (vs s' x) = kleft (vs s x) /\ kright (vs s' x) = kright (vs s x).
  Hypothesis MONO : forall x, x < nv s -> stopped s x -> stopped s' x.
  Hypothesis STOP : forall i, stopped s' (corner s t i).
  Hypothesis STAY : forall x, x < nv s -> (forall i, x <> corner s t i) -> k_stops (vs s' x) = k_stops (vs s x).

  Let L := fi_linked _ F.
  Lemma gLT u i : corner s u i < nv s.
  Proof. apply (sh_v _ SH). Qed.

  Lemma gone_left_over u j : left_over s u j -> u <> t -> left_over s' u j.
  Proof.
    intros (Du & H1 & H2 & H3) Nu. split; [apply ACT; auto|]. split.
    - rewrite N1; auto. congruence.
    - rewrite !C. auto using gLT.
  Qed.

  (** what comes before or after [t] around one of its corners *)
  Lemma gone_next u i : active s u -> u <> t -> link s u i = Some t -> left_over s' u i.
  Proof.
    intros Du Nu H. split; [apply ACT; auto|]. split; [apply N2; auto|].
    destruct (L u i t Du H) as (_ & j & _ & J1 & J2). rewrite !C, <- J1, <- J2. auto.
  Qed.

  Lemma gone_parts v l k : star s v l -> corner s t k = v ->
    (exists Y, l = (t, k) :: Y /\ link s t (cw k) = None) \/ (exists X, l = X ++ [(t, k)] /\ link s t (ccw k) = None).
  Proof.
    intros ST H. destruct (link s t (cw k)) eqn:Q.
    - right. assert (K : link s t (ccw k) = None).
      { apply ONE. intros <-. rewrite ONE in Q; [discriminate|]. intros Z. destruct k; discriminate. }
      destruct (star_last _ _ _ t k ST Dt H K) as (X & ->). eauto.
    - left. destruct (star_first _ _ _ t k ST Dt H Q) as (Y & ->). eauto.
  Qed.

  Lemma gone_touch v l k u i : star s v l -> corner s t k = v -> active s u -> u <> t -> corner s u i = v ->
    exists w j, left_over s' w j /\ touches s' w j v.
  Proof.
    intros ST H Du Nu Hu. assert (IN : In (u, i) l) by (apply (st_all _ _ _ ST); auto).
    pose proof (st_chain _ _ _ ST) as CH.
    destruct (gone_parts v l k ST H) as [(Y & -> & _)|(X & -> & _)].
    - destruct IN as [IN|IN]; [congruence|]. destruct Y as [|[w j] Y]; [destruct IN|].
      destruct CH as (_ & _ & CH & _).
      pose proof (proj1 (st_all _ _ _ ST w j)) as Q. destruct Q as [Dw Cw]; [cbn; auto|].
      assert (Nw : w <> t).
      { intros ->. destruct (star_out s v [] t k ((t, j) :: Y) DI ST) as [_ Q]. apply Q. cbn. auto. }
      exists w, (cw j). split; [apply gone_next; auto|]. left. rewrite ccw_cw, C. auto.
    - apply in_app_or in IN. destruct IN as [IN|[IN|[]]]; [|congruence].
      destruct (last_some X None) as [[_ ->]|([w j] & r & -> & _)]; [destruct IN|].
      rewrite <- app_assoc in CH. cbn [app] in CH. apply chain_at in CH. destruct CH as (_ & _ & CH & _). cbn in CH.
      pose proof (proj1 (st_all _ _ _ ST w j)) as Q. destruct Q as [Dw Cw]; [apply in_or_app; left; apply in_or_app; cbn; auto|].
      assert (Nw : w <> t).
      { intros ->. destruct (star_out s v (r ++ [(t, j)]) t k [] DI ST) as [Q _]. apply Q.
        rewrite map_app. apply in_or_app. cbn. auto. }
      exists w, (ccw j). split; [apply gone_next; auto|]. right. rewrite cw_ccw, C. auto.
  Qed.

  (** part of a star, the neighbours of [t] at its ends being cut off *)
  Lemma gone_chain v l p q X : star s v l -> (forall x, In x X -> In x l) -> ~ In t (map fst X) ->
    chain s p X q -> p = None \/ p = Some t -> q = None \/ q = Some t -> chain s' None X None.
  Proof.
    intros ST IN NT CH P Q.
    assert (AC : forall u i, In (u, i) X -> active s u /\ u <> t).
    { intros u i H. split; [apply (st_all _ _ _ ST u i), IN, H|]. intros ->. apply NT. apply (in_map fst) in H. exact H. }
    assert (EN : forall u i j, In (u, i) X -> link s u j = None \/ link s u j = Some t -> link s' u j = None).
    { intros u i j Hu [K|K]; destruct (AC u i Hu) as [Du Nu]; [rewrite N1; auto; congruence|apply N2; auto]. }
    apply (chain_change s s' X p q); auto.
    - intros u i j w Hu Hj Hl Hw. destruct (AC u i Hu) as [Du Nu]. rewrite N1; auto.
      intros K. rewrite Hl in K. injection K as ->. contradiction.
    - intros u i r ->. destruct CH as (C1 & _). apply (EN u i); [cbn; auto|]. rewrite C1. exact P.
    - intros u i r ->. apply chain_at in CH. destruct CH as (_ & _ & CH & _). cbn in CH.
      apply (EN u i); [apply in_or_app; cbn; auto|]. rewrite CH. exact Q.
  Qed.

  Theorem gone_fitting : linked (active s') s' -> fitting s'.
  Proof.
    intros L'. constructor; [exact L'| | |].
    - intros u i Du H. apply ACT in Du. destruct Du as [Du Nu].
      destruct (option_eq_dec (link s u i) (Some t)) as [K|K]; [left; apply gone_next; auto|].
      rewrite N1 in H by auto. destruct (fi_ring _ F u i Du H) as [Q|Q]; [left; apply gone_left_over; auto|right].
      rewrite !C. destruct (OLD _ (gLT u (ccw i))) as (_ & A1 & A2 & A3 & A4 & A5 & A6).
      destruct (OLD _ (gLT u (cw i))) as (_ & B1 & B2 & B3 & B4 & B5 & B6).
      unfold joint in *. rewrite A6, B5, A2, B1, A4, B3. exact Q.
    - intros v Hv. destruct (Nat.lt_ge_cases v (nv s)) as [LT|GE].
      2:{ exists []. constructor; [constructor|exact I|]. intros u i. split; [intros []|]. intros [_ H]. rewrite C in H.
          pose proof (gLT u i) as Q. rewrite H in Q. exact (Nat.lt_irrefl _ (Nat.lt_le_trans _ _ _ Q GE)). }
      destruct (OLD v LT) as (OI & _). rewrite OI in Hv. destruct (fi_star _ F v Hv) as [l ST].
      assert (DEC : (exists k, corner s t k = v) \/ (forall k, corner s t k <> v)).
      { destruct (Nat.eq_dec (corner s t S0) v); [eauto|]. destruct (Nat.eq_dec (corner s t S1) v); [eauto|].
        destruct (Nat.eq_dec (corner s t S2) v); [eauto|]. right. intros []; auto. }
      destruct DEC as [[k K]|K].
      + assert (ALL : forall Z, (forall x, In x l <-> x = (t, k) \/ In x Z) -> ~ In t (map fst Z) ->
          forall u i, In (u, i) Z <-> active s' u /\ corner s' u i = v).
        { intros Z HZ NT u i. rewrite C, ACT. split.
          - intros H. pose proof (proj1 (st_all _ _ _ ST u i) (proj2 (HZ _) (or_intror H))) as [Du Cu].
            split; [split; [exact Du|]|exact Cu]. intros ->. apply NT. apply (in_map fst) in H. exact H.
          - intros [[Du Nu] H]. pose proof (proj2 (st_all _ _ _ ST u i) (conj Du H)) as Q. apply HZ in Q. destruct Q; [congruence|auto]. }
        pose proof (st_chain _ _ _ ST) as CH. pose proof (st_nodup _ _ _ ST) as ND.
        destruct (gone_parts v l k ST K) as [(Y & -> & _)|(X & -> & _)].
        * destruct (star_out s v [] t k Y DI ST) as [_ O]. exists Y. constructor.
          -- inversion ND; auto.
          -- destruct CH as (_ & _ & CH). apply (gone_chain v _ (Some t) None Y ST); auto. intros x Hx. right. exact Hx.
          -- apply ALL; [|exact O]. intros x. cbn. split; intros [Q|Q]; auto.
        * destruct (star_out s v X t k [] DI ST) as [O _]. exists X. constructor.
          -- apply (star_nodup _ _ _ _ _ _ ST).
          -- apply chain_at in CH. destruct CH as (CH & _). apply (gone_chain v _ None (Some t) X ST); auto.
             intros x Hx. apply in_or_app. auto.
          -- apply ALL; [|exact O]. intros x. rewrite in_app_iff. cbn. split; [intros [Q|[Q|[]]]; auto|intros [Q|Q]; auto].
      + assert (NT : ~ In t (map fst l)).
        { intros H. apply in_map_iff in H. destruct H as ([w k] & Hw & H). cbn in Hw. subst w.
          apply (st_all _ _ _ ST) in H. exact (K k (proj2 H)). }
        exists l. constructor; [apply ST|apply (gone_chain v l None None l ST); auto; apply ST|].
        intros u i. rewrite (st_all _ _ _ ST), C, ACT. split; [|tauto]. intros [Du H]. split; [split; [exact Du|]|exact H].
        intros ->. exact (K i H).
    - intros u i Du Hi Hs. apply ACT in Du. destruct Du as [Du Nu]. rewrite C in *.
      destruct (OLD _ (gLT u i)) as (OI & _). rewrite OI in Hi. destruct (fi_star _ F _ Hi) as [l ST].
      assert (DEC : (exists k, corner s t k = corner s u i) \/ (forall k, corner s u i <> corner s t k)).
      { destruct (Nat.eq_dec (corner s t S0) (corner s u i)); [eauto|]. destruct (Nat.eq_dec (corner s t S1) (corner s u i)); [eauto|].
        destruct (Nat.eq_dec (corner s t S2) (corner s u i)); [eauto|]. right. intros []; auto. }
      destruct DEC as [[k K]|K]; [apply (gone_touch _ l k u i ST K Du Nu eq_refl)|].
      unfold stopped in Hs. rewrite (STAY _ (gLT u i) K) in Hs.
      destruct (fi_stop _ F u i Du Hi Hs) as (w & j & P1 & P2).
      assert (Nw : w <> t) by (intros ->; destruct P2 as [P2|P2]; exact (K _ P2)).
      exists w, j. split; [apply gone_left_over; auto|]. unfold touches in *. rewrite !C. exact P2.
  Qed.
End Gone.

Section GoneSpec.
  Context {A : Arith} {E : Env A}.
  Local Open Scope M_scope.
  Ltac peel H n s1 H1 := apply bind_ok in H; destruct H as (n & s1 & H1 & H).

  Lemma keepv_neighbour t now sd : keepv (schedule_neighbour t now sd).
  Proof.
    unfold schedule_neighbour. apply keepv_bind; [apply keepv_ro; auto with ro|intros x].
    destruct (get3 (t_n x) sd); [|apply keepv_ro; auto with ro].
    apply keepv_bind; [apply keepv_ro; auto with ro|intros y]. apply keepv_whenM.
    apply keepv_bind; [apply keepv_relink|intros _]. apply keepv_sched.
  Qed.

  (** the vertices after a triangle has collapsed to a point *)
  Definition only_stops (s s' : state) (t : nat) : Prop :=
    (forall x, x < nv s -> k_inf (vs s' x) = k_inf (vs s x) /\ k_wfl (vs s' x) = k_wfl (vs s x) /\
      k_wfr (vs s' x) = k_wfr (vs s x) /\ k_ul (vs s' x) = k_ul (vs s x) /\ k_ur (vs s' x) = k_ur (vs s x) /\
      kleft (vs s' x) = kleft (vs s x) /\ kright (vs s' x) = kright (vs s x)) /\
    (forall x, x < nv s -> stopped s x -> stopped s' x) /\
    (forall i, stopped s' (corner s t i)) /\
    (forall x, x < nv s -> (forall i, x <> corner s t i) -> k_stops (vs s' x) = k_stops (vs s x)).

  Theorem three_vertices evt step s u s' : handle_edge_event_3sides evt step s = Ok (u, s') -> only_stops s s' (ev_tri evt).
  Proof.
    unfold handle_edge_event_3sides. intros H. set (t := ev_tri evt) in *. set (now := ev_time evt) in *.
    peel H y0 s1 H1. apply ro_ok in H1; [|auto with ro]. subst s1.
    peel H x s1 H1. apply gets_ok in H1. destruct H1 as [-> ->].
    peel H nd s1 H1. apply stop_ring in H1. destruct H1 as (SN & _ & SI & SE & SS & SO).
    assert (K : vs s' = vs s1).
    { peel H y s2 H2. apply keepv_tstops in H. destruct H as [-> _]. unfold sides in H2. cbn [forM] in H2.
      peel H2 z0 s3 H3. peel H2 z1 s4 H4. peel H2 z2 s5 H5. apply ret_ok in H2. destruct H2 as [_ ->].
      apply keepv_neighbour in H3, H4, H5. destruct H3, H4, H5. congruence. }
    assert (IN : forall i, In (corner s t i) (list3 (t_v (ts s t)))).
    { intros i. unfold corner, list3. destruct (t_v (ts s t)), i; cbn; auto. }
    unfold only_stops, stopped. rewrite K. split; [intros x _; apply SE|]. split; [|split].
    - intros x _ Hx. destruct (in_dec Nat.eq_dec x (list3 (t_v (ts s t)))) as [Q|Q]; [apply SS, Q|rewrite SO; auto].
    - intros i. apply SS, IN.
    - intros x _ Hx. apply SO. unfold list3. intros Q. unfold corner in Hx. destruct (t_v (ts s t)) as [a b c].
      destruct Q as [Q|[Q|[Q|[]]]]; [apply (Hx S0)|apply (Hx S1)|apply (Hx S2)]; cbn in *; auto.
  Qed.

  Theorem one_vertices evt step s u s' e : ev_side evt = [e] -> shaped s ->
    handle_edge_event_1side evt step s = Ok (u, s') -> only_stops s s' (ev_tri evt).
  Proof.
    intros He SH H. unfold handle_edge_event_1side in H. rewrite He in H. cbv zeta in H.
    set (t := ev_tri evt) in *. set (now := ev_time evt) in *.
    peel H x s1 H1. apply gets_ok in H1. destruct H1 as [-> ->].
    peel H nd s1 H1. apply stop_ring in H1. destruct H1 as (SN & _ & SI & SE & SS & SO).
    peel H k1 s2 H1. injection H1 as <- <-.
    peel H k2 s2 H1. injection H1 as <- <-.
    peel H len s2 H1. injection H1 as <- <-.
    peel H kv s2 H1. apply newv_ring in H1. destruct H1 as (KV & NV2 & NO & NW). rewrite SN in KV.
    peel H pos s3 H1. apply ro_ok in H1; [|auto with ro]. subst s3.
    peel H y s3 H1. apply keepv_addv in H1. destruct H1 as [V3 M3].
    peel H nd2 s4 H1. apply stop_ring in H1. destruct H1 as (SN4 & _ & SI4 & SE4 & SS4 & SO4).
    apply keepv_tstops in H. destruct H as [V5 _].
    change (get3 (t_v (ts s t))) with (corner s t) in *.
    assert (OV : forall x, x < nv s -> vs s3 x = vs s1 x).
    { intros x Hx. rewrite V3. apply NO. intros ->. rewrite KV in Hx. exact (Nat.lt_irrefl _ Hx). }
    assert (LT : forall i, corner s t i < nv s) by (intros i; apply (sh_v _ SH)).
    unfold only_stops, stopped. rewrite V5.
    assert (MO : forall x, k_stops (vs s3 x) <> None -> k_stops (vs s4 x) <> None).
    { intros x Hx. destruct (in_dec Nat.eq_dec x [corner s t e; kv]) as [Q|Q]; [apply SS4, Q|rewrite SO4; auto]. }
    split; [|split; [|split]].
    - intros x Hx. destruct (SE4 x) as (-> & -> & -> & -> & -> & -> & ->). rewrite (OV x Hx). apply SE.
    - intros x Hx Q. apply MO. rewrite (OV x Hx).
      destruct (in_dec Nat.eq_dec x [corner s t (ccw e); corner s t (cw e)]) as [K|K]; [apply SS, K|rewrite SO; auto].
    - intros i. destruct (side_cases i e) as [->|[->| ->]].
      + apply SS4. cbn. auto.
      + apply MO. rewrite OV by apply LT. apply SS. cbn. auto.
      + apply MO. rewrite OV by apply LT. apply SS. cbn. auto.
    - intros x Hx Q. rewrite SO4.
      + rewrite (OV x Hx). apply SO. cbn. intros [K|[K|[]]]; [apply (Q (ccw e))|apply (Q (cw e))]; auto.
      + cbn. intros [K|[K|[]]]; [apply (Q e); auto|]. subst x. rewrite KV in Hx. exact (Nat.lt_irrefl _ Hx).
  Qed.
End GoneSpec.
