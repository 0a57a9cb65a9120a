(** Consistently linked triangles, and the flip *)
From Verif Require Import Base Arith Calc VectorOps Line2d Primitives Collapse CollapseProofs EventsLib
  FlipEvent ParallelEvent EdgeEvent SplitEvent EventLoop Pass OpSpec Order StopSpec RunBase RunTimed RunLoop
  Decent Total FanProofs.

Section Mesh.
  Context {A : Arith} {E : Env A}.

  Definition corner (s : state) (t : nat) (i : side) : nat := get3 (t_v (ts s t)) i.
  Definition link (s : state) (t : nat) (i : side) : option nat := get3 (t_n (ts s t)) i.

  (** the side [i] of [t] and the side [j] of [n] have the same two vertices *)
  Definition shares (s : state) (t : nat) (i : side) (n : nat) (j : side) : Prop :=
    corner s n (ccw j) = corner s t (cw i) /\ corner s n (cw j) = corner s t (ccw i).

  Definition distinct (s : state) (t : nat) : Prop := forall i j, corner s t i = corner s t j -> i = j.

  (** the triangles of [D] are linked among each other, mutually, across sides
      with the same vertices *)
  Definition linked (D : nat -> Prop) (s : state) : Prop :=
    forall t i n, D t -> link s t i = Some n ->
      D n /\ exists j, link s n j = Some t /\ shares s t i n j.

  Lemma bind_eq {X Y} (m : M X) (k : X -> M Y) s x s' : m s = Ok (x, s') -> bind m k s = k x s'.
  Proof. unfold bind. intros ->. reflexivity. Qed.
  Lemma bind_tget {Y} t (k : ktri -> M Y) s : bind (tget t) k s = k (ts s t) s.
  Proof. reflexivity. Qed.
  Lemma bind_assert {Y} b (k : unit -> M Y) s : b = true -> bind (assertM b) k s = k tt s.
  Proof. intros ->. reflexivity. Qed.

  Lemma cw_ccw i : cw (ccw i) = i. Proof. destruct i; reflexivity. Qed.
  Lemma ccw_cw i : ccw (cw i) = i. Proof. destruct i; reflexivity. Qed.
  Lemma cw_cw i : cw (cw i) = ccw i. Proof. destruct i; reflexivity. Qed.
  Lemma ccw_ccw i : ccw (ccw i) = cw i. Proof. destruct i; reflexivity. Qed.
  Lemma ccw_ne_cw i : ccw i <> cw i. Proof. destruct i; discriminate. Qed.
  Lemma cw_inj i j : cw i = cw j -> i = j. Proof. destruct i, j; auto; discriminate. Qed.
  Lemma ccw_inj i j : ccw i = ccw j -> i = j. Proof. destruct i, j; auto; discriminate. Qed.

  Lemma shares_sym s t i n j : shares s t i n j -> shares s n j t i.
  Proof. intros [H K]. split; auto. Qed.

  (** with distinct corners the side is determined *)
  Lemma shares_unique s t i n j k : distinct s n -> shares s t i n j -> shares s t i n k -> j = k.
  Proof. intros D [H _] [K _]. apply ccw_inj, D. congruence. Qed.

  Lemma vindex_distinct s n i : distinct s n -> vindex (ts s n) (corner s n i) = Ok i.
  Proof.
    intros D. destruct (vindex (ts s n) (corner s n i)) as [k|] eqn:V.
    - apply vindex_get in V. f_equal. apply D. exact V.
    - exfalso. unfold vindex in V. destruct (index3_some (Nat.eqb (corner s n i)) (t_v (ts s n)) i) as [k K]; [|congruence].
      apply Nat.eqb_refl.
  Qed.

  (** what the surrounding triangles are looked up with *)
  Lemma around D s t i n : linked D s -> (forall u, D u -> distinct s u) -> D t -> link s t i = Some n ->
    exists j, D n /\ link s n j = Some t /\ shares s t i n j /\
      apex_around (Some n) (corner s t (ccw i)) s = Ok (Some j, s).
  Proof.
    intros L DI Dt H. destruct (L t i n Dt H) as (Dn & j & L1 & L2). exists j. repeat split; auto; try apply L2.
    unfold apex_around. unfold bind at 1, tget, gets. unfold bind at 1, rdr, rd.
    destruct L2 as [_ L2]. rewrite <- L2. rewrite vindex_distinct by auto. rewrite ccw_cw. reflexivity.
  Qed.

  (** only links change *)
  Definition links_only (s s' : state) : Prop :=
    s' = with_ts s (ts s') /\ forall u x, tri_n (ts s' u) x = tri_n (ts s u) x.
  Lemma links_only_trans a b c : links_only a b -> links_only b c -> links_only a c.
  Proof.
    intros [H K] [H2 K2]. split.
    - rewrite H2. rewrite H. reflexivity.
    - intros u x. rewrite K2. apply K.
  Qed.
  Lemma links_corner s s' u i : links_only s s' -> corner s' u i = corner s u i.
  Proof.
    intros [_ K]. specialize (K u (t_n (ts s u))). unfold corner.
    assert (H : t_v (tri_n (ts s' u) (t_n (ts s u))) = t_v (tri_n (ts s u) (t_n (ts s u)))) by (rewrite K; reflexivity).
    cbn in H. rewrite H. reflexivity.
  Qed.

  Definition hit (n : option nat) (sd : option side) (u : nat) (j : side) : Prop := n = Some u /\ sd = Some j.
  Lemma hit_dec n sd u j : {hit n sd u j} + {~ hit n sd u j}.
  Proof.
    unfold hit. destruct n as [n|]; [|right; intros [H _]; discriminate].
    destruct sd as [sd|]; [|right; intros [_ H]; discriminate].
    destruct (Nat.eq_dec n u) as [->|]; [|right; intros [H _]; congruence].
    destruct (side_eq_dec sd j) as [->|]; [left; auto|right; intros [_ H]; congruence].
  Qed.

  Lemma set_tn_spec n i x s : exists s', set_tn n i x s = Ok (tt, s') /\ links_only s s' /\
    forall u j, link s' u j = if (Nat.eqb n u && side_eqb i j)%bool then x else link s u j.
  Proof.
    eexists. split; [reflexivity|]. split; [split; [reflexivity|]|].
    - intros u y. cbn. destruct (upd_case (ts s) n (tri_n (ts s n) (set3 (t_n (ts s n)) i x)) u) as [[-> ->]|[_ ->]]; reflexivity.
    - intros u j. unfold link. cbn.
      destruct (upd_case (ts s) n (tri_n (ts s n) (set3 (t_n (ts s n)) i x)) u) as [[-> ->]|[Hn ->]].
      + rewrite Nat.eqb_refl. cbn [andb]. cbn. rewrite get_set3.
        destruct (side_eq_dec j i) as [->|Hs]; [destruct i; reflexivity|].
        destruct i, j; try reflexivity; contradiction.
      + apply Nat.eqb_neq in Hn. rewrite Hn. reflexivity.
  Qed.

  Lemma link_around_spec n sd t s : exists s', link_around n sd t s = Ok (tt, s') /\ links_only s s' /\
    (forall u j, hit n sd u j -> link s' u j = Some t) /\
    (forall u j, ~ hit n sd u j -> link s' u j = link s u j).
  Proof.
    assert (Id : (forall u j, ~ hit n sd u j) -> exists s', ret tt s = Ok (tt, s') /\ links_only s s' /\
       (forall u j, hit n sd u j -> link s' u j = Some t) /\
       (forall u j, ~ hit n sd u j -> link s' u j = link s u j)).
    { intros N. exists s. split; [reflexivity|]. split; [split; [destruct s; reflexivity|reflexivity]|].
      split; [intros u j H; destruct (N u j H)|reflexivity]. }
    destruct n as [n|]; [|apply Id; intros u j [H _]; discriminate].
    destruct sd as [sd|]; [|apply Id; intros u j [_ H]; discriminate].
    destruct (set_tn_spec n sd (Some t) s) as (s' & H & L & K). exists s'. split; [exact H|]. split; [exact L|].
    split; intros u j; rewrite K.
    - intros [H1 H2]. injection H1 as ->. injection H2 as ->. rewrite Nat.eqb_refl. destruct j; reflexivity.
    - intros N. destruct (Nat.eqb_spec n u) as [->|]; [|reflexivity]. cbn [andb].
      destruct sd, j; try reflexivity; destruct N; split; reflexivity.
  Qed.

  Theorem flip_spec D s t0 i0 t1 i1 :
    linked D s -> (forall u, D u -> distinct s u) -> D t0 ->
    link s t0 i0 = Some t1 -> link s t1 i1 = Some t0 -> shares s t0 i0 t1 i1 ->
    corner s t0 i0 <> corner s t1 i1 ->
    let pA := corner s t0 i0 in let pB := corner s t0 (ccw i0) in
    let pC := corner s t1 i1 in let pD := corner s t0 (cw i0) in
    let nAB := link s t0 (cw i0) in let nBC := link s t1 (ccw i1) in
    let nCD := link s t1 (cw i1) in let nDA := link s t0 (ccw i0) in
    exists s', flip t0 i0 t1 i1 s = Ok (tt, s') /\
      s' = with_ts s (ts s') /\
      t_v (ts s' t0) = mk3 pA pB pC /\ t_n (ts s' t0) = mk3 nBC (Some t1) nAB /\
      t_v (ts s' t1) = mk3 pC pD pA /\ t_n (ts s' t1) = mk3 nDA (Some t0) nCD /\
      (forall u, u <> t0 -> u <> t1 -> forall x, tri_n (ts s' u) x = tri_n (ts s u) x) /\
      (* the surrounding triangles *)
      (forall u j, u <> t0 -> u <> t1 ->
         link s' u j = link s u j \/
         (exists i t, (link s u j = Some t0 \/ link s u j = Some t1) /\ link s' u j = Some t /\ (t = t0 \/ t = t1) /\
            link s' t i = Some u /\ shares s' u j t i)) /\
      (forall u, t_event (ts s' u) = t_event (ts s u) /\ t_stops (ts s' u) = t_stops (ts s u)) /\
      linked D s' /\ (forall u, D u -> distinct s' u).
  Proof.
    intros L DI D0 H01 H10 SH AC pA pB pC pD nAB nBC nCD nDA.
    assert (D1 : D t1) by (apply (L t0 i0 t1 D0 H01)).
    assert (T01 : t0 <> t1).
    { intros <-. destruct SH as [S1 S2]. apply (DI t0 D0) in S1, S2.
      destruct i0, i1; cbn in S1, S2; congruence. }
    destruct SH as [SH1 SH2].
    (* vertices of t1 *)
    assert (V1 : corner s t1 (ccw i1) = pD) by exact SH1.
    assert (V2 : corner s t1 (cw i1) = pB) by exact SH2.
    assert (nAB_ne : pA <> pB) by (intros K; apply (DI t0 D0) in K; destruct i0; discriminate).
    assert (nAD_ne : pA <> pD) by (intros K; apply (DI t0 D0) in K; destruct i0; discriminate).
    assert (nBD_ne : pB <> pD) by (intros K; apply (DI t0 D0) in K; destruct i0; discriminate).
    assert (nCB_ne : pC <> pB) by (rewrite <- V2; intros K; apply (DI t1 D1) in K; destruct i1; discriminate).
    assert (nCD_ne : pC <> pD) by (rewrite <- V1; intros K; apply (DI t1 D1) in K; destruct i1; discriminate).
    (* lookups *)
    assert (LK : forall t i p, D t -> corner s t (ccw i) = p ->
      exists sd, apex_around (link s t i) p s = Ok (sd, s) /\
        (link s t i = None /\ sd = None \/ exists n j, link s t i = Some n /\ sd = Some j /\ D n /\ link s n j = Some t /\ shares s t i n j)).
    { intros t i p Dt <-. destruct (link s t i) as [n|] eqn:Hn.
      - destruct (around D s t i n L DI Dt Hn) as (j & X1 & X2 & X3 & X4). exists (Some j). split; [exact X4|].
        right. exists n, j. auto.
      - exists None. split; [reflexivity|auto]. }
    destruct (LK t0 (cw i0) pA D0) as (a & A1 & A2); [rewrite ccw_cw; reflexivity|].
    destruct (LK t1 (ccw i1) pB D1) as (b & B1 & B2); [rewrite ccw_ccw; exact V2|].
    destruct (LK t1 (cw i1) pC D1) as (c & C1 & C2); [rewrite ccw_cw; reflexivity|].
    destruct (LK t0 (ccw i0) pD D0) as (d & E1 & E2); [rewrite ccw_ccw; reflexivity|].
    clear LK. fold nAB in A1, A2. fold nBC in B1, B2. fold nCD in C1, C2. fold nDA in E1, E2.
    destruct (link_around_spec nAB a t0 s) as (s1 & F1 & G1 & X1 & Y1).
    destruct (link_around_spec nBC b t0 s1) as (s2 & F2 & G2 & X2 & Y2).
    destruct (link_around_spec nCD c t1 s2) as (s3 & F3 & G3 & X3 & Y3).
    destruct (link_around_spec nDA d t1 s3) as (s4 & F4 & G4 & X4 & Y4).
    assert (G : links_only s s4) by eauto using links_only_trans.
    set (s5 := with_ts s4 (upd (ts s4) t0 (tri_v (ts s4 t0) (mk3 pA pB pC)))).
    set (s6 := with_ts s5 (upd (ts s5) t0 (tri_n (ts s5 t0) (mk3 nBC (Some t1) nAB)))).
    set (s7 := with_ts s6 (upd (ts s6) t1 (tri_v (ts s6 t1) (mk3 pC pD pA)))).
    set (s8 := with_ts s7 (upd (ts s7) t1 (tri_n (ts s7 t1) (mk3 nDA (Some t0) nCD)))).
    assert (FL : flip t0 i0 t1 i1 s = Ok (tt, s8)).
    { unfold flip. rewrite !bind_tget. cbv zeta. fold pB pD pA pC nAB nBC nCD nDA.
      change (get3 (t_v (ts s t0)) (ccw i0)) with pB. change (get3 (t_v (ts s t1)) (cw i1)) with (corner s t1 (cw i1)).
      change (get3 (t_v (ts s t0)) (cw i0)) with pD. change (get3 (t_v (ts s t1)) (ccw i1)) with (corner s t1 (ccw i1)).
      rewrite V1, V2, !Nat.eqb_refl.
      change (get3 (t_n (ts s t0)) i0) with (link s t0 i0). change (get3 (t_n (ts s t1)) i1) with (link s t1 i1).
      rewrite H01, H10. rewrite !bind_assert by reflexivity.
      change (get3 (t_v (ts s t0)) i0) with pA. change (get3 (t_v (ts s t1)) i1) with pC.
      change (get3 (t_n (ts s t0)) (cw i0)) with nAB. change (get3 (t_n (ts s t1)) (ccw i1)) with nBC.
      change (get3 (t_n (ts s t1)) (cw i1)) with nCD. change (get3 (t_n (ts s t0)) (ccw i0)) with nDA.
      rewrite (bind_eq _ _ _ _ _ A1), (bind_eq _ _ _ _ _ B1), (bind_eq _ _ _ _ _ C1), (bind_eq _ _ _ _ _ E1).
      rewrite (bind_eq _ _ _ _ _ F1), (bind_eq _ _ _ _ _ F2), (bind_eq _ _ _ _ _ F3), (bind_eq _ _ _ _ _ F4).
      reflexivity. }
    (* the new state *)
    assert (W : s8 = with_ts s (ts s8)).
    { destruct G as [G _]. unfold s8, s7, s6, s5. rewrite G. reflexivity. }
    assert (T0v : t_v (ts s8 t0) = mk3 pA pB pC).
    { cbn. rewrite !(upd_other _ t1) by auto. rewrite !upd_same. reflexivity. }
    assert (T0n : t_n (ts s8 t0) = mk3 nBC (Some t1) nAB).
    { cbn. rewrite !(upd_other _ t1) by auto. rewrite !upd_same. reflexivity. }
    assert (T1v : t_v (ts s8 t1) = mk3 pC pD pA) by (cbn; rewrite !upd_same; reflexivity).
    assert (T1n : t_n (ts s8 t1) = mk3 nDA (Some t0) nCD) by (cbn; rewrite !upd_same; reflexivity).
    assert (TO : forall u, u <> t0 -> u <> t1 -> ts s8 u = ts s4 u).
    { intros u U0 U1. cbn. rewrite !upd_other by auto. reflexivity. }
    assert (TOc : forall u j, u <> t0 -> u <> t1 -> corner s8 u j = corner s u j).
    { intros u j U0 U1. unfold corner at 1. rewrite TO by auto. apply (links_corner s s4), G. }
    (* the surrounding triangles are not t0, t1 *)
    assert (OUT : forall t i n j, D t -> (t = t0 /\ i <> i0 \/ t = t1 /\ i <> i1) ->
      D n -> link s n j = Some t -> shares s t i n j -> n <> t0 /\ n <> t1).
    { intros t i n j Dt Ht Dn Hl Hs.
      assert (SELF : forall u i j, D u -> shares s u i u j -> False).
      { intros u k l Du [K1 K2]. apply (DI u Du) in K1, K2. destruct k, l; cbn in *; congruence. }
      assert (X01 : forall i j, i <> i0 -> shares s t0 i t1 j -> False).
      { intros k l Hk [K1 K2].
        (* a side of t0 other than i0 has the corner pA, but t1 has not *)
        assert (P : cw k = i0 \/ ccw k = i0) by (destruct k, i0; auto; contradiction).
        assert (Q : exists m, corner s t1 m = pA) by (destruct P as [P|P]; rewrite P in *; eauto).
        destruct Q as [m Q]. assert (m = i1 \/ m = ccw i1 \/ m = cw i1) as [->|[-> | ->]] by (destruct m, i1; auto).
        - apply AC. symmetry. exact Q.
        - congruence.
        - congruence. }
      assert (X10 : forall i j, i <> i1 -> shares s t1 i t0 j -> False).
      { intros k l Hk [K1 K2].
        assert (P : cw k = i1 \/ ccw k = i1) by (destruct k, i1; auto; contradiction).
        assert (Q : exists m, corner s t0 m = pC) by (destruct P as [P|P]; rewrite P in *; eauto).
        destruct Q as [m Q]. assert (m = i0 \/ m = ccw i0 \/ m = cw i0) as [->|[-> | ->]] by (destruct m, i0; auto).
        - apply AC. exact Q.
        - apply nCB_ne. symmetry. exact Q.
        - apply nCD_ne. symmetry. exact Q. }
      destruct Ht as [[-> Hi]|[-> Hi]]; split; intros ->; eauto. }
    assert (N0 : cw i0 <> i0 /\ ccw i0 <> i0 /\ cw i1 <> i1 /\ ccw i1 <> i1) by (destruct i0, i1; repeat split; discriminate).
    destruct N0 as (N0a & N0b & N1a & N1b).
    (* what each dart of the quadrilateral looks like *)
    assert (HA : forall u j, hit nAB a u j -> D u /\ u <> t0 /\ u <> t1 /\ link s u j = Some t0 /\ corner s u (ccw j) = pB /\ corner s u (cw j) = pA).
    { intros u j [h1 h2]. destruct A2 as [[A2 _]|(n & k & A3 & A4 & A5 & A6 & A7)]; [congruence|].
      assert (n = u) by congruence. assert (k = j) by congruence. subst n k.
      destruct (OUT t0 (cw i0) u j D0 (or_introl (conj eq_refl N0a)) A5 A6 A7) as [O1 O2].
      destruct A7 as [S1 S2]. rewrite cw_cw in S1. rewrite ccw_cw in S2. repeat split; auto. }
    assert (HB : forall u j, hit nBC b u j -> D u /\ u <> t0 /\ u <> t1 /\ link s u j = Some t1 /\ corner s u (ccw j) = pC /\ corner s u (cw j) = pB).
    { intros u j [h1 h2]. destruct B2 as [[B2 _]|(n & k & A3 & A4 & A5 & A6 & A7)]; [congruence|].
      assert (n = u) by congruence. assert (k = j) by congruence. subst n k.
      destruct (OUT t1 (ccw i1) u j D1 (or_intror (conj eq_refl N1b)) A5 A6 A7) as [O1 O2].
      destruct A7 as [S1 S2]. rewrite cw_ccw in S1. rewrite ccw_ccw, V2 in S2. repeat split; auto. }
    assert (HC : forall u j, hit nCD c u j -> D u /\ u <> t0 /\ u <> t1 /\ link s u j = Some t1 /\ corner s u (ccw j) = pD /\ corner s u (cw j) = pC).
    { intros u j [h1 h2]. destruct C2 as [[C2 _]|(n & k & A3 & A4 & A5 & A6 & A7)]; [congruence|].
      assert (n = u) by congruence. assert (k = j) by congruence. subst n k.
      destruct (OUT t1 (cw i1) u j D1 (or_intror (conj eq_refl N1a)) A5 A6 A7) as [O1 O2].
      destruct A7 as [S1 S2]. rewrite cw_cw, V1 in S1. rewrite ccw_cw in S2. repeat split; auto. }
    assert (HD : forall u j, hit nDA d u j -> D u /\ u <> t0 /\ u <> t1 /\ link s u j = Some t0 /\ corner s u (ccw j) = pA /\ corner s u (cw j) = pD).
    { intros u j [h1 h2]. destruct E2 as [[E2 _]|(n & k & A3 & A4 & A5 & A6 & A7)]; [congruence|].
      assert (n = u) by congruence. assert (k = j) by congruence. subst n k.
      destruct (OUT t0 (ccw i0) u j D0 (or_introl (conj eq_refl N0b)) A5 A6 A7) as [O1 O2].
      destruct A7 as [S1 S2]. rewrite cw_ccw in S1. rewrite ccw_ccw in S2. repeat split; auto. }
    (* their links afterwards *)
    assert (LO : forall u j, u <> t0 -> u <> t1 -> link s8 u j = link s4 u j).
    { intros u j U0 U1. unfold link. rewrite TO by auto. reflexivity. }
    assert (RA : forall u j, hit nAB a u j -> link s8 u j = Some t0).
    { intros u j h. pose proof (HA u j h) as (_ & U0 & U1 & _ & P1 & P2). rewrite LO by auto.
      rewrite Y4, Y3, Y2; [apply X1, h| | |]; intros k; [apply HB in k|apply HC in k|apply HD in k];
        destruct k as (_ & _ & _ & _ & Q1 & Q2); congruence. }
    assert (RB : forall u j, hit nBC b u j -> link s8 u j = Some t0).
    { intros u j h. pose proof (HB u j h) as (_ & U0 & U1 & _ & P1 & P2). rewrite LO by auto.
      rewrite Y4, Y3; [apply X2, h| |]; intros k; [apply HC in k|apply HD in k];
        destruct k as (_ & _ & _ & _ & Q1 & Q2); congruence. }
    assert (RC : forall u j, hit nCD c u j -> link s8 u j = Some t1).
    { intros u j h. pose proof (HC u j h) as (_ & U0 & U1 & _ & P1 & P2). rewrite LO by auto.
      rewrite Y4; [apply X3, h|]; intros k; apply HD in k; destruct k as (_ & _ & _ & _ & Q1 & Q2); congruence. }
    assert (RD : forall u j, hit nDA d u j -> link s8 u j = Some t1).
    { intros u j h. pose proof (HD u j h) as (_ & U0 & U1 & _ & P1 & P2). rewrite LO by auto. apply X4, h. }
    (* partners of the four darts in the new triangles *)
    assert (C0 : forall i, corner s8 t0 i = get3 (mk3 pA pB pC) i) by (intros i; unfold corner; rewrite T0v; reflexivity).
    assert (C1' : forall i, corner s8 t1 i = get3 (mk3 pC pD pA) i) by (intros i; unfold corner; rewrite T1v; reflexivity).
    assert (L0 : forall i, link s8 t0 i = get3 (mk3 nBC (Some t1) nAB) i) by (intros i; unfold link; rewrite T0n; reflexivity).
    assert (L1 : forall i, link s8 t1 i = get3 (mk3 nDA (Some t0) nCD) i) by (intros i; unfold link; rewrite T1n; reflexivity).
    assert (PA : forall u j, hit nAB a u j -> link s8 t0 S2 = Some u /\ shares s8 u j t0 S2).
    { intros u j h. pose proof (HA u j h) as (_ & U0 & U1 & _ & P1 & P2). rewrite L0. split; [apply h|].
      split; rewrite C0, TOc by auto; cbn; congruence. }
    assert (PB : forall u j, hit nBC b u j -> link s8 t0 S0 = Some u /\ shares s8 u j t0 S0).
    { intros u j h. pose proof (HB u j h) as (_ & U0 & U1 & _ & P1 & P2). rewrite L0. split; [apply h|].
      split; rewrite C0, TOc by auto; cbn; congruence. }
    assert (PC : forall u j, hit nCD c u j -> link s8 t1 S2 = Some u /\ shares s8 u j t1 S2).
    { intros u j h. pose proof (HC u j h) as (_ & U0 & U1 & _ & P1 & P2). rewrite L1. split; [apply h|].
      split; rewrite C1', TOc by auto; cbn; congruence. }
    assert (PD : forall u j, hit nDA d u j -> link s8 t1 S0 = Some u /\ shares s8 u j t1 S0).
    { intros u j h. pose proof (HD u j h) as (_ & U0 & U1 & _ & P1 & P2). rewrite L1. split; [apply h|].
      split; rewrite C1', TOc by auto; cbn; congruence. }
    assert (MISS : forall u j, u <> t0 -> u <> t1 -> ~ hit nAB a u j -> ~ hit nBC b u j -> ~ hit nCD c u j -> ~ hit nDA d u j ->
      link s8 u j = link s u j).
    { intros u j U0 U1 M1 M2 M3 M4. rewrite LO by auto. rewrite Y4, Y3, Y2, Y1 by auto. reflexivity. }
    (* a dart of D outside that leads to t0 or t1 is one of the four *)
    assert (BACK : forall u j, D u -> u <> t0 -> u <> t1 -> (link s u j = Some t0 \/ link s u j = Some t1) ->
      hit nAB a u j \/ hit nBC b u j \/ hit nCD c u j \/ hit nDA d u j).
    { intros u j Du U0 U1 [H|H].
      - destruct (L u j t0 Du H) as (_ & k & K1 & K2). apply shares_sym in K2.
        assert (k = i0 \/ k = cw i0 \/ k = ccw i0) as [->|[-> | ->]] by (destruct k, i0; auto).
        + congruence.
        + left. split; [exact K1|]. destruct A2 as [[A2 _]|(n & l & A3 & A4 & A5 & A6 & A7)]; [unfold nAB in A2; congruence|].
          assert (n = u) by (unfold nAB in A3; congruence). subst n. rewrite A4. f_equal.
          eapply shares_unique; [apply DI, Du|exact A7|exact K2].
        + do 3 right. split; [exact K1|]. destruct E2 as [[E2 _]|(n & l & A3 & A4 & A5 & A6 & A7)]; [unfold nDA in E2; congruence|].
          assert (n = u) by (unfold nDA in A3; congruence). subst n. rewrite A4. f_equal.
          eapply shares_unique; [apply DI, Du|exact A7|exact K2].
      - destruct (L u j t1 Du H) as (_ & k & K1 & K2). apply shares_sym in K2.
        assert (k = i1 \/ k = cw i1 \/ k = ccw i1) as [->|[-> | ->]] by (destruct k, i1; auto).
        + congruence.
        + right. right. left. split; [exact K1|]. destruct C2 as [[C2 _]|(n & l & A3 & A4 & A5 & A6 & A7)]; [unfold nCD in C2; congruence|].
          assert (n = u) by (unfold nCD in A3; congruence). subst n. rewrite A4. f_equal.
          eapply shares_unique; [apply DI, Du|exact A7|exact K2].
        + right. left. split; [exact K1|]. destruct B2 as [[B2 _]|(n & l & A3 & A4 & A5 & A6 & A7)]; [unfold nBC in B2; congruence|].
          assert (n = u) by (unfold nBC in A3; congruence). subst n. rewrite A4. f_equal.
          eapply shares_unique; [apply DI, Du|exact A7|exact K2]. }
    exists s8. split; [exact FL|]. split; [exact W|]. split; [exact T0v|]. split; [exact T0n|].
    split; [exact T1v|]. split; [exact T1n|]. split; [intros u U0 U1 x; rewrite TO by auto; apply G|].
    split.
    { intros u j U0 U1.
      destruct (hit_dec nAB a u j) as [h|M1].
      { right. exists S2, t0. pose proof (HA u j h) as (_ & _ & _ & Q & _). pose proof (PA u j h) as [Q1 Q2]. auto 10. }
      destruct (hit_dec nBC b u j) as [h|M2].
      { right. exists S0, t0. pose proof (HB u j h) as (_ & _ & _ & Q & _). pose proof (PB u j h) as [Q1 Q2]. auto 10. }
      destruct (hit_dec nCD c u j) as [h|M3].
      { right. exists S2, t1. pose proof (HC u j h) as (_ & _ & _ & Q & _). pose proof (PC u j h) as [Q1 Q2]. auto 10. }
      destruct (hit_dec nDA d u j) as [h|M4].
      { right. exists S0, t1. pose proof (HD u j h) as (_ & _ & _ & Q & _). pose proof (PD u j h) as [Q1 Q2]. auto 10. }
      left. auto. }
    split.
    { intros u. destruct G as [_ G]. specialize (G u (t_n (ts s u))).
      assert (Q1 : t_event (ts s4 u) = t_event (ts s u)).
      { change (t_event (ts s4 u)) with (t_event (tri_n (ts s4 u) (t_n (ts s u)))). rewrite G. reflexivity. }
      assert (Q2 : t_stops (ts s4 u) = t_stops (ts s u)).
      { change (t_stops (ts s4 u)) with (t_stops (tri_n (ts s4 u) (t_n (ts s u)))). rewrite G. reflexivity. }
      destruct (Nat.eq_dec u t1) as [->|U1].
      { cbn. rewrite !upd_same, !(upd_other _ t0 _ t1) by auto. cbn. auto. }
      destruct (Nat.eq_dec u t0) as [->|U0].
      { cbn. rewrite !(upd_other _ t1) by auto. rewrite !upd_same. cbn. auto. }
      rewrite TO by auto. auto. }
    split.
    - intros t i n Dt H.
      destruct (Nat.eq_dec t t0) as [->|U0].
      { rewrite L0 in H. destruct i; cbn in H.
        - destruct B2 as [[B2 _]|(m & j & A3 & A4 & A5 & A6 & A7)]; [congruence|].
          assert (m = n) by congruence. subst m. assert (h : hit nBC b n j) by (split; auto).
          split; [exact A5|]. exists j. split; [apply RB, h|]. apply shares_sym, PB, h.
        - injection H as <-. split; [exact D1|]. exists S1. rewrite L1. split; [reflexivity|].
          split; rewrite C0, C1'; reflexivity.
        - destruct A2 as [[A2 _]|(m & j & A3 & A4 & A5 & A6 & A7)]; [congruence|].
          assert (m = n) by congruence. subst m. assert (h : hit nAB a n j) by (split; auto).
          split; [exact A5|]. exists j. split; [apply RA, h|]. apply shares_sym, PA, h. }
      destruct (Nat.eq_dec t t1) as [->|U1].
      { rewrite L1 in H. destruct i; cbn in H.
        - destruct E2 as [[E2 _]|(m & j & A3 & A4 & A5 & A6 & A7)]; [congruence|].
          assert (m = n) by congruence. subst m. assert (h : hit nDA d n j) by (split; auto).
          split; [exact A5|]. exists j. split; [apply RD, h|]. apply shares_sym, PD, h.
        - injection H as <-. split; [exact D0|]. exists S1. rewrite L0. split; [reflexivity|].
          split; rewrite C0, C1'; reflexivity.
        - destruct C2 as [[C2 _]|(m & j & A3 & A4 & A5 & A6 & A7)]; [congruence|].
          assert (m = n) by congruence. subst m. assert (h : hit nCD c n j) by (split; auto).
          split; [exact A5|]. exists j. split; [apply RC, h|]. apply shares_sym, PC, h. }
      destruct (hit_dec nAB a t i) as [h|M1].
      { rewrite (RA t i h) in H. injection H as <-. split; [exact D0|]. exists S2. apply PA, h. }
      destruct (hit_dec nBC b t i) as [h|M2].
      { rewrite (RB t i h) in H. injection H as <-. split; [exact D0|]. exists S0. apply PB, h. }
      destruct (hit_dec nCD c t i) as [h|M3].
      { rewrite (RC t i h) in H. injection H as <-. split; [exact D1|]. exists S2. apply PC, h. }
      destruct (hit_dec nDA d t i) as [h|M4].
      { rewrite (RD t i h) in H. injection H as <-. split; [exact D1|]. exists S0. apply PD, h. }
      rewrite MISS in H by auto.
      assert (n <> t0 /\ n <> t1) as [Nn0 Nn1].
      { split; intros ->; destruct (BACK t i Dt U0 U1) as [?|[?|[?|?]]]; auto. }
      destruct (L t i n Dt H) as (Dn & j & K1 & K2). split; [exact Dn|]. exists j. split.
      + rewrite MISS; auto; intros h; [apply HA in h|apply HB in h|apply HC in h|apply HD in h];
          destruct h as (_ & _ & _ & h & _); congruence.
      + destruct K2 as [K2 K3]. split; rewrite !TOc by auto; auto.
    - assert (AC' : pA <> pC) by exact AC. clearbody pA pB pC pD.
      intros u Du i j. destruct (Nat.eq_dec u t0) as [->|U0].
      { rewrite !C0. destruct i, j; cbn; congruence. }
      destruct (Nat.eq_dec u t1) as [->|U1].
      { rewrite !C1'. destruct i, j; cbn; congruence. }
      rewrite !TOc by auto. apply DI, Du.
  Qed.
End Mesh.
