(** What the edge, split and three-sided events do to the links and corners *)
From Verif Require Import Base Arith Calc VectorOps Line2d Primitives Collapse CollapseProofs EventsLib
  FlipEvent ParallelEvent EdgeEvent SplitEvent EventLoop Pass OpSpec Order StopSpec RunBase RunTimed RunLoop
  Decent Total FanProofs Mesh MeshEvents.

Section MeshEdge.
  Context {A : Arith} {E : Env A}.

  (** one triangle unlinked from [t]: its link to [t] becomes [x] *)
  Definition lk (s s' : state) (o : option nat) (t : nat) (x : option nat) : Prop :=
    match o with
    | None => forall w j, link s' w j = link s w j
    | Some a => exists i, link s a i = Some t /\
        forall w j, link s' w j = if (Nat.eqb a w && side_eqb i j)%bool then x else link s w j
    end.

  Definition apart (s : state) (t : nat) : Prop :=
    forall i j x, link s t i = Some x -> link s t j = Some x -> i = j.

  (** the links after unlinking some of the neighbours of [t]: [f m] tells what
      the link back across the side [m] of [t] was replaced by *)
  Record unl (D : nat -> Prop) (s : state) (t : nat) (f : side -> option (option nat)) (s' : state) : Prop := {
    un_self : forall m, link s' t m = link s t m;
    un_other : forall u j, D u -> u <> t -> link s u j <> Some t -> link s' u j = link s u j;
    un_back : forall u j m, D u -> u <> t -> link s t m = Some u -> link s u j = Some t -> shares s t m u j ->
      link s' u j = match f m with Some x => x | None => Some t end }.

  Definition put {X} (f : side -> option X) (m : side) (x : X) : side -> option X :=
    fun k => if side_eqb m k then Some x else f k.
  Lemma side_eqb_spec i j : Bool.reflect (i = j) (side_eqb i j).
  Proof. destruct i, j; constructor; try reflexivity; discriminate. Qed.

  Lemma unl_same D s t s' : mesh_same s s' -> unl D s t (fun _ => None) s'.
  Proof.
    intros M. constructor.
    - intros m. apply mesh_same_link, M.
    - intros u j _ _ _. apply mesh_same_link, M.
    - intros u j m _ _ _ H _. rewrite <- H. apply mesh_same_link, M.
  Qed.
  Lemma unl_quiet D s t f s1 s2 : unl D s t f s1 -> mesh_same s1 s2 -> unl D s t f s2.
  Proof.
    intros [U1 U2 U3] M. constructor; intros; rewrite (mesh_same_link s1 s2); auto.
  Qed.

  Lemma unl_dart D s t f s1 m a i : linked D s -> (forall u, D u -> distinct s u) -> D t -> apart s t ->
    unl D s t f s1 -> link s t m = Some a -> link s1 a i = Some t ->
    D a /\ a <> t /\ link s a i = Some t /\ shares s t m a i.
  Proof.
    intros L DI Dt AP U H K. destruct (L t m a Dt H) as (Da & j & J1 & J2).
    assert (Na : a <> t) by (intros ->; eapply (self_shares D s t); eauto).
    assert (K' : link s a i = Some t).
    { destruct (option_eq_dec (link s a i) (Some t)) as [Q|Q]; [exact Q|].
      rewrite (un_other _ _ _ _ _ U a i) in K; auto. }
    split; [exact Da|]. split; [exact Na|]. split; [exact K'|].
    destruct (L a i t Da K') as (_ & m0 & M1 & M2). rewrite (AP m m0 a H M1). apply shares_sym, M2.
  Qed.

  Lemma unl_step D s t f s1 m x s2 : linked D s -> (forall u, D u -> distinct s u) -> D t -> apart s t ->
    unl D s t f s1 -> lk s1 s2 (link s t m) t x -> unl D s t (put f m x) s2.
  Proof.
    intros L DI Dt AP U K. destruct (link s t m) as [a|] eqn:H; cbn [lk] in K.
    - destruct K as (i & K1 & K2). destruct (unl_dart D s t f s1 m a i L DI Dt AP U H K1) as (Da & Na & K3 & K4).
      constructor.
      + intros k. rewrite K2. apply Nat.eqb_neq in Na. rewrite Na. apply (un_self _ _ _ _ _ U).
      + intros u j Du Nu Q. rewrite K2. destruct (Nat.eqb_spec a u) as [<-|]; [|apply (un_other _ _ _ _ _ U); auto].
        cbn [andb]. destruct (side_eqb_spec i j) as [<-|]; [congruence|apply (un_other _ _ _ _ _ U); auto].
      + intros u j k Du Nu Q1 Q2 Q3. rewrite K2. unfold put.
        destruct (side_eqb_spec m k) as [<-|Nk].
        * assert (u = a) by congruence. subst u. assert (i = j) by (apply (shares_unique s t m a i j); auto). subst j.
          rewrite Nat.eqb_refl. cbn [andb]. destruct (side_eqb_spec i i); [reflexivity|congruence].
        * rewrite (un_back _ _ _ _ _ U u j k); auto.
          destruct (Nat.eqb_spec a u) as [<-|]; [|reflexivity]. destruct Nk. apply (AP m k a); auto.
    - constructor.
      + intros k. rewrite K. apply (un_self _ _ _ _ _ U).
      + intros u j Du Nu Q. rewrite K. apply (un_other _ _ _ _ _ U); auto.
      + intros u j k Du Nu Q1 Q2 Q3. rewrite K. unfold put.
        destruct (side_eqb_spec m k) as [<-|Nk]; [congruence|]. apply (un_back _ _ _ _ _ U u j k); auto.
  Qed.

  (** the fan of a vertex [v = corner s t k] that starts at the neighbour of [t]
      across the side [d k] *)
  Definition side_fan (s : state) (t : nat) (k : side) (d : side -> side) (l : list nat) : Prop :=
    match link s t (d k) with
    | None => l = []
    | Some a => is_fan s (corner s t k) d (Some a) l /\ NoDup l
    end.

  Lemma turn_eq d k a t s j : turn d -> shares s t (d k) a j -> corner s a (d j) = corner s t k.
  Proof. intros [-> | ->] [K1 K2]; rewrite ?cw_cw, ?ccw_ccw, ?ccw_cw, ?cw_ccw in *; auto. Qed.
  Lemma turn_eq2 d k a t s j : turn d -> shares s t (d k) a j -> corner s a (d (d j)) = corner s t (d (d k)).
  Proof. intros [-> | ->] [K1 K2]; rewrite ?cw_cw, ?ccw_ccw, ?ccw_cw, ?cw_ccw in *; auto. Qed.
  Lemma turn_back d j : turn d -> back d (d j) = j.
  Proof. intros [-> | ->]; destruct j; reflexivity. Qed.
  Lemma turn_ne d j : turn d -> d j <> j.
  Proof. intros [-> | ->]; destruct j; discriminate. Qed.

  Lemma side_fan_in D s t k d l : linked D s -> D t -> side_fan s t k d l -> forall u, In u l -> D u.
  Proof.
    unfold side_fan. intros L Dt F u Hu. destruct (link s t (d k)) as [a|] eqn:H; [|subst; contradiction].
    apply (is_fan_in D s (corner s t k) d (Some a) l L); [apply F| |exact Hu]. intros x Hx. injection Hx as <-. apply (L t (d k) a); auto.
  Qed.
  Lemma side_fan_out D s t k d l : linked D s -> (forall u, D u -> distinct s u) -> D t -> side_fan s t k d l -> ~ In t l.
  Proof.
    unfold side_fan. intros L DI Dt F. destruct (link s t (d k)) as [a|] eqn:H; [|subst; intros []].
    apply (fan_not_before D s (corner s t k) d a l t k); auto; apply F.
  Qed.
  Lemma side_fan_first s t k d l a : side_fan s t k d l -> link s t (d k) = Some a -> In a l.
  Proof. unfold side_fan. intros F H. rewrite H in F. destruct F as [F _]. inversion F; subst. simpl. auto. Qed.

  Lemma fan_stable1 D s t k d l : linked D s -> (forall u, D u -> distinct s u) -> D t -> turn d -> side_fan s t k d l ->
    forall u i w p, w <> t -> link s u i = Some w -> p <> i -> corner s u p = corner s t k -> In u l -> In w l.
  Proof.
    intros L DI Dt T F u i w p Nw H Np C Hu. pose proof F as F0. unfold side_fan in F.
    destruct (link s t (d k)) as [a|] eqn:Q; [|subst; contradiction]. destruct F as [F N].
    destruct (L t (d k) a Dt Q) as (Da & ja & J1 & J2).
    destruct (fan_closed D s (corner s t k) d a l L DI T Da F u p i w) as [R|[-> ->]]; auto.
    exfalso. assert (d ja = p).
    { apply (DI a Da). rewrite (turn_eq d k a t s ja T J2). auto. }
    subst p. rewrite turn_back in H by auto. congruence.
  Qed.

  Lemma fan_stable D s t k d l : linked D s -> (forall u, D u -> distinct s u) -> D t -> turn d -> side_fan s t k d l ->
    forall u i w j, u <> t -> w <> t -> link s u i = Some w -> link s w j = Some u -> shares s u i w j ->
    forall p, p <> i -> corner s u p = corner s t k -> (In u l <-> In w l).
  Proof.
    intros L DI Dt T F u i w j Nu Nw H1 H2 [S1 S2] p Np C. split.
    - eapply fan_stable1; eauto.
    - assert (Q : exists q, q <> j /\ corner s w q = corner s t k).
      { destruct (side_eq_dec p (ccw i)) as [->|]; [exists (cw j); split; [destruct j; discriminate|congruence]|].
        assert (p = cw i) by (destruct p, i; try reflexivity; contradiction). subst p.
        exists (ccw j). split; [destruct j; discriminate|congruence]. }
      destruct Q as (q & Q1 & Q2). eapply fan_stable1; eauto.
  Qed.

  Lemma fan_weaken s1 s v d o l : (forall u k, In u l -> corner s1 u k = v -> corner s u k = v /\ link s u (d k) = link s1 u (d k)) ->
    is_fan s1 v d o l -> is_fan s v d o l.
  Proof.
    intros H F. revert H. induction F as [|w sd l C F IH]; intros H; [constructor|].
    destruct (H w sd) as [H1 H2]; [simpl; auto|exact C|]. apply fan_step with sd; [exact H1|].
    change (get3 (t_n (ts s w)) (d sd)) with (link s w (d sd)). rewrite H2. apply IH.
    intros u k Hu. apply H. simpl. auto.
  Qed.

  (** ** The end of an edge event: two neighbours joined, the third unlinked *)
  Definition joined (s : state) (t : nat) (e : side) (k : side) : option nat :=
    if side_eqb k e then None else if side_eqb k (ccw e) then link s t (cw e) else link s t (ccw e).
  Definition sub2 v2 v1 kv la lb u p := sub1 v1 kv lb u (sub1 v2 kv la u p).

  Lemma sub1_other v kv l u p : p <> v -> sub1 v kv l u p = p.
  Proof. unfold sub1. destruct (Nat.eq_dec p v); [contradiction|reflexivity]. Qed.
  Lemma sub1_in v kv l u : In u l -> sub1 v kv l u v = kv.
  Proof. unfold sub1. intros H. destruct (Nat.eq_dec v v); [|contradiction]. destruct (in_dec Nat.eq_dec u l); [reflexivity|contradiction]. Qed.
  Lemma sub1_out v kv l u p : ~ In u l -> sub1 v kv l u p = p.
  Proof. unfold sub1. intros H. destruct (Nat.eq_dec p v); [|reflexivity]. destruct (in_dec Nat.eq_dec u l); [contradiction|reflexivity]. Qed.
  Lemma sub1_iff v kv l u w p : (p = v -> (In u l <-> In w l)) -> sub1 v kv l u p = sub1 v kv l w p.
  Proof.
    intros H. unfold sub1. destruct (Nat.eq_dec p v) as [K|K]; [|reflexivity]. specialize (H K).
    destruct (in_dec Nat.eq_dec u l), (in_dec Nat.eq_dec w l); tauto.
  Qed.

  Lemma edge_linked D s t e kv la lb s' : linked D s -> (forall u, D u -> distinct s u) -> D t -> apart s t ->
    kv <> corner s t (ccw e) -> kv <> corner s t (cw e) ->
    side_fan s t (cw e) cw la -> side_fan s t (ccw e) ccw lb ->
    (forall f, (forall k, f k = Some (joined s t e k)) -> unl D s t f s') ->
    (forall u i, corner s' u i = sub2 (corner s t (cw e)) (corner s t (ccw e)) kv la lb u (corner s u i)) ->
    linked (fun u => D u /\ u <> t) s'.
  Proof.
    intros L DI Dt AP K1 K2 Fa Fb U C.
    pose proof (U (fun k => Some (joined s t e k)) (fun k => eq_refl)) as [U1 U2 U3].
    apply (splice D s s' t (joined s t e) (sub2 (corner s t (cw e)) (corner s t (ccw e)) kv la lb)); auto.
    - intros u i w j Du Dw Nu Nw H1 H2 H3 k Nk. unfold sub2.
      rewrite (sub1_iff _ kv la u w (corner s u k)).
      2:{ intros Q. apply (fan_stable D s t (cw e) cw la L DI Dt (or_introl eq_refl) Fa u i w j Nu Nw H1 H2 H3 k Nk Q). }
      apply sub1_iff. intros Q.
      assert (Q' : corner s u k = corner s t (ccw e)).
      { revert Q. unfold sub1. destruct (Nat.eq_dec _ _); [|auto]. destruct (in_dec _ _ _); [congruence|auto]. }
      apply (fan_stable D s t (ccw e) ccw lb L DI Dt (or_intror eq_refl) Fb u i w j Nu Nw H1 H2 H3 k Nk Q').
    - assert (N1 : corner s t e <> corner s t (ccw e)) by (intros Q; apply (DI t Dt) in Q; destruct e; discriminate).
      assert (N2 : corner s t e <> corner s t (cw e)) by (intros Q; apply (DI t Dt) in Q; destruct e; discriminate).
      intros m u j w Du Nu M1 M2 M3 R.
      assert (Q : m = e \/ m = ccw e \/ m = cw e) by (destruct m, e; auto).
      destruct Q as [->|[->| ->]]; unfold joined in R.
      + destruct (side_eqb_spec e e); [discriminate|congruence].
      + destruct (side_eqb_spec (ccw e) e) as [Q|_]; [destruct e; discriminate|].
        destruct (side_eqb_spec (ccw e) (ccw e)); [|congruence].
        destruct (L t (cw e) w Dt R) as (Dw & j' & J1 & J2). exists (cw e), j'. split; [exact R|]. split; [exact J1|].
        split; [exact J2|]. split.
        { unfold joined. destruct (side_eqb_spec (cw e) e) as [Q|_]; [destruct e; discriminate|].
          destruct (side_eqb_spec (cw e) (ccw e)) as [Q|_]; [destruct e; discriminate|]. exact M1. }
        rewrite <- cw_cw in M1. pose proof (side_fan_first s t (cw e) cw la u Fa M1) as Iu.
        rewrite <- ccw_ccw in R. pose proof (side_fan_first s t (ccw e) ccw lb w Fb R) as Iw.
        destruct M3 as [M3 M4], J2 as [J2 J3]. rewrite cw_ccw in M3. rewrite ccw_ccw in M4. rewrite cw_cw in J2. rewrite ccw_cw in J3.
        split; rewrite !C; unfold sub2.
        * rewrite J2, M4. rewrite (sub1_other _ _ la w) by (intros Q; apply (DI t Dt) in Q; destruct e; discriminate).
          rewrite sub1_in by exact Iw. rewrite (sub1_in _ _ la) by exact Iu. rewrite sub1_other by auto. reflexivity.
        * rewrite J3, M3. rewrite !sub1_other; auto; rewrite !sub1_other; auto.
      + destruct (side_eqb_spec (cw e) e) as [Q|_]; [destruct e; discriminate|].
        destruct (side_eqb_spec (cw e) (ccw e)) as [Q|_]; [destruct e; discriminate|].
        destruct (L t (ccw e) w Dt R) as (Dw & j' & J1 & J2). exists (ccw e), j'. split; [exact R|]. split; [exact J1|].
        split; [exact J2|]. split.
        { unfold joined. destruct (side_eqb_spec (ccw e) e) as [Q|_]; [destruct e; discriminate|].
          destruct (side_eqb_spec (ccw e) (ccw e)) as [_|Q]; [|congruence]. exact M1. }
        rewrite <- ccw_ccw in M1. pose proof (side_fan_first s t (ccw e) ccw lb u Fb M1) as Iu.
        rewrite <- cw_cw in R. pose proof (side_fan_first s t (cw e) cw la w Fa R) as Iw.
        destruct M3 as [M3 M4], J2 as [J2 J3]. rewrite cw_cw in M3. rewrite ccw_cw in M4. rewrite cw_ccw in J2. rewrite ccw_ccw in J3.
        split; rewrite !C; unfold sub2.
        * rewrite J2, M4. rewrite !sub1_other; auto; rewrite !sub1_other; auto.
        * rewrite J3, M3. rewrite (sub1_other _ _ la u) by (intros Q; apply (DI t Dt) in Q; destruct e; discriminate).
          rewrite (sub1_in _ _ lb) by exact Iu. rewrite (sub1_in _ _ la) by exact Iw. rewrite sub1_other by auto. reflexivity.
  Qed.

  Lemma unl_ext D s t f g s' : (forall m, f m = g m) -> unl D s t f s' -> unl D s t g s'.
  Proof. intros H [U1 U2 U3]. constructor; auto. intros u j m. rewrite <- H. auto. Qed.

  Section Monadic.
    Local Open Scope M_scope.

    (** one neighbour [o] of [t] unlinked, and [kv] put in the place of [v] all around *)
    Definition side_post (P : nat -> Prop) o t x v kv (d : side -> side) s fan s' : Prop :=
      registered s' /\ follows s s' /\ (forall u, t_stops (ts s' u) = t_stops (ts s u)) /\
      NoDup fan /\ (forall u, In u fan -> P u) /\
      (forall u i, corner s' u i = sub1 v kv fan u (corner s u i)) /\ lk s s' o t x /\
      match o with
      | None => fan = []
      | Some a => exists i, link s a i = Some t /\
          (forall w j, link s' w j = if (Nat.eqb a w && side_eqb i j)%bool then x else link s w j) /\
          ((forall k, corner s a k = v -> d k <> i) -> is_fan s v d (Some a) fan)
      end.

    Lemma side_block (P : nat -> Prop) o t x v kv now d s fan s' : registered s -> v <> kv ->
      (forall u i w, P u -> link s u i = Some w -> P w) -> (forall a, o = Some a -> P a) -> (forall y, x = Some y -> P y) ->
      (forall u i j, P u -> corner s u i = v -> corner s u j = v -> i = j) ->
      match o with
      | None => ret []
      | Some a => relink a t x ;;
          let! fan := replace_kvertex a v kv now d in schedule_if_tiny fan kv now d ;; ret fan
      end s = Ok (fan, s') ->
      side_post P o t x v kv d s fan s'.
    Proof.
      intros R N C Po Px DI H. unfold side_post. destruct o as [a|].
      - apply bind_ok in H. destruct H as (u0 & s1 & H1 & H). apply bind_ok in H. destruct H as (fan' & s2 & H2 & H).
        apply bind_ok in H. destruct H as (u1 & s3 & H3 & H). apply ret_ok in H. destruct H as [-> ->].
        destruct (relink_replace P a t x v kv now d s u0 s1 fan' s2 R N C (Po a eq_refl) Px DI H1 H2)
          as (R2 & F2 & ST & ND & IN & CC & i & I1 & I2 & I3).
        apply quiet_tiny in H3; [|exact R2]. destruct H3 as (R3 & F3 & M3).
        split; [exact R3|]. split; [apply (G_trans base_sound _ _ _ F2 F3)|].
        split; [intros u; destruct (M3 u) as (_ & _ & ->); apply ST|].
        split; [exact ND|]. split; [exact IN|].
        split; [intros u j; rewrite (mesh_same_corner s2 s3) by auto; apply CC|].
        assert (LL : forall w j, link s3 w j = if (Nat.eqb a w && side_eqb i j)%bool then x else link s w j).
        { intros w j. rewrite (mesh_same_link s2 s3) by auto. apply I2. }
        split; [cbn [lk]; eauto|]. eauto.
      - apply ret_ok in H. destruct H as [-> ->]. split; [exact R|]. split; [apply follows_refl|]. split; [auto|].
        split; [constructor|]. split; [intros u []|]. split; [intros u i; rewrite sub1_out; auto|].
        split; [cbn [lk]; auto|reflexivity].
    Qed.

    Lemma unlink_ok o t now s u s' : registered s -> unlink_and_schedule o t now s = Ok (u, s') ->
      registered s' /\ follows s s' /\ (forall w, t_v (ts s' w) = t_v (ts s w) /\ t_stops (ts s' w) = t_stops (ts s w)) /\
      lk s s' o t None.
    Proof.
      intros R H. destruct o as [n|]; cbn [unlink_and_schedule] in H.
      - apply bind_ok in H. destruct H as (u0 & s1 & H1 & H). apply relink_ok in H1; [|exact R].
        destruct H1 as (R1 & F1 & V1 & i & L1 & L2).
        apply bind_ok in H. destruct H as (y & s2 & H1 & H). apply gets_ok in H1. destruct H1 as [-> ->].
        assert (Q : quiet s1 s').
        { unfold whenM in H. destruct (_ && _)%bool; [eapply quiet_sched; eauto|].
          apply ret_ok in H. destruct H as [_ ->]. apply quiet_refl, R1. }
        destruct Q as (R2 & F2 & M2). split; [exact R2|]. split; [apply (G_trans base_sound _ _ _ F1 F2)|].
        split.
        { intros w. destruct (M2 w) as (-> & _ & ->). destruct (V1 w) as (-> & -> & _). auto. }
        exists i. split; [exact L1|]. intros w j. rewrite (mesh_same_link s1 s') by auto. apply L2.
      - apply ret_ok in H. destruct H as [_ ->]. split; [exact R|]. split; [apply follows_refl|]. split; [auto|].
        cbn [lk]. auto.
    Qed.

    Ltac peel H n s1 H1 := apply bind_ok in H; destruct H as (n & s1 & H1 & H).
    Ltac peel_ro H n := let s1 := fresh "s1" in let H1 := fresh "H1" in
      peel H n s1 H1; apply (fun R => R _ _ _ H1) in H1.
    Lemma ro_ok {X} (m : M X) s x s' : ro m -> m s = Ok (x, s') -> s' = s.
    Proof. intros R H. eapply R, H. Qed.

    Lemma tstops_ok t now s u s' : registered s -> set_tstops t now s = Ok (u, s') ->
      registered s' /\ follows s s' /\ (forall w, t_v (ts s' w) = t_v (ts s w) /\ t_n (ts s' w) = t_n (ts s w)) /\
      t_stops (ts s' t) = Some now /\ (forall w, w <> t -> t_stops (ts s' w) = t_stops (ts s w)).
    Proof.
      intros R H. destruct (keeps_tstops base_sound now t s R u s' H) as [A1 A2].
      split; [exact A1|]. split; [exact A2|]. apply modt_spec in H. subst s'. cbn. split; [|split].
      - intros w. destruct (upd_case (ts s) t (tri_stops (ts s t) (Some now)) w) as [[-> ->]|[_ ->]]; auto.
      - rewrite upd_same. reflexivity.
      - intros w Hw. rewrite upd_other by auto. reflexivity.
    Qed.

    Lemma fast_ok (m : M unit) kv (s s1 s' : state) b u : registered s -> kv < nv s -> vattr kv k_inf_fast s = Ok (b, s1) ->
      whenM b m s1 = Ok (u, s') -> (forall x t, registered x -> m x = Ok (tt, t) -> registered t /\ follows x t) ->
      k_inf_fast (vs s' kv) = false -> s' = s.
    Proof.
      intros R V H K F N. unfold vattr in H. apply rd_ok in H. destruct H as [H ->].
      destruct b.
      - exfalso. unfold whenM in K. destruct u. apply F in K; [|exact R]. destruct K as [_ K].
        pose proof (sm_fast _ _ (fo_motion _ _ K kv V)) as Q. unfold kattr in H.
        match type of H with (if ?b then _ else _) = _ => destruct b; [discriminate|] end.
        injection H as H. congruence.
      - apply ret_ok in K. apply K.
    Qed.

    (** both neighbours of a collapsing side *)
    Lemma side_next D s t e kv s6 fa s7 : linked D s -> (forall u, D u -> distinct s u) -> D t ->
      kv <> corner s t (ccw e) -> mesh_same s s6 ->
      side_post D (link s t (ccw e)) t (link s t (cw e)) (corner s t (cw e)) kv cw s6 fa s7 ->
      (forall u i w, D u -> link s7 u i = Some w -> D w) /\
      (forall u i j, D u -> corner s7 u i = corner s t (ccw e) -> corner s7 u j = corner s t (ccw e) -> i = j).
    Proof.
      intros L DI Dt K1 M6 (R7 & F7 & ST7 & ND7 & IN7 & C7 & LK7 & FA).
      assert (NB : forall i y, link s t i = Some y -> D y) by (intros i y Hy; apply (L t i y Dt Hy)).
      split.
      - intros u i w Du Hw. destruct (link s t (ccw e)) as [a|] eqn:La.
        + destruct FA as (j & _ & I2 & _). rewrite I2 in Hw. destruct (_ && _)%bool; [eapply NB, Hw|].
          rewrite (mesh_same_link s s6) in Hw by exact M6. apply (L u i w Du Hw).
        + cbn [lk] in LK7. rewrite LK7, (mesh_same_link s s6) in Hw by exact M6. apply (L u i w Du Hw).
      - intros u i j Du. rewrite !C7, !(mesh_same_corner s s6) by exact M6. unfold sub1. intros E1 E2. apply (DI u Du).
        destruct (Nat.eq_dec (corner s u i) (corner s t (cw e))), (Nat.eq_dec (corner s u j) (corner s t (cw e))), (in_dec Nat.eq_dec u fa); congruence.
    Qed.

    Lemma two_sides D s t e kv s6 fa s7 fb s8 s9 : linked D s -> (forall u, D u -> distinct s u) -> D t -> apart s t ->
      kv <> corner s t (ccw e) -> kv <> corner s t (cw e) -> mesh_same s s6 ->
      side_post D (link s t (ccw e)) t (link s t (cw e)) (corner s t (cw e)) kv cw s6 fa s7 ->
      side_post D (link s t (cw e)) t (link s t (ccw e)) (corner s t (ccw e)) kv ccw s7 fb s8 ->
      lk s8 s9 (link s t e) t None ->
      side_fan s t (cw e) cw fa /\ side_fan s t (ccw e) ccw fb /\
      (forall u i, corner s8 u i = sub2 (corner s t (cw e)) (corner s t (ccw e)) kv fa fb u (corner s u i)) /\
      unl D s t (fun k => Some (joined s t e k)) s9.
    Proof.
      intros L DI Dt AP K1 K2 M6 (R7 & F7 & ST7 & ND7 & IN7 & C7 & LK7 & FA) (R8 & F8 & ST8 & ND8 & IN8 & C8 & LK8 & FB) LK9.
      set (v1 := corner s t (ccw e)) in *. set (v2 := corner s t (cw e)) in *.
      pose proof (unl_same D s t s6 M6) as U6.
      pose proof (unl_step D s t _ s6 (ccw e) _ s7 L DI Dt AP U6 LK7) as U7.
      assert (C7' : forall u i, corner s7 u i = sub1 v2 kv fa u (corner s u i)).
      { intros u i. rewrite C7, (mesh_same_corner s s6) by exact M6. reflexivity. }
      assert (FAN_A : side_fan s t (cw e) cw fa).
      { unfold side_fan. rewrite cw_cw. destruct (link s t (ccw e)) as [a|] eqn:La; [|exact FA].
        destruct FA as (i & I1 & I2 & I3).
        destruct (unl_dart D s t _ s6 (ccw e) a i L DI Dt AP U6 La I1) as (Da & Na & J1 & J2).
        split; [|exact ND7].
        apply (fan_weaken s6); [intros u p _ Hp; rewrite (mesh_same_corner s s6) in Hp by exact M6;
          rewrite (mesh_same_link s s6) by exact M6; auto|].
        apply I3. intros p Hp. rewrite (mesh_same_corner s s6) in Hp by exact M6.
        rewrite <- (cw_cw e) in J2. pose proof (turn_eq cw (cw e) a t s i (or_introl eq_refl) J2) as T1.
        unfold v2 in Hp. rewrite <- T1 in Hp. apply (DI a Da) in Hp. subst p. destruct i; discriminate. }
      pose proof (unl_step D s t _ s7 (cw e) _ s8 L DI Dt AP U7 LK8) as U8.
      assert (C8' : forall u i, corner s8 u i = sub2 v2 v1 kv fa fb u (corner s u i)).
      { intros u i. rewrite C8, C7'. reflexivity. }
      assert (N12 : v1 <> v2) by (intros Q; apply (DI t Dt) in Q; destruct e; discriminate).
      assert (N01 : corner s t e <> v1) by (intros Q; apply (DI t Dt) in Q; destruct e; discriminate).
      assert (C71 : forall u p, corner s7 u p = v1 -> corner s u p = v1).
      { intros u p. rewrite C7'. unfold sub1. destruct (Nat.eq_dec _ v2), (in_dec Nat.eq_dec u fa); congruence. }
      assert (FAN_B : side_fan s t (ccw e) ccw fb).
      { unfold side_fan. rewrite ccw_ccw. destruct (link s t (cw e)) as [b|] eqn:Lb; [|exact FB].
        destruct FB as (i & I1 & I2 & I3).
        destruct (unl_dart D s t _ s7 (cw e) b i L DI Dt AP U7 Lb I1) as (Db & Nb & J1 & J2).
        split; [|exact ND8].
        apply (fan_weaken s7).
        - intros u p Hu Hp. apply C71 in Hp. split; [exact Hp|].
          destruct (link s t (ccw e)) as [a|] eqn:La.
          + destruct FA as (ja & A1 & A2 & _). rewrite A2.
            destruct (Nat.eqb_spec a u) as [<-|]; [|cbn [andb]; symmetry; apply mesh_same_link, M6].
            cbn [andb]. destruct (side_eqb_spec ja (ccw p)) as [->|]; [|symmetry; apply mesh_same_link, M6].
            exfalso.
            destruct (unl_dart D s t _ s6 (ccw e) a (ccw p) L DI Dt AP U6 La A1) as (Da & Na & B1 & B2 & B3).
            rewrite ccw_ccw, cw_ccw in B2. rewrite cw_ccw, ccw_ccw in B3. unfold v2 in *. congruence.
          + cbn [lk] in LK7. rewrite LK7. symmetry. apply mesh_same_link, M6.
        - apply I3. intros p Hp. apply C71 in Hp.
          rewrite <- (ccw_ccw e) in J2. pose proof (turn_eq ccw (ccw e) b t s i (or_intror eq_refl) J2) as T1.
          unfold v1 in Hp. rewrite <- T1 in Hp. apply (DI b Db) in Hp. subst p. destruct i; discriminate. }
      pose proof (unl_step D s t _ s8 e _ s9 L DI Dt AP U8 LK9) as U9.
      split; [exact FAN_A|]. split; [exact FAN_B|]. split; [exact C8'|].
      revert U9. apply unl_ext. intros m. unfold put, joined. destruct m, e; reflexivity.
    Qed.

    (** no fan is handled *)
    Definition no_fans : list nat -> nat -> num -> ParallelEvent.turn -> Z -> M unit := fun _ _ _ _ _ => ret tt.
    Ltac peel2 H G n s1 H1 := apply bind_ok in H; destruct H as (n & s1 & H1 & H);
      match type of G with ?g = bind _ ?k _ => match type of H1 with _ = Ok (?x, ?s2) =>
        let G' := fresh in assert (G' : g = k x s2) by (rewrite G; apply (bind_eq _ k _ _ _ H1));
        clear G; rename G' into G; cbv beta in G end end.

    (** what an edge event does to corners, links and stops, up to the moment where an
        infinitely fast new vertex is handled *)
    Theorem edge_until fans D s evt step e s' :
      registered s -> shaped s -> linked D s -> (forall u, D u -> distinct s u) -> D (ev_tri evt) -> apart s (ev_tri evt) ->
      ev_side evt = [e] -> handle_edge_event_with fans evt step s = Ok (tt, s') ->
      let t := ev_tri evt in
      let v1 := corner s t (ccw e) in
      let v2 := corner s t (cw e) in
      exists kv fa fb s10, registered s10 /\ follows s s10 /\ nv s <= kv < nv s10 /\
      side_fan s t (cw e) cw fa /\ side_fan s t (ccw e) ccw fb /\
      (forall u i, corner s10 u i = sub2 v2 v1 kv fa fb u (corner s u i)) /\
      unl D s t (fun k => Some (joined s t e k)) s10 /\
      t_stops (ts s10 t) = Some (ev_time evt) /\
      (forall u, u <> t -> t_stops (ts s10 u) = t_stops (ts s u)) /\
      whenM (k_inf_fast (vs s10 kv)) (parallel_fan_of fans fa fb kv (ev_time evt) step) s10 = Ok (tt, s') /\
      handle_edge_event_with no_fans evt step s = Ok (tt, s10).
    Proof.
      intros R SH L DI Dt AP SE H.
      remember (handle_edge_event_with no_fans evt step s) as g eqn:G.
      unfold handle_edge_event_with in H, G. rewrite SE in H, G.
      set (t := ev_tri evt) in *. set (now := ev_time evt) in *.
      peel2 H G x s1 H1. apply gets_ok in H1. destruct H1 as [-> ->].
      change (get3 (t_v (ts s t)) (ccw e)) with (corner s t (ccw e)) in H, G.
      change (get3 (t_v (ts s t)) (cw e)) with (corner s t (cw e)) in H, G.
      set (v1 := corner s t (ccw e)) in *. set (v2 := corner s t (cw e)) in *.
      peel2 H G x s1 H1. apply ro_ok in H1; [|auto with ro]. subst s1.
      peel2 H G k1 s1 H1. apply ro_ok in H1; [|auto with ro]. subst s1.
      peel2 H G k2 s1 H1. apply ro_ok in H1; [|auto with ro]. subst s1.
      peel2 H G bi s1 H1. apply ro_ok in H1; [|auto with ro]. subst s1.
      peel2 H G pos s1 H1. apply ro_ok in H1; [|auto with ro]. subst s1.
      peel2 H G nd s1 H1. apply quiet_stop in H1; [|exact R]. destruct H1 as [Q1 N1].
      peel2 H G k1' s2 H1. apply ro_ok in H1; [|auto with ro]. subst s2.
      peel2 H G k2' s2 H1. apply ro_ok in H1; [|auto with ro]. subst s2.
      peel2 H G len s2 H1. apply ro_ok in H1; [|auto with ro]. subst s2.
      peel2 H G kv s2 H1. apply quiet_newv in H1; [|apply Q1|exact N1]. destruct H1 as (Q2 & KV & KVlt).
      peel2 H G y1 s3 H1. apply quiet_wf in H1; [|apply Q2]. rename H1 into Q3.
      peel2 H G y2 s4 H1. apply ro_ok in H1; [|destruct (kleft k1'); [apply ro_bind; auto with ro|auto with ro]]. subst s4.
      peel2 H G y3 s4 H1. apply ro_ok in H1; [|destruct (kright k2'); [apply ro_bind; auto with ro|auto with ro]]. subst s4.
      assert (V3 : kv < nv s3) by (pose proof (fo_nv _ _ (proj1 (proj2 Q3))); lia).
      peel2 H G y4 s4 H1. apply quiet_addv in H1; [|apply Q3|exact V3]. rename H1 into Q4.
      peel2 H G y5 s5 H1. apply quiet_circ in H1; [|apply Q4]. rename H1 into Q5.
      peel2 H G k2'' s6 H1. apply ro_ok in H1; [|auto with ro]. subst s6.
      peel2 H G y6 s6 H1. apply quiet_circ in H1; [|apply Q5]. rename H1 into Q6.
      peel2 H G k s7 H1. apply ro_ok in H1; [|auto with ro]. subst s7.
      peel2 H G wl s7 H1. apply ro_ok in H1; [|auto with ro]. subst s7.
      peel2 H G y7 s7 H1. apply ro_ok in H1; [|auto with ro]. subst s7.
      peel2 H G wr s7 H1. apply ro_ok in H1; [|auto with ro]. subst s7.
      peel2 H G y8 s7 H1. apply ro_ok in H1; [|auto with ro]. subst s7.
      assert (KV0 : nv s <= kv) by (subst kv; apply (fo_nv _ _ (proj1 (proj2 Q1)))).
      assert (Q : quiet s s6).
      { apply (quiet_trans _ s1); [exact Q1|]. apply (quiet_trans _ s2); [exact Q2|]. apply (quiet_trans _ s3); [exact Q3|].
        apply (quiet_trans _ s4); [exact Q4|]. apply (quiet_trans _ s5); assumption. }
      assert (V6 : kv < nv s6).
      { pose proof (fo_nv _ _ (proj1 (proj2 Q4))). pose proof (fo_nv _ _ (proj1 (proj2 Q5))). pose proof (fo_nv _ _ (proj1 (proj2 Q6))). lia. }
      clear Q1 Q2 Q3 Q4 Q5 Q6. destruct Q as (R6 & F6 & M6).
      peel2 H G y9 s7 H1. apply gets_ok in H1. destruct H1 as [-> ->].
      change (get3 (t_n (ts s6 t)) (ccw e)) with (link s6 t (ccw e)) in H, G.
      change (get3 (t_n (ts s6 t)) (cw e)) with (link s6 t (cw e)) in H, G.
      change (get3 (t_n (ts s6 t)) e) with (link s6 t e) in H, G.
      rewrite !(mesh_same_link s s6) in H, G by exact M6.
      assert (LT : forall v i, corner s v i < nv s) by (intros v i; apply (sh_v _ SH)).
      assert (K1 : kv <> v1) by (specialize (LT t (ccw e)); unfold v1; lia).
      assert (K2 : kv <> v2) by (specialize (LT t (cw e)); unfold v2; lia).
      assert (NB : forall i y, link s t i = Some y -> D y) by (intros i y Hy; apply (L t i y Dt Hy)).
      (* the first neighbour *)
      peel2 H G fa s7 H1. apply (side_block D) in H1; auto.
      2:{ intros u i w Du. rewrite (mesh_same_link s s6) by exact M6. intros Hw. apply (L u i w Du Hw). }
      2:{ intros a Ha. eapply NB, Ha. }
      2:{ intros a Ha. eapply NB, Ha. }
      2:{ intros u i j Du. rewrite !(mesh_same_corner s s6) by exact M6. intros E1 E2. apply (DI u Du). congruence. }
      pose proof H1 as (R7 & F7 & ST7 & _). rename H1 into B7.
      destruct (side_next D s t e kv s6 fa s7 L DI Dt K1 M6 B7) as [CL7 UQ7].
      (* the second neighbour *)
      peel2 H G fb s8 H1. apply (side_block D) in H1; auto.
      2:{ intros a Ha. eapply NB, Ha. }
      2:{ intros a Ha. eapply NB, Ha. }
      pose proof H1 as (R8 & F8 & ST8 & _). rename H1 into B8.
      (* the third neighbour *)
      peel2 H G y10 s9 H1. apply unlink_ok in H1; [|exact R8]. destruct H1 as (R9 & F9 & V9 & LK9).
      destruct (two_sides D s t e kv s6 fa s7 fb s8 s9 L DI Dt AP K1 K2 M6 B7 B8 LK9) as (FAN_A & FAN_B & C8' & U9).
      fold v1 v2 in C8'.
      peel2 H G y11 s10 H1. apply tstops_ok in H1; [|exact R9]. destruct H1 as (R10 & F10 & V10 & ST10 & ST10').
      peel2 H G fast s11 H1. unfold vattr in H1. apply rd_ok in H1. destruct H1 as [H1 ->].
      assert (FQ : fast = k_inf_fast (vs s10 kv)).
      { unfold kattr in H1. match type of H1 with (if ?b then _ else _) = _ => destruct b; [discriminate|] end.
        injection H1 as H1. congruence. }
      subst fast. clear H1.
      exists kv, fa, fb, s10. split; [exact R10|].
      split; [apply (G_trans base_sound _ _ _ F6); apply (G_trans base_sound _ _ _ F7); apply (G_trans base_sound _ _ _ F8);
              apply (G_trans base_sound _ _ _ F9); exact F10|].
      split; [pose proof (fo_nv _ _ F7); pose proof (fo_nv _ _ F8); pose proof (fo_nv _ _ F9); pose proof (fo_nv _ _ F10); lia|].
      split; [exact FAN_A|]. split; [exact FAN_B|]. split; [|split; [|split; [exact ST10|split; [|split; [exact H|]]]]].
      - intros u i. rewrite <- C8'. unfold corner. destruct (V10 u) as [-> _], (V9 u) as [-> _]. reflexivity.
      - assert (L10 : forall w j, link s10 w j = link s9 w j) by (intros w j; unfold link; destruct (V10 w) as [_ ->]; reflexivity).
        destruct U9 as [U1 U2 U3]. constructor; intros; rewrite L10; auto.
      - intros u Hu. rewrite (ST10' u Hu). destruct (V9 u) as [_ ->]. rewrite ST8, ST7. apply M6.
      - rewrite G. destruct (k_inf_fast (vs s10 kv)), fa, fb; reflexivity.
    Qed.

    (** if the new vertex is not infinitely fast this is all *)
    Theorem edge_effect D s evt step e s' :
      registered s -> shaped s -> linked D s -> (forall u, D u -> distinct s u) -> D (ev_tri evt) -> apart s (ev_tri evt) ->
      ev_side evt = [e] -> handle_edge_event evt step s = Ok (tt, s') ->
      (forall v, nv s <= v < nv s' -> k_inf_fast (vs s' v) = false) ->
      let t := ev_tri evt in
      let v1 := corner s t (ccw e) in
      let v2 := corner s t (cw e) in
      exists kv fa fb, nv s <= kv < nv s' /\
      side_fan s t (cw e) cw fa /\ side_fan s t (ccw e) ccw fb /\
      (forall u i, corner s' u i = sub2 v2 v1 kv fa fb u (corner s u i)) /\
      unl D s t (fun k => Some (joined s t e k)) s' /\
      t_stops (ts s' t) = Some (ev_time evt) /\
      (forall u, u <> t -> t_stops (ts s' u) = t_stops (ts s u)).
    Proof.
      intros R SH L DI Dt AP SE H NF.
      destruct (edge_until _ D s evt step e s' R SH L DI Dt AP SE H) as (kv & fa & fb & s10 & R10 & F10 & KV & FA & FB & C & U & S1 & S2 & W & _).
      assert (FF : follows s10 s').
      { apply (keeps_whenM base_sound (ev_time evt) _ _ (keeps_fan_of base_sound _ fa fb kv (ev_time evt) step (keeps_parallel_fan base_sound reclimit)) s10 R10 _ _ W). }
      destruct (k_inf_fast (vs s10 kv)) eqn:Q.
      - exfalso. assert (V : kv < nv s10) by lia. pose proof (sm_fast _ _ (fo_motion _ _ FF kv V)) as Q2.
        rewrite NF in Q2 by (pose proof (fo_nv _ _ FF); lia). congruence.
      - apply ret_ok in W. destruct W as [_ ->]. exists kv, fa, fb. repeat (split; [assumption|]). assumption.
    Qed.

    Theorem edge_mesh D s evt step e s' :
      registered s -> shaped s -> linked D s -> (forall u, D u -> distinct s u) -> D (ev_tri evt) -> apart s (ev_tri evt) ->
      ev_side evt = [e] -> handle_edge_event evt step s = Ok (tt, s') ->
      (forall v, nv s <= v < nv s' -> k_inf_fast (vs s' v) = false) ->
      linked (fun u => D u /\ u <> ev_tri evt) s' /\
      t_stops (ts s' (ev_tri evt)) = Some (ev_time evt) /\
      (forall u, u <> ev_tri evt -> t_stops (ts s' u) = t_stops (ts s u)) /\
      (forall u, D u -> u <> ev_tri evt ->
        ~ (exists i j, corner s u i = corner s (ev_tri evt) (ccw e) /\ corner s u j = corner s (ev_tri evt) (cw e)) ->
        distinct s' u).
    Proof.
      intros R SH L DI Dt AP SE H NF.
      destruct (edge_effect D s evt step e s' R SH L DI Dt AP SE H NF) as (kv & fa & fb & KV & FA & FB & C & U & S1 & S9).
      set (t := ev_tri evt) in *. set (v1 := corner s t (ccw e)) in *. set (v2 := corner s t (cw e)) in *.
      assert (LT : forall v i, corner s v i < nv s) by (intros v i; apply (sh_v _ SH)).
      split; [|split; [exact S1|split; [exact S9|]]].
      - apply (edge_linked D s t e kv fa fb s'); auto.
        + specialize (LT t (ccw e)). unfold v1 in *. lia.
        + specialize (LT t (cw e)). unfold v2 in *. lia.
        + intros f Hf. revert U. apply unl_ext. auto.
      - intros u Du Nu NV i j. rewrite !C. unfold sub2, sub1. specialize (DI u Du). pose proof (LT u i). pose proof (LT u j).
        intros Q. destruct (Nat.eq_dec (corner s u i) v2), (Nat.eq_dec (corner s u j) v2), (in_dec Nat.eq_dec u fa); try (apply DI; congruence);
        repeat (match type of Q with context [Nat.eq_dec ?a ?b] => destruct (Nat.eq_dec a b) | context [in_dec Nat.eq_dec ?a ?b] => destruct (in_dec Nat.eq_dec a b) end; try (apply DI; congruence));
        try (exfalso; lia); try (exfalso; apply NV; eexists _, _; split; eassumption).
    Qed.

    (** ** The end of a split event: both neighbours unlinked *)
    Lemma split_linked D s t e va vb la lb s' : linked D s -> (forall u, D u -> distinct s u) -> D t -> apart s t ->
      link s t e = None -> (forall u, In u la -> In u lb -> False) ->
      side_fan s t e cw la -> side_fan s t e ccw lb ->
      (forall f, f (ccw e) = Some None -> f (cw e) = Some None -> unl D s t f s') ->
      (forall u i, corner s' u i = sub1 (corner s t e) va la u (sub1 (corner s t e) vb lb u (corner s u i))) ->
      vb <> corner s t e ->
      linked (fun u => D u /\ u <> t) s'.
    Proof.
      intros L DI Dt AP LE DJ Fa Fb U C Nb.
      pose proof (U (fun _ => Some None) eq_refl eq_refl) as [U1 U2 U3].
      apply (splice D s s' t (fun _ => None) (fun u p => sub1 (corner s t e) va la u (sub1 (corner s t e) vb lb u p))); auto.
      - intros u i w j Du Dw Nu Nw H1 H2 H3 k Nk. cbn beta.
        rewrite (sub1_iff _ vb lb u w (corner s u k)).
        2:{ intros Q. apply (fan_stable D s t e ccw lb L DI Dt (or_intror eq_refl) Fb u i w j Nu Nw H1 H2 H3 k Nk Q). }
        apply sub1_iff. intros Q.
        assert (Q' : corner s u k = corner s t e).
        { revert Q. unfold sub1. destruct (Nat.eq_dec _ _); [|auto]. destruct (in_dec _ _ _); [congruence|auto]. }
        apply (fan_stable D s t e cw la L DI Dt (or_introl eq_refl) Fa u i w j Nu Nw H1 H2 H3 k Nk Q').
      - intros m u j w Du Nu M1 M2 M3 Q. discriminate.
    Qed.

    (** what a split event does to corners, links and stops, up to the moment where an
        infinitely fast new vertex is handled *)
    Theorem split_until fans D s evt step e s' :
      (forall fan v d x y, registered x -> fans fan v (ev_time evt) d step x = Ok (tt, y) -> follows x y) ->
      registered s -> shaped s -> linked D s -> (forall u, D u -> distinct s u) -> D (ev_tri evt) -> apart s (ev_tri evt) ->
      ev_side evt = [e] -> handle_split_event_with fans evt step s = Ok (tt, s') ->
      let t := ev_tri evt in
      let v := corner s t e in
      exists vb va fb fa s10, registered s10 /\ follows s s10 /\ nv s <= vb /\ vb < va /\ va < nv s10 /\
      link s t e = None /\ link s t (ccw e) <> None /\ link s t (cw e) <> None /\
      side_fan s t e cw fa /\ side_fan s t e ccw fb /\ (forall u, In u fa -> In u fb -> False) /\
      (forall u i, corner s10 u i = sub1 v va fa u (sub1 v vb fb u (corner s u i))) /\
      unl D s t (fun _ => Some None) s10 /\
      t_stops (ts s10 t) = Some (ev_time evt) /\
      (forall u, u <> t -> t_stops (ts s10 u) = t_stops (ts s u)) /\
      (exists s11, whenM (k_inf_fast (vs s10 va)) (fans fa va (ev_time evt) Cw step) s10 = Ok (tt, s11) /\
         whenM (k_inf_fast (vs s10 vb)) (fans fb vb (ev_time evt) Ccw step) s11 = Ok (tt, s')) /\
      handle_split_event_with no_fans evt step s = Ok (tt, s10).
    Proof.
      intros FN R SH L DI Dt AP SE H.
      remember (handle_split_event_with no_fans evt step s) as g eqn:G.
      unfold handle_split_event_with in H, G. rewrite SE in H, G.
      set (t := ev_tri evt) in *. set (now := ev_time evt) in *.
      peel2 H G x s1 H1. apply gets_ok in H1. destruct H1 as [-> ->].
      change (get3 (t_v (ts s t)) e) with (corner s t e) in H, G.
      change (get3 (t_v (ts s t)) (ccw e)) with (corner s t (ccw e)) in H, G.
      change (get3 (t_v (ts s t)) (cw e)) with (corner s t (cw e)) in H, G.
      set (v := corner s t e) in *. set (v1 := corner s t (ccw e)) in *. set (v2 := corner s t (cw e)) in *.
      peel2 H G x s1 H1. apply assertM_ok in H1. destruct H1 as [LE ->].
      change (get3 (t_n (ts s t)) e) with (link s t e) in LE.
      assert (LE' : link s t e = None) by (destruct (link s t e); [discriminate|reflexivity]). clear LE.
      peel2 H G y1 s1 H1. apply ro_ok in H1; [|auto with ro]. subst s1.
      peel2 H G nd s1 H1. apply quiet_stop in H1; [|exact R]. destruct H1 as [Q1 N1].
      peel2 H G k s2 H1. apply ro_ok in H1; [|auto with ro]. subst s2.
      peel2 H G k1 s2 H1. apply ro_ok in H1; [|auto with ro]. subst s2.
      peel2 H G k2 s2 H1. apply ro_ok in H1; [|auto with ro]. subst s2.
      peel2 H G y2 s2 H1. apply ro_ok in H1; [|auto with ro]. subst s2.
      peel2 H G len s2 H1. apply ro_ok in H1; [|auto with ro]. subst s2.
      peel2 H G vb s2 H1. apply quiet_newv in H1; [|apply Q1|exact N1]. destruct H1 as (Q2 & VB & VBlt).
      peel2 H G y3 s3 H1. apply quiet_wf in H1; [|apply Q2]. rename H1 into Q3.
      assert (V3 : vb < nv s3) by (pose proof (fo_nv _ _ (proj1 (proj2 Q3))); lia).
      peel2 H G y4 s4 H1. apply quiet_addv in H1; [|apply Q3|exact V3]. rename H1 into Q4.
      peel2 H G len2 s5 H1. apply ro_ok in H1; [|auto with ro]. subst s5.
      assert (N4 : In nd (sk_nodes s4)).
      { destruct (fo_nodes _ _ (proj1 (proj2 Q2))) as [l2 E2]. destruct (fo_nodes _ _ (proj1 (proj2 Q3))) as [l3 E3].
        destruct (fo_nodes _ _ (proj1 (proj2 Q4))) as [l4 E4]. rewrite E4, E3, E2. rewrite !in_app_iff. auto. }
      peel2 H G va s5 H1. apply quiet_newv in H1; [|apply Q4|exact N4]. destruct H1 as (Q5 & VA & VAlt).
      peel2 H G y5 s6 H1. apply quiet_wf in H1; [|apply Q5]. rename H1 into Q6.
      assert (V6 : va < nv s6) by (pose proof (fo_nv _ _ (proj1 (proj2 Q6))); lia).
      peel2 H G y6 s7 H1. apply quiet_addv in H1; [|apply Q6|exact V6]. rename H1 into Q7.
      peel2 H G y7 s8 H1. apply quiet_circ in H1; [|apply Q7]. rename H1 into Q8.
      peel2 H G y8 s9 H1. apply quiet_circ in H1; [|apply Q8]. rename H1 into Q9.
      peel2 H G kb s10 H1. apply ro_ok in H1; [|auto with ro]. subst s10.
      peel2 H G wl s10 H1. apply ro_ok in H1; [|auto with ro]. subst s10.
      peel2 H G y9 s10 H1. apply ro_ok in H1; [|auto with ro]. subst s10.
      peel2 H G wr s10 H1. apply ro_ok in H1; [|auto with ro]. subst s10.
      peel2 H G y10 s10 H1. apply ro_ok in H1; [|auto with ro]. subst s10.
      peel2 H G y11 s10 H1. apply quiet_circ in H1; [|apply Q9]. rename H1 into Q10.
      peel2 H G k' s11 H1. apply ro_ok in H1; [|auto with ro]. subst s11.
      peel2 H G y12 s11 H1. apply quiet_circ in H1; [|apply Q10]. rename H1 into Q11.
      peel2 H G ka s12 H1. apply ro_ok in H1; [|auto with ro]. subst s12.
      peel2 H G wl2 s12 H1. apply ro_ok in H1; [|auto with ro]. subst s12.
      peel2 H G y13 s12 H1. apply ro_ok in H1; [|auto with ro]. subst s12.
      peel2 H G wr2 s12 H1. apply ro_ok in H1; [|auto with ro]. subst s12.
      peel2 H G y14 s12 H1. apply ro_ok in H1; [|auto with ro]. subst s12.
      assert (VB0 : nv s <= vb) by (subst vb; apply (fo_nv _ _ (proj1 (proj2 Q1)))).
      assert (VA0 : nv s <= va /\ vb < va).
      { pose proof (fo_nv _ _ (proj1 (proj2 Q2))). pose proof (fo_nv _ _ (proj1 (proj2 Q3))). pose proof (fo_nv _ _ (proj1 (proj2 Q4))). lia. }
      assert (VM : va < nv s11).
      { pose proof (fo_nv _ _ (proj1 (proj2 Q7))). pose proof (fo_nv _ _ (proj1 (proj2 Q8))). pose proof (fo_nv _ _ (proj1 (proj2 Q9))).
        pose proof (fo_nv _ _ (proj1 (proj2 Q10))). pose proof (fo_nv _ _ (proj1 (proj2 Q11))). lia. }
      assert (Q : quiet s s11).
      { apply (quiet_trans _ s1); [exact Q1|]. apply (quiet_trans _ s2); [exact Q2|]. apply (quiet_trans _ s3); [exact Q3|].
        apply (quiet_trans _ s4); [exact Q4|]. apply (quiet_trans _ s5); [exact Q5|]. apply (quiet_trans _ s6); [exact Q6|].
        apply (quiet_trans _ s7); [exact Q7|]. apply (quiet_trans _ s8); [exact Q8|]. apply (quiet_trans _ s9); [exact Q9|].
        apply (quiet_trans _ s10); assumption. }
      clear Q1 Q2 Q3 Q4 Q5 Q6 Q7 Q8 Q9 Q10 Q11 N1 N4 V3 V6 VBlt VAlt. destruct Q as (R6 & F6 & M6).
      peel2 H G y15 s12 H1. apply gets_ok in H1. destruct H1 as [-> ->].
      change (get3 (t_n (ts s11 t)) (ccw e)) with (link s11 t (ccw e)) in H, G.
      rewrite (mesh_same_link s s11) in H, G by exact M6.
      destruct (link s t (ccw e)) as [b|] eqn:Lb; [|discriminate].
      assert (LT : forall v i, corner s v i < nv s) by (intros w i; apply (sh_v _ SH)).
      assert (K1 : vb <> v) by (specialize (LT t e); unfold v; lia).
      assert (K2 : va <> v) by (specialize (LT t e); unfold v; lia).
      assert (NB : forall i y, link s t i = Some y -> D y) by (intros i y Hy; apply (L t i y Dt Hy)).
      pose proof (unl_same D s t s11 M6) as U6.
      (* the first neighbour *)
      peel2 H G y16 s12 H1. peel2 H G fb s13 H2.
      assert (DB : D b) by (eapply NB, Lb).
      assert (CL11 : forall u i w, D u -> link s11 u i = Some w -> D w).
      { intros u i w Du. rewrite (mesh_same_link s s11) by exact M6. intros Hw. apply (L u i w Du Hw). }
      apply (relink_replace D b t None v vb now ccw s11 y16 s12) in H2; auto; [|discriminate|].
      2:{ intros u i j Du. rewrite !(mesh_same_corner s s11) by exact M6. intros E1 E2. apply (DI u Du). congruence. }
      destruct H2 as (R7 & F7 & ST7 & ND7 & IN7 & C7 & ib & I1 & I2 & I3). clear H1.
      destruct (unl_dart D s t _ s11 (ccw e) b ib L DI Dt AP U6 Lb I1) as (_ & Nb & J1 & J2).
      assert (LK7 : lk s11 s13 (link s t (ccw e)) t None) by (rewrite Lb; exists ib; auto).
      pose proof (unl_step D s t _ s11 (ccw e) _ s13 L DI Dt AP U6 LK7) as U7.
      assert (C7' : forall u i, corner s13 u i = sub1 v vb fb u (corner s u i)).
      { intros u i. rewrite C7, (mesh_same_corner s s11) by exact M6. reflexivity. }
      assert (FAN_B : side_fan s t e ccw fb).
      { unfold side_fan. rewrite Lb. split; [|exact ND7].
        apply (fan_weaken s11); [intros u p _ Hp; rewrite (mesh_same_corner s s11) in Hp by exact M6;
          rewrite (mesh_same_link s s11) by exact M6; auto|].
        apply I3. intros p Hp. rewrite (mesh_same_corner s s11) in Hp by exact M6.
        pose proof (turn_eq ccw e b t s ib (or_intror eq_refl) J2) as T1.
        unfold v in Hp. rewrite <- T1 in Hp. apply (DI b DB) in Hp. subst p. destruct ib; discriminate. }
      (* the second neighbour *)
      peel2 H G y17 s14 H1. apply gets_ok in H1. destruct H1 as [-> ->].
      change (get3 (t_n (ts s13 t)) (cw e)) with (link s13 t (cw e)) in H, G.
      rewrite (un_self _ _ _ _ _ U7) in H, G.
      destruct (link s t (cw e)) as [a|] eqn:La; [|discriminate].
      peel2 H G y18 s14 H1. peel2 H G fa s15 H2.
      assert (DA : D a) by (eapply NB, La).
      apply (relink_replace D a t None v va now cw s13 y18 s14) in H2; auto; [| |discriminate|].
      2:{ intros u i w Du. rewrite I2. destruct (_ && _)%bool; [discriminate|apply CL11, Du]. }
      2:{ intros u i j Du. rewrite !C7'. unfold sub1. intros E1 E2. apply (DI u Du).
          destruct (Nat.eq_dec (corner s u i) v), (Nat.eq_dec (corner s u j) v), (in_dec Nat.eq_dec u fb); congruence. }
      destruct H2 as (R8 & F8 & ST8 & ND8 & IN8 & C8 & ia & A1 & A2 & A3). clear H1.
      destruct (unl_dart D s t _ s13 (cw e) a ia L DI Dt AP U7 La A1) as (_ & Na & B1 & B2).
      assert (LK8 : lk s13 s15 (link s t (cw e)) t None) by (rewrite La; exists ia; auto).
      pose proof (unl_step D s t _ s13 (cw e) _ s15 L DI Dt AP U7 LK8) as U8.
      assert (C8' : forall u i, corner s15 u i = sub1 v va fa u (sub1 v vb fb u (corner s u i))).
      { intros u i. rewrite C8, C7'. reflexivity. }
      assert (C71 : forall u p, corner s13 u p = v -> corner s u p = v /\ ~ In u fb).
      { intros u p. rewrite C7'. unfold sub1. destruct (Nat.eq_dec _ v), (in_dec Nat.eq_dec u fb); try congruence; auto. }
      assert (Ib : In b fb) by (apply (side_fan_first s t e ccw fb b FAN_B Lb)).
      assert (FAN13 : is_fan s13 v cw (Some a) fa).
      { apply A3. intros p Hp. apply C71 in Hp. destruct Hp as [Hp _].
        pose proof (turn_eq cw e a t s ia (or_introl eq_refl) B2) as T1.
        unfold v in Hp. rewrite <- T1 in Hp. apply (DI a DA) in Hp. subst p. destruct ia; discriminate. }
      assert (FAN_A : side_fan s t e cw fa).
      { unfold side_fan. rewrite La. split; [|exact ND8].
        apply (fan_weaken s13); [|exact FAN13].
        intros u p Hu Hp. apply C71 in Hp. destruct Hp as [Hp Nu]. split; [exact Hp|].
        rewrite I2. destruct (Nat.eqb_spec b u) as [<-|]; [contradiction|].
        cbn [andb]. symmetry. apply mesh_same_link, M6. }
      assert (DJ : forall u, In u fa -> In u fb -> False).
      { intros u Hu Hb. destruct (is_fan_next s13 v cw (Some a) fa FAN13 u Hu) as (sd & Hs & _).
        apply C71 in Hs. destruct Hs as [_ Hs]. contradiction. }
      peel2 H G y19 s16 H1. apply tstops_ok in H1; [|exact R8]. destruct H1 as (R10 & F10 & V10 & ST10 & ST10').
      assert (VM2 : va < nv s16) by (pose proof (fo_nv _ _ F7); pose proof (fo_nv _ _ F8); pose proof (fo_nv _ _ F10); lia).
      assert (FQ : forall v b (x y : state), vattr v k_inf_fast x = Ok (b, y) -> b = k_inf_fast (vs x v) /\ y = x).
      { intros w b0 x0' y Q. unfold vattr in Q. apply rd_ok in Q. destruct Q as [Q ->]. split; [|reflexivity].
        unfold kattr in Q. match type of Q with (if ?b then _ else _) = _ => destruct b; [discriminate|] end.
        injection Q as Q. congruence. }
      peel2 H G fast s17 H1. apply FQ in H1. destruct H1 as [-> ->].
      peel H y20 s18 H2. destruct y20.
      assert (F18 : follows s16 s18).
      { destruct (k_inf_fast (vs s16 va)); [apply (FN _ _ _ _ _ R10 H2)|apply ret_ok in H2; destruct H2 as [_ ->]; apply follows_refl]. }
      peel H fast2 s19 H3.
      assert (VB2 : vattr vb k_inf_fast s16 = Ok (k_inf_fast (vs s16 vb), s16)).
      { unfold vattr, rd, kattr in H3 |- *. rewrite <- (sm_inf _ _ (fo_motion _ _ F18 vb ltac:(lia))).
        destruct (k_inf (vs s18 vb)); [discriminate H3|reflexivity]. }
      apply FQ in H3. destruct H3 as [-> ->].
      rewrite (sm_fast _ _ (fo_motion _ _ F18 vb ltac:(lia))) in H.
      assert (C : forall u i, corner s16 u i = sub1 v va fa u (sub1 v vb fb u (corner s u i))).
      { intros u i. rewrite <- C8'. unfold corner. destruct (V10 u) as [-> _]. reflexivity. }
      exists vb, va, fb, fa, s16. split; [exact R10|].
      split; [apply (G_trans base_sound _ _ _ F6); apply (G_trans base_sound _ _ _ F7); apply (G_trans base_sound _ _ _ F8); exact F10|].
      split; [lia|]. split; [lia|]. split; [exact VM2|].
      split; [exact LE'|]. split; [rewrite Lb; discriminate|]. split; [rewrite La; discriminate|].
      split; [exact FAN_A|]. split; [exact FAN_B|]. split; [exact DJ|]. split; [exact C|].
      split; [|split; [exact ST10|split; [|split; [exists s18; auto|]]]].
      - assert (U : unl D s t (put (put (fun _ => None) (ccw e) None) (cw e) None) s16).
        { assert (L10 : forall w j, link s16 w j = link s15 w j) by (intros w j; unfold link; destruct (V10 w) as [_ ->]; reflexivity).
          destruct U8 as [U1 U2 U3]. constructor; intros; rewrite L10; auto. }
        destruct U as [U1 U2 U3]. constructor; auto. intros u j m Du Nu P1 P2 P3. rewrite (U3 u j m); auto.
        assert (Hm : m = e \/ m = ccw e \/ m = cw e) by (destruct m, e; auto).
        destruct Hm as [->|[->| ->]]; [congruence| |]; unfold put; destruct e; reflexivity.
      - intros u Hu. rewrite (ST10' u Hu), ST8, ST7. apply M6.
      - rewrite G. unfold bind, no_fans. destruct (k_inf_fast (vs s16 va)); cbn [whenM];
          unfold ret; rewrite VB2; destruct (k_inf_fast (vs s16 vb)); reflexivity.
    Qed.

    (** if no new vertex is infinitely fast this is all *)
    Theorem split_effect D s evt step e s' :
      registered s -> shaped s -> linked D s -> (forall u, D u -> distinct s u) -> D (ev_tri evt) -> apart s (ev_tri evt) ->
      ev_side evt = [e] -> handle_split_event evt step s = Ok (tt, s') ->
      (forall v, nv s <= v < nv s' -> k_inf_fast (vs s' v) = false) ->
      let t := ev_tri evt in
      let v := corner s t e in
      exists vb va fb fa, nv s <= vb /\ vb < va /\ va < nv s' /\
      link s t e = None /\ link s t (ccw e) <> None /\ link s t (cw e) <> None /\
      side_fan s t e cw fa /\ side_fan s t e ccw fb /\ (forall u, In u fa -> In u fb -> False) /\
      (forall u i, corner s' u i = sub1 v va fa u (sub1 v vb fb u (corner s u i))) /\
      unl D s t (fun _ => Some None) s' /\
      t_stops (ts s' t) = Some (ev_time evt) /\
      (forall u, u <> t -> t_stops (ts s' u) = t_stops (ts s u)).
    Proof.
      intros R SH L DI Dt AP SE H NF.
      destruct (fun FN => split_until _ D s evt step e s' FN R SH L DI Dt AP SE H)
        as (vb & va & fb & fa & s10 & R10 & F10 & VB & VA & VL & LE & LB & LA & FA & FB & DJ & C & U & S1 & S9 & (s11 & W1 & W2) & _).
      { intros fan w d x y Rx Hx. apply (keeps_parallel_fan base_sound reclimit fan w (ev_time evt) d step x Rx _ _ Hx). }
      set (now := ev_time evt) in *.
      destruct (keeps_whenM base_sound now _ _ (keeps_parallel_fan base_sound reclimit fa va now Cw step) s10 R10 _ _ W1) as [R11 F11].
      destruct (keeps_whenM base_sound now _ _ (keeps_parallel_fan base_sound reclimit fb vb now Ccw step) s11 R11 _ _ W2) as [_ F12].
      pose proof (G_trans base_sound _ _ _ F11 F12) as F. cbn beta in F.
      pose proof (fo_nv _ _ F) as O.
      assert (Q : forall w, nv s <= w < nv s10 -> k_inf_fast (vs s10 w) = false).
      { intros w Hw. rewrite <- (NF w ltac:(lia)). symmetry. apply (sm_fast _ _ (fo_motion _ _ F w ltac:(lia))). }
      rewrite Q in W1, W2 by lia. apply ret_ok in W1, W2. destruct W1 as [_ ->], W2 as [_ ->].
      exists vb, va, fb, fa. repeat (split; [assumption|]). assumption.
    Qed.

    Theorem split_mesh D s evt step e s' :
      registered s -> shaped s -> linked D s -> (forall u, D u -> distinct s u) -> D (ev_tri evt) -> apart s (ev_tri evt) ->
      ev_side evt = [e] -> handle_split_event evt step s = Ok (tt, s') ->
      (forall v, nv s <= v < nv s' -> k_inf_fast (vs s' v) = false) ->
      linked (fun u => D u /\ u <> ev_tri evt) s' /\
      t_stops (ts s' (ev_tri evt)) = Some (ev_time evt) /\
      (forall u, u <> ev_tri evt -> t_stops (ts s' u) = t_stops (ts s u)) /\
      (forall u, D u -> u <> ev_tri evt -> distinct s' u).
    Proof.
      intros R SH L DI Dt AP SE H NF.
      destruct (split_effect D s evt step e s' R SH L DI Dt AP SE H NF)
        as (vb & va & fb & fa & VB & VA & VL & LE & _ & _ & FA & FB & DJ & C & U & S1 & S9).
      set (t := ev_tri evt) in *. set (v := corner s t e) in *.
      assert (LT : forall v i, corner s v i < nv s) by (intros w i; apply (sh_v _ SH)).
      split; [|split; [exact S1|split; [exact S9|]]].
      - apply (split_linked D s t e va vb fa fb s'); auto.
        + intros f Hf1 Hf2. destruct U as [U1 U2 U3]. constructor; auto. intros u j m Du Nu P1 P2 P3. rewrite (U3 u j m); auto.
          assert (Hm : m = e \/ m = ccw e \/ m = cw e) by (destruct m, e; auto).
          destruct Hm as [->|[->| ->]]; [congruence| |]; rewrite ?Hf1, ?Hf2; reflexivity.
        + specialize (LT t e). unfold v in *. lia.
      - intros u Du Nu i j. rewrite !C. unfold sub1. specialize (DI u Du). pose proof (LT u i). pose proof (LT u j).
        intros Q. destruct (Nat.eq_dec (corner s u i) v), (Nat.eq_dec (corner s u j) v), (in_dec Nat.eq_dec u fb); try (apply DI; congruence);
        repeat (match type of Q with context [Nat.eq_dec ?a ?b] => destruct (Nat.eq_dec a b) | context [in_dec Nat.eq_dec ?a ?b] => destruct (in_dec Nat.eq_dec a b) end; try (apply DI; congruence));
        try (exfalso; lia).
    Qed.
  End Monadic.
End MeshEdge.
