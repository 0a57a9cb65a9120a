(** The triangulation of the initial skeleton is consistently linked: the links of
    init_skeleton (initialize.py 203-222, 345-346) and the replacement of the
    triangles with two infinite corners (652-690). *)
From Coq Require Import Permutation.
From Verif Require Import Base Arith Calc VectorOps Line2d Primitives Collapse CollapseProofs EventsLib
  FlipEvent ParallelEvent EdgeEvent SplitEvent EventLoop Pass OpSpec Order StopSpec RunBase RunTimed RunLoop
  Decent Total FanProofs Mesh MeshRun Initialize StarProofs InitProofs InitState InitCirc Properties_init.

(** [b] comes after [a] in the ring [l] *)
Definition after {X} (l : list X) (a b : X) : Prop :=
  (exists l1 l2, l = l1 ++ a :: b :: l2) \/ (exists m, l = b :: m /\ a = last m b).

Lemma after_rotation {X} (p q : list X) a b : after (p ++ q) a b -> after (q ++ p) a b.
Proof.
  intros [(l1 & l2 & H)|(m & H & L)].
  - apply app_eq_app in H. destruct H as (l & [[-> K]|[-> K]]).
    + destruct l as [|x [|y l]]; cbn [app] in K.
      * subst q. left. exists [], (l2 ++ l1 ++ []). reflexivity.
      * injection K as <- <-. right. exists (l2 ++ l1 ++ [a]). split; [reflexivity|].
        rewrite app_assoc. symmetry. apply last_last.
      * injection K as <- <- ->. left. exists (q ++ l1), l. rewrite <- app_assoc. reflexivity.
    + subst q. left. exists l, (l2 ++ p). rewrite <- app_assoc. reflexivity.
  - destruct p as [|x p].
    + cbn [app] in H. subst q. right. exists m. rewrite app_nil_r. auto.
    + cbn [app] in H. injection H as -> <-. destruct q as [|z q _] using rev_ind.
      * right. exists p. rewrite app_nil_r in L. auto.
      * rewrite app_assoc, last_last in L. subst z. left. exists q, p. rewrite <- app_assoc. reflexivity.
Qed.

Lemma after_group {A : Arith} (d : dtriang (A:=A)) gs a b :
  Forall (fun g => exists e l, g = e :: l /\ ahead d (last l e) = true) gs ->
  ahead d a = false -> after (concat gs) a b -> exists g, In g gs /\ In a g /\ In b g.
Proof.
  intros F HA [(l1 & l2 & H)|(m & H & L)].
  - revert l1 l2 H. induction F as [|g gs (e & l & -> & G) F IH]; intros l1 l2 H.
    + destruct l1; discriminate H.
    + cbn [concat] in H. apply app_eq_app in H. destruct H as (k & [[K1 K2]|[K1 K2]]).
      * destruct k as [|x [|y k]]; cbn [app] in K2.
        -- destruct (IH [] l2 (eq_sym K2)) as (g & ? & ?). exists g. split; [right|]; assumption.
        -- injection K2 as <- K2. exfalso. rewrite <- (last_in e a l) in G. rewrite K1, last_last in G. congruence.
        -- injection K2 as <- <- K2. exists (e :: l). split; [left; reflexivity|]. rewrite K1.
           split; apply in_or_app; right; [left|right; left]; reflexivity.
      * destruct (IH k l2 K2) as (g & ? & ?). exists g. split; [right|]; assumption.
  - exfalso. destruct gs as [|g gs _] using rev_ind; [discriminate|].
    rewrite concat_app in H. cbn [concat] in H. rewrite app_nil_r in H.
    apply Forall_app in F. destruct F as [_ F]. apply Forall_inv in F. destruct F as (e & l & -> & G).
    assert (Q : last (concat gs ++ e :: l) a = last l e).
    { destruct l as [|z l _] using rev_ind; [apply last_last|]. rewrite app_comm_cons, app_assoc, !last_last. reflexivity. }
    rewrite H in Q. rewrite last_in, <- L in Q. congruence.
Qed.

Section InitMesh.
  Context {A : Arith} {E : Env A}.
  Variable d : dtriang (A:=A).
  Notation edge := (nat * side)%type.
  Notation dcorner t i := (get3 (d_v (dt_t d t)) i).

  (** what a triangulation is: corners of a triangle are different, links are
      mutual, across sides with the same ends and the same mark; the star of a
      vertex gives all its corners once, in the order in which the links turn
      around it; the finite corners are listed; no triangle lies at infinity *)
  Record triangulation : Prop := {
    tg_corners : forall t i j v, t < dt_nt d -> dcorner t i = Some v -> dcorner t j = Some v -> i = j;
    tg_mutual : forall t i n, t < dt_nt d -> get3 (d_n (dt_t d t)) i = Some n -> n < dt_nt d ->
      exists j, get3 (d_n (dt_t d n)) j = Some t /\ dcorner n (ccw j) = dcorner t (cw i) /\
        dcorner n (cw j) = dcorner t (ccw i) /\ constrained d n j = constrained d t i;
    tg_star : forall v, v < dt_nv d -> NoDup (dt_star d v) /\
      forall t sd, In (t, sd) (dt_star d v) <-> t < dt_nt d /\ dcorner t sd = Some v;
    tg_turn : forall v a b, v < dt_nv d -> after (dt_star d v) a b -> get3 (d_n (dt_t d (fst a))) (ccw (snd a)) = Some (fst b);
    tg_listed : forall t i v, t < dt_nt d -> dcorner t i = Some v -> dv_finite (dt_v d v) = true -> v < dt_nv d;
    tg_finite : forall t, t < dt_nt d -> exists i v, dcorner t i = Some v /\ dv_finite (dt_v d v) = true }.

  Hypothesis TG : triangulation.

  Lemma tg_stars_right : stars_right d.
  Proof.
    intros v L. destruct (tg_star TG v L) as [S1 S2]. split; [exact S1|]. intros t sd H. apply S2, H.
  Qed.

  (** the next corner at the same vertex *)
  Lemma turn_side v t sd t' sd' : v < dt_nv d -> after (dt_star d v) (t, sd) (t', sd') ->
    In (t, sd) (dt_star d v) -> In (t', sd') (dt_star d v) ->
    exists j, sd' = ccw j /\ get3 (d_n (dt_t d t')) j = Some t /\ constrained d t' j = constrained d t (ccw sd).
  Proof.
    intros L F I1 I2. apply (proj2 (tg_star TG v L)) in I1. apply (proj2 (tg_star TG v L)) in I2.
    destruct I1 as [L1 C1], I2 as [L2 C2].
    pose proof (tg_turn TG v _ _ L F) as T. cbn [fst snd] in T.
    destruct (tg_mutual TG t (ccw sd) t' L1 T L2) as (j & J1 & J2 & J3 & J4).
    exists j. split; [|auto]. rewrite cw_ccw, C1 in J2. apply (tg_corners TG t' _ _ v L2 C2 J2).
  Qed.

  Lemma after_In {X} (l : list X) a b : after l a b -> In a l /\ In b l.
  Proof.
    intros [(l1 & l2 & ->)|(m & -> & ->)].
    - split; apply in_or_app; right; [left|right; left]; reflexivity.
    - split; [|left; reflexivity]. destruct m as [|x m]; [left; reflexivity|]. right. apply last_In. discriminate.
  Qed.

  Lemma tg_ring v : v < dt_nv d -> ring d (dt_star d v).
  Proof.
    intros L.
    assert (G : forall a b, after (dt_star d v) a b -> ahead d a = behind d b).
    { intros [t sd] [t' sd'] F. destruct (after_In _ _ _ F) as [I1 I2].
      destruct (turn_side v t sd t' sd' L F I1 I2) as (j & -> & _ & J). unfold ahead, behind. cbn [fst snd].
      rewrite cw_ccw. symmetry. exact J. }
    split.
    - intros l1 e f l2 H. apply G. left. exists l1, l2. exact H.
    - intros e l H. apply G. right. exists l. auto.
  Qed.

  Lemma next_exists {X} (l : list X) a : In a l -> exists b, after l a b.
  Proof.
    intros H. apply in_split in H. destruct H as (l1 & [|b l2] & ->).
    - destruct l1 as [|x l1].
      + exists a. right. exists []. auto.
      + exists x. right. exists (l1 ++ [a]). split; [reflexivity|]. symmetry. apply last_last.
    - exists b. left. exists l1, l2. reflexivity.
  Qed.

  (** *** the groups at a vertex *)
  Lemma groups_at s v t sd : init_skeleton d = Ok s -> v < dt_nv d -> In (t, sd) (dt_star d v) ->
    exists gs, split_star d v = Ok gs /\ rotation (dt_star d v) (concat gs) /\
      Forall (fun g => exists e l, g = e :: l /\ ahead d (last l e) = true) gs.
  Proof.
    intros HI L I. destruct (init_sk_vertices d s HI v L) as (_ & gs0 & node & S1 & S2 & _).
    destruct (Nat.eq_dec (constrained_edges d (dt_star d v)) 0) as [Z|Z].
    - exfalso. rewrite split_star_none in S1; [|exact Z|intros K; rewrite K in I; destruct I].
      injection S1 as <-. apply S2. reflexivity.
    - destruct (split_star_spec d v (tg_ring v L)) as (gs & G1 & G2 & G3 & G4); [lia|].
      exists gs. split; [exact G1|]. split; [exact G2|]. revert G4. apply Forall_impl.
      intros g ((e & l & H1 & _ & H2) & _). exists e, l. auto.
  Qed.

  (** the two corners beside an unconstrained side are in one group *)
  Lemma turn_group s v t sd t' sd' : init_skeleton d = Ok s -> v < dt_nv d -> In (t, sd) (dt_star d v) ->
    constrained d t (ccw sd) = false -> t' < dt_nt d -> dcorner t' sd' = Some v ->
    get3 (d_n (dt_t d t)) (ccw sd) = Some t' ->
    exists g, In g (groups_of d v) /\ In (t, sd) g /\ In (t', sd') g.
  Proof.
    intros HI L I C L' C' N. destruct (groups_at s v t sd HI L I) as (gs & G1 & (p & q & R1 & R2) & G3).
    destruct (next_exists _ _ I) as ([u x] & F). pose proof (tg_turn TG v _ _ L F) as T. cbn [fst snd] in T.
    assert (u = t') as -> by congruence.
    assert (x = sd') as ->.
    { destruct (after_In _ _ _ F) as [_ I2]. apply (proj2 (tg_star TG v L)) in I2.
      apply (tg_corners TG t' _ _ v L'); [apply I2|exact C']. }
    rewrite R1 in F. apply after_rotation in F. rewrite <- R2 in F.
    destruct (after_group d gs (t, sd) (t', sd') G3 C F) as (g & H1 & H2 & H3). exists g. unfold groups_of. rewrite G1. auto.
  Qed.

  Section Parts.
    Variables (s : state) (cpos : pt) (ti : nat -> tinit (A:=A)) (b : build (A:=A)) (kvs : list (kvertex (A:=A)))
      (ls : list (list (nat * side * nat))) (un : list nat).
    Hypothesis HI : init_skeleton d = Ok s.
    Hypothesis P : parts d s cpos ti b kvs ls un.
    Let c := length kvs.
    Let tv := with_infinite d c (b_tv b).
    Let tn := fun t => ti_n (ti t).
    Let BU : built d ti (all_groups d) b := proj1 (init_vertices_built d ti b (pa_b _ _ _ _ _ _ _ _ P)).

    Lemma c_groups : c = length (all_groups d).
    Proof.
      destruct (links_built d ti b BU) as [L1 _]. rewrite <- (pa_kvs _ _ _ _ _ _ _ _ P) in L1. exact L1.
    Qed.

    Lemma tv_get t i : t < dt_nt d -> get3 (tv t) i = if is_some (infinite_corner d t i) then Some c else get3 (b_tv b t) i.
    Proof.
      intros L. unfold tv, with_infinite. apply Nat.ltb_lt in L. rewrite L. destruct i; reflexivity.
    Qed.

    (** the vertex at a corner of a listed vertex is that of the corner's group *)
    Lemma group_corner v t i g : v < dt_nv d -> In g (groups_of d v) -> In (t, i) g ->
      exists k, nth_error (all_groups d) k = Some (v, g) /\ get3 (b_tv b t) i = Some k.
    Proof.
      intros L G I.
      assert (X : In (v, g) (all_groups d)).
      { apply in_flat_map. exists v. split; [apply in_seq; lia|]. apply in_map. exact G. }
      apply In_nth_error in X. destruct X as [k X]. exists k. split; [exact X|].
      destruct (bl_filled _ _ _ _ BU _ _ _ _ _ X I) as (_ & j & _ & J).
      destruct (bl_corner _ _ _ _ BU _ _ _ J) as (w & h & N & I').
      rewrite J. f_equal. eapply (group_unique d j k); eauto. apply tg_stars_right.
    Qed.
    (** a corner that has a group's vertex is at the vertex of the group *)
    Lemma corner_back t i k : get3 (b_tv b t) i = Some k ->
      exists v g, nth_error (all_groups d) k = Some (v, g) /\ v < dt_nv d /\ In (t, i) g /\
        t < dt_nt d /\ dcorner t i = Some v /\ dv_finite (dt_v d v) = true.
    Proof.
      intros H. destruct (bl_corner _ _ _ _ BU _ _ _ H) as (v & g & N & I).
      destruct (all_groups_in d _ _ _ N) as (L & G & S). specialize (S _ I).
      apply (proj2 (tg_star TG v L)) in S. exists v, g. repeat split; auto; try apply S.
      apply (init_sk_vertices d s HI v L).
    Qed.
    Lemma finite_not_inf t i v : dcorner t i = Some v -> dv_finite (dt_v d v) = true -> infinite_corner d t i = None.
    Proof. intros H F. unfold infinite_corner. rewrite H, F. reflexivity. Qed.

    (** a vertex other than the infinite one stands at one corner at most *)
    Lemma tv_once t i j k : t < dt_nt d -> k <> c -> get3 (tv t) i = Some k -> get3 (tv t) j = Some k -> i = j.
    Proof.
      intros L NK H1 H2. rewrite tv_get in H1, H2 by exact L.
      destruct (is_some (infinite_corner d t i)); [congruence|].
      destruct (is_some (infinite_corner d t j)); [congruence|].
      destruct (corner_back _ _ _ H1) as (v & g & N & _ & _ & _ & C & _).
      destruct (corner_back _ _ _ H2) as (v' & g' & N' & _ & _ & _ & C' & _).
      rewrite N in N'. injection N' as <- <-. apply (tg_corners TG t i j v L C C').
    Qed.

    Lemma tv_corner t i k : t < dt_nt d -> get3 (tv t) i = Some k -> exists v, dcorner t i = Some v.
    Proof.
      intros L H. rewrite tv_get in H by exact L. unfold infinite_corner in H.
      destruct (dcorner t i) as [v|] eqn:D; [exists v; reflexivity|]. cbn in H.
      destruct (corner_back _ _ _ H) as (v & g & _ & _ & _ & _ & C & _). congruence.
    Qed.

    (** the unwanted triangles *)
    Lemma un_spec t : In t un <-> t < dt_nt d /\ count3 (onat_eqb (Some c)) (tv t) = 2.
    Proof.
      rewrite <- (pa_remove _ _ _ _ _ _ _ _ P). rewrite filter_In, in_seq, Nat.eqb_eq. fold c. fold tv. split; intros [H K]; (split; [lia|exact K]).
    Qed.
    Lemma un_links t : In t un -> exists l, unwanted_links tv tn c un t = Ok l /\ In l ls.
    Proof. intros H. exact (rmapl_In _ _ _ _ (pa_ls _ _ _ _ _ _ _ _ P) H). Qed.
    Lemma un_vertex t l : unwanted_links tv tn c un t = Ok l -> exists i v, get3 (tv t) i = Some v /\ v <> c.
    Proof.
      unfold unwanted_links. intros H. apply rbind_ok in H. destruct H as (i & _ & H).
      destruct (get3 (tv t) i) as [v|] eqn:G; [|discriminate].
      apply rbind_ok in H. destruct H as ([] & H & _). apply rassert_ok, negb_true_iff, Nat.eqb_neq in H.
      exists i, v. auto.
    Qed.
    (** an unwanted triangle has one vertex that is not the infinite one *)
    Lemma un_corners t i v : In t un -> get3 (tv t) i = Some v -> v <> c ->
      get3 (tv t) (cw i) = Some c /\ get3 (tv t) (ccw i) = Some c.
    Proof.
      intros H G NV. apply un_spec in H. destruct H as [_ H].
      destruct (tv t) as [[x|] [y|] [z|]]; destruct i; cbn in *;
        repeat match type of H with context [Nat.eqb ?a ?b] => destruct (Nat.eqb a b) eqn:?; cbn in H end; try discriminate;
        repeat match goal with K : Nat.eqb _ _ = true |- _ => apply Nat.eqb_eq in K end; subst;
        injection G as ->; try congruence; auto.
    Qed.

    (** every triangle has three vertices *)
    Lemma tv_full t i : t < dt_nt d -> exists k, get3 (tv t) i = Some k.
    Proof.
      intros L. destruct (in_dec Nat.eq_dec t un) as [U|U].
      - destruct (un_links t U) as (l & H & _). destruct (un_vertex t l H) as (j & v & J & NV).
        destruct (un_corners t j v U J NV) as [J1 J2].
        destruct i, j; cbn [cw ccw] in J1, J2; eauto.
      - destruct (pa_s _ _ _ _ _ _ _ _ P) as (F & _). fold c in F. fold tv in F.
        assert (M : mem Nat.eqb t un = false).
        { unfold mem. apply not_true_is_false. intros K. apply existsb_exists in K. destruct K as (x & K1 & K2). apply Nat.eqb_eq in K2. subst x. auto. }
        destruct (F t) as (p & q & r & K).
        { apply filter_In. split; [apply in_seq; lia|]. rewrite M. reflexivity. }
        rewrite M in K. rewrite K. destruct i; cbn; eauto.
    Qed.

    (** *** the links before the unwanted triangles are replaced *)
    Lemma tn_neighbour t i : t < dt_nt d -> exists u, init_neighbour d t i = Ok (get3 (tn t) i, u).
    Proof.
      intros L. destruct (pa_ti _ _ _ _ _ _ _ _ P) as [T _]. specialize (T t L). unfold init_triangle in T.
      apply rbind_ok in T; destruct T as (w0 & _ & T). apply rbind_ok in T; destruct T as (w1 & _ & T).
      apply rbind_ok in T; destruct T as (w2 & _ & T).
      apply rbind_ok in T; destruct T as (x & Hx & T).
      apply rbind_ok in T; destruct T as (y & Hy & T).
      apply rbind_ok in T; destruct T as (z & Hz & T). injection T as T. unfold tn. rewrite <- T.
      destruct i; cbn; [exists (snd x); rewrite Hx|exists (snd y); rewrite Hy|exists (snd z); rewrite Hz];
        rewrite <- surjective_pairing; reflexivity.
    Qed.
    Lemma tn_link t i n : t < dt_nt d -> get3 (tn t) i = Some n ->
      constrained d t i = false /\ get3 (d_n (dt_t d t)) i = Some n /\ n < dt_nt d.
    Proof.
      intros L H. destruct (tn_neighbour t i L) as (u & N). rewrite H in N. unfold init_neighbour in N.
      destruct (constrained d t i); [discriminate|]. destruct (get3 (d_n (dt_t d t)) i) as [m|]; [|discriminate].
      destruct (is_none _); [discriminate|]. destruct (Nat.ltb m (dt_nt d)) eqn:Q; [|discriminate].
      apply Nat.ltb_lt in Q. injection N as -> _. auto.
    Qed.
    Lemma tn_intro t i n : t < dt_nt d -> constrained d t i = false -> get3 (d_n (dt_t d t)) i = Some n -> n < dt_nt d ->
      get3 (tn t) i = Some n.
    Proof.
      intros L C H Ln. destruct (tn_neighbour t i L) as (u & N). unfold init_neighbour in N. rewrite C, H in N.
      assert (X : is_none (x2 (d_v (dt_t d n))) = false).
      { destruct (tv_full n S2 Ln) as (k & K). apply tv_corner in K; [|exact Ln]. destruct K as (v & K). cbn in K. rewrite K. reflexivity. }
      apply Nat.ltb_lt in Ln. rewrite X, Ln in N. injection N as N _. auto.
    Qed.

    (** corners at the same vertex on both sides of an unconstrained side have
        the same kinetic vertex *)
    Lemma same_corner t sd n sd' : t < dt_nt d -> n < dt_nt d -> constrained d t (ccw sd) = false ->
      get3 (d_n (dt_t d t)) (ccw sd) = Some n -> dcorner n sd' = dcorner t sd -> get3 (tv n) sd' = get3 (tv t) sd.
    Proof.
      intros L Ln C N EQ. destruct (tv_full t sd L) as (k & K). destruct (tv_corner t sd k L K) as (v & D).
      rewrite !tv_get by assumption. unfold infinite_corner. rewrite EQ, D.
      destruct (dv_finite (dt_v d v)) eqn:F; [|reflexivity]. cbn [is_some].
      pose proof (tg_listed TG t sd v L D F) as Lv.
      assert (I : In (t, sd) (dt_star d v)) by (apply (proj2 (tg_star TG v Lv)); auto).
      destruct (turn_group s v t sd n sd' HI Lv I C Ln) as (g & G1 & G2 & G3); [congruence|exact N|].
      destruct (group_corner v t sd g Lv G1 G2) as (k1 & N1 & ->).
      destruct (group_corner v n sd' g Lv G1 G3) as (k2 & N2 & ->). f_equal.
      apply (group_unique d k2 k1 v v g g (t, sd) (tg_stars_right) N2 N1 G2 G2).
    Qed.

    Lemma tn_mutual t i n : t < dt_nt d -> get3 (tn t) i = Some n ->
      n < dt_nt d /\ exists j, get3 (tn n) j = Some t /\
        get3 (tv n) (ccw j) = get3 (tv t) (cw i) /\ get3 (tv n) (cw j) = get3 (tv t) (ccw i).
    Proof.
      intros L H. destruct (tn_link t i n L H) as (C & N & Ln). split; [exact Ln|].
      destruct (tg_mutual TG t i n L N Ln) as (j & J1 & J2 & J3 & J4). exists j. split; [|split].
      - apply tn_intro; auto. congruence.
      - apply same_corner; rewrite ?ccw_cw; auto.
      - symmetry. apply same_corner; rewrite ?ccw_cw; auto. congruence.
    Qed.

    (** *** turning around a vertex *)
    Section Turn.
      Variable v : nat.
      Hypothesis NV : v <> c.
      Definition step (dir : side -> side) (t t' : nat) : Prop :=
        exists sd, get3 (tv t) sd = Some v /\ get3 (tn t) (dir sd) = Some t'.
      Inductive walk (dir : side -> side) : nat -> nat -> Prop :=
      | walk_end t r : t < dt_nt d -> In t un -> step dir t r -> ~ In r un -> walk dir t r
      | walk_step t t' r : t < dt_nt d -> In t un -> step dir t t' -> In t' un -> walk dir t' r -> walk dir t r.

      Lemma step_det dir t a e : t < dt_nt d -> step dir t a -> step dir t e -> a = e.
      Proof.
        intros L (i & I1 & I2) (j & J1 & J2). assert (i = j) as -> by (apply (tv_once t i j v L NV I1 J1)). congruence.
      Qed.
      Lemma walk_det dir t a : walk dir t a -> forall e, walk dir t e -> a = e.
      Proof.
        induction 1 as [t a L U S N|t t' a L U S U' W IH]; intros e We; inversion We as [x y L2 U2 S2 N2|x t2 y L2 U2 S2 U2' W2]; subst.
        - apply (step_det dir t); assumption.
        - assert (a = t2) by (apply (step_det dir t); assumption). subst. contradiction.
        - assert (t' = e) by (apply (step_det dir t); assumption). subst. contradiction.
        - assert (t' = t2) by (apply (step_det dir t); assumption). subst. apply IH. exact W2.
      Qed.
      Lemma step_cw_back t t' : t < dt_nt d -> step cw t t' -> step ccw t' t.
      Proof.
        intros L (i & I1 & I2). destruct (tn_mutual t (cw i) t' L I2) as (_ & j & J1 & _ & J3).
        exists (cw j). rewrite ccw_cw in *. split; [congruence|exact J1].
      Qed.
      Lemma step_ccw_back t t' : t < dt_nt d -> step ccw t t' -> step cw t' t.
      Proof.
        intros L (i & I1 & I2). destruct (tn_mutual t (ccw i) t' L I2) as (_ & j & J1 & J2 & _).
        exists (ccw j). rewrite cw_ccw in *. split; [congruence|exact J1].
      Qed.
      Definition around_v (dir : side -> side) (r r' : nat) : Prop := exists u, step dir r u /\ walk dir u r'.
      Lemma around_det dir r a e : r < dt_nt d -> around_v dir r a -> around_v dir r e -> a = e.
      Proof.
        intros L (u & U1 & U2) (w & W1 & W2). assert (u = w) as -> by (apply (step_det dir r); assumption).
        apply (walk_det dir w a U2 e W2).
      Qed.
      Lemma walks_around fw bw : (forall t t', t < dt_nt d -> step bw t t' -> step fw t' t) ->
        forall t r, walk bw t r -> forall r', walk fw t r' -> around_v fw r r'.
      Proof.
        intros B t r H. induction H as [t r L U S N|t t' r L U S U' W IH]; intros r' Wr.
        - exists t. split; [apply B; assumption|exact Wr].
        - apply IH. eapply walk_step; [apply un_spec; exact U'|exact U'|apply B; eassumption|exact U|exact Wr].
      Qed.
      Lemma rotate_walk dir fuel : forall seen t r, In t un ->
        rotate_until tv tn v dir un seen fuel t = Ok (Some r) -> walk dir t r.
      Proof.
        induction fuel as [|fuel IH]; intros seen t r U H; cbn in H; [discriminate|].
        destruct (mem Nat.eqb t seen); [discriminate|].
        destruct (index3 (onat_eqb (Some v)) (tv t)) as [sd|] eqn:I; [|discriminate]. apply index3_get in I. apply onat_eqb_eq in I.
        destruct (get3 (tn t) (dir sd)) as [t'|] eqn:G; [|discriminate].
        assert (L : t < dt_nt d) by (apply un_spec in U; apply U).
        assert (S : step dir t t') by (exists sd; auto).
        destruct (mem Nat.eqb t' un) eqn:M.
        - unfold mem in M. apply existsb_exists in M. destruct M as (x & M1 & M2). apply Nat.eqb_eq in M2. subst x.
          eapply walk_step; eauto.
        - injection H as <-. apply walk_end; auto. intros K. unfold mem in M.
          assert (existsb (Nat.eqb t') un = true) by (apply existsb_exists; exists t'; split; [exact K|apply Nat.eqb_refl]). congruence.
      Qed.
      Lemma walk_ends dir t r : walk dir t r -> In t un /\ ~ In r un /\ r < dt_nt d.
      Proof.
        induction 1 as [t r L U S N|t t' r L U S U' W IH].
        - split; [exact U|]. split; [exact N|]. destruct S as (i & _ & S). apply (tn_link t (dir i) r L S).
        - split; [exact U|apply IH].
      Qed.
    End Turn.

    (** *** the links that are set *)
    (** the side [i] of [x] had an unwanted triangle behind it; its end at [fw i]
        is a vertex [v], the other end the infinite one, and [y] is found by
        turning around [v] *)
    Definition relink (fw bw : side -> side) (v x : nat) (i : side) (y : nat) : Prop :=
      v <> c /\ x < dt_nt d /\ ~ In x un /\ get3 (tv x) (bw i) = Some v /\ get3 (tv x) (fw i) = Some c /\
      around_v v fw x y /\ exists u, get3 (tn x) i = Some u /\ In u un.

    Lemma relink_ccw v x sx y : v <> c -> x < dt_nt d -> ~ In x un -> get3 (tv x) sx = Some v -> around_v v ccw x y ->
      relink ccw cw v x (ccw sx) y.
    Proof.
      intros NV L U G AR. assert (AR' := AR). destruct AR' as (u & (sd & S1 & S2) & W).
      assert (sd = sx) as -> by (apply (tv_once x sd sx v L NV S1 G)).
      destruct (walk_ends v ccw u y W) as (Uu & _ & _).
      destruct (tn_mutual x (ccw sx) u L S2) as (_ & j & J1 & J2 & J3).
      rewrite cw_ccw, G in J2. destruct (un_corners u (ccw j) v Uu J2 NV) as [_ K]. rewrite ccw_ccw, J3 in K.
      unfold relink. rewrite cw_ccw. repeat split; auto. exists u. auto.
    Qed.
    Lemma relink_cw v x sx y : v <> c -> x < dt_nt d -> ~ In x un -> get3 (tv x) sx = Some v -> around_v v cw x y ->
      relink cw ccw v x (cw sx) y.
    Proof.
      intros NV L U G AR. assert (AR' := AR). destruct AR' as (u & (sd & S1 & S2) & W).
      assert (sd = sx) as -> by (apply (tv_once x sd sx v L NV S1 G)).
      destruct (walk_ends v cw u y W) as (Uu & _ & _).
      destruct (tn_mutual x (cw sx) u L S2) as (_ & j & J1 & J2 & J3).
      rewrite ccw_cw, G in J3. destruct (un_corners u (cw j) v Uu J3 NV) as [K _]. rewrite cw_cw, J2 in K.
      unfold relink. rewrite ccw_cw. repeat split; auto. exists u. auto.
    Qed.

    Lemma un_pair t l : In t un -> unwanted_links tv tn c un t = Ok l ->
      exists v x i y j, l = [(x, i, y); (y, j, x)] /\ relink ccw cw v x i y /\ relink cw ccw v y j x.
    Proof.
      intros U H. unfold unwanted_links in H. apply rbind_ok in H. destruct H as (sd & _ & H).
      destruct (get3 (tv t) sd) as [v|]; [|discriminate].
      apply rbind_ok in H. destruct H as ([] & NV & H). apply rassert_ok, negb_true_iff, Nat.eqb_neq in NV.
      apply rbind_ok in H. destruct H as (a & Ha & H).
      apply rbind_ok in H. destruct H as (e & He & H).
      apply rbind_ok in H. destruct H as (x & Hx & H).
      apply rbind_ok in H. destruct H as (sx & Hsx & H).
      apply rbind_ok in H. destruct H as (y & Hy & H).
      apply rbind_ok in H. destruct H as (sy & Hsy & H). injection H as <-.
      destruct a as [x'|]; [|discriminate]. injection Hx as ->. destruct e as [y'|]; [|discriminate]. injection Hy as ->.
      apply (rotate_walk v cw _ [] t x U) in Ha. apply (rotate_walk v ccw _ [] t y U) in He.
      apply index3_get, onat_eqb_eq in Hsx, Hsy. symmetry in Hsx, Hsy.
      destruct (walk_ends v cw t x Ha) as (_ & Ux & Lx). destruct (walk_ends v ccw t y He) as (_ & Uy & Ly).
      exists v, x, (ccw sx), y, (cw sy). split; [reflexivity|]. split.
      - apply relink_ccw; auto. apply (walks_around v ccw cw (step_cw_back v) t x Ha y He).
      - apply relink_cw; auto. apply (walks_around v cw ccw (step_ccw_back v) t y He x Ha).
    Qed.

    Lemma entries x i y : In (x, i, y) (concat ls) ->
      exists v j, (relink ccw cw v x i y /\ relink cw ccw v y j x \/ relink cw ccw v x i y /\ relink ccw cw v y j x) /\
        In (y, j, x) (concat ls).
    Proof.
      intros H. apply in_concat in H. destruct H as (l & Hl & H).
      assert (X : exists t, In t un /\ unwanted_links tv tn c un t = Ok l).
      { pose proof (pa_ls _ _ _ _ _ _ _ _ P) as R. apply rmapl_all in R. fold c in R. fold tv in R. fold tn in R. clear - R Hl.
        assert (G : forall l0 ls, Forall2 (fun t l => unwanted_links tv tn c un t = Ok l) l0 ls -> In l ls ->
          exists t, In t l0 /\ unwanted_links tv tn c un t = Ok l).
        { intros l0 ls0 F. induction F as [|p q l1 l2 F1 F2 IH]; [intros []|]. intros [->|I]; [exists p; split; [left; reflexivity|exact F1]|].
          destruct (IH I) as (t & T1 & T2). exists t. split; [right; exact T1|exact T2]. }
        apply (G _ _ R Hl). }
      destruct X as (t & U & HL). destruct (un_pair t l U HL) as (v & a & p & e & q & -> & R1 & R2).
      destruct H as [H|[H|[]]]; injection H as <- <- <-.
      - exists v, q. split; [left; auto|]. apply in_concat. exists [(a, p, e); (e, q, a)]. split; [exact Hl|right; left; reflexivity].
      - exists v, p. split; [right; auto|]. apply in_concat. exists [(a, p, e); (e, q, a)]. split; [exact Hl|left; reflexivity].
    Qed.

    Lemma fold_set (L : list (nat * side * nat)) : forall tn0 x i,
      (exists y, In (x, i, y) L /\ get3 (fold_left set_tn1 L tn0 x) i = Some y) \/
      ((forall y, ~ In (x, i, y) L) /\ get3 (fold_left set_tn1 L tn0 x) i = get3 (tn0 x) i).
    Proof.
      induction L as [|[[a p] e] L IH]; intros tn0 x i; [right; split; [intros y []|reflexivity]|].
      cbn [fold_left]. destruct (IH (set_tn1 tn0 (a, p, e)) x i) as [(y & H1 & H2)|[H1 H2]].
      - left. exists y. split; [right; exact H1|exact H2].
      - rewrite H2. unfold set_tn1. destruct (Nat.eqb a x) eqn:Q1.
        + apply Nat.eqb_eq in Q1. subst a. rewrite g3s3. destruct (side_eqb p i) eqn:Q2.
          * apply side_eqb_eq in Q2. subst p. left. exists e. split; [left; reflexivity|reflexivity].
          * right. split; [|reflexivity]. intros y [K|K]; [|apply (H1 y K)]. injection K as -> _. rewrite (proj2 (side_eqb_eq i i) eq_refl) in Q2. discriminate.
        + right. split; [|reflexivity]. intros y [K|K]; [|apply (H1 y K)]. injection K as -> _ _. rewrite Nat.eqb_refl in Q1. discriminate.
    Qed.

    Let tn1 := fold_left set_tn1 (concat ls) tn.

    Lemma relink_det fw bw v x i y e : relink fw bw v x i y -> relink fw bw v x i e -> y = e.
    Proof. intros (NV & L & _ & _ & _ & R1 & _) (_ & _ & _ & _ & _ & R2 & _). apply (around_det v NV fw x y e L R1 R2). Qed.

    (** after the replacement: mutual links across equal sides *)
    Lemma tn1_mutual t i n : t < dt_nt d -> ~ In t un -> get3 (tn1 t) i = Some n -> ~ In n un ->
      n < dt_nt d /\ exists j, get3 (tn1 n) j = Some t /\
        get3 (tv n) (ccw j) = get3 (tv t) (cw i) /\ get3 (tv n) (cw j) = get3 (tv t) (ccw i).
    Proof.
      intros L U H Un. destruct (fold_set (concat ls) tn t i) as [(y & H1 & H2)|[H1 H2]]; fold tn1 in H2; rewrite H in H2.
      - injection H2 as <-. destruct (entries t i n H1) as (v & j & R & I).
        destruct (fold_set (concat ls) tn n j) as [(z & Z1 & Z2)|[Z1 _]]; [|destruct (Z1 t I)]. fold tn1 in Z2.
        destruct (entries n j z Z1) as (v' & j' & R' & _).
        assert (EQ : z = t).
        { destruct R as [[R1 R2]|[R1 R2]], R' as [[R3 _]|[R3 _]].
          - exfalso. destruct R2 as (NV & _ & _ & R2 & R4 & _). destruct R3 as (NV' & _ & _ & R3 & R5 & _). congruence.
          - assert (v' = v) as ->. { destruct R2 as (_ & _ & _ & R2 & _). destruct R3 as (_ & _ & _ & R3 & _). congruence. }
            apply (relink_det cw ccw v n j z t R3 R2).
          - assert (v' = v) as ->. { destruct R2 as (_ & _ & _ & R2 & _). destruct R3 as (_ & _ & _ & R3 & _). congruence. }
            apply (relink_det ccw cw v n j z t R3 R2).
          - exfalso. destruct R2 as (NV & _ & _ & R2 & R4 & _). destruct R3 as (NV' & _ & _ & R3 & R5 & _). congruence. }
        subst z.
        destruct R as [[R1 R2]|[R1 R2]]; destruct R1 as (_ & _ & _ & A1 & A2 & _), R2 as (_ & Ln & _ & B1 & B2 & _);
          (split; [exact Ln|]); exists j; (split; [exact Z2|]); split; congruence.
      - destruct (tn_mutual t i n L (eq_sym H2)) as (Ln & j & J1 & J2). split; [exact Ln|]. exists j. split; [|exact J2].
        destruct (fold_set (concat ls) tn n j) as [(z & Z1 & _)|[_ Z2]]; [|fold tn1 in Z2; congruence].
        destruct (entries n j z Z1) as (v & j' & [[R _]|[R _]] & _); destruct R as (_ & _ & _ & _ & _ & _ & u & R1 & R2); congruence.
    Qed.
  End Parts.

  (** *** the skeleton that is returned *)
  Lemma mem_false t l : mem Nat.eqb t l = false <-> ~ In t l.
  Proof.
    unfold mem. split.
    - intros M K. assert (existsb (Nat.eqb t) l = true) by (apply existsb_exists; exists t; split; [exact K|apply Nat.eqb_refl]). congruence.
    - intros M. apply not_true_is_false. intros K. apply existsb_exists in K. destruct K as (x & K1 & K2). apply Nat.eqb_eq in K2. subst x. auto.
  Qed.

  (** the inner part is bounded by constrained sides *)
  Definition regions : Prop :=
    forall t i n, t < dt_nt d -> get3 (d_n (dt_t d t)) i = Some n -> n < dt_nt d -> constrained d t i = false ->
      dt_internal d n = dt_internal d t.

  Section Regions.
    Variables (s : state) (cpos : pt) (ti : nat -> tinit (A:=A)) (b : build (A:=A)) (kvs : list (kvertex (A:=A)))
      (ls : list (list (nat * side * nat))) (un : list nat).
    Hypothesis HI : init_skeleton d = Ok s.
    Hypothesis P : parts d s cpos ti b kvs ls un.
    Hypothesis RG : regions.
    Notation step := (step ti b kvs).
    Notation walk := (walk ti b kvs un).

    Lemma step_internal v dir t t' : t < dt_nt d -> step v dir t t' -> dt_internal d t' = dt_internal d t.
    Proof.
      intros L (sd & _ & N). destruct (tn_link s cpos ti b kvs ls un P t (dir sd) t' L N) as (C & N' & L').
      apply (RG t (dir sd) t' L N' L' C).
    Qed.
    Lemma walk_internal v dir t r : walk v dir t r -> dt_internal d r = dt_internal d t.
    Proof.
      induction 1 as [t r L U S N|t t' r L U S U' W IH]; [apply (step_internal v dir); assumption|].
      rewrite IH. apply (step_internal v dir); assumption.
    Qed.
    Lemma relink_internal fw bw v x i y : relink ti b kvs un fw bw v x i y -> dt_internal d y = dt_internal d x.
    Proof.
      intros (_ & L & _ & _ & _ & (u & S & W) & _). rewrite (walk_internal _ _ _ _ W). apply (step_internal v fw x u L S).
    Qed.
    Lemma tn1_internal t i n : t < dt_nt d -> get3 (fold_left set_tn1 (concat ls) (fun t => ti_n (ti t)) t) i = Some n ->
      dt_internal d n = dt_internal d t.
    Proof.
      intros L H. destruct (fold_set (concat ls) (fun t => ti_n (ti t)) t i) as [(y & H1 & H2)|[_ H2]]; rewrite H in H2.
      - injection H2 as <-. destruct (entries s cpos ti b kvs ls un HI P t i n H1) as (v & j & [[R _]|[R _]] & _);
          apply (relink_internal _ _ _ _ _ _ R).
      - destruct (tn_link s cpos ti b kvs ls un P t i n L (eq_sym H2)) as (C & N' & L'). apply (RG t i n L N' L' C).
    Qed.
  End Regions.

  Theorem init_linked s : init_skeleton d = Ok s ->
    linked (active s) s /\ (forall t, active s t -> distinct s t) /\
    (regions -> forall t i n, active s t -> link s t i = Some n -> t_internal (ts s n) = t_internal (ts s t)).
  Proof.
    intros HI. destruct (init_skeleton_parts d s HI) as (cp & ti & b & kvs & ls & un & P).
    destruct (pa_s _ _ _ _ _ _ _ _ P) as (FU & s1 & E1 & CK & ES).
    set (tv := with_infinite d (length kvs) (b_tv b)) in *.
    set (tn1 := fold_left set_tn1 (concat ls) (fun t => ti_n (ti t))) in *.
    assert (AC : forall t, active s t <-> t < dt_nt d /\ ~ In t un).
    { intros t. unfold active. rewrite ES. cbn [sk_triangles ts t_stops init_state].
      assert (Q : In t (isort (key_le s1) (filter (fun t => negb (mem Nat.eqb t un)) (seq 0 (dt_nt d)))) <->
        In t (filter (fun t => negb (mem Nat.eqb t un)) (seq 0 (dt_nt d)))).
      { split; intros K; [apply In_isort in K; exact K|]. eapply Permutation_in; [apply isort_perm|exact K]. }
      rewrite Q, filter_In, in_seq, negb_true_iff, mem_false. split; [intros [[H K] _]; split; [lia|exact K]|intros [H K]; split; [split; [lia|exact K]|reflexivity]]. }
    assert (LK : forall t i, link s t i = if mem Nat.eqb t un then None else get3 (tn1 t) i).
    { intros t i. unfold link. rewrite ES. cbn [ts t_n init_state]. destruct (mem Nat.eqb t un); [destruct i|]; reflexivity. }
    assert (CO : forall t i, t < dt_nt d -> ~ In t un -> get3 (tv t) i = Some (corner s t i)).
    { intros t i L U. unfold corner. rewrite ES. cbn [ts t_v init_state]. apply mem_false in U. rewrite U, g3m3.
      destruct (tv_full s cp ti b kvs ls un P t i L) as (k & K). fold tv in K. rewrite K. reflexivity. }
    assert (ML : forall t i n, link s t i = Some n -> ~ In t un).
    { intros t i n H. rewrite LK in H. apply mem_false. destruct (mem Nat.eqb t un); [discriminate|reflexivity]. }
    split; [|split].
    - intros t i n Ht H. assert (Ht' := Ht). destruct Ht' as [Kt _]. apply AC in Ht. destruct Ht as [L U].
      assert (Un : ~ In n un).
      { rewrite ES in Kt. cbn [sk_triangles init_state] in Kt. apply In_isort in Kt.
        pose proof (proj1 (C52_check_ktriangles _ _ _ _ _ CK) eq_refl t Kt) as [C _]; [rewrite E1; reflexivity|].
        destruct (C i n) as (j & J).
        - rewrite E1. unfold link in H. rewrite ES in H. exact H.
        - apply (ML n j t). unfold link. rewrite ES. rewrite E1 in J. exact J. }
      assert (H' := H). rewrite LK in H'. apply mem_false in U. rewrite U in H'. apply mem_false in U.
      destruct (tn1_mutual s cp ti b kvs ls un HI P t i n L U H' Un) as (Ln & j & J1 & J2 & J3).
      split; [apply AC; auto|]. exists j. fold tv in J2, J3. rewrite !CO in J2, J3 by assumption.
      split; [rewrite LK; apply mem_false in Un; rewrite Un; exact J1|]. split; congruence.
    - intros t Ht. apply AC in Ht. destruct Ht as [L U]. intros i j EQ.
      pose proof (CO t i L U) as C1. pose proof (CO t j L U) as C2. rewrite <- EQ in C2.
      destruct (Nat.eq_dec (corner s t i) (length kvs)) as [K|K].
      + destruct (side_eq_dec i j) as [Q|Q]; [exact Q|exfalso]. rewrite K in C1, C2.
        assert (CN : count3 (onat_eqb (Some (length kvs))) (tv t) <> 2).
        { intros X. apply U. apply (un_spec s cp ti b kvs ls un P). auto. }
        assert (AL : forall x, get3 (tv t) x = Some (length kvs)).
        { clear - CN C1 C2 Q. destruct (tv t) as [a e f]. unfold count3 in CN. cbn in CN.
          assert (R : Nat.eqb (length kvs) (length kvs) = true) by apply Nat.eqb_refl.
          destruct i, j; try congruence; cbn in C1, C2; subst; cbn in CN; rewrite R in CN; cbn in CN; intros []; cbn; try reflexivity;
            match goal with |- ?o = _ => destruct o as [k|]; cbn in CN; try congruence end;
            destruct (Nat.eqb _ k) eqn:Z in CN; cbn in CN; try congruence; apply Nat.eqb_eq in Z; congruence. }
        destruct (tg_finite TG t L) as (x & v & D & F). specialize (AL x).
        unfold tv in AL. rewrite tv_get in AL by assumption. rewrite (finite_not_inf t x v D F) in AL. cbn in AL.
        apply (corner_lt d ti b (pa_b _ _ _ _ _ _ _ _ P)) in AL. rewrite <- (c_groups s cp ti b kvs ls un P) in AL. lia.
      + apply (tv_once s cp ti b kvs ls un HI P t i j (corner s t i) L K C1 C2).
    - intros RG t i n Ht H. apply AC in Ht. destruct Ht as [L U]. rewrite LK in H. apply mem_false in U. rewrite U in H.
      rewrite ES. cbn [ts t_internal init_state]. apply (tn1_internal s cp ti b kvs ls un HI P RG t i n L H).
  Qed.
End InitMesh.
