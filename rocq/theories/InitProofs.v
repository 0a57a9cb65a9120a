(** What init_skeleton (initialize.py 158-717) builds: kinetic vertices, corners and
    circular lists, in terms of the groups of split_star. *)
From Verif Require Import Base Arith Calc VectorOps Line2d Primitives CollapseProofs Initialize StarProofs.

Lemma g3s3 {X} (t : triple X) a x b : get3 (set3 t a x) b = if side_eqb a b then x else get3 t b.
Proof. destruct a, b; reflexivity. Qed.
Lemma edge_eq_dec (a b : nat * side) : {a = b} + {a <> b}.
Proof. decide equality; [decide equality|apply Nat.eq_dec]. Defined.
Lemma f2_length {X Y} (R : X -> Y -> Prop) l l' : Forall2 R l l' -> length l = length l'.
Proof. induction 1; cbn; congruence. Qed.
Lemma g3m3 {X Y} (f : X -> Y) t s : get3 (map3 f t) s = f (get3 t s).
Proof. destruct s; reflexivity. Qed.

(** ** Loops over [fold_left] that may raise *)
Definition rfold {X B} (f : B -> X -> res B) (l : list X) (b : res B) : res B :=
  fold_left (fun acc x => rbind acc (fun b => f b x)) l b.
Lemma rfold_err {X B} (f : B -> X -> res B) l e : rfold f l (Err e) = Err e.
Proof. induction l as [|x l IH]; [reflexivity|]. exact IH. Qed.
Lemma rfold_cons {X B} (f : B -> X -> res B) x l b0 b :
  rfold f (x :: l) (Ok b0) = Ok b <-> exists b1, f b0 x = Ok b1 /\ rfold f l (Ok b1) = Ok b.
Proof.
  change (rfold f (x :: l) (Ok b0)) with (rfold f l (f b0 x)). split.
  - intros H. destruct (f b0 x) as [b1|e] eqn:E; [|rewrite rfold_err in H; discriminate].
    exists b1. auto.
  - intros (b1 & -> & H). exact H.
Qed.
Lemma rfold_app {X B} (f : B -> X -> res B) l1 l2 b : rfold f (l1 ++ l2) b = rfold f l2 (rfold f l1 b).
Proof. apply fold_left_app. Qed.
(** invariants over the elements that are done *)
Lemma rfold_inv {X B} (f : B -> X -> res B) (I : list X -> B -> Prop) l : forall done b0 b,
  I done b0 -> (forall done x b b', In x l -> I done b -> f b x = Ok b' -> I (done ++ [x]) b') ->
  rfold f l (Ok b0) = Ok b -> I (done ++ l) b.
Proof.
  induction l as [|x l IH]; intros done b0 b H0 HS H.
  - injection H as <-. rewrite app_nil_r. exact H0.
  - apply rfold_cons in H. destruct H as (b1 & H1 & H2).
    change (x :: l) with ([x] ++ l). rewrite app_assoc. apply (IH _ b1); [|intros; eapply HS; eauto; right; assumption|exact H2].
    apply (HS _ _ b0); [left; reflexivity|exact H0|exact H1].
Qed.

Section Init.
  Context {A : Arith}.
  Local Open Scope res_scope.
  Variable d : dtriang (A:=A).
  Notation edge := (nat * side)%type.

  (** the groups of vertex [v] and all groups in the order of the code *)
  Definition groups_of (v : nat) : list (list edge) := match split_star d v with Ok gs => gs | Err _ => [] end.
  Definition all_groups : list (nat * list edge) :=
    flat_map (fun v => map (pair v) (groups_of v)) (seq 0 (dt_nv d)).

  Variable ti : nat -> tinit (A:=A).

  (** the sides of the triangulation that bound a group, and their wavefronts:
      the one on the left is ahead of the last triangle, the one on the right is
      behind the first *)
  Definition left_side (g : list edge) : edge := let e := last g (0, S0) in (fst e, ccw (snd e)).
  Definition right_side (g : list edge) : edge := let e := hd (0, S0) g in (fst e, cw (snd e)).
  Definition side_wf (e : edge) : option wavefront := get3 (ti_wf (ti (fst e))) (snd e).
  Definition side_index (e : edge) : option nat := Some (wf_index (fst e) (snd e)).

  (** the kinetic vertex made for a group *)
  Definition kv_for (vg : nat * list edge) (k : kvertex) : Prop :=
    exists lwf rwf bi node info,
      snd vg <> [] /\ fst (left_side (snd vg)) < dt_nt d /\ fst (right_side (snd vg)) < dt_nt d /\
      side_wf (left_side (snd vg)) = Some lwf /\ side_wf (right_side (snd vg)) = Some rwf /\
      get_bisector (wf_line lwf) (wf_line rwf) = Ok bi /\ node_of d (fst vg) = Ok node /\
      k = mkKV false (dv_pos (dt_v d (fst vg))) bi [] [] (Some n0) None (Some node) None
            (side_index (left_side (snd vg))) (side_index (right_side (snd vg)))
            (side_index (left_side (snd vg))) (side_index (right_side (snd vg)))
            info false (dt_internal d (fst (left_side (snd vg)))).

  (** the corners next to the group where its neighbours in the wavefront are *)
  Definition link_for (i : nat) (g : list edge) : links :=
    mkLink (let e := last g (0, S0) in (fst e, cw (snd e))) i
           (let e := hd (0, S0) g in (fst e, ccw (snd e))).

  Record built (done : list (nat * list edge)) (b : build (A:=A)) : Prop := {
    bl_kv : Forall2 kv_for done (b_kv b);
    bl_info : forall i k, nth_error (b_kv b) i = Some k -> k_info k = S i;
    bl_corner : forall t s i, get3 (b_tv b t) s = Some i ->
      exists v g, nth_error done i = Some (v, g) /\ In (t, s) g;
    bl_filled : forall i v g t s, nth_error done i = Some (v, g) -> In (t, s) g ->
      t < dt_nt d /\ exists j, i <= j /\ get3 (b_tv b t) s = Some j;
    bl_links : b_links b = map (fun ig => link_for (fst ig) (snd (snd ig))) (combine (seq 0 (length done)) done) }.

  Lemma last_in {X} (x y : X) l : last (x :: l) y = last l x.
  Proof.
    revert x. induction l as [|z l IH]; intros x; [reflexivity|].
    change (last (x :: z :: l) y) with (last (z :: l) y). rewrite (IH z).
    destruct l as [|w l]; [reflexivity|].
    change (last (z :: w :: l) x) with (last (w :: l) x). clear. revert w. induction l as [|u l IH]; intros w; [reflexivity|]. apply (IH u).
  Qed.

  (** filling in a vertex at the corners of a group *)
  Definition fill1 (kv : nat) (tv : tverts) (e : edge) : res tverts :=
    if Nat.ltb (fst e) (dt_nt d) then Ok (set_tverts tv (fst e) (snd e) kv) else Err KeyError.
  Lemma fill_rfold kv g tv : fill d kv tv g = rfold (fill1 kv) g (Ok tv).
  Proof. reflexivity. Qed.
  Lemma fill_spec kv g : forall tv tv', fill d kv tv g = Ok tv' ->
    (forall t s, In (t, s) g -> t < dt_nt d /\ get3 (tv' t) s = Some kv) /\
    (forall t s, ~ In (t, s) g -> get3 (tv' t) s = get3 (tv t) s).
  Proof.
    intros tv tv' H. rewrite fill_rfold in H.
    refine (rfold_inv (fill1 kv) (fun done tv1 =>
      (forall t s, In (t, s) done -> t < dt_nt d /\ get3 (tv1 t) s = Some kv) /\
      (forall t s, ~ In (t, s) done -> get3 (tv1 t) s = get3 (tv t) s)) g [] tv tv' _ _ H).
    - split; [intros t s []|reflexivity].
    - intros done [t s] b b' _ [H1 H2] K. unfold fill1 in K. cbn [fst snd] in K.
      destruct (Nat.ltb t (dt_nt d)) eqn:L; [|discriminate]. apply Nat.ltb_lt in L. injection K as <-.
      split.
      + intros t' s' Hi. unfold set_tverts. apply in_app_or in Hi. destruct Hi as [Hi|[Hi|[]]].
        * destruct (H1 _ _ Hi) as [H3 H4]. split; [exact H3|]. destruct (Nat.eqb t t') eqn:E; [|exact H4].
          apply Nat.eqb_eq in E. subst t'. rewrite g3s3. destruct (side_eqb s s'); [reflexivity|exact H4].
        * injection Hi as <- <-. split; [exact L|]. rewrite Nat.eqb_refl, g3s3.
          destruct s; reflexivity.
      + intros t' s' Hi. unfold set_tverts. rewrite <- H2 by (intros K; apply Hi; apply in_or_app; auto).
        destruct (Nat.eqb t t') eqn:E; [|reflexivity]. apply Nat.eqb_eq in E. subst t'. rewrite g3s3.
        destruct (side_eqb s s') eqn:F; [|reflexivity]. apply side_eqb_eq in F. subst s'.
        destruct Hi. apply in_or_app. right. left. reflexivity.
  Qed.

  Lemma nth_error_snoc {X} (l : list X) x i y : nth_error (l ++ [x]) i = Some y ->
    nth_error l i = Some y \/ (i = length l /\ y = x).
  Proof.
    intros H. destruct (Nat.lt_ge_cases i (length l)) as [L|L].
    - left. rewrite nth_error_app1 in H by exact L. exact H.
    - right. rewrite nth_error_app2 in H by exact L. destruct (i - length l) as [|n] eqn:E.
      + cbn in H. injection H as <-. split; [lia|reflexivity].
      + cbn in H. destruct n; discriminate.
  Qed.
  Lemma nth_error_snoc_old {X} (l : list X) x i y : nth_error l i = Some y -> nth_error (l ++ [x]) i = Some y.
  Proof. intros H. rewrite nth_error_app1; [exact H|]. apply nth_error_Some. congruence. Qed.
  Lemma nth_error_snoc_new {X} (l : list X) x : nth_error (l ++ [x]) (length l) = Some x.
  Proof. rewrite nth_error_app2 by lia. rewrite Nat.sub_diag. reflexivity. Qed.

  Lemma combine_snoc {X} (l : list X) x :
    combine (seq 0 (length (l ++ [x]))) (l ++ [x]) = combine (seq 0 (length l)) l ++ [(length l, x)].
  Proof.
    rewrite app_length. cbn [length]. rewrite Nat.add_1_r, seq_S. cbn [Nat.add].
    assert (G : forall (a b : list nat) (c e : list X), length a = length c -> combine (a ++ b) (c ++ e) = combine a c ++ combine b e).
    { induction a as [|u a IH]; intros b [|w c] e; cbn; try discriminate; [reflexivity|].
      intros H. injection H as H. rewrite (IH _ _ _ H). reflexivity. }
    rewrite G by apply seq_length. reflexivity.
  Qed.

  Lemma init_group_built v done b g b' :
    built done b -> init_group d ti v b g = Ok b' -> built (done ++ [(v, g)]) b'.
  Proof.
    intros B H. unfold init_group in H. destruct g as [|e g]; [discriminate|].
    set (l := last (e :: g) e) in *.
    destruct (dsegment d (fst l) (ccw (snd l))) as [tail mid1] eqn:D1.
    destruct (dsegment d (fst e) (cw (snd e))) as [mid2 head] eqn:D2.
    apply rbind_ok in H. destruct H as (u1 & _ & H).
    apply rbind_ok in H. destruct H as (u2 & _ & H).
    apply rbind_ok in H. destruct H as (u3 & _ & H).
    apply rbind_ok in H. destruct H as (u4 & _ & H).
    destruct (Nat.ltb (fst e) (dt_nt d)) eqn:L1; [|discriminate].
    destruct (Nat.ltb (fst l) (dt_nt d)) eqn:L2; [|discriminate]. cbn [negb] in H.
    apply Nat.ltb_lt in L1, L2.
    destruct (get3 (ti_wf (ti (fst l))) (ccw (snd l))) as [lwf|] eqn:W1; [|discriminate].
    destruct (get3 (ti_wf (ti (fst e))) (cw (snd e))) as [rwf|] eqn:W2; [|discriminate].
    apply rbind_ok in H. destruct H as (bi & Hb & H).
    apply rbind_ok in H. destruct H as (node & Hn & H).
    apply rbind_ok in H. destruct H as (tv & Hf & H). injection H as <-.
    destruct (fill_spec _ _ _ _ Hf) as [F1 F2]. destruct B as [B1 B2 B3 B4 B5].
    assert (Ln : length (b_kv b) = length done) by (symmetry; apply (f2_length _ _ _ B1)).
    assert (Ll : last (e :: g) (0, S0) = l). { unfold l. rewrite !last_in. reflexivity. }
    constructor; cbn [b_kv b_tv b_links].
    - apply Forall2_app; [exact B1|]. constructor; [|constructor].
      exists lwf, rwf, bi, node, (S (length (b_kv b))). cbn [fst snd]. unfold left_side, right_side, side_wf, side_index.
      rewrite Ll. cbn [hd fst snd]. repeat split; auto. discriminate.
    - intros i k K. apply nth_error_snoc in K. destruct K as [K|[-> ->]]; [apply B2; exact K|reflexivity].
    - intros t s i K. destruct (in_dec edge_eq_dec (t, s) (e :: g)) as [I|I].
      + destruct (F1 _ _ I) as [_ F]. rewrite F in K. injection K as <-.
        exists v, (e :: g). rewrite Ln. split; [apply nth_error_snoc_new|exact I].
      + rewrite (F2 _ _ I) in K. destruct (B3 _ _ _ K) as (v' & g' & K1 & K2).
        exists v', g'. split; [apply nth_error_snoc_old; exact K1|exact K2].
    - intros i v' g' t s K1 K2. apply nth_error_snoc in K1. destruct K1 as [K1|[-> K1]].
      + destruct (B4 _ _ _ _ _ K1 K2) as (H1 & j & H2 & H3). split; [exact H1|].
        destruct (in_dec edge_eq_dec (t, s) (e :: g)) as [I|I].
        * exists (length (b_kv b)). split; [|apply F1; exact I]. assert (i < length done) by (apply nth_error_Some; congruence). lia.
        * exists j. split; [exact H2|]. rewrite (F2 _ _ I). exact H3.
      + injection K1 as -> ->. destruct (F1 _ _ K2) as [H1 H2]. split; [exact H1|]. exists (length (b_kv b)).
        split; [lia|exact H2].
    - rewrite combine_snoc, map_app, <- B5. cbn [map fst snd]. unfold link_for. rewrite Ll, Ln. reflexivity.
  Qed.

  Lemma init_vertex_built b v b' done :
    built done b -> init_vertex d ti b v = Ok b' ->
    built (done ++ map (pair v) (groups_of v)) b' /\ dv_finite (dt_v d v) = true /\
    exists gs, split_star d v = Ok gs /\ length gs <> 1.
  Proof.
    intros B H. unfold init_vertex in H.
    apply rbind_ok in H. destruct H as ([] & Hf & H). apply rassert_ok in Hf.
    apply rbind_ok in H. destruct H as (gs & Hg & H).
    destruct (Nat.eqb (length gs) 1) eqn:E; [discriminate|]. apply Nat.eqb_neq in E.
    split; [|split; [exact Hf|exists gs; auto]]. unfold groups_of. rewrite Hg.
    change (rfold (init_group d ti v) gs (Ok b) = Ok b') in H.
    pose proof (rfold_inv (init_group d ti v) (fun l b => built (done ++ map (pair v) l) b) gs [] b b') as R.
    cbn [app map] in R. apply R; [rewrite app_nil_r; exact B| |exact H].
    intros l g b1 b2 _ B1 K. rewrite map_app. cbn [map]. rewrite app_assoc. eapply init_group_built; eauto.
  Qed.

  Lemma init_vertices_built b : init_vertices d ti = Ok b ->
    built all_groups b /\
    forall v, v < dt_nv d -> dv_finite (dt_v d v) = true /\ exists gs, split_star d v = Ok gs /\ length gs <> 1.
  Proof.
    intros H. unfold init_vertices in H.
    change (rfold (init_vertex d ti) (seq 0 (dt_nv d)) (Ok (mkBuild [] (fun _ => mk3 None None None) [])) = Ok b) in H.
    pose proof (rfold_inv (init_vertex d ti) (fun l b => built (flat_map (fun v => map (pair v) (groups_of v)) l) b /\
      forall v, In v l -> dv_finite (dt_v d v) = true /\ exists gs, split_star d v = Ok gs /\ length gs <> 1)
      (seq 0 (dt_nv d)) [] (mkBuild [] (fun _ => mk3 None None None) []) b) as R.
    cbn [app] in R. destruct R as [R1 R2].
    - split; [|intros v []]. constructor; cbn.
      + constructor.
      + intros [|]; discriminate.
      + intros t []; discriminate.
      + intros [|]; discriminate.
      + reflexivity.
    - intros l v b1 b2 Hv [B1 B2] K. destruct (init_vertex_built _ _ _ _ B1 K) as (B3 & B4 & B5). split.
      + rewrite flat_map_app. cbn [flat_map]. rewrite app_nil_r. exact B3.
      + intros v' Hv'. apply in_app_or in Hv'. destruct Hv' as [Hv'|[<-|[]]]; [apply B2; exact Hv'|auto].
    - exact H.
    - split; [exact R1|]. intros v Hv. apply R2. apply in_seq. lia.
  Qed.

  (** ** The circular lists *)
  Definition linked_kv (tv : tverts) (l : links) (k : kvertex (A:=A)) : kvertex :=
    kv_right (kv_left k (hist_set (k_left k) (get3 (tv (fst (l_left l))) (snd (l_left l))) n0))
             (hist_set (k_right k) (get3 (tv (fst (l_right l))) (snd (l_right l))) n0).
  Lemma link_vertex_length tv kvs l : length (link_vertex tv kvs l) = length kvs.
  Proof. unfold link_vertex. rewrite map_length, seq_length. reflexivity. Qed.
  Lemma link_vertex_nth tv kvs l i k : nth_error kvs i = Some k ->
    nth_error (link_vertex tv kvs l) i = Some (if Nat.eqb i (l_kv l) then linked_kv tv l k else k).
  Proof.
    intros H. assert (L : i < length kvs) by (apply nth_error_Some; congruence).
    unfold link_vertex. rewrite nth_error_map.
    assert (S : nth_error (seq 0 (length kvs)) i = Some i).
    { rewrite (nth_error_nth' _ 0) by (rewrite seq_length; exact L). rewrite seq_nth by exact L. reflexivity. }
    rewrite S. cbn [option_map]. erewrite nth_error_nth by exact H. reflexivity.
  Qed.
  Lemma links_nth tv ls : forall kvs, NoDup (map l_kv ls) ->
    length (fold_left (link_vertex tv) ls kvs) = length kvs /\
    forall i k, nth_error kvs i = Some k ->
      (~ In i (map l_kv ls) -> nth_error (fold_left (link_vertex tv) ls kvs) i = Some k) /\
      (forall l, In l ls -> l_kv l = i -> nth_error (fold_left (link_vertex tv) ls kvs) i = Some (linked_kv tv l k)).
  Proof.
    induction ls as [|l ls IH]; intros kvs N; [split; [reflexivity|]; intros i k H; split; [auto|intros l []]|].
    cbn [map] in N. apply NoDup_cons_iff in N. destruct N as [N1 N2]. cbn [fold_left].
    destruct (IH (link_vertex tv kvs l) N2) as [I1 I2]. split; [rewrite I1; apply link_vertex_length|].
    intros i k H. pose proof (link_vertex_nth tv kvs l i k H) as K. destruct (Nat.eqb i (l_kv l)) eqn:E.
    - apply Nat.eqb_eq in E. subst i. destruct (I2 _ _ K) as [J1 J2]. split.
      + intros X. destruct X. left. reflexivity.
      + intros l' [<-|Hl] El; [apply J1; exact N1|]. destruct N1. rewrite <- El. apply in_map. exact Hl.
    - apply Nat.eqb_neq in E. destruct (I2 _ _ K) as [J1 J2]. split.
      + intros X. apply J1. intros Y. apply X. right. exact Y.
      + intros l' [<-|Hl] El; [congruence|]. apply J2; assumption.
  Qed.

  Lemma combine_nth_error {X} (l : list X) i x : nth_error l i = Some x -> In (i, x) (combine (seq 0 (length l)) l).
  Proof.
    assert (G : forall (l : list X) a i x, nth_error l i = Some x -> In (a + i, x) (combine (seq a (length l)) l)).
    { clear. induction l as [|y l IH]; intros a [|i] x H; cbn in *; try discriminate.
      - injection H as <-. left. f_equal. lia.
      - right. replace (a + S i) with (S a + i) by lia. apply IH. exact H. }
    apply (G l 0).
  Qed.

  (** every kinetic vertex gets its neighbours from the corners beside its group *)
  Lemma links_built b : built all_groups b ->
    let kvs := fold_left (link_vertex (b_tv b)) (b_links b) (b_kv b) in
    length kvs = length all_groups /\
    forall i v g, nth_error all_groups i = Some (v, g) ->
      exists k, kv_for (v, g) k /\ k_info k = S i /\ nth_error kvs i = Some (linked_kv (b_tv b) (link_for i g) k).
  Proof.
    intros [B1 B2 B3 B4 B5] kvs.
    assert (N : NoDup (map l_kv (b_links b))).
    { rewrite B5, map_map. cbn [l_kv link_for].
      assert (E : map (fun x : nat * (nat * list edge) => fst x) (combine (seq 0 (length all_groups)) all_groups) = seq 0 (length all_groups)).
      { generalize all_groups. clear. intros l.
        assert (G : forall (l : list (nat * list edge)) a, map (fun x : nat * (nat * list edge) => fst x) (combine (seq a (length l)) l) = seq a (length l)).
        { induction l0 as [|y l0 IH]; intros a; [reflexivity|]. cbn. rewrite IH. reflexivity. }
        apply G. }
      cbn. rewrite E. apply seq_NoDup. }
    destruct (links_nth (b_tv b) (b_links b) (b_kv b) N) as [L1 L2]. fold kvs in L1, L2.
    split; [rewrite L1; symmetry; apply (f2_length _ _ _ B1)|].
    intros i v g H.
    assert (X : exists k, nth_error (b_kv b) i = Some k /\ kv_for (v, g) k).
    { clear - B1 H. revert i H. induction B1 as [|x y l l' P Q IH]; intros [|i] H; cbn in *; try discriminate.
      - injection H as ->. exists y. auto.
      - apply IH. exact H. }
    destruct X as (k & K1 & K2). exists k. split; [exact K2|]. split; [apply B2; exact K1|].
    destruct (L2 i k K1) as [_ J]. apply J; [|reflexivity].
    rewrite B5. apply in_map_iff. exists (i, (v, g)). split; [reflexivity|]. apply combine_nth_error. exact H.
  Qed.
End Init.

(** ** The parts of a normal return of init_skeleton *)
Section Parts.
  Context {A : Arith} {E : Env A}.
  Local Open Scope res_scope.

  Definition ti_of (d : dtriang (A:=A)) (ti : nat -> tinit) : Prop :=
    (forall t, t < dt_nt d -> init_triangle d t = Ok (ti t)) /\ (forall t, dt_nt d <= t -> ti t = no_tinit).

  Lemma rmapl_nth {X Y} (f : X -> res Y) l ys dx dy i : rmapl f l = Ok ys -> i < length l -> f (nth i l dx) = Ok (nth i ys dy).
  Proof.
    intros H. apply rmapl_all in H. revert i. induction H as [|x y l ys P Q IH]; intros i L; cbn in *; [lia|].
    destruct i; [exact P|]. apply IH. lia.
  Qed.
  Lemma rmapl_length {X Y} (f : X -> res Y) l ys : rmapl f l = Ok ys -> length ys = length l.
  Proof. intros H. apply rmapl_all in H. symmetry. eapply f2_length. exact H. Qed.

  Record parts (d : dtriang (A:=A)) (s : state) (cpos : pt) (ti : nat -> tinit) (b : build) (kvs : list kvertex)
      (ls : list (list (nat * side * nat))) (unwanted : list nat) : Prop := {
    pa_centroid : centroid d = Ok cpos;
    pa_ti : ti_of d ti;
    pa_unwanted : unwanted = flat_map (fun t => repeat t (ti_unwanted (ti t))) (seq 0 (dt_nt d));
    pa_b : init_vertices d ti = Ok b;
    pa_kvs : kvs = fold_left (link_vertex (b_tv b)) (b_links b) (b_kv b);
    pa_links : forall l, In l (b_links b) -> check_links (fun i => nth i kvs (inf_vertex cpos)) l = Ok tt;
    pa_infinites : length (infinites d) = 3;
    pa_remove : filter (fun t => Nat.eqb (count3 (onat_eqb (Some (length kvs))) (with_infinite d (length kvs) (b_tv b) t)) 2)
                  (seq 0 (dt_nt d)) = unwanted;
    pa_three : length unwanted = 3;
    pa_ls : rmapl (unwanted_links (with_infinite d (length kvs) (b_tv b)) (fun t => ti_n (ti t)) (length kvs) unwanted) unwanted = Ok ls;
    pa_s : let tn := fold_left set_tn1 (concat ls) (fun t => ti_n (ti t)) in
           let tv := with_infinite d (length kvs) (b_tv b) in
           let gone := fun t => mem Nat.eqb t unwanted in
           let tv := fun t => if gone t then mk3 None None None else tv t in
           let tn := fun t => if gone t then mk3 None None None else tn t in
           let kts := filter (fun t => negb (gone t)) (seq 0 (dt_nt d)) in
           (forall t, In t kts -> exists p q r, tv t = mk3 (Some p) (Some q) (Some r)) /\
           exists s1, s1 = init_state d kvs cpos ti tv tn kts /\ check_ktriangles s1 kts n0 = Ok true /\
             s = init_state d kvs cpos ti tv tn (isort (key_le s1) kts) }.

  Theorem init_skeleton_parts d s : init_skeleton d = Ok s ->
    exists cpos ti b kvs ls unwanted, parts d s cpos ti b kvs ls unwanted.
  Proof.
    intros H. unfold init_skeleton in H.
    apply rbind_ok in H. destruct H as (cpos & H1 & H).
    apply rbind_ok in H. destruct H as (til & H2 & H). cbv zeta in H.
    set (ti := fun t => nth t til no_tinit) in *.
    set (unwanted := flat_map (fun t => repeat t (ti_unwanted (nth t til no_tinit))) (seq 0 (dt_nt d))) in *.
    apply rbind_ok in H. destruct H as (b & H3 & H).
    set (kvs := fold_left (link_vertex (b_tv b)) (b_links b) (b_kv b)) in *.
    apply rbind_ok in H. destruct H as (us & H4 & H).
    apply rbind_ok in H. destruct H as ([] & H5 & H). apply rassert_ok, Nat.eqb_eq in H5.
    set (c := length kvs) in *. set (tv := with_infinite d c (b_tv b)) in *.
    set (remove := filter (fun t => Nat.eqb (count3 (onat_eqb (Some c)) (tv t)) 2) (seq 0 (dt_nt d))) in *.
    apply rbind_ok in H. destruct H as ([] & H6 & H). apply rassert_ok, Nat.eqb_eq in H6.
    apply rbind_ok in H. destruct H as ([] & H7 & H). apply rassert_ok, Nat.eqb_eq in H7.
    apply rbind_ok in H. destruct H as ([] & H8 & H). apply rassert_ok in H8.
    assert (EQ : remove = unwanted).
    { clear - H8. destruct (list_eq_dec Nat.eq_dec remove unwanted) as [EQ|]; [exact EQ|discriminate H8]. }
    apply rbind_ok in H. destruct H as (ls & H9 & H).
    apply rbind_ok in H. destruct H as (ok & H10 & H).
    apply rbind_ok in H. destruct H as ([] & H11 & H). apply rassert_ok in H11. subst ok.
    apply rbind_ok in H. destruct H as (l0 & H12 & H).
    apply rbind_ok in H. destruct H as (l1 & H13 & H). injection H as <-.
    exists cpos, ti, b, kvs, ls, unwanted. constructor; auto.
    - split.
      + intros t L. unfold ti. rewrite <- (rmapl_nth _ _ _ 0 no_tinit t H2) by (rewrite seq_length; exact L).
        rewrite seq_nth by exact L. reflexivity.
      + intros t L. unfold ti. apply nth_overflow. rewrite (rmapl_length _ _ _ H2), seq_length. exact L.
    - intros l L. destruct (rmapl_In _ _ _ _ H4 L) as ([] & K & _). exact K.
    - cbv zeta. split.
      + intros t L. destruct (rmapl_In _ _ _ _ H12 L) as (p & K1 & _). destruct (rmapl_In _ _ _ _ H13 L) as (r & K2 & _).
        apply rbind_ok in K2. destruct K2 as (q & K2 & K3). exists p, q, r.
        match goal with |- ?w = _ => change (oget (x0 w) = Ok p) in K1; change (oget (x1 w) = Ok q) in K2;
          change (oget (x2 w) = Ok r) in K3; destruct w as [[?|] [?|] [?|]] end; cbn in *; congruence.
      + eexists. split; [reflexivity|]. split; [exact H10|]. reflexivity.
  Qed.
End Parts.
