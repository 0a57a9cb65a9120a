(** Edge, split and three-sided events keep active triangles consistently linked *)
From Verif Require Import Base Arith Calc VectorOps Line2d Primitives Collapse CollapseProofs EventsLib
  FlipEvent ParallelEvent EdgeEvent SplitEvent EventLoop Pass OpSpec Order StopSpec RunBase RunTimed RunLoop
  Decent Total FanProofs Mesh.

Definition option_eq_dec (a b : option nat) : {a = b} + {a <> b}.
Proof. decide equality. apply Nat.eq_dec. Defined.

Section MeshEvents.
  Context {A : Arith} {E : Env A}.

  (** ** Fans in linked triangulations *)
  Definition turn (d : side -> side) : Prop := d = cw \/ d = ccw.
  Definition back (d : side -> side) (i : side) : side := d (d i).

  Lemma is_fan_in D s v d t l : linked D s -> is_fan s v d t l -> (forall x, t = Some x -> D x) -> forall u, In u l -> D u.
  Proof.
    intros L H. induction H as [|t sd l H F IH]; intros D0 u Hu; [contradiction|].
    destruct Hu as [<-|Hu]; [auto|]. apply IH; auto. intros x Hx. apply (L t (d sd) x); auto.
  Qed.

  Lemma is_fan_next s v d t l : is_fan s v d t l ->
    forall u, In u l -> exists sd, corner s u sd = v /\
      (forall w, link s u (d sd) = Some w -> In w l).
  Proof.
    intros H. induction H as [|t sd l H F IH]; intros u Hu; [contradiction|].
    destruct Hu as [<-|Hu].
    - exists sd. split; [exact H|]. intros w Hw. unfold link in Hw. rewrite Hw in F. inversion F; subst. simpl. auto.
    - destruct (IH u Hu) as (sd' & K & K'). exists sd'. split; [exact K|]. intros w Hw. simpl. right. auto.
  Qed.

  Lemma is_fan_prev s v d t l : is_fan s v d t l ->
    forall u, In u l -> t = Some u \/ exists w sd, In w l /\ corner s w sd = v /\ link s w (d sd) = Some u.
  Proof.
    intros H. induction H as [|t sd l H F IH]; intros u Hu; [contradiction|].
    destruct Hu as [<-|Hu]; [auto|]. right. destruct (IH u Hu) as [K|(w & sd' & K1 & K2 & K3)].
    - exists t, sd. simpl. auto.
    - exists w, sd'. simpl. auto.
  Qed.

  (** around [v], the fan can only be left at the back of its first triangle *)
  Lemma fan_closed D s v d a l : linked D s -> (forall u, D u -> distinct s u) -> turn d -> D a ->
    is_fan s v d (Some a) l ->
    forall u k m w, In u l -> corner s u k = v -> m <> k -> link s u m = Some w ->
      In w l \/ (u = a /\ m = back d k).
  Proof.
    intros L DI T Da F u k m w Hu Hk Hm Hl.
    assert (Du : D u) by (eapply is_fan_in; eauto; intros x Hx; injection Hx as <-; exact Da).
    assert (C : m = d k \/ m = back d k).
    { unfold back. destruct T as [-> | ->]; destruct k, m; auto; contradiction. }
    destruct C as [-> | ->].
    - left. destruct (is_fan_next s v d _ l F u Hu) as (sd & H1 & H2). assert (sd = k) by (apply (DI u Du); congruence). subst sd. auto.
    - destruct (is_fan_prev s v d _ l F u Hu) as [H|(x & sd & H1 & H2 & H3)]; [injection H as ->; auto|].
      left. assert (Dx : D x) by (eapply is_fan_in; eauto; intros y Hy; injection Hy as <-; exact Da).
      destruct (L x (d sd) u Dx H3) as (_ & j & J1 & J2 & J3).
      assert (j = back d k).
      { unfold back. destruct T as [-> | ->].
        - rewrite ccw_cw in J3. rewrite <- H2 in Hk. rewrite <- J3 in Hk. apply (DI u Du) in Hk. subst k. rewrite cw_cw, ccw_cw. reflexivity.
        - rewrite cw_ccw in J2. rewrite <- H2 in Hk. rewrite <- J2 in Hk. apply (DI u Du) in Hk. subst k. rewrite ccw_ccw, cw_ccw. reflexivity. }
      subst j. rewrite Hl in J1. injection J1 as ->. exact H1.
  Qed.

  (** a fan does not contain the triangle before its first one *)
  Lemma fan_not_before D s v d a l t k : (forall u, D u -> distinct s u) -> D t ->
    is_fan s v d (Some a) l -> NoDup l -> corner s t k = v -> link s t (d k) = Some a -> ~ In t l.
  Proof.
    intros DI Dt F N Ck Lk Hin.
    assert (G : forall o l0, is_fan s v d o l0 -> In t l0 -> exists pre l1, l0 = pre ++ t :: l1 /\ In a l1).
    { intros o l0 F0. induction F0 as [|x sd l0 H F0 IH]; intros H0; [contradiction|].
      destruct H0 as [<-|H0].
      - exists [], l0. split; [reflexivity|].
        assert (sd = k) by (apply (DI x Dt); unfold corner in *; congruence). subst sd.
        unfold link in Lk. rewrite Lk in F0. inversion F0; subst. simpl. auto.
      - destruct (IH H0) as (pre & l1 & -> & H1). exists (x :: pre), l1. auto. }
    destruct (G _ _ F Hin) as (pre & l1 & -> & H1).
    assert (K : exists r, pre ++ t :: l1 = a :: r) by (inversion F; eauto). destruct K as [r K].
    destruct pre as [|y pre]; injection K as K _; subst; apply NoDup_cons_iff in N; apply (proj1 N).
    - exact H1.
    - apply in_or_app. right. simpl. auto.
  Qed.

  (** ** Removing a triangle and joining what is around it *)
  Lemma self_shares D s u i j : (forall u, D u -> distinct s u) -> D u -> shares s u i u j -> False.
  Proof. intros DI Du [K1 K2]. apply (DI u Du) in K1, K2. destruct i, j; cbn in *; congruence. Qed.

  Lemma splice D s s' t (r : side -> option nat) (sub : nat -> nat -> nat) :
    linked D s -> (forall u, D u -> distinct s u) -> D t ->
    (forall u j, D u -> u <> t -> link s u j <> Some t -> link s' u j = link s u j) ->
    (forall u j m, D u -> u <> t -> link s t m = Some u -> link s u j = Some t -> shares s t m u j -> link s' u j = r m) ->
    (forall u i, D u -> u <> t -> corner s' u i = sub u (corner s u i)) ->
    (forall u i w j, D u -> D w -> u <> t -> w <> t -> link s u i = Some w -> link s w j = Some u -> shares s u i w j ->
       forall k, k <> i -> sub u (corner s u k) = sub w (corner s u k)) ->
    (forall m u j w, D u -> u <> t -> link s t m = Some u -> link s u j = Some t -> shares s t m u j -> r m = Some w ->
       exists m' j', link s t m' = Some w /\ link s w j' = Some t /\ shares s t m' w j' /\ r m' = Some u /\ shares s' u j w j') ->
    linked (fun u => D u /\ u <> t) s'.
  Proof.
    intros L DI Dt H1 H2 H3 H4 H5 u i w [Du Nu] Hl.
    destruct (option_eq_dec (link s u i) (Some t)) as [K|K].
    - destruct (L u i t Du K) as (_ & m & M1 & M2). apply shares_sym in M2.
      rewrite (H2 u i m) in Hl; auto.
      destruct (H5 m u i w Du Nu M1 K M2 Hl) as (m' & j' & A1 & A2 & A3 & A4 & A5).
      assert (Dw : D w) by (apply (L t m' w Dt A1)).
      assert (Nw : w <> t) by (intros ->; eapply (self_shares D s t); eauto).
      split; [auto|]. exists j'. split; [|exact A5]. rewrite (H2 w j' m'); auto.
    - rewrite H1 in Hl by auto. destruct (L u i w Du Hl) as (Dw & j & J1 & J2).
      assert (Nw : w <> t) by (intros ->; congruence).
      split; [auto|]. exists j. split.
      + rewrite H1; auto. congruence.
      + pose proof (H4 u i w j Du Dw Nu Nw Hl J1 J2) as H6. destruct J2 as [J2 J3].
        split; rewrite !H3 by auto; rewrite ?J2, ?J3; symmetry; apply H6; destruct i; discriminate.
  Qed.

  (** ** Steps of the handlers *)
  Definition mesh_same (s s' : state) : Prop :=
    forall u, t_v (ts s' u) = t_v (ts s u) /\ t_n (ts s' u) = t_n (ts s u) /\ t_stops (ts s' u) = t_stops (ts s u).
  Definition quiet (s s' : state) : Prop := registered s' /\ follows s s' /\ mesh_same s s'.

  Lemma mesh_same_refl s : mesh_same s s. Proof. repeat split. Qed.
  Lemma mesh_same_ts s s' : ts s' = ts s -> mesh_same s s'.
  Proof. intros H u. rewrite H. auto. Qed.
  Lemma mesh_same_trans a b c : mesh_same a b -> mesh_same b c -> mesh_same a c.
  Proof. intros H K u. destruct (H u) as (? & ? & ?), (K u) as (? & ? & ?). repeat split; congruence. Qed.
  Lemma quiet_refl s : registered s -> quiet s s.
  Proof. intros R. split; [exact R|]. split; [apply follows_refl|apply mesh_same_refl]. Qed.
  Lemma quiet_trans a b c : quiet a b -> quiet b c -> quiet a c.
  Proof.
    intros (R1 & F1 & M1) (R2 & F2 & M2). split; [exact R2|]. split; [|eapply mesh_same_trans; eauto].
    apply (G_trans base_sound _ _ _ F1 F2).
  Qed.
  Lemma mesh_same_corner s s' u i : mesh_same s s' -> corner s' u i = corner s u i.
  Proof. intros H. unfold corner. destruct (H u) as (-> & _). reflexivity. Qed.
  Lemma mesh_same_link s s' u i : mesh_same s s' -> link s' u i = link s u i.
  Proof. intros H. unfold link. destruct (H u) as (_ & -> & _). reflexivity. Qed.

  Lemma quiet_keeps {X} now (m : M X) s x s' : keeps (I := fun _ => registered) (G := follows) now m ->
    registered s -> m s = Ok (x, s') -> mesh_same s s' -> quiet s s'.
  Proof. intros K R H M. destruct (K s R x s' H). split; auto. Qed.

  Lemma quiet_stop V step now pos s n s' : registered s -> stop_and_register V step now pos s = Ok (n, s') ->
    quiet s s' /\ In n (sk_nodes s').
  Proof.
    intros R H. destruct (s_stop base_sound now s V step pos R n s' H) as (A1 & A2 & A3).
    split; [|exact A3]. split; [exact A1|]. split; [exact A2|]. apply mesh_same_ts. apply stop_same in H. apply H.
  Qed.
  Lemma quiet_newv ul ur now n info int s v s' : registered s -> In n (sk_nodes s) ->
    compute_new_kvertex ul ur now n info int s = Ok (v, s') -> quiet s s' /\ v = nv s /\ v < nv s'.
  Proof.
    intros R N H. destruct (s_newv base_sound now s ul ur n info int R N v s' H) as (A1 & A2 & A3).
    apply newv_spec in H. destruct H as (kv & _ & -> & ->).
    split; [|auto]. split; [exact A1|]. split; [exact A2|]. apply mesh_same_ts; reflexivity.
  Qed.
  Lemma quiet_wf v l r s u s' : registered s -> set_wf v l r s = Ok (u, s') -> quiet s s'.
  Proof.
    intros R H. eapply (quiet_keeps n0); [apply (keeps_wf base_sound)|exact R|exact H|].
    apply modv_spec in H. destruct H as [_ ->]. apply mesh_same_ts; reflexivity.
  Qed.
  Lemma quiet_addv v s u s' : registered s -> v < nv s -> add_vertex v s = Ok (u, s') -> quiet s s'.
  Proof.
    intros R V H. destruct (s_addv base_sound n0 s v R V u s' H) as [A1 A2].
    split; [exact A1|]. split; [exact A2|]. injection H as _ <-. apply mesh_same_ts; reflexivity.
  Qed.
  Lemma quiet_circ l r now s u s' : registered s -> update_circ l r now s = Ok (u, s') -> quiet s s'.
  Proof.
    intros R H. eapply (quiet_keeps now); [apply (keeps_circ base_sound)|exact R|exact H|].
    apply circ_spec in H. destruct H as (f & -> & _). apply mesh_same_ts; reflexivity.
  Qed.
  Lemma mesh_same_upd s t x s' : ts s' = upd (ts s) t x -> t_v x = t_v (ts s t) -> t_n x = t_n (ts s t) ->
    t_stops x = t_stops (ts s t) -> mesh_same s s'.
  Proof. intros P K L M u. rewrite P. destruct (upd_case (ts s) t x u) as [[<- ->]|[_ ->]]; auto. Qed.
  Lemma mesh_same_forget s o : mesh_same s (forget s o).
  Proof. apply mesh_same_ts. destruct o; reflexivity. Qed.
  Lemma mesh_same_riq t now s u s' : replace_in_queue t now s = Ok (u, s') -> mesh_same s s'.
  Proof.
    intros H. apply riq_spec in H. eapply mesh_same_trans; [apply (mesh_same_forget s (t_event (ts s t)))|].
    destruct H as [[_ ->]|(e & _ & ->)]; [apply mesh_same_ts; reflexivity|].
    eapply mesh_same_upd; reflexivity.
  Qed.
  Lemma mesh_same_sched t now s u s' : schedule_immediately t now s = Ok (u, s') -> mesh_same s s'.
  Proof.
    intros H. apply sched_spec in H.
    destruct H as (e & _ & _ & _ & _ & _ & _ & _ & _ & _ & _ & _ & _ & _ & _ & _ & Ht & _).
    eapply mesh_same_upd; [exact Ht|reflexivity|reflexivity|reflexivity].
  Qed.
  Lemma quiet_riq t now s u s' : registered s -> replace_in_queue t now s = Ok (u, s') -> quiet s s'.
  Proof. intros R H. eapply quiet_keeps; [apply (keeps_riq base_sound)|exact R|exact H|eapply mesh_same_riq, H]. Qed.
  Lemma quiet_sched t now s u s' : registered s -> schedule_immediately t now s = Ok (u, s') -> quiet s s'.
  Proof. intros R H. eapply quiet_keeps; [apply (keeps_sched base_sound)|exact R|exact H|eapply mesh_same_sched, H]. Qed.
  Lemma quiet_tiny fan kv now d s u s' : registered s -> schedule_if_tiny fan kv now d s = Ok (u, s') -> quiet s s'.
  Proof.
    intros R H. eapply quiet_keeps; [apply (keeps_tiny base_sound)|exact R|exact H|].
    unfold schedule_if_tiny in H. destruct (rev fan) as [|t l]; [apply ret_ok in H; destruct H as [_ ->]; apply mesh_same_refl|].
    apply bind_ok in H. destruct H as (x & s1 & H & K). injection H as <- <-.
    apply bind_ok in K. destruct K as (i & s1 & H & K). unfold rdr in H. apply rd_ok in H. destruct H as [_ ->].
    destruct (edge_segment _ _) as [o d0].
    apply bind_ok in K. destruct K as (d2 & s1 & H & K). apply rd_ok in H. destruct H as [_ ->].
    apply bind_ok in K. destruct K as (r & s1 & H & K). unfold rdr in H. apply rd_ok in H. destruct H as [_ ->].
    unfold whenM in K. destruct (near_zero r); [eapply mesh_same_sched, K|apply ret_ok in K; destruct K as [_ ->]; apply mesh_same_refl].
  Qed.

  (** unlinking *)
  Lemma relink_ok n t x s u s' : registered s -> relink n t x s = Ok (u, s') ->
    registered s' /\ follows s s' /\ (forall w, t_v (ts s' w) = t_v (ts s w) /\ t_stops (ts s' w) = t_stops (ts s w) /\
       t_event (ts s' w) = t_event (ts s w)) /\
    exists i, link s n i = Some t /\
      forall w j, link s' w j = if (Nat.eqb n w && side_eqb i j)%bool then x else link s w j.
  Proof.
    intros R H. destruct (keeps_relink base_sound n0 n t x s R u s' H) as [A1 A2].
    unfold relink in H. apply bind_ok in H. destruct H as (y & s1 & H & K). injection H as <- <-.
    apply bind_ok in K. destruct K as (i & s1 & H & K). unfold rdr in H. apply rd_ok in H. destruct H as [H ->].
    destruct (set_tn_spec n i x s) as (s2 & B1 & [B2 B3] & B4). rewrite B1 in K. injection K as <- <-.
    split; [exact A1|]. split; [exact A2|]. split.
    - intros w. specialize (B3 w (t_n (ts s w))).
      assert (Q : forall X (f : ktri -> X), (forall a y, f (tri_n a y) = f a) -> f (ts s2 w) = f (ts s w)).
      { intros X f Hf. rewrite <- (Hf (ts s2 w) (t_n (ts s w))), B3. apply Hf. }
      split; [|split]; apply Q; reflexivity.
    - exists i. split; [|exact B4]. unfold link. unfold nindex in H. apply index3_get in H.
      destruct (get3 (t_n (ts s n)) i) as [m|]; [|discriminate]. apply Nat.eqb_eq in H. congruence.
  Qed.

  (** the walk of replace_kvertex stays where the links lead *)
  Lemma walk_in (P : nat -> Prop) fuel : forall t v newv now d s fan s',
    (forall u i w, P u -> link s u i = Some w -> P w) -> (forall x, t = Some x -> P x) ->
    replace_walk fuel t v newv now d s = Ok (fan, s') -> forall u, In u fan -> P u.
  Proof.
    induction fuel as [|fuel IH]; intros t v newv now d s fan s' C T H u Hu.
    { cbn [replace_walk] in H. destruct t; [discriminate|]. injection H as <- <-. contradiction. }
    destruct t as [t|]; [|cbn [replace_walk] in H; injection H as <- <-; contradiction].
    apply walk_step in H. destruct H as (sd & s2 & l & V & -> & W & N2 & V2).
    destruct Hu as [<-|Hu]; [auto|]. eapply IH; [| |exact W|exact Hu].
    - intros x i w Px. unfold link. rewrite N2. apply C, Px.
    - intros x Hx. apply (C t (d sd) x); auto.
  Qed.
  Lemma walk_stops fuel : forall t v newv now d s fan s',
    replace_walk fuel t v newv now d s = Ok (fan, s') -> forall u, t_stops (ts s' u) = t_stops (ts s u).
  Proof.
    induction fuel as [|fuel IH]; intros t v newv now d s fan s' H u.
    { cbn [replace_walk] in H. destruct t; [discriminate|]. injection H as <- <-. reflexivity. }
    cbn [replace_walk] in H. destruct t as [t|]; [|injection H as <- <-; reflexivity].
    apply bind_ok in H. destruct H as (x & s1 & H & K). injection H as <- <-.
    apply bind_ok in K. destruct K as (sd & s1 & H & K). unfold rdr in H. apply rd_ok in H. destruct H as [_ ->].
    apply bind_ok in K. destruct K as ([] & s1 & H & K). apply modt_spec in H.
    apply bind_ok in K. destruct K as (fast & s1' & H1 & K). unfold vattr in H1. apply rd_ok in H1. destruct H1 as [_ ->].
    apply bind_ok in K. destruct K as (y & s2 & H1 & K).
    assert (M : mesh_same s1 s2).
    { destruct (if fast then _ else None); [|eapply mesh_same_riq, H1].
      apply forget_spec in H1. subst s2. apply mesh_same_ts. reflexivity. }
    apply bind_ok in K. destruct K as (z & s3 & H2 & K). injection H2 as <- <-.
    apply bind_ok in K. destruct K as (l & s3 & H2 & K). apply ret_ok in K. destruct K as [-> ->].
    rewrite (IH _ _ _ _ _ _ _ _ H2). destruct (M u) as (_ & _ & ->). subst s1. cbn.
    destruct (upd_case (ts s) t (tri_v (ts s t) (set3 (t_v (ts s t)) sd newv)) u) as [[-> ->]|[_ ->]]; reflexivity.
  Qed.

  Definition sub1 (v kv : nat) (l : list nat) (u p : nat) : nat :=
    if Nat.eq_dec p v then if in_dec Nat.eq_dec u l then kv else p else p.

  Lemma corners_one v (x : ktri) : (forall i j, get3 (t_v x) i = v -> get3 (t_v x) j = v -> i = j) -> corners v x <= 1.
  Proof.
    intros C. unfold corners, count3.
    pose proof (C S0 S1) as A1. pose proof (C S0 S2) as A2. pose proof (C S1 S2) as A3. cbn in *.
    repeat match goal with |- context [Nat.eqb ?a ?b] => destruct (Nat.eqb_spec a b) end; try lia; exfalso;
      (discriminate A1; congruence) || (discriminate A2; congruence) || (discriminate A3; congruence).
  Qed.

  Lemma replace_ok (P : nat -> Prop) a v kv now d s fan s' : registered s -> v <> kv ->
    (forall u i w, P u -> link s u i = Some w -> P w) -> P a ->
    (forall u i j, P u -> corner s u i = v -> corner s u j = v -> i = j) ->
    replace_kvertex a v kv now d s = Ok (fan, s') ->
    registered s' /\ follows s s' /\ (forall u, t_n (ts s' u) = t_n (ts s u) /\ t_stops (ts s' u) = t_stops (ts s u)) /\
    NoDup fan /\ (forall u, In u fan -> P u) /\ is_fan s v d (Some a) fan /\
    (forall u i, corner s' u i = sub1 v kv fan u (corner s u i)).
  Proof.
    intros R N C Pa DI H.
    destruct (keeps_replace_kvertex base_sound a v kv now d s R fan s' H) as [A1 A2].
    unfold replace_kvertex in H. apply bind_ok in H. destruct H as (n & s1 & H1 & H). apply gets_ok in H1. destruct H1 as [-> ->].
    pose proof (walk_stops _ _ _ _ _ _ _ _ _ H) as ST.
    assert (IN : forall u, In u fan -> P u).
    { eapply walk_in; [exact C| |exact H]. intros x Hx. injection Hx as <-. exact Pa. }
    apply walk_changes in H; auto. destruct H as (H1 & H2 & H3 & H4).
    assert (C1 : forall u, In u fan -> corners v (ts s u) <= 1).
    { intros u Hu. apply corners_one. intros i j. apply (DI u i j). auto. }
    split; [exact A1|]. split; [exact A2|]. split; [auto|].
    assert (ND : NoDup fan).
    { apply (NoDup_count_occ Nat.eq_dec). intros u. specialize (H2 u). specialize (C1 u).
      destruct (in_dec Nat.eq_dec u fan) as [K|K]; [specialize (C1 K); lia|].
      apply (count_occ_not_In Nat.eq_dec) in K. lia. }
    split; [exact ND|]. split; [exact IN|]. split; [apply H4, C1|].
    intros u i. unfold sub1. unfold corner. destruct (Nat.eq_dec _ _) as [K|K].
    - destruct (in_dec Nat.eq_dec u fan) as [Hu|Hu].
      + destruct (H3 u i) as [Q|(_ & Q & _)]; [|exact Q]. exfalso.
        rewrite K in Q. apply corners_pos in Q. specialize (H2 u). specialize (C1 u Hu).
        apply (count_occ_In Nat.eq_dec) in Hu. lia.
      + destruct (H3 u i) as [Q|(_ & _ & Q)]; [exact Q|contradiction].
    - destruct (H3 u i) as [Q|(Q & _)]; [exact Q|contradiction].
  Qed.

  (** unlink [a] from [t], then replace [v] in the fan starting at [a] *)
  Lemma relink_replace (P : nat -> Prop) a t x v kv now d s u0 s1 fan s' : registered s -> v <> kv ->
    (forall u i w, P u -> link s u i = Some w -> P w) -> P a -> (forall y, x = Some y -> P y) ->
    (forall u i j, P u -> corner s u i = v -> corner s u j = v -> i = j) ->
    relink a t x s = Ok (u0, s1) -> replace_kvertex a v kv now d s1 = Ok (fan, s') ->
    registered s' /\ follows s s' /\ (forall u, t_stops (ts s' u) = t_stops (ts s u)) /\
    NoDup fan /\ (forall u, In u fan -> P u) /\
    (forall u i, corner s' u i = sub1 v kv fan u (corner s u i)) /\
    exists i, link s a i = Some t /\
      (forall w j, link s' w j = if (Nat.eqb a w && side_eqb i j)%bool then x else link s w j) /\
      ((forall k, corner s a k = v -> d k <> i) -> is_fan s v d (Some a) fan).
  Proof.
    intros R N C Pa Px DI H1 H2. apply relink_ok in H1; auto. destruct H1 as (R1 & F1 & V1 & i & L1 & L2).
    assert (CS : forall u j, corner s1 u j = corner s u j) by (intros u j; unfold corner; destruct (V1 u) as [-> _]; reflexivity).
    apply (replace_ok P) in H2; auto.
    2:{ intros u j w Pu. rewrite L2. destruct (_ && _)%bool; [intros ->; auto|apply C, Pu]. }
    2:{ intros u j k. rewrite !CS. apply DI. }
    destruct H2 as (R2 & F2 & V2 & ND & IN & FN & CC).
    split; [exact R2|]. split; [apply (G_trans base_sound _ _ _ F1 F2)|].
    split; [intros u; destruct (V2 u) as [_ ->]; apply (V1 u)|]. split; [exact ND|]. split; [exact IN|].
    split; [intros u j; rewrite CC, CS; reflexivity|]. exists i. split; [exact L1|]. split.
    { intros w j. rewrite <- L2. unfold link. destruct (V2 w) as [-> _]. reflexivity. }
    intros NK. clear - FN CS L2 NK. revert FN.
    assert (G : forall o l, is_fan s1 v d o l -> is_fan s v d o l); [|apply G].
    intros o l F. induction F as [|w sd l H F IH]; [constructor|].
    apply fan_step with sd; [rewrite <- H; symmetry; apply CS|].
    change (get3 (t_n (ts s w)) (d sd)) with (link s w (d sd)).
    change (get3 (t_n (ts s1 w)) (d sd)) with (link s1 w (d sd)) in IH. rewrite L2 in IH.
    destruct (Nat.eqb_spec a w) as [->|]; [|exact IH]. cbn [andb] in IH.
    destruct (side_eqb i (d sd)) eqn:Q; [|exact IH]. exfalso. apply (NK sd).
    - rewrite <- CS. exact H.
    - destruct i, (d sd); try discriminate; reflexivity.
  Qed.
End MeshEvents.
