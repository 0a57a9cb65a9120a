(** The rings of kinetic vertices around the active triangles: what it means that
    they fit, and the lists of triangles around a vertex (any arithmetic) *)
From Verif Require Import Base Arith Calc VectorOps Line2d Primitives Collapse EventsLib
  FlipEvent ParallelEvent EdgeEvent SplitEvent EventLoop Pass OpSpec StopSpec RunBase Fan FanProofs Mesh MeshEvents MeshEdge MeshRun.
Local Open Scope nat_scope.

Section Rings.
  Context {A : Arith} {E : Env A}.

  (** ** Triangles around a vertex, from the right to the left *)
  Definition hd_t (l : list (nat * side)) (q : option nat) : option nat :=
    match l with [] => q | (t, _) :: _ => Some t end.
  Fixpoint last_t (p : option nat) (l : list (nat * side)) : option nat :=
    match l with [] => p | (t, _) :: r => last_t (Some t) r end.
  (** each triangle is linked with the one before it and the one after it *)
  Fixpoint chain (s : state) (p : option nat) (l : list (nat * side)) (q : option nat) : Prop :=
    match l with
    | [] => True
    | (t, i) :: r => link s t (cw i) = p /\ link s t (ccw i) = hd_t r q /\ chain s (Some t) r q
    end.
  (** [l] lists the active triangles at [v] with the corner that is [v]; the
      first and the last have a wavefront side there *)
  Record star (s : state) (v : nat) (l : list (nat * side)) : Prop := {
    st_nodup : NoDup l;
    st_chain : chain s None l None;
    st_all : forall t i, In (t, i) l <-> active s t /\ corner s t i = v }.

  Definition stopped (s : state) (v : nat) : Prop := k_stops (vs s v) <> None.
  (** a wavefront side whose two ends have stopped: what remains of a side that
      collapsed in the triangle next to it *)
  Definition left_over (s : state) (t : nat) (i : side) : Prop :=
    active s t /\ link s t i = None /\ stopped s (corner s t (ccw i)) /\ stopped s (corner s t (cw i)).
  Definition touches (s : state) (t : nat) (i : side) (v : nat) : Prop :=
    v = corner s t (ccw i) \/ v = corner s t (cw i).
  (** [b] comes right of [a] in the ring, and they move along the same front *)
  Definition joint (s : state) (a b : nat) : Prop :=
    kright (vs s a) = Some b /\ kleft (vs s b) = Some a /\
    k_wfr (vs s a) = k_wfl (vs s b) /\ k_ur (vs s a) = k_ul (vs s b).

  Record fitting (s : state) : Prop := {
    fi_linked : linked (active s) s;
    fi_ring : forall t i, active s t -> link s t i = None ->
      left_over s t i \/ joint s (corner s t (ccw i)) (corner s t (cw i));
    fi_star : forall v, k_inf (vs s v) = false -> exists l, star s v l;
    fi_stop : forall t i, active s t -> k_inf (vs s (corner s t i)) = false -> stopped s (corner s t i) ->
      exists u j, left_over s u j /\ touches s u j (corner s t i) }.

  (** ** Lists *)
  Lemma chain_app s : forall l r p q, chain s p (l ++ r) q <-> chain s p l (hd_t r q) /\ chain s (last_t p l) r q.
  Proof.
    induction l as [|[t i] l IH]; intros r p q; cbn [app chain last_t]; [tauto|]. rewrite IH.
    assert (Q : hd_t (l ++ r) q = hd_t l (hd_t r q)) by (destruct l as [|[]]; reflexivity). rewrite Q. tauto.
  Qed.
  Lemma last_app l x : forall p, last_t p (l ++ [x]) = Some (fst x).
  Proof. induction l as [|[t i] l IH]; intros p; cbn; [destruct x; reflexivity|apply IH]. Qed.
  Lemma last_some l : forall p, last_t p l = p /\ l = [] \/ exists x r, l = r ++ [x] /\ last_t p l = Some (fst x).
  Proof.
    intros p. destruct l as [|x l] using rev_ind; [auto|]. right. exists x, l. split; [reflexivity|apply last_app].
  Qed.
  Lemma last_none l : last_t None l = None -> l = [].
  Proof. destruct (last_some l None) as [[_ H]|(x & r & _ & ->)]; [auto|discriminate]. Qed.
  Lemma hd_none l : hd_t l None = None -> l = [].
  Proof. destruct l as [|[]]; [auto|discriminate]. Qed.
  Lemma last_in l n : last_t None l = Some n -> exists i, In (n, i) l.
  Proof.
    destruct (last_some l None) as [[H _]|([w i] & r & -> & H)]; [congruence|]. rewrite H. intros Q. injection Q as ->.
    exists i. apply in_or_app. cbn. auto.
  Qed.
  Lemma hd_in l n : hd_t l None = Some n -> exists i, In (n, i) l.
  Proof. destruct l as [|[w i] r]; [discriminate|]. cbn. intros Q. injection Q as ->. exists i. auto. Qed.
  Lemma chain_at s p q X t i Y : chain s p (X ++ (t, i) :: Y) q ->
    chain s p X (Some t) /\ link s t (cw i) = last_t p X /\ link s t (ccw i) = hd_t Y q /\ chain s (Some t) Y q.
  Proof. rewrite chain_app. cbn. tauto. Qed.
  Lemma chain_cut s p q X t i Y : chain s p X (Some t) -> link s t (cw i) = last_t p X ->
    link s t (ccw i) = hd_t Y q -> chain s (Some t) Y q -> chain s p (X ++ (t, i) :: Y) q.
  Proof. rewrite chain_app. cbn. tauto. Qed.
  Lemma chain_first s q X t i : chain s None X q -> In (t, i) X -> link s t (cw i) = None -> exists Y, X = (t, i) :: Y.
  Proof.
    intros H K N. apply in_split in K. destruct K as (P & Q & ->). apply chain_at in H. destruct H as (_ & H & _).
    rewrite N in H. symmetry in H. apply last_none in H. subst P. exists Q. reflexivity.
  Qed.
  Lemma chain_last s p X t i : chain s p X None -> In (t, i) X -> link s t (ccw i) = None -> exists Y, X = Y ++ [(t, i)].
  Proof.
    intros H K N. apply in_split in K. destruct K as (P & Q & ->). apply chain_at in H. destruct H as (_ & _ & H & _).
    rewrite N in H. symmetry in H. apply hd_none in H. subst Q. exists P. reflexivity.
  Qed.

  (** other links, same list *)
  Lemma chain_change s s' : forall l p q p' q', chain s p l q ->
    (forall u i j w, In (u, i) l -> j = cw i \/ j = ccw i -> link s u j = Some w -> In w (map fst l) -> link s' u j = Some w) ->
    (forall u i r, l = (u, i) :: r -> link s' u (cw i) = p') ->
    (forall u i r, l = r ++ [(u, i)] -> link s' u (ccw i) = q') -> chain s' p' l q'.
  Proof.
    induction l as [|[t i] l IH]; intros p q p' q' H K P Q; [exact I|].
    destruct H as (H1 & H2 & H3). cbn. split; [apply (P t i l eq_refl)|]. split.
    - destruct l as [|[t2 i2] l]; cbn in *; [apply (Q t i []); reflexivity|].
      apply (K t i); auto.
    - apply (IH (Some t) q); auto.
      + intros u i0 j w Hu Hj Hl Hw. apply (K u i0 j w); cbn; auto.
      + intros u i0 r ->. cbn in H3. apply (K u i0); cbn; auto. apply H3.
      + intros u i0 r ->. apply (Q u i0 ((t, i) :: r)). reflexivity.
  Qed.

  (** ** Fans are parts of stars *)
  Lemma fan_ccw s v o l : is_fan s v ccw o l -> forall p r, chain s p r None -> o = hd_t r None ->
    (forall u i, In (u, i) r -> corner s u i = v /\ distinct s u) -> l = map fst r.
  Proof.
    intros F. induction F as [|t sd l C F IH]; intros p r H Ho K.
    - symmetry in Ho. apply hd_none in Ho. subst r. reflexivity.
    - destruct r as [|[t' i] r]; [discriminate|]. cbn in Ho. injection Ho as <-. cbn in H. destruct H as (H1 & H2 & H3).
      cbn [map fst]. f_equal. destruct (K t i (or_introl eq_refl)) as [K1 K2].
      assert (sd = i) by (apply K2; unfold corner in *; congruence). subst sd.
      apply (IH (Some t) r H3); [exact H2|]. intros u j Hu. apply K. right. exact Hu.
  Qed.
  Lemma fan_cw s v o l : is_fan s v cw o l -> forall q r, chain s None r q -> o = last_t None r ->
    (forall u i, In (u, i) r -> corner s u i = v /\ distinct s u) -> l = rev (map fst r).
  Proof.
    intros F. induction F as [|t sd l C F IH]; intros q r H Ho K.
    - symmetry in Ho. apply last_none in Ho. subst r. reflexivity.
    - destruct (last_some r None) as [[Q ->]|([t' i] & r0 & -> & Q)]; [discriminate|].
      rewrite Q in Ho. injection Ho as <-. rewrite map_app, rev_app_distr. cbn [map fst rev app]. f_equal.
      destruct (K t i) as [K1 K2]; [apply in_or_app; cbn; auto|].
      assert (sd = i) by (apply K2; unfold corner in *; congruence). subst sd.
      apply chain_at in H. destruct H as (H1 & H2 & _).
      apply (IH (Some t) r0 H1); [exact H2|]. intros u j Hu. apply K. apply in_or_app. auto.
  Qed.

  (** ** Where a triangle stands in the star of its corner *)
  Lemma star_split s v l t i : star s v l -> active s t -> corner s t i = v -> exists X Y, l = X ++ (t, i) :: Y.
  Proof. intros H K C. apply in_split. apply (st_all _ _ _ H). auto. Qed.
  Lemma star_out s v X t i Y : (forall u, active s u -> distinct s u) -> star s v (X ++ (t, i) :: Y) ->
    ~ In t (map fst X) /\ ~ In t (map fst Y).
  Proof.
    intros DI H.
    assert (Q : forall j, In (t, j) (X ++ Y) -> False).
    { intros j Hj. assert (K : In (t, j) (X ++ (t, i) :: Y)) by (apply in_or_app; apply in_app_or in Hj; cbn; tauto).
      assert (K2 : In (t, i) (X ++ (t, i) :: Y)) by (apply in_or_app; cbn; auto).
      apply (st_all _ _ _ H) in K. apply (st_all _ _ _ H) in K2. destruct K as [K1 K], K2 as [_ K2].
      assert (j = i) by (apply (DI t K1); congruence). subst j.
      exact (NoDup_remove_2 _ _ _ (st_nodup _ _ _ H) Hj). }
    split; intros K; apply in_map_iff in K; destruct K as ([u j] & <- & K); apply (Q j), in_or_app; auto.
  Qed.
  Lemma star_nodup s v X t i Y : star s v (X ++ (t, i) :: Y) -> NoDup X /\ NoDup Y /\ NoDup (X ++ Y) /\
    (forall x, In x X -> In x Y -> False).
  Proof.
    intros H. pose proof (NoDup_remove_1 _ _ _ (st_nodup _ _ _ H)) as N. split; [|split; [|split; [exact N|]]].
    - clear H. induction X as [|x X IH]; cbn in *; [constructor|]. inversion N; subst. constructor; auto.
      intros K. apply H1, in_or_app. auto.
    - clear H. induction X as [|x X IH]; cbn in *; [exact N|]. inversion N; subst. auto.
    - clear H. induction X as [|x X IH]; cbn in *; [intros ? []|]. inversion N; subst. intros y [<-|Hy] Hz; [|eapply IH; eauto].
      apply H1, in_or_app. auto.
  Qed.
  Lemma star_first s v l t i : star s v l -> active s t -> corner s t i = v -> link s t (cw i) = None -> exists Y, l = (t, i) :: Y.
  Proof. intros H K C N. apply (chain_first s None l t i); [apply H|apply (st_all _ _ _ H); auto|exact N]. Qed.
  Lemma star_last s v l t i : star s v l -> active s t -> corner s t i = v -> link s t (ccw i) = None -> exists Y, l = Y ++ [(t, i)].
  Proof. intros H K C N. apply (chain_last s None l t i); [apply H|apply (st_all _ _ _ H); auto|exact N]. Qed.
  Lemma first_not_later s v t i X y Y : star s v (X ++ y :: Y) -> In (t, i) Y -> link s t (cw i) <> None.
  Proof.
    intros H K N. apply in_split in K. destruct K as (P & Q & ->).
    pose proof (st_chain _ _ _ H) as C.
    replace (X ++ y :: P ++ (t, i) :: Q) with ((X ++ y :: P) ++ (t, i) :: Q) in C by (rewrite <- app_assoc; reflexivity).
    apply chain_at in C. destruct C as (_ & C & _). rewrite N in C. symmetry in C. apply last_none in C.
    destruct X; discriminate.
  Qed.
  Lemma last_not_earlier s v t i X y Y : star s v (X ++ y :: Y) -> In (t, i) X -> link s t (ccw i) <> None.
  Proof.
    intros H K N. apply in_split in K. destruct K as (P & Q & ->).
    pose proof (st_chain _ _ _ H) as C. rewrite <- app_assoc in C. cbn [app] in C.
    apply chain_at in C. destruct C as (_ & _ & C & _). rewrite N in C. symmetry in C. apply hd_none in C.
    destruct Q; discriminate.
  Qed.
  (** the first and the last triangle of a star that is not empty *)
  Lemma star_ends s v l t i : star s v l -> In (t, i) l ->
    (exists u j, In (u, j) l /\ link s u (cw j) = None) /\ (exists u j, In (u, j) l /\ link s u (ccw j) = None).
  Proof.
    intros H K. pose proof (st_chain _ _ _ H) as C. split.
    - destruct l as [|[u j] r]; [contradiction|]. exists u, j. split; [cbn; auto|apply C].
    - destruct (last_some l None) as [[_ ->]|([u j] & r & -> & _)]; [contradiction|]. exists u, j.
      split; [apply in_or_app; cbn; auto|]. apply chain_at in C. apply C.
  Qed.
  (** going back *)
  Lemma link_back s t i t' i' : linked (active s) s -> (forall u, active s u -> distinct s u) -> active s t ->
    link s t (ccw i) = Some t' -> corner s t' i' = corner s t i -> link s t' (cw i') = Some t.
  Proof.
    intros L DI D H C. destruct (L t (ccw i) t' D H) as (D' & j & J1 & J2 & J3). rewrite cw_ccw in J2.
    assert (ccw j = i') by (apply (DI t' D'); congruence). subst i'. rewrite cw_ccw. exact J1.
  Qed.
  Lemma link_forth s t i t' i' : linked (active s) s -> (forall u, active s u -> distinct s u) -> active s t ->
    link s t (cw i) = Some t' -> corner s t' i' = corner s t i -> link s t' (ccw i') = Some t.
  Proof.
    intros L DI D H C. destruct (L t (cw i) t' D H) as (D' & j & J1 & J2 & J3). rewrite ccw_cw in J3.
    assert (cw j = i') by (apply (DI t' D'); congruence). subst i'. rewrite ccw_cw. exact J1.
  Qed.
End Rings.
