(** Neighbours on the wavefront share the wavefront between them, at any time
    and through all events (any arithmetic) *)
From Verif Require Import Base Arith Calc VectorOps Line2d Primitives Collapse EventsLib
  FlipEvent ParallelEvent EdgeEvent SplitEvent EventLoop Pass OpSpec StopSpec HistProofs RunLoop RunBase Decent Total TotalRun Mesh MeshEdge RingSpec RingGone.
Local Open Scope nat_scope.

Section Shared.
  Context {A : Arith} {E : Env A}.
  Local Open Scope M_scope.
  (** the wavefronts *)
  Variable W : nat -> Prop.
  Ltac peel H n s1 H1 := apply bind_ok in H; destruct H as (n & s1 & H1 & H).

  Definition story (k : kvertex) := (k_inf k, k_left k, k_right k, k_ul k, k_ur k).
  Definition same_story (s s' : state) : Prop := nv s' = nv s /\ forall v, story (vs s' v) = story (vs s v).

  (** [w] may be the left neighbour of a vertex whose left wavefront is [f] *)
  Definition left_ok (s : state) (f : option nat) (w : nat) : Prop := w < nv s /\ k_ur (vs s w) = f.
  Definition right_ok (s : state) (f : option nat) (w : nat) : Prop := w < nv s /\ k_ul (vs s w) = f.
  Definition refers (h : list (hitem (A:=A))) (w : nat) : Prop := exists a b, In (a, b, Some w) h.

  Record shared (s : state) : Prop := {
    sd_left : forall v w, refers (k_left (vs s v)) w -> left_ok s (k_ul (vs s v)) w;
    sd_right : forall v w, refers (k_right (vs s v)) w -> right_ok s (k_ur (vs s v)) w;
    sd_ul : forall v x, k_ul (vs s v) = Some x -> W x;
    sd_ur : forall v x, k_ur (vs s v) = Some x -> W x;
    sd_inf : forall v, if k_inf (vs s v) then k_ul (vs s v) = None /\ k_ur (vs s v) = None
                       else k_ul (vs s v) <> None /\ k_ur (vs s v) <> None }.

  Lemma story_eq a b : story a = story b -> k_left a = k_left b /\ k_right a = k_right b /\ k_ul a = k_ul b /\ k_ur a = k_ur b /\ k_inf a = k_inf b.
  Proof. unfold story. intros H. injection H as -> -> -> -> ->. auto. Qed.

  Lemma same_refl s : same_story s s.
  Proof. split; auto. Qed.
  Lemma same_trans s1 s2 s3 : same_story s1 s2 -> same_story s2 s3 -> same_story s1 s3.
  Proof. intros [P1 P2] [Q1 Q2]. split; [congruence|]. intros v. rewrite Q2. apply P2. Qed.
  Lemma same_ok s s' f w : same_story s s' -> (left_ok s f w -> left_ok s' f w) /\ (right_ok s f w -> right_ok s' f w).
  Proof.
    intros [N H]. unfold left_ok, right_ok. rewrite N. destruct (story_eq _ _ (H w)) as (_ & _ & -> & -> & _). auto.
  Qed.
  Lemma same_shared s s' : same_story s s' -> shared s -> shared s'.
  Proof.
    intros Q [P1 P2 P3 P4 P5]. pose proof Q as [N H].
    split; [| | | |intros v; destruct (story_eq _ _ (H v)) as (_ & _ & -> & -> & ->); apply P5];
      intros v w; destruct (story_eq _ _ (H v)) as (Q1 & Q2 & Q3 & Q4 & _); rewrite ?Q1, ?Q2, ?Q3, ?Q4; intros K;
      [apply (same_ok s s' _ _ Q), P1, K|apply (same_ok s s' _ _ Q), P2, K|apply (P3 v), K|apply (P4 v), K].
  Qed.

  (** ** Steps *)
  Definition calm_step {X} (m : M X) : Prop := forall s x s', m s = Ok (x, s') -> same_story s s'.
  Lemma calm_keepv {X} (m : M X) : keepv m -> calm_step m.
  Proof. intros H s x s' K. destruct (H _ _ _ K) as [V N]. split; [exact N|]. rewrite V. auto. Qed.
  Lemma calm_ro {X} (m : M X) : ro m -> calm_step m.
  Proof. intros H. apply calm_keepv, keepv_ro, H. Qed.
  Lemma calm_bind {X Y} (m : M X) (k : X -> M Y) : calm_step m -> (forall x, calm_step (k x)) -> calm_step (bind m k).
  Proof. intros H K s y s' L. peel L x s1 L1. eapply same_trans; [eapply H, L1|eapply K, L]. Qed.
  Lemma calm_whenM b m : calm_step m -> calm_step (whenM b m).
  Proof. destruct b; simpl; auto. intros _. apply calm_ro. auto with ro. Qed.
  Lemma calm_forM {X} (l : list X) f : (forall x, calm_step (f x)) -> calm_step (forM l f).
  Proof. intros H. induction l; simpl; [apply calm_ro; auto with ro|apply calm_bind; auto]. Qed.
  Lemma calm_modv v f : (forall k, story (f k) = story k) -> calm_step (modv v f).
  Proof.
    intros F s x s' H. apply modv_spec in H. destruct H as [_ ->]. split; [reflexivity|]. intros w. cbn.
    destruct (Nat.eqb_spec v w) as [<-|N]; [rewrite upd_same; apply F|rewrite upd_other by auto; reflexivity].
  Qed.
  Lemma calm_wf v l r : calm_step (set_wf v l r).
  Proof. apply calm_modv. reflexivity. Qed.
  Lemma calm_stop_at v n now : calm_step (stop_at v n now).
  Proof. unfold stop_at. apply calm_bind; [|intros]; apply calm_modv; reflexivity. Qed.
  Lemma calm_stop V step now pos : calm_step (stop_and_register V step now pos).
  Proof.
    intros s n s' H. apply stop_and_register_spec in H. destruct H as (new & s1 & H & ->).
    apply stop_kvertices_spec in H. destruct H as (_ & _ & H). destruct new.
    - destruct H as (-> & p & f & -> & F & _). split; [reflexivity|]. cbn. intros v. rewrite F. unfold scanned.
      destruct (mem Nat.eqb v V); [|reflexivity]. destruct (_ && _)%bool; reflexivity.
    - destruct H as (f & -> & _ & F). split; [reflexivity|]. cbn. intros v. rewrite F. destruct (mem Nat.eqb v V); reflexivity.
  Qed.
  Lemma calm_addv v : calm_step (add_vertex v).
  Proof. apply calm_keepv, keepv_addv. Qed.
  Lemma calm_tstops t now : calm_step (set_tstops t now).
  Proof. apply calm_keepv, keepv_tstops. Qed.
  Lemma calm_flip t0 s0 t1 s1 : calm_step (flip t0 s0 t1 s1).
  Proof.
    assert (L : forall n sd t, calm_step (link_around n sd t)).
    { intros n sd t. unfold link_around. destruct n, sd; try (apply calm_ro; solve [auto with ro]). apply calm_keepv, keepv_modt. }
    unfold flip. cbv zeta.
    do 2 (apply calm_bind; [apply calm_ro, ro_tget|intros]).
    do 4 (apply calm_bind; [apply calm_ro, ro_assertM|intros]).
    do 4 (apply calm_bind; [apply calm_ro, ro_apex_around|intros]).
    do 4 (apply calm_bind; [apply L|intros]).
    do 3 (apply calm_bind; [apply calm_keepv, keepv_modt|intros]). apply calm_keepv, keepv_modt.
  Qed.
  Lemma calm_even t e p now step : calm_step (handle_parallel_edge_event_even_legs t e p now step).
  Proof.
    unfold handle_parallel_edge_event_even_legs. cbv zeta.
    repeat first [apply calm_bind; [first [apply calm_stop|apply calm_stop_at|apply calm_tstops|apply calm_keepv, keepv_unlink|apply calm_ro; solve [auto with ro]]|intros]
                 |apply calm_keepv, keepv_unlink|apply calm_ro; solve [auto with ro]].
  Qed.
  Lemma calm_3tri t e p now step : calm_step (handle_parallel_edge_event_3tri t e p now step).
  Proof.
    unfold handle_parallel_edge_event_3tri. cbv zeta.
    repeat (apply calm_bind; [first [apply calm_stop|apply calm_stop_at|apply calm_tstops|apply calm_ro; solve [auto with ro]]|intros]).
    apply calm_bind.
    { match goal with |- calm_step (if ?b then _ else _) => destruct b end;
        (apply calm_bind; [apply calm_stop|intros]; apply calm_bind; [apply calm_stop_at|intros]; apply calm_ro; auto with ro). }
    intros. repeat (apply calm_bind; [first [apply calm_stop_at|apply calm_tstops|apply calm_ro; solve [auto with ro]]|intros]).
    apply calm_forM. intros. apply calm_ro. apply ro_bind; auto with ro.
  Qed.
  Lemma calm_even_at t p now step : calm_step (even_legs_at t p now step).
  Proof.
    unfold even_legs_at. repeat lazymatch goal with |- calm_step (bind _ _) => apply calm_bind; [apply calm_ro; solve [auto with ro]|intros] end. apply calm_even.
  Qed.
  Lemma calm_isolated t p now step : calm_step (parallel_fan_isolated t p now step).
  Proof.
    unfold parallel_fan_isolated. do 3 (apply calm_bind; [apply calm_ro; solve [auto with ro]|intros]). cbv zeta.
    repeat match goal with
      | |- context [where3 ?f ?z] => destruct (where3 f z) as [|sd [|sd2 r]]
      | |- context [if ?b then _ else _] => destruct b
      | |- calm_step (bind _ _) => apply calm_bind; [apply calm_ro; solve [auto with ro]|intros]
      end; first [apply calm_3tri|apply calm_even_at].
  Qed.
  Lemma calm_flip_then t0 t1 p now step : calm_step (flip_then_even_legs t0 t1 p now step).
  Proof.
    unfold flip_then_even_legs.
    repeat lazymatch goal with |- calm_step (bind _ _) =>
      apply calm_bind; [first [apply calm_ro; solve [auto with ro]|apply calm_flip|apply calm_keepv, keepv_sched|apply calm_keepv, keepv_riq
        |apply calm_whenM, calm_even_at]|intros] end.
    apply calm_whenM, calm_even_at.
  Qed.

  (** ** A new vertex, and new neighbours *)
  Lemma new_shared ul ur now n info int s v s' : compute_new_kvertex ul ur now n info int s = Ok (v, s') ->
    (forall x, ul = Some x -> W x) -> (forall x, ur = Some x -> W x) -> shared s ->
    shared s' /\ v = nv s /\ nv s' = S (nv s) /\ (forall w, w <> v -> vs s' w = vs s w) /\ k_ul (vs s' v) = ul /\ k_ur (vs s' v) = ur.
  Proof.
    intros H Wl Wr [P1 P2 P3 P4 P5]. apply newv_spec in H. destruct H as (kv & K & -> & ->).
    assert (U : ul <> None /\ ur <> None) by (unfold new_kvertex in K; destruct ul, ur; try discriminate K; split; discriminate).
    apply new_kvertex_fields in K. destruct K as (Ki & _ & _ & _ & _ & Kl & Kr & K1 & K2 & _).
    split; [|cbn; rewrite upd_same; repeat split; auto; intros w Hw; apply upd_other; auto].
    assert (L : forall f w, left_ok s f w -> w < S (nv s) /\ k_ur (upd (vs s) (nv s) kv w) = f).
    { intros f w [L1 L2]. rewrite upd_other by lia. split; [lia|exact L2]. }
    assert (R : forall f w, right_ok s f w -> w < S (nv s) /\ k_ul (upd (vs s) (nv s) kv w) = f).
    { intros f w [L1 L2]. rewrite upd_other by lia. split; [lia|exact L2]. }
    split; [| | | |cbn; intros v; destruct (Nat.eq_dec (nv s) v) as [<-|N];
      [rewrite upd_same, Ki, Kl, Kr; exact U|rewrite upd_other by auto; apply P5]];
      cbn; intros v w; destruct (Nat.eq_dec (nv s) v) as [<-|N]; rewrite ?upd_same, ?upd_other by auto.
    - rewrite K1. intros (a & b & []).
    - intros Q. apply L, P1, Q.
    - rewrite K2. intros (a & b & []).
    - intros Q. apply R, P2, Q.
    - rewrite Kl. apply Wl.
    - apply P3.
    - rewrite Kr. apply Wr.
    - apply P4.
  Qed.

  Lemma refers_set h o t w : refers (hist_set h o t) w -> refers h w \/ o = Some w.
  Proof.
    intros (a & b & H). unfold hist_set in H. apply in_app_or in H. destruct H as [H|[H|[]]]; [left|right; congruence].
    unfold hist_close in H. destruct (rev h) as [|[[a' b'] r] q] eqn:Q; [destruct H|].
    assert (Q' : h = rev q ++ [(a', b', r)]) by (pose proof (rev_involutive h) as R; rewrite Q in R; symmetry; exact R).
    apply in_app_or in H. destruct H as [H|[H|[]]].
    - exists a, b. rewrite Q'. apply in_or_app. auto.
    - injection H as <- <- ->. exists a', b'. rewrite Q'. apply in_or_app. cbn. auto.
  Qed.
  Lemma refers_last h w : hist_last h = Some w -> refers h w.
  Proof.
    unfold hist_last. destruct (rev h) as [|[[a b] r] q] eqn:Q; [discriminate|]. intros ->. exists a, b.
    apply (proj2 (in_rev h _)). rewrite Q. left. reflexivity.
  Qed.

  Lemma circ_story l r now s u s' : update_circ l r now s = Ok (u, s') -> nv s' = nv s /\
    forall w, k_inf (vs s' w) = k_inf (vs s w) /\ k_ul (vs s' w) = k_ul (vs s w) /\ k_ur (vs s' w) = k_ur (vs s w) /\
      (forall x, refers (k_right (vs s' w)) x -> refers (k_right (vs s w)) x \/ l = Some w /\ r = Some x) /\
      (forall x, refers (k_left (vs s' w)) x -> refers (k_left (vs s w)) x \/ r = Some w /\ l = Some x).
  Proof.
    unfold update_circ. intros H. peel H y s1 H1.
    assert (Q : nv s1 = nv s /\ forall w, k_inf (vs s1 w) = k_inf (vs s w) /\ k_ul (vs s1 w) = k_ul (vs s w) /\ k_ur (vs s1 w) = k_ur (vs s w) /\
      (forall x, refers (k_right (vs s1 w)) x -> refers (k_right (vs s w)) x \/ l = Some w /\ r = Some x) /\
      k_left (vs s1 w) = k_left (vs s w)).
    { destruct l as [l|]; [|apply ret_ok in H1; destruct H1 as [_ ->]; split; [reflexivity|intros w; repeat split; auto]].
      apply modv_spec in H1. destruct H1 as [_ ->]. split; [reflexivity|]. intros w. cbn.
      destruct (Nat.eqb_spec l w) as [<-|N]; [rewrite upd_same|rewrite upd_other by auto; auto 6].
      cbn. repeat split; auto. intros x K. apply refers_set in K. destruct K; auto. }
    clear H1. destruct Q as [Q1 Q2].
    assert (P : nv s' = nv s1 /\ forall w, k_inf (vs s' w) = k_inf (vs s1 w) /\ k_ul (vs s' w) = k_ul (vs s1 w) /\ k_ur (vs s' w) = k_ur (vs s1 w) /\
      (forall x, refers (k_left (vs s' w)) x -> refers (k_left (vs s1 w)) x \/ r = Some w /\ l = Some x) /\
      k_right (vs s' w) = k_right (vs s1 w)).
    { destruct r as [r|]; [|apply ret_ok in H; destruct H as [_ ->]; split; [reflexivity|intros w; repeat split; auto]].
      apply modv_spec in H. destruct H as [_ ->]. split; [reflexivity|]. intros w. cbn.
      destruct (Nat.eqb_spec r w) as [<-|N]; [rewrite upd_same|rewrite upd_other by auto; auto 6].
      cbn. repeat split; auto. intros x K. apply refers_set in K. destruct K; auto. }
    destruct P as [P1 P2]. split; [congruence|]. intros w. destruct (P2 w) as (-> & -> & -> & B & ->). destruct (Q2 w) as (-> & -> & -> & C & D).
    rewrite D in B. auto 6.
  Qed.

  Lemma circ_shared l r now s u s' : update_circ l r now s = Ok (u, s') -> shared s ->
    (forall a b, l = Some a -> r = Some b -> a < nv s /\ b < nv s /\ k_ur (vs s a) = k_ul (vs s b)) ->
    shared s' /\ nv s' = nv s /\ forall w, k_ul (vs s' w) = k_ul (vs s w) /\ k_ur (vs s' w) = k_ur (vs s w).
  Proof.
    intros H [P1 P2 P3 P4 P5] OK. apply circ_story in H. destruct H as [N H].
    split; [|split; [exact N|intros w; destruct (H w) as (_ & -> & -> & _); auto]].
    split; [| | | |intros v; destruct (H v) as (-> & -> & -> & _); apply P5];
      intros v w; unfold left_ok, right_ok; rewrite ?N; destruct (H v) as (_ & H1 & H2 & H3 & H4); destruct (H w) as (_ & H5 & H6 & _);
      rewrite ?H1, ?H2, ?H5, ?H6; auto; intros K.
    - apply H4 in K. destruct K as [K|[K1 K2]]; [apply (P1 v w K)|]. destruct (OK w v K2 K1) as (O1 & O2 & O3). auto.
    - apply H3 in K. destruct K as [K|[K1 K2]]; [apply (P2 v w K)|]. destruct (OK v w K1 K2) as (O1 & O2 & O3). auto.
    - apply (P3 v), K.
    - apply (P4 v), K.
  Qed.

  (** a new vertex between the left neighbour of [v1] and the right neighbour of [v2] *)
  Lemma link_left v1 kv now s u s' : shared s -> kv < nv s -> k_ul (vs s kv) = k_ul (vs s v1) ->
    update_circ (kleft (vs s v1)) (Some kv) now s = Ok (u, s') ->
    shared s' /\ nv s' = nv s /\ forall w, k_ul (vs s' w) = k_ul (vs s w) /\ k_ur (vs s' w) = k_ur (vs s w).
  Proof.
    intros S K1 K2 H. apply (circ_shared _ _ _ _ _ _ H S). intros a b Ha Hb. injection Hb as <-.
    apply refers_last in Ha. destruct (sd_left _ S _ _ Ha) as [L1 L2]. repeat split; auto. congruence.
  Qed.
  Lemma link_right v2 kv now s u s' : shared s -> kv < nv s -> k_ur (vs s kv) = k_ur (vs s v2) ->
    update_circ (Some kv) (kright (vs s v2)) now s = Ok (u, s') ->
    shared s' /\ nv s' = nv s /\ forall w, k_ul (vs s' w) = k_ul (vs s w) /\ k_ur (vs s' w) = k_ur (vs s w).
  Proof.
    intros S K1 K2 H. apply (circ_shared _ _ _ _ _ _ H S). intros a b Ha Hb. injection Ha as <-.
    apply refers_last in Hb. destruct (sd_right _ S _ _ Hb) as [L1 L2]. repeat split; auto. congruence.
  Qed.

  (** ** Handlers *)
  Definition passes {X} (m : M X) : Prop := forall s x s', m s = Ok (x, s') -> shared s -> shared s'.
  Lemma passes_calm {X} (m : M X) : calm_step m -> passes m.
  Proof. intros H s x s' K. apply same_shared. eapply H, K. Qed.
  Lemma passes_bind {X Y} (m : M X) (k : X -> M Y) : passes m -> (forall x, passes (k x)) -> passes (bind m k).
  Proof. intros H K s y s' L S. peel L x s1 L1. eapply K; [exact L|]. eapply H; eauto. Qed.
  Lemma passes_whenM b m : passes m -> passes (whenM b m).
  Proof. destruct b; simpl; auto. intros _. apply passes_calm, calm_ro. auto with ro. Qed.

  Definition fan_passes (rec : list nat -> nat -> num -> turn -> Z -> M unit) : Prop :=
    forall fan v now d step, passes (rec fan v now d step).
  Lemma passes_fan_of rec fa fb kv now step : fan_passes rec -> passes (parallel_fan_of rec fa fb kv now step).
  Proof. intros R. destruct fa, fb; simpl; try apply R. apply passes_calm, calm_ro; auto with ro. Qed.

  Ltac nextro H := let x := fresh "z" in let s1 := fresh "st" in let H1 := fresh "Hro" in
    peel H x s1 H1; let R := fresh in
    match type of H1 with ?m ?s = _ => assert (R : ro m) by (auto with ro); apply R in H1; clear R; subst s1 end.
  Ltac nextcalm H L := let x := fresh "z" in let s1 := fresh "st" in let H1 := fresh "Hc" in
    peel H x s1 H1; apply L in H1.

  Ltac getv H := let sa := fresh "sa" in let Ha := fresh "Ha" in let k := fresh "k" in
    peel H k sa Ha; apply gets_ok in Ha; destruct Ha as [-> ->].

  (** the fronts of the vertices stay through quiet steps *)
  Lemma same_fronts s s' v : same_story s s' -> k_ul (vs s' v) = k_ul (vs s v) /\ k_ur (vs s' v) = k_ur (vs s v).
  Proof. intros [_ H]. destruct (story_eq _ _ (H v)) as (_ & _ & -> & -> & _). auto. Qed.

  Lemma passes_tail {X} (m : M X) (k : X -> M unit) : calm_step m -> (forall x, passes (k x)) -> passes (bind m k).
  Proof. intros H K. apply passes_bind; [apply passes_calm, H|exact K]. Qed.

  Lemma passes_shorter rec t e p now step : fan_passes rec -> passes (handle_parallel_edge_event_shorter_leg rec t e p now step).
  Proof.
    intros R s x s' H S. unfold handle_parallel_edge_event_shorter_leg in H. cbv zeta in H.
    do 6 nextro H. nextcalm H calm_stop. apply (same_shared _ _ Hc) in S. clear Hc. nextro H.
    peel H y sb Hb. assert (S1 : shared sb).
    { destruct (is_none (k_stop_node z6)); [|injection Hb as _ <-; exact S]. nextro Hb. apply calm_stop_at in Hb. exact (same_shared _ _ Hb S). }
    clear Hb S. nextcalm H calm_tstops. apply (same_shared _ _ Hc) in S1. clear Hc. do 2 nextro H.
    getv H. getv H. nextro H.
    peel H kv s2 Hnew. apply new_shared in Hnew; [|intros; eapply sd_ul; eauto|intros; eapply sd_ur; eauto|exact S1].
    destruct Hnew as (S2 & -> & N2 & O2 & UL & UR).
    do 2 nextro H. nextcalm H calm_wf. pose proof (same_shared _ _ Hc S2) as S3. nextro H.
    nextcalm H calm_addv. pose proof (same_shared _ _ Hc0 S3) as S4. pose proof (same_trans _ _ _ Hc Hc0) as Q. clear Hc Hc0.
    set (v1 := get3 (t_v z1) (ccw e)) in *. set (v2 := get3 (t_v z1) (cw e)) in *.
    match type of UL with k_ul (vs s2 ?kk) = _ => set (kv := kk) in * end.
    match type of S4 with shared ?z => set (s4 := z) in * end.
    assert (L4 : kv < nv s4) by (destruct Q as [-> _]; rewrite N2; unfold kv; lia).
    assert (F1 : k_ul (vs s4 kv) = k_ul (vs s4 v1)).
    { destruct (same_fronts _ _ kv Q) as [-> _]. destruct (same_fronts _ _ v1 Q) as [-> _].
      destruct (Nat.eq_dec v1 kv) as [->|N]; [reflexivity|]. rewrite (O2 _ N). exact UL. }
    assert (F2 : k_ur (vs s4 kv) = k_ur (vs s4 v2)).
    { destruct (same_fronts _ _ kv Q) as [_ ->]. destruct (same_fronts _ _ v2 Q) as [_ ->].
      destruct (Nat.eq_dec v2 kv) as [->|N]; [reflexivity|]. rewrite (O2 _ N). exact UR. }
    clearbody s4 kv. getv H. peel H y1 s5 H5. apply (link_left v1 kv) in H5; auto. destruct H5 as (S5 & N5 & E5).
    getv H. peel H y2 s6 H6. apply (link_right v2 kv) in H6; [|auto|rewrite N5; auto|].
    2:{ destruct (E5 kv) as [_ ->]. destruct (E5 v2) as [_ ->]. exact F2. }
    destruct H6 as (S6 & _). revert H S6. generalize s6 s'. clear -R. intros s6 s' H.
    revert s6 x s' H. match goal with |- forall a b c, ?m a = Ok (b, c) -> _ => change (passes m) end.
    apply passes_tail; [destruct (get3 (t_n _) (ccw e)); [apply calm_bind; [apply calm_keepv, keepv_relink|intros; apply calm_keepv, keepv_replace]|apply calm_ro; auto with ro]|intros].
    apply passes_tail; [destruct (get3 (t_n _) (cw e)); [apply calm_bind; [apply calm_keepv, keepv_relink|intros; apply calm_keepv, keepv_replace]|apply calm_ro; auto with ro]|intros].
    apply passes_tail; [apply calm_keepv, keepv_unlink|intros].
    apply passes_tail; [apply calm_ro; auto with ro|intros].
    apply passes_whenM, passes_fan_of, R.
  Qed.

  Lemma passes_parallel_fan fuel : fan_passes (handle_parallel_fan fuel).
  Proof.
    induction fuel as [|fuel IH]; intros fan p now d step; simpl.
    { apply passes_calm, calm_ro; auto with ro. }
    destruct fan as [|first rest]; [apply passes_calm, calm_ro; auto with ro|].
    do 3 (apply passes_tail; [apply calm_ro; auto with ro|intros]).
    match goal with |- context [if Nat.eqb (tri_type ?x) 3 then _ else _] => destruct (Nat.eqb (tri_type x) 3) end.
    { apply passes_tail; [apply calm_ro; auto with ro|intros]. apply passes_calm, calm_isolated. }
    apply passes_tail; [apply calm_ro; auto with ro|intros]. destruct d; cbv iota beta.
    all: do 6 (apply passes_tail; [apply calm_ro; solve [auto with ro]|intros]).
    all: cbv zeta; repeat match goal with |- context [near_zero ?x] => destruct (near_zero x) end.
    all: try (solve [apply passes_shorter; exact IH]).
    all: try (solve [apply passes_calm, calm_ro; auto with ro]).
    all: apply passes_calm; destruct rest as [|t1 [|t2 r]];
      [ apply calm_bind; [apply calm_even_at|intros; apply calm_ro; auto with ro]
      | | apply calm_ro; auto with ro ].
    all: apply calm_bind; [apply calm_ro; auto with ro|intros];
      match goal with |- calm_step (if ?b then _ else _) => destruct b end; [|apply calm_flip_then].
    all: repeat (apply calm_bind; [first [apply calm_even_at|apply calm_ro; auto with ro]|intros]); apply calm_ro; auto with ro.
  Qed.

  Lemma passes_edge evt step : passes (handle_edge_event evt step).
  Proof.
    unfold handle_edge_event, handle_edge_event_with. destruct (ev_side evt) as [|e [|]]; try (solve [apply passes_calm, calm_ro; auto with ro]).
    intros s x s' H S. cbv zeta in H. nextro H.
    set (v1 := get3 (t_v z) (ccw e)) in *. set (v2 := get3 (t_v z) (cw e)) in *. set (t := ev_tri evt) in *. set (now := ev_time evt) in *.
    do 5 nextro H. nextcalm H calm_stop. apply (same_shared _ _ Hc) in S. clear Hc.
    getv H. getv H. nextro H.
    peel H kv s2 Hnew. apply new_shared in Hnew; [|intros; eapply sd_ul; eauto|intros; eapply sd_ur; eauto|exact S].
    destruct Hnew as (S2 & KV & N2 & O2 & UL & UR).
    match type of KV with kv = nv ?z => set (s1 := z) in * end.
    nextcalm H calm_wf. pose proof (same_shared _ _ Hc S2) as S3.
    peel H y1 sa Ha. assert (sa = st0). { destruct (kleft (vs s1 v1)); [nextro Ha|]; injection Ha as _ <-; reflexivity. } subst sa. clear Ha.
    peel H y2 sa Ha. assert (sa = st0). { destruct (kright (vs s1 v2)); [nextro Ha|]; injection Ha as _ <-; reflexivity. } subst sa. clear Ha.
    nextcalm H calm_addv. pose proof (same_shared _ _ Hc0 S3) as S4. pose proof (same_trans _ _ _ Hc Hc0) as Q. clear Hc Hc0.
    match type of S4 with shared ?z => set (s4 := z) in * end.
    assert (L4 : kv < nv s4) by (destruct Q as [-> _]; rewrite N2, KV; lia).
    assert (F1 : k_ul (vs s4 kv) = k_ul (vs s1 v1)) by (destruct (same_fronts _ _ kv Q) as [-> _]; exact UL).
    assert (F2 : k_ur (vs s4 kv) = k_ur (vs s4 v2)).
    { destruct (same_fronts _ _ kv Q) as [_ ->]. destruct (same_fronts _ _ v2 Q) as [_ ->].
      destruct (Nat.eq_dec v2 kv) as [->|N]; [reflexivity|]. rewrite (O2 _ N). exact UR. }
    peel H y3 s5 H5. apply circ_shared in H5; [|exact S4|].
    2:{ intros a b Ha Hb. injection Hb as <-. apply refers_last in Ha. destruct (sd_left _ S _ _ Ha) as [L1 L2].
        split; [destruct Q as [-> _]; rewrite N2; lia|]. split; [exact L4|]. rewrite F1.
        destruct (same_fronts _ _ a Q) as [_ ->]. rewrite O2 by lia. exact L2. }
    destruct H5 as (S5 & N5 & E5).
    getv H. peel H y4 s6 H6. apply (link_right v2 kv) in H6; [|auto|rewrite N5; auto|].
    2:{ destruct (E5 kv) as [_ ->]. destruct (E5 v2) as [_ ->]. exact F2. }
    destruct H6 as (S6 & _). clear -H S6. revert H S6. generalize s6 s'. clear. intros s6 s' H.
    revert s6 x s' H. match goal with |- forall a b c, ?m a = Ok (b, c) -> _ => change (passes m) end.
    do 6 (apply passes_tail; [apply calm_ro; auto with ro|intros]).
    apply passes_tail; [destruct (get3 (t_n _) (ccw e)); [|apply calm_ro; auto with ro]; apply calm_bind; [apply calm_keepv, keepv_relink|intros];
      apply calm_bind; [apply calm_keepv, keepv_replace|intros]; apply calm_bind; [apply calm_keepv, keepv_tiny|intros]; apply calm_ro; auto with ro|intros].
    apply passes_tail; [destruct (get3 (t_n _) (cw e)); [|apply calm_ro; auto with ro]; apply calm_bind; [apply calm_keepv, keepv_relink|intros];
      apply calm_bind; [apply calm_keepv, keepv_replace|intros]; apply calm_bind; [apply calm_keepv, keepv_tiny|intros]; apply calm_ro; auto with ro|intros].
    apply passes_tail; [apply calm_keepv, keepv_unlink|intros].
    apply passes_tail; [apply calm_tstops|intros].
    apply passes_tail; [apply calm_ro; auto with ro|intros].
    apply passes_whenM, passes_fan_of, passes_parallel_fan.
  Qed.

  Lemma split_shared evt step s x s' : handle_split_event evt step s = Ok (x, s') ->
    (forall u i, get3 (t_v (ts s u)) i < nv s) -> shared s -> shared s'.
  Proof.
    unfold handle_split_event, handle_split_event_with. destruct (ev_side evt) as [|e [|]]; try discriminate.
    intros H PL S. getv H. nextro H.
    set (v := get3 (t_v (ts s (ev_tri evt))) e) in *.
    set (v1 := get3 (t_v (ts s (ev_tri evt))) (ccw e)) in *. set (v2 := get3 (t_v (ts s (ev_tri evt))) (cw e)) in *.
    assert (B : v < nv s /\ v1 < nv s /\ v2 < nv s) by (repeat split; apply PL). destruct B as (B0 & B1 & B2). clearbody v v1 v2. clear PL.
    set (t := ev_tri evt) in *. set (now := ev_time evt) in *.
    nextro H. nextcalm H calm_stop. apply (same_shared _ _ Hc) in S. destruct Hc as [Nc _]. rewrite <- Nc in *. clear Nc.
    match type of S with shared ?z => set (s1 := z) in * end.
    getv H. getv H. getv H.
    peel H y0 sa Ha. apply assertM_ok in Ha. destruct Ha as [EQ ->]. apply onat_eqb_eq in EQ. nextro H.
    peel H vb s2 Hnew. apply new_shared in Hnew; [|intros; eapply sd_ul; eauto|intros; eapply sd_ul; eauto|exact S].
    destruct Hnew as (S2 & VB & N2 & O2 & UL2 & UR2).
    nextcalm H calm_wf. pose proof (same_shared _ _ Hc S2) as S3. nextcalm H calm_addv. pose proof (same_shared _ _ Hc0 S3) as S4.
    pose proof (same_trans _ _ _ Hc Hc0) as Q4. clear Hc Hc0 S3. nextro H.
    match type of S4 with shared ?z => set (s4 := z) in * end.
    peel H va s5 Hnew. apply new_shared in Hnew; [|intros x' Hx'; apply (sd_ur _ S) in Hx'; exact Hx'|intros x' Hx'; apply (sd_ur _ S) in Hx'; exact Hx'|exact S4].
    destruct Hnew as (S5 & VA & N5 & O5 & UL5 & UR5).
    nextcalm H calm_wf. pose proof (same_shared _ _ Hc S5) as S6. nextcalm H calm_addv. pose proof (same_shared _ _ Hc0 S6) as S7.
    pose proof (same_trans _ _ _ Hc Hc0) as Q7. clear Hc Hc0 S6.
    match type of S7 with shared ?z => set (s7 := z) in * end.
    assert (N7 : nv s7 = 2 + nv s1) by (destruct Q7 as [-> _]; rewrite N5; destruct Q4 as [-> _]; rewrite N2; reflexivity).
    assert (VA' : va = 1 + nv s1) by (rewrite VA; destruct Q4 as [-> _]; exact N2). clear VA.
    assert (OLD : forall w, w < nv s1 -> k_ul (vs s7 w) = k_ul (vs s1 w) /\ k_ur (vs s7 w) = k_ur (vs s1 w)).
    { intros w Hw. destruct (same_fronts _ _ w Q7) as [-> ->]. rewrite O5 by lia.
      destruct (same_fronts _ _ w Q4) as [-> ->]. rewrite O2 by lia. auto. }
    assert (FA : k_ul (vs s7 va) = k_ur (vs s1 v1) /\ k_ur (vs s7 va) = k_ur (vs s1 v)).
    { destruct (same_fronts _ _ va Q7) as [-> ->]. auto. }
    assert (FB : k_ul (vs s7 vb) = k_ul (vs s1 v) /\ k_ur (vs s7 vb) = k_ul (vs s1 v2)).
    { destruct (same_fronts _ _ vb Q7) as [-> ->]. rewrite O5 by lia. destruct (same_fronts _ _ vb Q4) as [-> ->]. auto. }
    peel H y3 s8 H8. apply circ_shared in H8; [|exact S7|].
    2:{ intros a b Ha Hb. injection Hb as <-. apply refers_last in Ha. destruct (sd_left _ S _ _ Ha) as [L1 L2].
        split; [lia|]. split; [lia|]. destruct FB as [-> _]. destruct (OLD a L1) as [_ ->]. exact L2. }
    destruct H8 as (S8 & N8 & E8).
    peel H y4 s9 H9. apply circ_shared in H9; [|exact S8|].
    2:{ intros a b Ha Hb. injection Ha as <-. injection Hb as <-. split; [lia|]. split; [lia|].
        destruct (E8 vb) as [_ ->]. destruct (E8 v2) as [-> _]. destruct FB as [_ ->]. destruct (OLD v2 B2) as [-> _]. reflexivity. }
    destruct H9 as (S9 & N9 & E9). do 5 nextro H.
    peel H y5 s10 H10. apply circ_shared in H10; [|exact S9|].
    2:{ intros a b Ha Hb. injection Ha as <-. injection Hb as <-. split; [lia|]. split; [lia|].
        destruct (E9 va) as [-> _]. destruct (E9 v1) as [_ ->]. destruct (E8 va) as [-> _]. destruct (E8 v1) as [_ ->].
        destruct FA as [-> _]. destruct (OLD v1 B1) as [_ ->]. reflexivity. }
    destruct H10 as (S10 & N10 & E10).
    getv H. peel H y6 s11 H11. apply (link_right v va) in H11; [|exact S10|lia|].
    2:{ destruct (E10 va) as [_ ->]. destruct (E9 va) as [_ ->]. destruct (E8 va) as [_ ->].
        destruct (E10 v) as [_ ->]. destruct (E9 v) as [_ ->]. destruct (E8 v) as [_ ->].
        destruct FA as [_ ->]. destruct (OLD v B0) as [_ ->]. reflexivity. }
    destruct H11 as (S11 & _). clear -H S11. revert H S11. generalize s11 s'. clear. intros s11 s' H.
    revert s11 x s' H. match goal with |- forall a b c, ?m a = Ok (b, c) -> _ => change (passes m) end.
    do 6 (apply passes_tail; [apply calm_ro; auto with ro|intros]).
    destruct (get3 (t_n _) (ccw e)) as [b|]; [|apply passes_calm, calm_ro; auto with ro].
    apply passes_tail; [apply calm_keepv, keepv_relink|intros]. apply passes_tail; [apply calm_keepv, keepv_replace|intros].
    apply passes_tail; [apply calm_ro; auto with ro|intros].
    destruct (get3 (t_n _) (cw e)) as [a|]; [|apply passes_calm, calm_ro; auto with ro].
    apply passes_tail; [apply calm_keepv, keepv_relink|intros]. apply passes_tail; [apply calm_keepv, keepv_replace|intros].
    apply passes_tail; [apply calm_tstops|intros].
    apply passes_tail; [apply calm_ro; auto with ro|intros].
    apply passes_bind; [apply passes_whenM, passes_parallel_fan|intros].
    apply passes_tail; [apply calm_ro; auto with ro|intros].
    apply passes_whenM, passes_parallel_fan.
  Qed.

  Lemma passes_3sides evt step : passes (handle_edge_event_3sides evt step).
  Proof.
    apply passes_calm. unfold handle_edge_event_3sides.
    repeat lazymatch goal with |- calm_step (bind _ _) =>
      apply calm_bind; [first [apply calm_ro; solve [auto with ro]|apply calm_stop|apply calm_tstops|apply calm_forM; intros; apply calm_keepv, keepv_neighbour]|intros] end.
    first [apply calm_tstops|apply calm_ro; auto with ro].
  Qed.

  Lemma passes_1side evt step : passes (handle_edge_event_1side evt step).
  Proof.
    unfold handle_edge_event_1side. destruct (ev_side evt) as [|e [|]]; try (solve [apply passes_calm, calm_ro; auto with ro]).
    intros s x s' H S. nextro H. nextcalm H calm_stop. apply (same_shared _ _ Hc) in S. clear Hc. getv H. getv H. nextro H.
    peel H kv s2 Hnew. apply new_shared in Hnew; [|intros; eapply sd_ul; eauto|intros; eapply sd_ur; eauto|exact S].
    destruct Hnew as (S2 & _). nextro H. nextcalm H calm_addv. nextcalm H calm_stop. apply calm_tstops in H.
    apply (same_shared _ _ H), (same_shared _ _ Hc0), (same_shared _ _ Hc), S2.
  Qed.

  Lemma passes_flip_event evt : passes (handle_flip_event evt).
  Proof.
    apply passes_calm. unfold handle_flip_event. destruct (ev_side evt) as [|e [|]]; try (solve [apply calm_ro; auto with ro]).
    apply calm_bind; [apply calm_ro; auto with ro|intros]. destruct (get3 (t_n x) e); [|apply calm_ro; auto with ro].
    repeat lazymatch goal with |- calm_step (bind _ _) =>
      apply calm_bind; [first [apply calm_ro; solve [auto with ro]|apply calm_flip|apply calm_keepv, keepv_riq|apply calm_keepv, keepv_sched]|intros] end.
    first [apply calm_keepv, keepv_riq|apply calm_keepv, keepv_sched|apply calm_ro; auto with ro].
  Qed.

  Theorem event_shared e step s x s' : handle_event e step s = Ok (x, s') ->
    (forall u i, get3 (t_v (ts s u)) i < nv s) -> shared s -> shared s'.
  Proof.
    intros H PL S. unfold handle_event in H. getv H. getv H.
    destruct (is_some (t_stops _)). { injection H as _ <-. exact S. }
    destruct (ev_tp (es s e)).
    - destruct (Nat.eqb _ 3); [eapply passes_3sides; eauto|].
      destruct (_ && _); [eapply passes_1side; eauto|].
      destruct (Nat.eqb _ 2); [discriminate|]. eapply passes_edge; eauto.
    - eapply passes_flip_event; eauto.
    - eapply split_shared; eauto.
  Qed.

  Theorem run_shared s0 now0 tr0 now tr s :
    registered s0 -> shaped s0 -> shared s0 -> steps now0 tr0 s0 now tr s -> shared s.
  Proof.
    intros R0 SH0 S0 H. induction H as [|now tr s e now' s1 s' R IH T H]; [exact S0|].
    pose proof (steps_shaped _ _ _ _ _ _ R0 SH0 R) as Ss.
    apply take_next_ok in T.
    assert (C : vs s1 = vs s /\ nv s1 = nv s /\ ts s1 = ts s) by (destruct T as [(r & _ & _ & ->)|(r & _ & _ & _ & ->)]; auto).
    destruct C as (V & N & TS).
    apply (event_shared _ _ _ _ _ H); [rewrite TS, N; intros; apply (sh_v _ Ss)|].
    apply (same_shared s); [|exact IH]. split; [exact N|]. rewrite V. auto.
  Qed.
End Shared.
