(** Facts about the event order and the operations of the ordered sequence *)
From Coq Require Import Sorting.Sorted Permutation.
From Verif Require Import Base Arith Primitives Collapse EventsLib.

Section Order.
  Context {A : Arith} {E : Env A} (O : OrdArith A).
  Notation cmp := compare_event_by_time.

  Lemma cmp_eq (addr_inj : forall t u : nat, addr t = addr u -> t = u) a b : cmp a b = Eq <->
    neqb (ev_time a) (ev_time b) = true /\ ev_tritp a = ev_tritp b /\ ev_tri a = ev_tri b.
  Proof.
    unfold cmp. destruct (nltb (ev_time a) (ev_time b)) eqn:L.
    { split; [discriminate|]. intros [H _]. apply (nltb_neqb O) in L. congruence. }
    destruct (nltb (ev_time b) (ev_time a)) eqn:G.
    { split; [discriminate|]. intros [H _]. apply (nltb_neqb O) in G. rewrite (neqb_sym O) in G. congruence. }
    assert (T : neqb (ev_time a) (ev_time b) = true) by (destruct (ntricho O (ev_time a) (ev_time b)) as [|[|]]; congruence).
    destruct (Nat.compare_spec (ev_tritp b) (ev_tritp a)).
    - rewrite Z.compare_eq_iff. split; [intros K; repeat split; auto|intros (_ & _ & ->); reflexivity].
    - split; [discriminate|lia].
    - split; [discriminate|lia].
  Qed.

  Lemma cmp_lt a b : cmp a b = Lt <->
    nltb (ev_time a) (ev_time b) = true \/
    (neqb (ev_time a) (ev_time b) = true /\
     (ev_tritp b < ev_tritp a \/ (ev_tritp a = ev_tritp b /\ (addr (ev_tri a) < addr (ev_tri b))%Z))).
  Proof.
    unfold cmp. destruct (nltb (ev_time a) (ev_time b)) eqn:L. { tauto. }
    destruct (nltb (ev_time b) (ev_time a)) eqn:G.
    { split; [discriminate|]. intros [H|[H _]]; [congruence|].
      apply (nltb_neqb O) in G. rewrite (neqb_sym O) in G. congruence. }
    assert (T : neqb (ev_time a) (ev_time b) = true) by (destruct (ntricho O (ev_time a) (ev_time b)) as [|[|]]; congruence).
    destruct (Nat.compare_spec (ev_tritp b) (ev_tritp a)) as [K|K|K].
    - rewrite Z.compare_lt_iff. split.
      + intros H. right. split; [exact T|]. right. auto.
      + intros [H|[_ [H|[_ H]]]]; [congruence|lia|exact H].
    - split; [intros _; right; auto|reflexivity].
    - split; [discriminate|]. intros [H|[_ [H|[H _]]]]; [congruence|lia|lia].
  Qed.

  Lemma cmp_gt a b : cmp a b = Gt <-> cmp b a = Lt.
  Proof.
    rewrite cmp_lt. unfold cmp. rewrite (neqb_sym O).
    destruct (nltb (ev_time a) (ev_time b)) eqn:L.
    { split; [discriminate|]. intros [H|[H _]].
      - pose proof (nltb_trans O _ _ _ H L). rewrite (nltb_irrefl O) in *. discriminate.
      - apply (nltb_neqb O) in L. congruence. }
    destruct (nltb (ev_time b) (ev_time a)) eqn:G. { tauto. }
    assert (T : neqb (ev_time a) (ev_time b) = true) by (destruct (ntricho O (ev_time a) (ev_time b)) as [|[|]]; congruence).
    destruct (Nat.compare_spec (ev_tritp b) (ev_tritp a)) as [K|K|K].
    - rewrite Z.compare_gt_iff. split.
      + intros H. right. split; [exact T|]. right. auto.
      + intros [H|[_ [H|[_ H]]]]; [congruence|lia|exact H].
    - split; [discriminate|]. intros [H|[_ [H|[H _]]]]; [congruence|lia|lia].
    - split; [intros _; right; auto|reflexivity].
  Qed.

  Lemma cmp_trans a b c : cmp a b = Lt -> cmp b c = Lt -> cmp a c = Lt.
  Proof.
    rewrite !cmp_lt. intros [H|(H & H')] [K|(K & K')].
    - left. eapply nltb_trans; eauto.
    - left. rewrite <- (nltb_eqb_r O _ _ _ K). exact H.
    - left. rewrite (nltb_eqb_l O _ _ _ H). exact K.
    - right. split; [eapply neqb_trans; eauto|]. intuition lia.
  Qed.

  Lemma cmp_lt_time a b : cmp a b = Lt -> nleb (ev_time a) (ev_time b) = true.
  Proof.
    rewrite cmp_lt. intros [H|[H _]]; [apply (nltb_leb O), H|apply (neqb_leb O), H].
  Qed.

  (** strictly sorted queues *)
  Definition sorted (es : nat -> event) (q : list nat) : Prop :=
    StronglySorted (fun x y => cmp (es x) (es y) = Lt) q.

  Lemma sorted_ext es es' q : (forall x, In x q -> es' x = es x) -> sorted es q -> sorted es' q.
  Proof.
    intros H S. induction S as [|x r S IH F]; [constructor|]. constructor.
    - apply IH. intros; apply H; simpl; auto.
    - rewrite Forall_forall in *. intros y Hy. rewrite !H by (simpl; auto). apply F, Hy.
  Qed.

  Lemma q_add_perm s e q : (forall x, In x q -> cmp (es s e) (es s x) <> Eq) ->
    Permutation (e :: q) (q_add s e q).
  Proof.
    induction q as [|x r IH]; simpl; intros H; [constructor; constructor|].
    destruct (cmp (es s e) (es s x)) eqn:C.
    - exfalso. apply (H x); auto.
    - constructor. apply Permutation_refl.
    - rewrite perm_swap. constructor. apply IH. auto.
  Qed.

  Lemma q_add_sorted s e q : sorted (es s) q -> sorted (es s) (q_add s e q).
  Proof.
    intros S. induction S as [|x r S IH F]; simpl; [constructor; constructor|].
    destruct (cmp (es s e) (es s x)) eqn:C; [constructor; auto| |].
    - constructor; [constructor; auto|]. constructor; [exact C|].
      rewrite Forall_forall in *. intros y Hy. eapply cmp_trans; eauto.
    - constructor; [exact IH|]. rewrite Forall_forall in *. intros y Hy.
      assert (y = e \/ In y r) as [->|K].
      { clear - Hy. induction r as [|z r IH]; simpl in Hy; [intuition|].
        destruct (cmp (es s e) (es s z)); simpl in *; intuition. }
      + apply cmp_gt, C.
      + apply F, K.
  Qed.

  (** [q_discard] removes one element that compares equal *)
  Inductive drop1 : list nat -> list nat -> Prop :=
  | drop_same q : drop1 q q
  | drop_here x q : drop1 (x :: q) q
  | drop_later x q q' : drop1 q q' -> drop1 (x :: q) (x :: q').
  Lemma q_discard_drop s e q : drop1 q (q_discard s e q).
  Proof.
    induction q as [|x r IH]; simpl; [constructor|].
    destruct (cmp (es s e) (es s x)); constructor; exact IH.
  Qed.
  Lemma remove1_drop e q : drop1 q (remove1 e q).
  Proof. induction q as [|x r IH]; simpl; [constructor|]. destruct (Nat.eqb e x); constructor; exact IH. Qed.
  Lemma drop1_In q q' x : drop1 q q' -> In x q' -> In x q.
  Proof. induction 1; simpl; intuition. Qed.
  Lemma drop1_sorted es q q' : drop1 q q' -> sorted es q -> sorted es q'.
  Proof.
    induction 1; intros S; auto; inversion S; subst; auto.
    constructor; [apply IHdrop1; auto|]. rewrite Forall_forall in *. intros y Hy.
    match goal with H : forall _, In _ q -> _ |- _ => apply H end. eapply drop1_In; eauto.
  Qed.
  Lemma drop1_NoDup q q' : drop1 q q' -> NoDup q -> NoDup q'.
  Proof.
    induction 1; intros S; auto; inversion S; subst; auto.
    constructor; [|auto]. intros K. eapply drop1_In in K; eauto.
  Qed.
  Lemma drop1_NoDup_app q q' i i' : drop1 q q' -> drop1 i i' -> NoDup (q ++ i) -> NoDup (q' ++ i').
  Proof.
    intros D D' N. assert (N1 : NoDup (q' ++ i)).
    { clear D' i'. induction D; auto; simpl in *; inversion N; subst; auto.
      constructor; [|auto]. intros K. match goal with H : ~ _ |- _ => apply H end.
      apply in_app_iff in K. apply in_app_iff. destruct K; auto. left. eapply drop1_In; eauto. }
    clear N D q. induction q' as [|x r IH]; simpl in *; [eapply drop1_NoDup; eauto|].
    inversion N1; subst. constructor; [|auto]. intros K. match goal with H : ~ _ |- _ => apply H end.
    apply in_app_iff in K. apply in_app_iff. destruct K; auto. right. eapply drop1_In; eauto.
  Qed.

  (** an element comparing equal is removed (the queue is sorted) *)
  Lemma cmp_refl a : cmp a a = Eq.
  Proof.
    unfold cmp. rewrite (nltb_irrefl O), Nat.compare_refl. apply Z.compare_refl.
  Qed.
  Lemma q_discard_not_In s e q : sorted (es s) q -> ~ In e (q_discard s e q).
  Proof.
    intros S. induction S as [|x r S IH F]; simpl; [auto|].
    rewrite Forall_forall in F.
    destruct (cmp (es s e) (es s x)) eqn:C.
    - intros K. apply F in K. apply cmp_gt in K. congruence.
    - intros [<-|K]; [rewrite cmp_refl in C; discriminate|auto].
    - intros [<-|K]; [rewrite cmp_refl in C; discriminate|auto].
  Qed.
  Lemma remove1_not_In e i : NoDup i -> ~ In e (remove1 e i).
  Proof.
    induction 1; simpl; [auto|]. destruct (Nat.eqb_spec e x); [subst; auto|].
    intros [K|K]; [congruence|auto].
  Qed.
End Order.
