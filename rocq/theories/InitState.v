(** The state that init_skeleton returns meets the assumptions of the theorems
    about runs of the event loop. *)
From Coq Require Import Permutation.
From Verif Require Import Base Arith Calc VectorOps Line2d Primitives Collapse CollapseProofs EventsLib FlipEvent ParallelEvent
  EdgeEvent SplitEvent EventLoop Pass OpSpec Order StopSpec RunBase RunTimed RunLoop Total Initialize StarProofs InitProofs.

Section Bounds.
  Context {A : Arith} {E : Env A}.
  Variable d : dtriang (A:=A).

  Lemma index_of_lt (v : nat) l i : index_of Nat.eqb v l = Some i -> i < length l.
  Proof.
    revert i. induction l as [|x l IH]; intros i; cbn; [discriminate|]. destruct (Nat.eqb v x).
    - intros H. injection H as <-. lia.
    - destruct (index_of Nat.eqb v l); [|discriminate]. intros H. injection H as <-. specialize (IH _ eq_refl). lia.
  Qed.
  Lemma node_of_lt v n : node_of d v = Ok n -> n < length (node_keys d).
  Proof. unfold node_of. destruct (index_of _ _ _) eqn:F; [|discriminate]. intros H. injection H as <-. eapply index_of_lt; eauto. Qed.

  (** *** bounds of references *)
  Lemma init_neighbour_lt t j r n : init_neighbour d t j = Ok r -> fst r = Some n -> n < dt_nt d.
  Proof.
    unfold init_neighbour. destruct (constrained d t j); [intros H; injection H as <-; discriminate|].
    destruct (get3 (d_n (dt_t d t)) j) as [m|]; [|intros H; injection H as <-; discriminate].
    destruct (is_none _); [intros H; injection H as <-; discriminate|].
    destruct (Nat.ltb m (dt_nt d)) eqn:L; [|discriminate]. apply Nat.ltb_lt in L.
    intros H. injection H as <-. cbn. congruence.
  Qed.
  Lemma ti_n_lt ti t sd n : ti_of d ti -> get3 (ti_n (ti t)) sd = Some n -> n < dt_nt d.
  Proof.
    intros [T1 T2] H. destruct (Nat.lt_ge_cases t (dt_nt d)) as [L|L].
    - specialize (T1 t L). unfold init_triangle in T1.
      do 3 (apply rbind_ok in T1; destruct T1 as (? & _ & T1)).
      apply rbind_ok in T1; destruct T1 as (a & Ha & T1).
      apply rbind_ok in T1; destruct T1 as (b & Hb & T1).
      apply rbind_ok in T1; destruct T1 as (c & Hc & T1). injection T1 as T1. rewrite <- T1 in H. cbn in H.
      destruct sd; cbn in H; [exact (init_neighbour_lt _ _ _ _ Ha H)|exact (init_neighbour_lt _ _ _ _ Hb H)|exact (init_neighbour_lt _ _ _ _ Hc H)].
    - rewrite (T2 t L) in H. destruct sd; discriminate.
  Qed.
  Lemma rotate_until_lt (tn : nat -> triple (option nat)) tv v dir cand : (forall t sd n, get3 (tn t) sd = Some n -> n < dt_nt d) ->
    forall fuel seen t r, rotate_until tv tn v dir cand seen fuel t = Ok (Some r) -> r < dt_nt d.
  Proof.
    intros B. induction fuel as [|fuel IH]; intros seen t r H; cbn in H; [discriminate|].
    destruct (mem Nat.eqb t seen); [discriminate|]. destruct (index3 _ _) as [sd|]; [|discriminate].
    destruct (get3 (tn t) (dir sd)) as [t'|] eqn:G; [|discriminate].
    destruct (mem Nat.eqb t' cand); [eapply IH; eauto|]. injection H as <-. eapply B; eauto.
  Qed.
  Lemma unwanted_links_lt (tn : nat -> triple (option nat)) tv c un t l : (forall t sd n, get3 (tn t) sd = Some n -> n < dt_nt d) ->
    unwanted_links tv tn c un t = Ok l -> forall x, In x l -> snd x < dt_nt d /\ fst (fst x) < dt_nt d.
  Proof.
    intros B H. unfold unwanted_links in H.
    apply rbind_ok in H. destruct H as (sd & _ & H). destruct (get3 (tv t) sd) as [v|]; [|discriminate].
    apply rbind_ok in H. destruct H as (u & _ & H).
    apply rbind_ok in H. destruct H as (a & Ha & H).
    apply rbind_ok in H. destruct H as (b & Hb & H).
    apply rbind_ok in H. destruct H as (a' & Ha' & H).
    apply rbind_ok in H. destruct H as (sa & _ & H).
    apply rbind_ok in H. destruct H as (b' & Hb' & H).
    apply rbind_ok in H. destruct H as (sb & _ & H). injection H as <-.
    destruct a as [a0|]; [|discriminate]. injection Ha' as ->. destruct b as [b0|]; [|discriminate]. injection Hb' as ->.
    apply rotate_until_lt in Ha, Hb; try exact B.
    intros x [<-|[<-|[]]]; cbn; auto.
  Qed.
  Lemma set_tn1_lt links : (forall x : nat * side * nat, In x links -> snd x < dt_nt d) ->
    forall tn, (forall t sd n, get3 (tn t) sd = Some n -> n < dt_nt d) ->
    forall t sd n, get3 (fold_left set_tn1 links tn t) sd = Some n -> n < dt_nt d.
  Proof.
    induction links as [|[[a i] b] l IH]; intros HL tn B; [exact B|].
    cbn [fold_left]. apply IH; [intros x Hx; apply HL; right; exact Hx|].
    intros t sd n. unfold set_tn1. destruct (Nat.eqb a t); [|apply B]. rewrite g3s3.
    destruct (side_eqb i sd); [|apply B]. intros H. injection H as <-. apply (HL (a, i, b)). left. reflexivity.
  Qed.
  Lemma corner_lt ti b : init_vertices d ti = Ok b -> forall t sd i, get3 (b_tv b t) sd = Some i -> i < length (all_groups d).
  Proof.
    intros H t sd i K. destruct (init_vertices_built d ti b H) as [B _].
    destruct (bl_corner _ _ _ _ B _ _ _ K) as (v & g & N & _). apply nth_error_Some. congruence.
  Qed.

End Bounds.

Section InitState.
  Context {A : Arith} {E : Env A}.
  Variables (d : dtriang (A:=A)) (s : state).
  Hypothesis HI : init_skeleton d = Ok s.

  (** a vertex of the initial skeleton is that of a group or the infinite one *)
  Lemma init_vertices_cases : exists cpos ti b, centroid d = Ok cpos /\ ti_of d ti /\ init_vertices d ti = Ok b /\
    nv s = S (length (all_groups d)) /\ sk_vertices s = seq 0 (length (all_groups d)) /\
    (forall i, length (all_groups d) <= i -> vs s i = inf_vertex cpos) /\
    (forall i v g, nth_error (all_groups d) i = Some (v, g) ->
      exists k, kv_for d ti (v, g) k /\ k_info k = S i /\ vs s i = linked_kv (b_tv b) (link_for i g) k).
  Proof.
    destruct (init_skeleton_parts d s HI) as (cpos & ti & b & kvs & ls & un & P).
    exists cpos, ti, b. destruct (init_vertices_built d ti b (pa_b _ _ _ _ _ _ _ _ P)) as [B _].
    destruct (links_built d ti b B) as [L1 L2]. rewrite <- (pa_kvs _ _ _ _ _ _ _ _ P) in L1, L2.
    destruct (pa_s _ _ _ _ _ _ _ _ P) as (_ & s1 & _ & _ & ES). rewrite ES.
    cbn [nv sk_vertices vs init_state]. rewrite L1.
    split; [apply P|]. split; [apply P|]. split; [apply P|]. split; [reflexivity|]. split; [reflexivity|]. split.
    - intros i L. apply nth_overflow. lia.
    - intros i v g H. destruct (L2 i v g H) as (k & K1 & K2 & K3). exists k. split; [exact K1|]. split; [exact K2|].
      erewrite nth_error_nth; [reflexivity|exact K3].
  Qed.

  Theorem init_shaped : shaped s.
  Proof.
    destruct (init_skeleton_parts d s HI) as (cpos & ti & b & kvs & ls & un & P).
    destruct (init_vertices_built d ti b (pa_b _ _ _ _ _ _ _ _ P)) as [B _].
    destruct (links_built d ti b B) as [L1 _]. rewrite <- (pa_kvs _ _ _ _ _ _ _ _ P) in L1.
    destruct (pa_s _ _ _ _ _ _ _ _ P) as (_ & s1 & _ & _ & ES). rewrite ES. constructor; cbn [nv ts t_v t_n nt init_state].
    - intros t sd. rewrite g3m3.
      destruct (mem Nat.eqb t un); [destruct sd; cbn; lia|].
      unfold with_infinite. destruct (Nat.ltb t (dt_nt d)).
      + pose proof (corner_lt d ti b (pa_b _ _ _ _ _ _ _ _ P) t) as C.
        assert (G : forall sd o, get3 (b_tv b t) sd = o -> match (if is_some (infinite_corner d t sd) then Some (length kvs) else o)
          with Some v => v | None => length kvs end < S (length kvs)).
        { intros sd' o <-. destruct (is_some _); [lia|]. destruct (get3 (b_tv b t) sd') eqn:F; [|lia]. apply C in F. lia. }
        destruct sd; cbn [get3]; apply G; reflexivity.
      + destruct (get3 (b_tv b t) sd) eqn:F; [|lia]. apply (corner_lt d ti b (pa_b _ _ _ _ _ _ _ _ P)) in F. lia.
    - intros t sd n. destruct (mem Nat.eqb t un); [destruct sd; discriminate|].
      apply set_tn1_lt; [|intros t' sd' n'; apply (ti_n_lt d ti), P].
      intros x Hx. apply in_concat in Hx. destruct Hx as (l & Hl & Hx).
      pose proof (pa_ls _ _ _ _ _ _ _ _ P) as R. apply rmapl_all in R.
      assert (exists t, unwanted_links (with_infinite d (length kvs) (b_tv b)) (fun t => ti_n (ti t)) (length kvs) un t = Ok l) as [u U].
      { clear - R Hl. revert R. generalize un at 2. intros l0 R. induction R as [|a c l1 l2 R1 R2 IH]; [destruct Hl|].
        destruct Hl as [->|Hl]; [exists a; exact R1|apply IH, Hl]. }
      eapply unwanted_links_lt; [|exact U|exact Hx]. intros t' sd' n'. apply (ti_n_lt d ti), P.
  Qed.

  Theorem init_fresh : nleb n0 n0 = true -> fresh s.
  Proof.
    intros RF. destruct init_vertices_cases as (cpos & ti & b & _ & _ & _ & C1 & C2 & C3 & C4).
    destruct (init_skeleton_parts d s HI) as (cpos' & ti' & b' & kvs & ls & un & P).
    destruct (pa_s _ _ _ _ _ _ _ _ P) as (_ & s1 & _ & _ & ES).
    assert (K : forall v, k_stops (vs s v) = None /\ k_stop_node (vs s v) = None /\
      (k_starts (vs s v) = None \/ k_starts (vs s v) = Some n0) /\
      forall n, k_start_node (vs s v) = Some n -> n < length (node_keys d)).
    { intros v. destruct (nth_error (all_groups d) v) as [[x g]|] eqn:N.
      - destruct (C4 _ _ _ N) as (k & K1 & _ & ->). destruct K1 as (lw & rw & bi & node & info & K).
        destruct K as (_ & _ & _ & _ & _ & _ & K & ->). cbn. repeat split; auto.
        intros n Hn. injection Hn as <-. eapply node_of_lt; eauto.
      - apply nth_error_None in N. rewrite (C3 _ N). cbn. repeat split; auto. discriminate. }
    constructor.
    - rewrite ES. cbn [sk_triangles init_state]. eapply Permutation_NoDup; [apply isort_perm|].
      apply NoDup_filter, seq_NoDup.
    - intros t. rewrite ES. reflexivity.
    - intros v. apply K.
    - intros v. apply K.
    - intros v a Ha. destruct (K v) as (_ & _ & [K1|K1] & _); rewrite K1 in Ha; [discriminate|]. injection Ha as <-. exact RF.
    - rewrite ES. reflexivity.
    - constructor.
      + intros v n Hn. destruct (K v) as (_ & _ & _ & K4). specialize (K4 n Hn). rewrite ES. cbn. apply in_seq. lia.
      + intros v n Hn. destruct (K v) as (_ & K2 & _). congruence.
      + intros n Hn. rewrite ES in *. cbn in *. apply in_seq in Hn. lia.
      + intros v Hv. rewrite C2 in Hv. rewrite C1. apply in_seq in Hv. lia.
  Qed.

  (** *** one kinetic vertex per group *)
  Lemma init_sk_vertices v : v < dt_nv d ->
    dv_finite (dt_v d v) = true /\ exists gs node, split_star d v = Ok gs /\ length gs <> 1 /\
    node_of d v = Ok node /\ sn_pos (ns s node) = dv_pos (dt_v d v).
  Proof.
    intros L. destruct (init_skeleton_parts d s HI) as (cpos' & ti' & b' & kvs & ls & un & P).
    destruct (init_vertices_built d ti' b' (pa_b _ _ _ _ _ _ _ _ P)) as [_ B]. destruct (B v L) as (B1 & gs & B2 & B3).
    split; [exact B1|]. exists gs.
    assert (N : exists n, index_of Nat.eqb v (node_keys d) = Some n /\ nth n (node_keys d) 0 = v).
    { assert (I : In v (node_keys d)). { apply filter_In. split; [apply in_seq; lia|exact B1]. }
      revert I. generalize (node_keys d). induction l as [|x l IH]; [intros []|]. intros I. cbn.
      destruct (Nat.eqb v x) eqn:F. { apply Nat.eqb_eq in F. subst x. exists 0. auto. }
      destruct I as [->|I]; [rewrite Nat.eqb_refl in F; discriminate|]. destruct (IH I) as (n & -> & K). exists (S n). auto. }
    destruct N as (n & N1 & N2). exists n. split; [exact B2|]. split; [exact B3|]. split; [unfold node_of; rewrite N1; reflexivity|].
    destruct (pa_s _ _ _ _ _ _ _ _ P) as (_ & s1 & _ & _ & ES). rewrite ES. cbn. rewrite N2. reflexivity.
  Qed.
End InitState.
