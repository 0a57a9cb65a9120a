(** Executions of the event loop as sequences of handled events *)
From Coq Require Import Sorting.Sorted Permutation.
From Verif Require Import Base Arith Calc VectorOps Line2d Primitives Collapse CollapseProofs EventsLib
  EventLoop Pass OpSpec Order StopSpec RunBase RunTimed.

Section RunLoop.
  Context {A : Arith} {E : Env A}.

  (** a handled event: was it taken from the queue (or from the immediate
      list), which event, its time *)
  Record handled := mkH { h_queue : bool; h_event : nat; h_time : num }.

  (** [steps now0 tr0 s0 now tr s]: from the moment when the clock was [now0],
      the events [tr0] had been handled and the state was [s0], some further
      events were handled; now the clock is [now], the events [tr] have been
      handled and the state is [s] *)
  Inductive steps (now0 : num) (tr0 : list handled) (s0 : state) : num -> list handled -> state -> Prop :=
  | reach_start : steps now0 tr0 s0 now0 tr0 s0
  | reach_step now tr s e now' s1 s' :
      steps now0 tr0 s0 now tr s ->
      take_next now s = Ok ((e, now'), s1) ->
      handle_event e (Z.of_nat (S (length tr))) s1 = Ok (tt, s') ->
      steps now0 tr0 s0 now' (tr ++ [mkH (match immediate s with [] => true | _ => false end) e (ev_time (es s e))]) s'.

  (** [reach s0 now tr s]: starting the loop in [s0] at time 0 *)
  Definition reach (s0 : state) : num -> list handled -> state -> Prop := steps n0 [] s0.

  Lemma take_next_ok now s e now' s1 : take_next now s = Ok ((e, now'), s1) ->
    (exists r, immediate s = e :: r /\ now' = now /\ s1 = with_qi s (queue s) r) \/
    (exists r, immediate s = [] /\ queue s = e :: r /\ now' = ev_time (es s e) /\ s1 = with_qi s r []).
  Proof.
    unfold take_next, bind, gets. destruct (immediate s) as [|x r] eqn:I.
    - destruct (queue s) as [|y q] eqn:Q; [discriminate|]. cbn. intros H. injection H as <- <- <-.
      right. exists q. rewrite I. repeat split.
    - cbn. intros H. injection H as <- <- <-. left. exists r. repeat split.
  Qed.

  (** a loop that returns is an execution that ends with both queues empty *)
  Lemma loop_reach s0 : forall guard now tr s now' s',
    reach s0 now tr s -> loop guard (Z.of_nat (length tr)) now s = Ok (now', s') ->
    exists tr', reach s0 now' (tr ++ tr') s' /\ length tr' <= guard /\ queue s' = [] /\ immediate s' = [].
  Proof.
    induction guard as [|guard IH]; intros now tr s now' s' R H.
    - cbn in H. unfold bind, gets in H.
      destruct (immediate s) eqn:I; [|discriminate]. destruct (queue s) eqn:Q; [|discriminate].
      apply ret_ok in H. destruct H as [-> ->]. exists []. rewrite app_nil_r. auto.
    - cbn [loop] in H. unfold bind at 1, gets at 1 in H. unfold bind at 1, gets at 1 in H.
      assert (C : (immediate s = [] /\ queue s = []) \/
                  bind (take_next now) (fun en => bind (handle_event (fst en) (Z.of_nat (length tr) + 1)%Z)
                       (fun _ => loop guard (Z.of_nat (length tr) + 1)%Z (snd en))) s = Ok (now', s')).
      { destruct (immediate s); [destruct (queue s)|]; auto. }
      destruct C as [[I Q]|C].
      + rewrite I, Q in H. apply ret_ok in H. destruct H as [-> ->]. exists []. rewrite app_nil_r. simpl. split; [auto|split; [lia|auto]].
      + clear H. apply bind_ok in C. destruct C as ([e now1] & s1 & H1 & C).
        apply bind_ok in C. destruct C as ([] & s2 & H2 & C). cbn in H2, C.
        replace (Z.of_nat (length tr) + 1)%Z with (Z.of_nat (S (length tr))) in H2, C by lia.
        pose proof (reach_step _ _ _ _ _ _ _ _ _ _ R H1 H2) as R'.
        set (h := mkH _ _ _) in R'.
        replace (S (length tr)) with (length (tr ++ [h])) in C by (rewrite app_length; simpl; lia).
        destruct (IH _ _ _ _ _ R' C) as (tr' & R2 & L & Q). exists (h :: tr').
        rewrite <- app_assoc in R2. split; [exact R2|]. split; [simpl; lia|exact Q].
  Qed.

  (** clock after a trace: time of the last event taken from the queue *)
  Definition clock (tr : list handled) : num :=
    fold_left (fun c h => if h_queue h then h_time h else c) tr n0.
  Lemma reach_clock s0 now tr s : reach s0 now tr s -> now = clock tr.
  Proof.
    induction 1 as [|now tr s e now' s1 s' R IH T H]; [reflexivity|].
    unfold clock. rewrite fold_left_app. cbn. fold (clock tr). rewrite <- IH.
    apply take_next_ok in T. destruct T as [(r & -> & -> & _)|(r & -> & _ & -> & _)]; reflexivity.
  Qed.

  (** ** Invariants of executions *)
  Theorem steps_base now0 tr0 s0 now tr s : registered s0 -> steps now0 tr0 s0 now tr s -> registered s /\ follows s0 s.
  Proof.
    intros R0 H. induction H as [|now tr s e now' s1 s' R IH T H]; [split; [exact R0|apply follows_refl]|].
    destruct IH as [IR IF].
    assert (C : registered s1 /\ follows s s1).
    { apply take_next_ok in T. destruct T as [(r & _ & _ & ->)|(r & _ & _ & _ & ->)];
        (split; [destruct IR; constructor; auto|apply follows_qi]). }
    destruct C as [C1 C2].
    destruct (keeps_handle_event base_sound e (Z.of_nat (S (length tr))) s1 C1 tt s' H) as [D1 D2].
    split; [exact D1|]. eapply follows_trans; [exact IF|]. eapply follows_trans; eauto.
  Qed.

  Context (O : OrdArith A).
  Context (addr_inj : forall t u : nat, addr t = addr u -> t = u).

  Theorem reach_timed s0 now tr s : timed n0 s0 -> reach s0 now tr s -> timed now s.
  Proof.
    intros R0 H. induction H as [|now tr s e now' s1 s' R IH T H]; [exact R0|].
    assert (C : timed now' s1 /\ ev_time (es s1 e) = now').
    { apply take_next_ok in T. destruct T as [(r & I & -> & ->)|(r & I & Q & -> & ->)].
      - destruct (timed_take_imm addr_inj _ _ _ _ IH I). cbn. auto.
      - destruct (timed_take_queue O addr_inj _ _ _ _ IH I Q). cbn. auto. }
    destruct C as [C1 C2].
    pose proof (keeps_handle_event (timed_sound O addr_inj) e (Z.of_nat (S (length tr))) s1) as K.
    rewrite C2 in K. destruct (K C1 tt s' H). auto.
  Qed.

  (** times of the handled events *)
  Theorem reach_times s0 now tr s : timed n0 s0 -> reach s0 now tr s ->
    StronglySorted (fun a b => nleb a b = true) (n0 :: map h_time tr ++ [now]).
  Proof.
    intros R0 H. induction H as [|now tr s e now' s1 s' R IH T H].
    - repeat constructor. apply (nleb_refl O).
    - pose proof (reach_timed _ _ _ _ R0 R) as TM.
      assert (C : nleb now now' = true /\ ev_time (es s e) = now').
      { apply take_next_ok in T. destruct T as [(r & I & -> & ->)|(r & I & Q & -> & ->)].
        - destruct (timed_take_imm addr_inj _ _ _ _ TM I) as [-> _]. split; [apply (nleb_refl O)|reflexivity].
        - destruct (timed_take_queue O addr_inj _ _ _ _ TM I Q). auto. }
      destruct C as [C1 C2]. rewrite map_app. cbn [map h_time]. rewrite C2.
      rewrite app_comm_cons in *. rewrite app_comm_cons. remember (n0 :: map h_time tr) as l eqn:El. clear El.
      revert IH C1. clear - O. induction l as [|x l IH]; cbn; intros S C.
      + repeat constructor. apply (nleb_refl O).
      + inversion S as [|? ? S1 F]; subst. constructor; [apply IH; auto|].
        rewrite Forall_forall in *. intros y Hy. rewrite !in_app_iff in Hy.
        assert (In y l \/ y = now') as [Hl| ->] by (simpl in Hy; intuition).
        * apply F, in_app_iff. auto.
        * eapply (oa_trans A O); [|exact C]. apply F, in_app_iff. simpl. auto.
  Qed.

  (** ** The initial event list *)

  (** what holds of a skeleton before the first event: no events, nothing
      stopped, vertices start at or before 0, nodes registered.  Slots of the
      heaps that hold no object satisfy the same (the conditions are not
      restricted to allocated vertices and triangles). *)
  Record fresh (s : state) : Prop := {
    fr_tris : NoDup (sk_triangles s);
    fr_event : forall t, t_event (ts s t) = None;
    fr_stops : forall v, k_stops (vs s v) = None;
    fr_stop_node : forall v, k_stop_node (vs s v) = None;
    fr_starts : forall v a, k_starts (vs s v) = Some a -> nleb a n0 = true;
    fr_imm : immediate s = [];
    fr_reg : registered s }.

  Lemma init_tri t s u s' :
    bind (compute_collapse_time t n0 FindGt) (fun e => match e with Some e => queue_add e | None => ret tt end) s = Ok (u, s') ->
    (collapse_event s t n0 FindGt = Ok None /\ s' = s) \/
    (exists e, collapse_event s t n0 FindGt = Ok (Some e) /\
       let s2 := with_event s t e in s' = with_qi s2 (q_add s2 (ne s) (queue s2)) (immediate s2)).
  Proof.
    intros H. apply bind_ok in H. destruct H as (r & s1 & H & K).
    unfold compute_collapse_time in H. apply bind_ok in H. destruct H as (ev & s2 & H & H1).
    apply rd_ok in H. destruct H as [H ->]. destruct ev as [e|].
    - right. exists e. split; [exact H|]. unfold bind in H1. cbn in H1. injection H1 as <- <-.
      apply queue_add_spec in K. exact K.
    - left. injection H1 as <- <-. injection K as _ <-. auto.
  Qed.

  Lemma init_loop : forall tris s u s',
    NoDup tris -> (forall t, In t tris -> t_event (ts s t) = None) -> timed n0 s -> immediate s = [] ->
    forM tris (fun t => bind (compute_collapse_time t n0 FindGt)
      (fun e => match e with Some e => queue_add e | None => ret tt end)) s = Ok (u, s') ->
    timed n0 s' /\ follows s s' /\ immediate s' = [] /\
    (forall t, t_v (ts s' t) = t_v (ts s t) /\ t_n (ts s' t) = t_n (ts s t) /\ t_stops (ts s' t) = t_stops (ts s t)) /\
    vs s' = vs s /\ nv s' = nv s /\ sk_nodes s' = sk_nodes s /\ sk_vertices s' = sk_vertices s.
  Proof.
    induction tris as [|t tris IH]; intros s u s' N NE T I H.
    { injection H as _ <-. split; [exact T|]. split; [apply follows_refl|]. repeat split; auto. }
    cbn [forM] in H. apply bind_ok in H. destruct H as ([] & s1 & H & K).
    apply init_tri in H. inversion N as [|? ? Nt Nr]; subst.
    destruct H as [[_ ->]|(e & He & ->)].
    { apply IH in K; auto. intros; apply NE; simpl; auto. }
    apply (collapse_event_good O) in He. pose proof (good_time O _ _ _ _ _ He) as Tm. destruct He as [W _].
    destruct T as (R & L & P).
    assert (P' : pending n0 (with_qi (with_event s t e) (q_add (with_event s t e) (ne s) (queue s)) (immediate s))).
    { apply (pending_add O addr_inj); auto.
      - intros x Hx Hxt. apply (pe_cur _ _ P) in Hx. rewrite Hxt, NE in Hx by (simpl; auto). discriminate.
      - apply (wf_tri _ _ _ W). }
    apply IH in K; auto.
    - destruct K as (K1 & K2 & K3 & K4 & K5). split; [exact K1|]. split.
      { eapply follows_trans; [apply follows_event|]. eapply follows_trans; [apply follows_qi|exact K2]. }
      split; [exact K3|]. split; [|exact K5]. intros u'. destruct (K4 u') as (Q1 & Q2 & Q3). cbn in Q1, Q2, Q3.
      rewrite Q1, Q2, Q3. destruct (upd_case (ts s) t (tri_event (ts s t) (Some (ne s))) u') as [[<- U]|[_ U]]; rewrite U; auto.
    - intros x Hx. cbn. rewrite upd_other; [apply NE; simpl; auto|]. congruence.
    - split; [destruct R; constructor; auto|]. split; [destruct L; constructor; auto|exact P'].
  Qed.

  (** the state in which the loop starts *)
  Definition started (s s0 : state) : Prop :=
    exists s1, init_event_list s = Ok (tt, s1) /\ s0 = with_qi s1 (queue s1) [].

  Theorem init_timed s s0 : fresh s -> started s s0 ->
    timed n0 s0 /\ follows s s0 /\ immediate s0 = [] /\
    (forall t, t_v (ts s0 t) = t_v (ts s t) /\ t_n (ts s0 t) = t_n (ts s t) /\ t_stops (ts s0 t) = t_stops (ts s t)) /\
    vs s0 = vs s /\ nv s0 = nv s /\ sk_nodes s0 = sk_nodes s /\ sk_vertices s0 = sk_vertices s.
  Proof.
    intros F (s1 & H & ->). unfold init_event_list in H.
    apply bind_ok in H. destruct H as ([] & s2 & H & K). injection H as <-.
    apply bind_ok in K. destruct K as (tris & s2 & H & K). injection H as <- <-.
    set (s2 := mkSt _ _ _ _ _ _ _ _ _ _ _ _ _ _) in K. cbn [sk_triangles] in K.
    destruct F as [F1 F2 F3 F4 F5 F6 F7].
    assert (T : timed n0 s2).
    { split; [destruct F7; constructor; auto|]. split.
      - constructor; cbn; intros v *; rewrite ?F3, ?F4; try reflexivity; try discriminate. apply F5.
      - constructor; cbn; rewrite ?F6; try constructor; intros; try contradiction; rewrite F2 in *; discriminate. }
    apply init_loop in K; auto; [|intros; apply F2].
    destruct K as (K1 & K2 & K3 & K4). 
    replace (with_qi s1 (queue s1) []) with s1 by (rewrite <- K3; destruct s1; reflexivity).
    split; [exact K1|]. split; [|split; [exact K3|exact K4]].
    eapply follows_trans; [|exact K2]. apply (follows_qi s [] (immediate s)).
  Qed.
End RunLoop.
