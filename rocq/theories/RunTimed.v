(** Life spans and pending events throughout a run (totally ordered numbers,
    distinct triangle addresses) *)
From Coq Require Import Sorting.Sorted Permutation.
From Verif Require Import Base Arith Calc VectorOps Line2d Primitives Collapse CollapseProofs EventsLib
  EventLoop Pass OpSpec Order StopSpec RunBase.

Lemma NoDup_app_r {X} (l m : list X) : NoDup (l ++ m) -> NoDup m.
Proof. induction l; simpl; [auto|]. intros H. inversion H; auto. Qed.

Section RunTimed.
  Context {A : Arith} {E : Env A}.

  Record life (now : num) (s : state) : Prop := {
    li_both : forall v, is_some (k_stops (vs s v)) = is_some (k_stop_node (vs s v));
    li_stop : forall v t, k_stops (vs s v) = Some t -> nleb t now = true;
    li_span : forall v a t, k_starts (vs s v) = Some a -> k_stops (vs s v) = Some t -> nleb a t = true;
    li_start : forall v a, k_starts (vs s v) = Some a -> nleb a now = true }.

  Record pending (now : num) (s : state) : Prop := {
    pe_nodup : NoDup (queue s ++ immediate s);
    pe_cur : forall e, In e (queue s ++ immediate s) -> t_event (ts s (ev_tri (es s e))) = Some e;
    pe_ev : forall t e, t_event (ts s t) = Some e -> e < ne s /\ ev_tri (es s e) = t;
    pe_sorted : sorted (es s) (queue s);
    pe_queue : forall e, In e (queue s) -> nleb now (ev_time (es s e)) = true;
    pe_imm : forall e, In e (immediate s) -> ev_time (es s e) = now }.

  Lemma pe_lt now s e : pending now s -> In e (queue s ++ immediate s) -> e < ne s.
  Proof. intros P H. apply (pe_cur _ _ P) in H. apply (pe_ev _ _ P) in H. apply H. Qed.

  Lemma pending_ext now s s' :
    (forall t, t_event (ts s' t) = t_event (ts s t)) -> es s' = es s -> ne s' = ne s ->
    queue s' = queue s -> immediate s' = immediate s -> pending now s -> pending now s'.
  Proof.
    intros H1 H2 H3 H4 H5 [P1 P2 P3 P4 P5 P6]. constructor; rewrite ?H2, ?H3, ?H4, ?H5; auto.
    - intros e He. rewrite H1. auto.
    - intros t e He. rewrite H1 in He. auto.
  Qed.

  Lemma pending_drop now s q i : pending now s -> drop1 (queue s) q -> drop1 (immediate s) i ->
    pending now (with_qi s q i).
  Proof.
    intros [P1 P2 P3 P4 P5 P6] Dq Di. constructor; cbn; auto.
    - eapply drop1_NoDup_app; eauto.
    - intros e He. apply P2. apply in_app_iff in He. apply in_app_iff.
      destruct He; [left|right]; eapply drop1_In; eauto.
    - eapply drop1_sorted; eauto.
    - intros e He. apply P5. eapply drop1_In; eauto.
    - intros e He. apply P6. eapply drop1_In; eauto.
  Qed.

  Lemma pending_forget now s o : pending now s -> pending now (forget s o).
  Proof.
    destruct o; [|auto]. intros P. apply pending_drop; auto using q_discard_drop, remove1_drop.
  Qed.

  Context (O : OrdArith A).
  Context (addr_inj : forall t u : nat, addr t = addr u -> t = u).

  (** after forgetting its event a triangle has no pending event *)
  Lemma forget_none now s t : pending now s ->
    forall e, In e (queue (forget s (t_event (ts s t))) ++ immediate (forget s (t_event (ts s t)))) ->
    ev_tri (es s e) <> t.
  Proof.
    intros P e He Ht.
    assert (In e (queue s ++ immediate s)).
    { destruct (t_event (ts s t)); cbn in He; [|exact He]. apply in_app_iff in He. apply in_app_iff.
      destruct He as [He|He]; [left; eapply drop1_In; eauto using q_discard_drop
                              |right; eapply drop1_In; eauto using remove1_drop]. }
    pose proof (pe_cur _ _ P _ H) as C. rewrite Ht in C. rewrite C in He. cbn in He.
    apply in_app_iff in He. destruct He as [He|He].
    - eapply q_discard_not_In; [exact O|apply (pe_sorted _ _ P)|exact He].
    - eapply remove1_not_In; [|exact He]. exact (NoDup_app_r _ _ (pe_nodup _ _ P)).
  Qed.

  Lemma forget_fields s o : es (forget s o) = es s /\ ne (forget s o) = ne s /\ ts (forget s o) = ts s /\ vs (forget s o) = vs s.
  Proof. destruct o; repeat split. Qed.

  (** a new event for a triangle without pending events *)
  Lemma pending_add now s t e :
    pending now s -> (forall x, In x (queue s ++ immediate s) -> ev_tri (es s x) <> t) ->
    ev_tri e = t -> nleb now (ev_time e) = true ->
    let s2 := with_event s t e in
    pending now (with_qi s2 (q_add s2 (ne s) (queue s2)) (immediate s2)) /\
    Permutation (ne s :: queue s) (q_add s2 (ne s) (queue s2)).
  Proof.
    intros P N Te Tm s2.
    assert (OLD : forall x, In x (queue s ++ immediate s) -> es s2 x = es s x).
    { intros x Hx. cbn. apply upd_other. apply (pe_lt _ _ _ P) in Hx. lia. }
    assert (NEW : es s2 (ne s) = e) by (cbn; apply upd_same).
    assert (Q : Permutation (ne s :: queue s) (q_add s2 (ne s) (queue s2))).
    { apply q_add_perm. intros x Hx C. cbn in Hx. apply (cmp_eq O addr_inj) in C.
      destruct C as (_ & _ & C). rewrite NEW, OLD in C by (apply in_app_iff; auto).
      apply (N x); [apply in_app_iff; auto|congruence]. }
    split; [|exact Q]. destruct P as [P1 P2 P3 P4 P5 P6].
    assert (PP : Permutation (ne s :: queue s ++ immediate s) (q_add s2 (ne s) (queue s2) ++ immediate s2)).
    { change (ne s :: queue s ++ immediate s) with ((ne s :: queue s) ++ immediate s). apply Permutation_app_tail, Q. }
    assert (F : ~ In (ne s) (queue s ++ immediate s)).
    { intros K. apply P2, P3 in K. lia. }
    constructor; cbn.
    - eapply Permutation_NoDup; [exact PP|]. constructor; auto.
    - intros x Hx. eapply Permutation_in in Hx; [|symmetry; exact PP]. destruct Hx as [<-|Hx].
      + rewrite upd_same, Te, upd_same. reflexivity.
      + pose proof (OLD _ Hx) as K. cbn in K. rewrite K. rewrite upd_other; [auto|]. intros L. apply (N x Hx). auto.
    - intros u x. destruct (upd_case (ts s) t (tri_event (ts s t) (Some (ne s))) u) as [[<- U]|[D U]]; rewrite U.
      + cbn. intros K. injection K as <-. split; [lia|]. rewrite upd_same. exact Te.
      + intros K. apply P3 in K. destruct K as [K1 K2]. split; [lia|]. rewrite upd_other by lia. exact K2.
    - apply (q_add_sorted O s2 (ne s) (queue s)). eapply sorted_ext; [|exact P4]. intros x Hx. apply OLD, in_app_iff; auto.
    - intros x Hx. eapply Permutation_in in Hx; [|symmetry; exact Q]. destruct Hx as [<-|Hx].
      + rewrite upd_same. exact Tm.
      + pose proof (OLD x) as K. cbn in K. rewrite K by (apply in_app_iff; auto). apply P5, Hx.
    - intros x Hx. pose proof (OLD x) as K. cbn in K. rewrite K by (apply in_app_iff; auto). apply P6, Hx.
  Qed.

  Lemma good_time s t now sv e : good s t now sv e -> nleb now (ev_time e) = true.
  Proof.
    intros [_ [->|H]]; [apply (nleb_refl O)|]. destruct sv; cbn in H.
    - destruct H as [H _]. apply (nltb_leb O), H.
    - apply (nltb_false_leb O), H.
  Qed.

  Lemma riq_pending t now s u s' : pending now s -> replace_in_queue t now s = Ok (u, s') -> pending now s'.
  Proof.
    intros P H. apply riq_spec in H. set (s1 := forget s (t_event (ts s t))) in *.
    assert (P1 : pending now s1) by (apply pending_forget, P).
    destruct (forget_fields s (t_event (ts s t))) as (F1 & F2 & F3 & F4). fold s1 in F1, F2, F3, F4.
    destruct H as [[_ ->]|(e & He & ->)]; [exact P1|].
    apply (collapse_event_good O) in He. pose proof (good_time _ _ _ _ _ He) as T. destruct He as [W _].
    rewrite <- F2. apply pending_add; auto.
    - rewrite F1. apply (forget_none now). exact P.
    - apply (wf_tri _ _ _ W).
  Qed.

  Lemma sched_pending t now s u s' : pending now s -> schedule_immediately t now s = Ok (u, s') -> pending now s'.
  Proof.
    intros P H. apply sched_spec in H. set (s1 := forget s (t_event (ts s t))) in *.
    assert (P1 : pending now s1) by (apply pending_forget, P).
    destruct (forget_fields s (t_event (ts s t))) as (F1 & F2 & F3 & F4). fold s1 in F1, F2, F3, F4.
    assert (N : forall x, In x (queue s1 ++ immediate s1) -> ev_tri (es s x) <> t) by (apply (forget_none now), P).
    destruct H as (e & He & _ & _ & _ & _ & _ & _ & _ & Hne & _ & _ & _ & _ & Hq & Hi & Ht & Hes).
    assert (Ee : ev_time (sched_event s t e) = now /\ ev_tri (sched_event s t e) = t).
    { unfold new_edge_collapse_event in He. apply rbind_ok in He. destruct He as (ds & _ & He).
      injection He as <-. unfold sched_event. destruct (Nat.eqb _ 3); cbn; auto. }
    destruct P1 as [P1 P2 P3 P4 P5 P6]. rewrite F1, F2, F3 in *. destruct Ee as [E1 E2].
    assert (LT : forall x, In x (queue s1 ++ immediate s1) -> x < ne s) by (intros x Hx; apply P2, P3 in Hx; apply Hx).
    assert (PP : Permutation (ne s :: queue s1 ++ immediate s1) (queue s1 ++ immediate s1 ++ [ne s])).
    { rewrite app_assoc. apply Permutation_cons_append. }
    assert (OLD : forall x, In x (queue s1 ++ immediate s1) -> es s' x = es s x).
    { intros x Hx. rewrite Hes. apply upd_other. apply LT in Hx. lia. }
    assert (NEW : es s' (ne s) = sched_event s t e) by (rewrite Hes; apply upd_same).
    constructor; rewrite ?Hq, ?Hi, ?Hne, ?Ht.
    - eapply Permutation_NoDup; [exact PP|]. constructor; auto. intros K. apply LT in K. lia.
    - intros x Hx. eapply Permutation_in in Hx; [|symmetry; exact PP]. destruct Hx as [<-|Hx].
      + rewrite NEW, E2, upd_same. reflexivity.
      + rewrite OLD by auto. rewrite upd_other; [auto|]. intros L. apply (N x Hx). auto.
    - intros w x. destruct (upd_case (ts s) t (tri_event (ts s t) (Some (ne s))) w) as [[<- U]|[D U]]; rewrite U.
      + cbn. intros K. injection K as <-. split; [lia|]. rewrite NEW. exact E2.
      + intros K. apply P3 in K. destruct K as [K1 K2]. split; [lia|]. rewrite Hes, upd_other by lia. exact K2.
    - eapply sorted_ext; [|exact P4]. intros x Hx. apply OLD, in_app_iff; auto.
    - intros x Hx. rewrite OLD by (apply in_app_iff; auto). apply P5, Hx.
    - intros x Hx. apply in_app_iff in Hx. destruct Hx as [Hx|[<-|[]]].
      + rewrite OLD by (apply in_app_iff; auto). apply P6, Hx.
      + rewrite NEW. exact E1.
  Qed.

  (** life spans *)
  Lemma life_ext now s s' : (forall v, k_stops (vs s' v) = k_stops (vs s v)) ->
    (forall v, k_stop_node (vs s' v) = k_stop_node (vs s v)) ->
    (forall v, k_starts (vs s' v) = k_starts (vs s v)) -> life now s -> life now s'.
  Proof.
    intros H1 H2 H3 [L1 L2 L3 L4]. constructor; intros v *; rewrite ?H1, ?H2, ?H3; eauto.
  Qed.

  Lemma life_stops now s s' :
    (forall v, k_starts (vs s' v) = k_starts (vs s v)) ->
    (forall v, (k_stops (vs s' v) = k_stops (vs s v) /\ k_stop_node (vs s' v) = k_stop_node (vs s v)) \/
       exists n t, k_stops (vs s' v) = Some t /\ neqb t now = true /\ k_stop_node (vs s' v) = Some n) ->
    life now s -> life now s'.
  Proof.
    intros H1 H2 [L1 L2 L3 L4]. constructor.
    - intros v. destruct (H2 v) as [[-> ->]|(n & t & -> & _ & ->)]; auto.
    - intros v t K. destruct (H2 v) as [[K1 K2]|(n & t' & K1 & K2 & _)].
      + rewrite K1 in K. eauto.
      + rewrite K1 in K. injection K as <-. apply (neqb_leb O), K2.
    - intros v a t Ka K. rewrite H1 in Ka. destruct (H2 v) as [[K1 K2]|(n & t' & K1 & K2 & _)].
      + rewrite K1 in K. eauto.
      + rewrite K1 in K. injection K as <-. eapply (oa_trans A O); [eapply L4; eauto|]. apply (neqb_leb_r O), K2.
    - intros v a. rewrite H1. eauto.
  Qed.

  Lemma stop_life V step now pos s n s' : stop_and_register V step now pos s = Ok (n, s') ->
    life now s -> life now s'.
  Proof.
    intros H. apply stop_and_register_spec in H. destruct H as (new & s1 & H & ->).
    apply stop_kvertices_spec in H. destruct H as (Hi & _ & H). destruct new.
    - destruct H as (-> & p & f & -> & F & T & _). apply life_stops; cbn; intros v.
      + rewrite F. unfold scanned. destruct (mem Nat.eqb v V); [|reflexivity]. cbn.
        destruct (negb (anchored now (vs s v))); reflexivity.
      + destruct (mem Nat.eqb v V) eqn:Mv; [|left; rewrite F, Mv; auto].
        apply mem_In in Mv. destruct (T v Mv) as (t & T1 & T2). right. exists (nn s), t.
        split; [exact T1|split; [exact T2|]]. apply mem_In in Mv. rewrite F, Mv. reflexivity.
    - destruct H as (f & -> & _ & F). apply life_stops; cbn; intros v; rewrite F.
      + destruct (mem Nat.eqb v V); reflexivity.
      + destruct (mem Nat.eqb v V); [|auto]. right. exists n, now. cbn. split; [auto|split; [apply (neqb_refl O)|auto]].
  Qed.

  Lemma newv_life ul ur now n info int s v s' :
    compute_new_kvertex ul ur now n info int s = Ok (v, s') -> life now s -> life now s'.
  Proof.
    intros H [L1 L2 L3 L4]. apply newv_spec in H. destruct H as (kv & H & -> & ->).
    apply new_kvertex_fields in H. destruct H as (_ & F1 & F2 & _ & F3 & _).
    constructor; cbn; intros v; destruct (upd_case (vs s) (nv s) kv v) as [[<- U]|[_ U]]; rewrite U; eauto.
    - rewrite F2, F3. reflexivity.
    - rewrite F2. discriminate.
    - rewrite F2. discriminate.
    - rewrite F1. intros a K. injection K as <-. apply (nleb_refl O).
  Qed.

  Definition timed (now : num) (s : state) : Prop := registered s /\ life now s /\ pending now s.

  Lemma stop_same V step now pos s n s' : stop_and_register V step now pos s = Ok (n, s') ->
    ts s' = ts s /\ es s' = es s /\ ne s' = ne s /\ queue s' = queue s /\ immediate s' = immediate s.
  Proof.
    intros H. apply stop_and_register_spec in H. destruct H as (new & s1 & H & ->).
    apply stop_kvertices_spec in H. destruct H as (Hi & _ & H). destruct new.
    - destruct H as (-> & p & f & -> & F & T & _). repeat split.
    - destruct H as (f & -> & _ & F). repeat split.
  Qed.

  Theorem timed_sound : Sound timed follows.
  Proof.
    pose proof (base_sound (E := E)) as B.
    constructor; try apply B.
    - intros now s V step pos (R & L & P) n s' H.
      destruct (s_stop B now s V step pos R n s' H) as (R' & F & N). split; [|auto]. split; [exact R'|].
      split; [eapply stop_life; eauto|].
      apply stop_same in H. destruct H as (H1 & H2 & H3 & H4 & H5).
      apply (pending_ext now s); auto. intros t; rewrite H1; reflexivity.
    - intros now s v n (R & L & P) Hn u s' H.
      destruct (s_stop_at B now s v n R Hn u s' H) as (R' & F). split; [|auto]. split; [exact R'|].
      apply stop_at_eff in H. destruct H as (f & -> & Ff). split.
      + apply life_stops with s; auto; intros w; cbn; rewrite Ff; destruct (Nat.eqb_spec v w); try subst w; auto.
        right. exists n, now. cbn. split; [auto|split; [apply (neqb_refl O)|auto]].
      + apply (pending_ext now s); try exact P; reflexivity.
    - intros now s ul ur n info int (R & L & P) Hn v s' H.
      destruct (s_newv B now s ul ur n info int R Hn v s' H) as (R' & F & N). split; [|auto]. split; [exact R'|].
      split; [eapply newv_life; eauto|].
      apply newv_spec in H. destruct H as (kv & _ & _ & ->). apply (pending_ext now s); try exact P; reflexivity.
    - intros now s v l r (R & L & P) u s' H.
      destruct (s_wf B now s v l r R u s' H) as (R' & F). split; [|auto]. split; [exact R'|].
      apply wf_eff in H. destruct H as (f & -> & Ff). split.
      + eapply life_ext; [| | |exact L]; intros w; cbn; rewrite Ff; destruct (Nat.eqb_spec v w); try subst w; reflexivity.
      + apply (pending_ext now s); try exact P; reflexivity.
    - intros now s v (R & L & P) Hv u s' H.
      destruct (s_addv B now s v R Hv u s' H) as (R' & F). split; [|auto]. split; [exact R'|].
      injection H as _ <-. split; [destruct L; constructor; auto|apply (pending_ext now s); try exact P; reflexivity].
    - intros now s l r (R & L & P) u s' H.
      destruct (s_circ B now s l r R u s' H) as (R' & F). split; [|auto]. split; [exact R'|].
      apply circ_spec in H. destruct H as (f & -> & Ff). split.
      + eapply life_ext; [| | |exact L]; intros w; cbn; destruct (Ff w) as (? & ? & ->); reflexivity.
      + apply (pending_ext now s); try exact P; reflexivity.
    - intros now s t f (R & L & P) Hf u s' H.
      destruct (s_mesh B now s t f R Hf u s' H) as (R' & F). split; [|auto]. split; [exact R'|].
      apply modt_spec in H. subst s'. split; [destruct L; constructor; auto|].
      apply (pending_ext now s); try exact P; try reflexivity. intros w. cbn.
      destruct (upd_case (ts s) t (f (ts s t)) w) as [[<- U]|[_ U]]; rewrite U; [apply Hf|reflexivity].
    - intros now s t (R & L & P) u s' H.
      destruct (s_tstops B now s t R u s' H) as (R' & F). split; [|auto]. split; [exact R'|].
      apply modt_spec in H. subst s'. split; [destruct L; constructor; auto|].
      apply (pending_ext now s); try exact P; try reflexivity. intros w. cbn.
      destruct (upd_case (ts s) t (tri_stops (ts s t) (Some now)) w) as [[<- U]|[_ U]]; rewrite U; reflexivity.
    - intros now s e (R & L & P) u s' H.
      destruct (s_forget B now s e R u s' H) as (R' & F). split; [|auto]. split; [exact R'|].
      apply forget_spec in H. subst s'. split; [destruct L; constructor; auto|].
      apply pending_drop; auto using q_discard_drop, remove1_drop.
    - intros now s t (R & L & P) u s' H.
      destruct (s_riq B now s t R u s' H) as (R' & F). split; [|auto]. split; [exact R'|].
      split; [|eapply riq_pending; eauto].
      apply riq_spec in H. destruct (forget_fields s (t_event (ts s t))) as (_ & _ & _ & F4).
      destruct H as [[_ ->]|(e & _ & ->)]; eapply life_ext; try exact L; intros v; cbn; rewrite F4; reflexivity.
    - intros now s t (R & L & P) u s' H.
      destruct (s_sched B now s t R u s' H) as (R' & F). split; [|auto]. split; [exact R'|].
      split; [|eapply sched_pending; eauto].
      apply sched_spec in H. destruct H as (e & _ & _ & _ & Hv & _).
      eapply life_ext; try exact L; intros v; rewrite Hv; reflexivity.
  Qed.

  (** the loop takes an event *)
  Lemma life_mono now now' s : nleb now now' = true -> life now s -> life now' s.
  Proof.
    intros H [L1 L2 L3 L4]. constructor; eauto; intros; eapply (oa_trans A O); eauto.
  Qed.

  Lemma timed_take_imm now s e r : timed now s -> immediate s = e :: r ->
    ev_time (es s e) = now /\ timed now (with_qi s (queue s) r).
  Proof.
    intros (R & L & P) H. split. { apply (pe_imm _ _ P). rewrite H. simpl. auto. }
    split; [destruct R; constructor; auto|]. split; [destruct L; constructor; auto|].
    apply pending_drop; [exact P|constructor|rewrite H; constructor].
  Qed.

  Lemma timed_take_queue now s e r : timed now s -> immediate s = [] -> queue s = e :: r ->
    nleb now (ev_time (es s e)) = true /\ timed (ev_time (es s e)) (with_qi s r []).
  Proof.
    intros (R & L & P) Hi Hq.
    assert (T : nleb now (ev_time (es s e)) = true) by (apply (pe_queue _ _ P); rewrite Hq; simpl; auto).
    split; [exact T|]. split; [destruct R; constructor; auto|].
    split. { eapply life_mono in T; [|exact L]. destruct T; constructor; auto. }
    assert (P' : pending now (with_qi s r [])).
    { rewrite <- Hi. apply pending_drop; [exact P|rewrite Hq; constructor|constructor]. }
    destruct P' as [P1 P2 P3 P4 P5 P6]. constructor; auto.
    - intros x Hx. cbn in *. pose proof (pe_sorted _ _ P) as S. rewrite Hq in S. inversion S as [|? ? _ F]; subst.
      rewrite Forall_forall in F. apply (cmp_lt_time O), F, Hx.
    - intros x [].
  Qed.
End RunTimed.
