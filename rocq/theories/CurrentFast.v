(** Pending events through the handling of infinitely fast vertices *)
From Coq Require Import Permutation.
From Verif Require Import Base Arith Calc VectorOps Line2d Primitives Collapse CollapseProofs EventsLib
  FlipEvent ParallelEvent EdgeEvent SplitEvent EventLoop Pass OpSpec Order StopSpec RunBase RunTimed RunLoop
  Decent Total FanProofs TotalRun Mesh MeshEvents MeshEdge MeshRun Effects EdgeHead RingSpec Fast FastRun MeshFast Current.
Local Open Scope nat_scope.

Section CurrentFast.
  Context {A : Arith} {E : Env A}.
  Context (O : OrdArith A).
  Context (addr_inj : forall t u : nat, addr t = addr u -> t = u).
  Context (Z : nat -> Prop).
  Local Open Scope M_scope.

  Ltac peel H n s1 H1 := apply bind_ok in H; destruct H as (n & s1 & H1 & H).

  Notation settled := (settled Z).
  Notation but := (but Z).
  Notation alert := (alert Z).

  (** ** Steps *)
  Lemma stop_at_step v n now s u s' : good now s -> In n (sk_nodes s) -> stop_at v n now s = Ok (u, s') ->
    good now s' /\ follows s s' /\ (forall X, but now X s -> but now X s') /\ ts s' = ts s.
  Proof.
    intros G N H. destruct (s_stop_at (timed_sound O addr_inj) now s v n (proj1 G) N u s' H) as (T & F).
    apply stop_at_eff in H. destruct H as (f & -> & _). edestruct (inert Z now s); eauto.
  Qed.

  Lemma forget_step now s t e u s' : good now s -> t_event (ts s t) = Some e ->
    (queue_discard (Some e) ;; immediate_remove (Some e)) s = Ok (u, s') ->
    good now s' /\ follows s s' /\ (forall X, but now X s -> but now (fun w => X w \/ w = t) s').
  Proof.
    intros G K H. destruct (s_forget (timed_sound O addr_inj) now s e (proj1 G) u s' H) as [T F].
    apply forget_spec in H.
    assert (Q : s' = forget s (t_event (ts s t))) by (rewrite K; exact H).
    assert (TS : ts s' = ts s) by (rewrite H; reflexivity).
    split; [split; [exact T|rewrite H; cbn; apply G]|]. split; [exact F|].
    intros X B w N. eapply settled_keep; [| | |apply B; tauto].
    - apply view_follows; auto; try (rewrite TS; reflexivity); apply G.
    - rewrite TS. reflexivity.
    - intros x Hx. rewrite Q. apply (forget_waits O addr_inj now); [apply G|].
      destruct (event_tri now s w x (proj2 (proj2 (proj1 G))) Hx) as [-> _]. tauto.
  Qed.

  (** the triangles of the fan have events of the new state, unless the new vertex is
      infinitely fast *)
  Lemma walk_fast_settles fuel : forall t v newv now d s fan s', good now s -> newv < nv s ->
    replace_walk fuel t v newv now d s = Ok (fan, s') ->
    good now s' /\ follows s s' /\ forall X, but now X s ->
      but now (fun w => (X w /\ ~ In w fan) \/ (k_inf_fast (vs s newv) = true /\ In w fan)) s'.
  Proof.
    induction fuel as [|fuel IH]; intros t v newv now d s fan s' G L H.
    { cbn [replace_walk] in H. destruct t; [discriminate|]. injection H as <- <-. split; [exact G|]. split; [apply follows_refl|].
      intros X B. eapply but_weak; [|exact B]. intros t Ht. left. split; [exact Ht|intros []]. }
    cbn [replace_walk] in H. destruct t as [t|].
    2:{ injection H as <- <-. split; [exact G|]. split; [apply follows_refl|].
      intros X B. eapply but_weak; [|exact B]. intros t Ht. left. split; [exact Ht|intros []]. }
    peel H x s1 H1. apply gets_ok in H1. destruct H1 as [-> ->].
    peel H sd s1 H1. apply ro_ok in H1; [|auto with ro]. subst s1.
    peel H y s1 H1.
    assert (EV1 : t_event (ts s1 t) = t_event (ts s t)).
    { apply modt_spec in H1. subst s1. cbn. rewrite upd_same. reflexivity. }
    apply (set_tv_step O addr_inj Z now) in H1; auto. destruct H1 as (G1 & F1 & B1).
    peel H fast s1' H1. apply fast_at in H1. destruct H1 as [Hf ->].
    rewrite (sm_fast _ _ (fo_motion _ _ F1 newv L)) in Hf.
    peel H y2 s2 H2.
    assert (K2 : good now s2 /\ follows s1 s2 /\
      (forall X, but now X s1 -> but now (fun w => (X w /\ w <> t) \/ (fast = true /\ w = t)) s2)).
    { destruct fast.
      - destruct (t_event (ts s t)) as [e|].
        + apply (forget_step now s1 t) in H2; [|exact G1|exact EV1]. destruct H2 as (? & ? & B2).
          split; [assumption|]. split; [assumption|]. intros X B. eapply but_weak; [|apply B2, B]. intros w [Hw|Hw]; [|auto].
          destruct (Nat.eq_dec w t); auto.
        + apply (riq_step O addr_inj Z now) in H2; auto. destruct H2 as (? & ? & B2). split; [assumption|]. split; [assumption|].
          intros X B. eapply but_weak; [|apply B2, B]. intros w Hw. left. exact Hw.
      - apply (riq_step O addr_inj Z now) in H2; auto. destruct H2 as (? & ? & B2). split; [assumption|]. split; [assumption|].
        intros X B. eapply but_weak; [|apply B2, B]. intros w Hw. left. exact Hw. }
    destruct K2 as (G2 & F2 & B2).
    peel H z s3 H3. apply gets_ok in H3. destruct H3 as [-> ->].
    peel H fan' s3 H3. apply ret_ok in H. destruct H as [-> ->].
    assert (L2 : newv < nv s2) by (pose proof (fo_nv _ _ F1); pose proof (fo_nv _ _ F2); lia).
    apply IH in H3; auto. destruct H3 as (G3 & F3 & B3).
    pose proof (follows_trans _ _ _ F1 F2) as F12.
    split; [exact G3|]. split; [exact (follows_trans _ _ _ F12 F3)|]. intros X B.
    rewrite (sm_fast _ _ (fo_motion _ _ F12 newv L)) in B3.
    eapply but_weak; [|apply B3, B2, B1, B]. cbn beta. intros w. cbn [In].
    intros [[[[[Hw|Hw] Nw]|[Hq Hw]] Ni]|[Hq Hw]]; subst; try tauto.
    - left. split; [exact Hw|]. intros [Q|Q]; [congruence|contradiction].
  Qed.

  Lemma replace_fast_step t v newv now d s fan s' : good now s -> newv < nv s ->
    replace_kvertex t v newv now d s = Ok (fan, s') ->
    good now s' /\ follows s s' /\ forall X, but now X s ->
      but now (fun w => (X w /\ ~ In w fan) \/ (k_inf_fast (vs s newv) = true /\ In w fan)) s'.
  Proof.
    intros G L H. unfold replace_kvertex in H. peel H n s1 H1. apply gets_ok in H1. destruct H1 as [-> ->].
    apply walk_fast_settles in H; auto.
  Qed.
  Lemma replace_head t v newv now d s fan s' : replace_kvertex t v newv now d s = Ok (fan, s') -> In t fan.
  Proof.
    intros H. unfold replace_kvertex in H. peel H n s1 H1. apply gets_ok in H1. destruct H1 as [-> ->].
    cbn [replace_walk] in H.
    do 7 (let zz := fresh "z" in let ss := fresh "s" in let H1 := fresh in peel H zz ss H1; clear H1).
    apply ret_ok in H. destruct H as [-> _]. simpl. auto.
  Qed.

  (** one of the two sides of a collapsing triangle *)
  Lemma fan_fast_step o t x v kv now d s fan s' : good now s -> kv < nv s -> v <> kv ->
    match o with
    | None => ret []
    | Some a => relink a t x ;; replace_kvertex a v kv now d
    end s = Ok (fan, s') ->
    good now s' /\ follows s s' /\ kept s s' /\
    (forall X, but now X s -> but now (fun w => (X w /\ ~ In w fan) \/ (k_inf_fast (vs s kv) = true /\ In w fan)) s') /\
    (forall u i, corner s' u i = corner s u i \/ (corner s u i = v /\ corner s' u i = kv /\ In u fan)) /\
    (forall u, In u fan -> exists i, corner s' u i = kv).
  Proof.
    intros G L N H. pose proof (fan_seats _ _ _ _ _ _ _ _ _ _ N H) as ST.
    assert (KP : kept s s').
    { destruct o as [a|].
      - apply (keeps_bind kept_sound now _ _ (keeps_relink kept_sound now a t x)
          (fun _ => keeps_replace_kvertex kept_sound a v kv now d) s (proj1 (proj1 G)) fan s' H).
      - apply ret_ok in H. destruct H as [_ ->]. apply (G_refl kept_sound). }
    destruct o as [a|].
    2:{ apply ret_ok in H. destruct H as [-> ->]. split; [exact G|]. split; [apply follows_refl|]. split; [exact KP|].
        split; [|exact ST]. intros X B. eapply but_weak; [|exact B]. intros w Hw. left. split; [exact Hw|intros []]. }
    peel H y s1 H1. apply (relink_step O addr_inj Z now) in H1; auto. destruct H1 as (G1 & F1 & B1 & _).
    pose proof (replace_head _ _ _ _ _ _ _ _ H) as HD.
    apply replace_fast_step in H; auto. 2:{ pose proof (fo_nv _ _ F1) as M1. lia. }
    destruct H as (G2 & F2 & B2).
    split; [exact G2|]. split; [exact (follows_trans _ _ _ F1 F2)|]. split; [exact KP|]. split; [|exact ST].
    intros X B. rewrite (sm_fast _ _ (fo_motion _ _ F1 kv L)) in B2.
    eapply but_weak; [|apply B2, B1, B]. intros w [[[Hw|Hw] Ni]|Hw]; subst; tauto.
  Qed.
  Lemma side_fast_step o t x v kv now d s fan s' : good now s -> kv < nv s -> v <> kv ->
    match o with
    | None => ret []
    | Some a => relink a t x ;;
        let! fan := replace_kvertex a v kv now d in schedule_if_tiny fan kv now d ;; ret fan
    end s = Ok (fan, s') ->
    good now s' /\ follows s s' /\ kept s s' /\
    (forall X, but now X s -> but now (fun w => (X w /\ ~ In w fan) \/ (k_inf_fast (vs s kv) = true /\ In w fan)) s') /\
    (forall u i, corner s' u i = corner s u i \/ (corner s u i = v /\ corner s' u i = kv /\ In u fan)) /\
    (forall u, In u fan -> exists i, corner s' u i = kv).
  Proof.
    intros G L N H. destruct o as [a|].
    2:{ apply (fan_fast_step None t x v kv now d); auto. }
    peel H y s1 H1. peel H fan0 s2 H2.
    assert (K : (relink a t x ;; replace_kvertex a v kv now d) s = Ok (fan0, s2)) by (rewrite (bind_eq _ _ _ _ _ H1); exact H2).
    apply (fan_fast_step (Some a) t x v kv now d) in K; auto. destruct K as (G2 & F2 & K2 & B2 & S2 & S2').
    peel H y3 s3 H3. destruct (keeps_tiny kept_sound fan0 kv now d s2 (proj1 (proj1 G2)) y3 s3 H3) as [_ K3].
    pose proof (seats_tiny fan0 kv now d s2 y3 s3 H3) as S3.
    apply (tiny_step O addr_inj Z) in H3; auto. destruct H3 as (G3 & F3 & B3).
    apply ret_ok in H. destruct H as [-> ->]. split; [exact G3|]. split; [exact (follows_trans _ _ _ F2 F3)|].
    split; [eapply (G_trans kept_sound); eauto|]. split; [intros X B; apply B3, B2, B|].
    assert (C3 : forall u i, corner s3 u i = corner s2 u i) by (intros u i; unfold corner; rewrite S3; reflexivity).
    split.
    - intros u i. rewrite C3. apply S2.
    - intros u Hu. destruct (S2' u Hu) as [i Hi]. exists i. rewrite C3. exact Hi.
  Qed.

  Lemma unlink_fast_step o t now s u s' : good now s -> (forall n, o = Some n -> alert s n) ->
    unlink_and_schedule o t now s = Ok (u, s') ->
    good now s' /\ follows s s' /\ (forall X, but now X s -> but now (fun w => X w /\ o <> Some w) s').
  Proof.
    intros G AL H. destruct o as [n|]; cbn [unlink_and_schedule] in H.
    2:{ apply ret_ok in H. destruct H as [_ ->]. split; [exact G|]. split; [apply follows_refl|].
        intros X B. eapply but_weak; [|exact B]. intros w Hw. split; [exact Hw|discriminate]. }
    peel H y s1 H1. apply (relink_step O addr_inj Z now) in H1; auto. destruct H1 as (G1 & F1 & B1 & E1 & S1').
    peel H y2 s2 H1. apply gets_ok in H1. destruct H1 as [-> ->].
    apply (when_sched_step O addr_inj Z) in H; auto.
    2:{ unfold Current.alert. rewrite E1, S1'. apply AL. reflexivity. }
    destruct H as (G2 & F2 & B2).
    split; [exact G2|]. split; [exact (follows_trans _ _ _ F1 F2)|]. intros X B. apply B2.
    eapply but_weak; [|apply B1, B]. intros w [Hw|Hw]; [|auto]. destruct (Nat.eq_dec w n) as [->|Nw]; [auto|].
    left. split; [exact Hw|congruence].
  Qed.

  (** ** Before the infinitely fast vertices are handled *)
  (** what is not settled after the vertices of [s'] that [s] does not have were put
      in place: triangles at infinitely fast ones, and triangles not settled before
      that have none of them *)
  Definition pending_at (X : nat -> Prop) (s s' : state) (w : nat) : Prop :=
    (X w /\ forall i, corner s' w i < nv s) \/
    exists i, nv s <= corner s' w i /\ k_inf_fast (vs s' (corner s' w i)) = true.

  Lemma edge_first s evt step s' e : across Z s evt -> good (ev_time evt) s -> ev_side evt = [e] ->
    handle_edge_event_with no_fans evt step s = Ok (tt, s') ->
    good (ev_time evt) s' /\ forall X, but (ev_time evt) X s ->
      but (ev_time evt) (pending_at (fun w => X w /\ w <> ev_tri evt) s s') s'.
  Proof.
    intros AC G SE H. unfold handle_edge_event_with in H. unfold across in AC. rewrite SE in AC, H.
    assert (LT : forall u i, corner s u i < nv s) by apply G.
    set (t := ev_tri evt) in *. set (now := ev_time evt) in *.
    specialize (AC e).
    peel H x s1 H1. apply gets_ok in H1. destruct H1 as [-> ->].
    peel H x s1 H1. apply ro_ok in H1; [|auto with ro]. subst s1.
    peel H k1 s1 H1. apply ro_ok in H1; [|auto with ro]. subst s1.
    peel H k2 s1 H1. apply ro_ok in H1; [|auto with ro]. subst s1.
    peel H bi s1 H1. apply ro_ok in H1; [|auto with ro]. subst s1.
    peel H pos s1 H1. apply ro_ok in H1; [|auto with ro]. subst s1.
    peel H nd s1 H1. apply (stop_step O addr_inj Z) in H1; [|exact G]. destruct H1 as (G1 & F1 & N1 & B1 & T1').
    peel H k1' s2 H1. apply ro_ok in H1; [|auto with ro]. subst s2.
    peel H k2' s2 H1. apply ro_ok in H1; [|auto with ro]. subst s2.
    peel H len s2 H1. apply ro_ok in H1; [|auto with ro]. subst s2.
    peel H kv s2 H1. apply (newv_step O addr_inj Z) in H1; auto. destruct H1 as (G2 & F2 & KV & B2 & T2').
    peel H y1 s3 H1. apply (wf_step O addr_inj Z now) in H1; auto. destruct H1 as (G3 & F3 & B3 & T3').
    peel H y2 s4 H1. apply ro_ok in H1; [|destruct (kleft k1'); [apply ro_bind; auto with ro|auto with ro]]. subst s4.
    peel H y3 s4 H1. apply ro_ok in H1; [|destruct (kright k2'); [apply ro_bind; auto with ro|auto with ro]]. subst s4.
    pose proof (fo_nv _ _ F3) as M3.
    peel H y4 s4 H1. apply (addv_step O addr_inj Z now) in H1; [|auto|lia]. destruct H1 as (G4 & F4 & B4 & T4').
    peel H y5 s5 H1. apply (circ_step O addr_inj Z _ _ now) in H1; auto. destruct H1 as (G5 & F5 & B5 & T5').
    peel H k2'' s6 H1. apply ro_ok in H1; [|auto with ro]. subst s6.
    peel H y6 s6 H1. apply (circ_step O addr_inj Z _ _ now) in H1; auto. destruct H1 as (G6 & F6 & B6 & T6').
    peel H k s7 H1. apply ro_ok in H1; [|auto with ro]. subst s7.
    peel H wl s7 H1. apply ro_ok in H1; [|auto with ro]. subst s7.
    peel H y7 s7 H1. apply ro_ok in H1; [|auto with ro]. subst s7.
    peel H wr s7 H1. apply ro_ok in H1; [|auto with ro]. subst s7.
    peel H y8 s7 H1. apply ro_ok in H1; [|auto with ro]. subst s7.
    peel H y9 s7 H1. apply gets_ok in H1. destruct H1 as [-> ->].
    pose proof (fo_nv _ _ F1) as M1. pose proof (fo_nv _ _ F4) as M4. pose proof (fo_nv _ _ F5) as M5. pose proof (fo_nv _ _ F6) as M6.
    assert (K6 : kv < nv s6) by lia.
    assert (TS6 : ts s6 = ts s) by congruence.
    assert (V1 : get3 (t_v (ts s t)) (ccw e) <> kv) by (specialize (LT t (ccw e)); unfold corner in LT; lia).
    assert (V2 : get3 (t_v (ts s t)) (cw e) <> kv) by (specialize (LT t (cw e)); unfold corner in LT; lia).
    peel H fa s7 H1. apply side_fast_step in H1; auto. destruct H1 as (G7 & F7 & K7' & B7 & S7 & S7').
    assert (K7 : kv < nv s7) by (pose proof (fo_nv _ _ F7); lia).
    peel H fb s8 H1. apply side_fast_step in H1; auto. destruct H1 as (G8 & F8 & K8' & B8 & S8 & S8').
    peel H y10 s9 H1. pose proof (seats_unlink _ _ _ _ _ _ H1) as S9. apply unlink_fast_step in H1; auto.
    2:{ intros n Hn. rewrite TS6 in Hn. apply (kept_alert Z s7); [exact K8'|]. apply (kept_alert Z s6); [exact K7'|].
        unfold Current.alert. rewrite TS6. apply (AC n eq_refl Hn). }
    destruct H1 as (G9 & F9 & B9).
    peel H y11 s10 H1. pose proof (seats_tstops _ _ _ _ _ H1) as S10.
    apply (tstops_step O addr_inj Z now) in H1; [|exact G9]. destruct H1 as (G10 & F10 & B10).
    peel H fast s11 H2. apply fast_at in H2. destruct H2 as [_ ->].
    assert (s' = s10) as ->.
    { unfold whenM, parallel_fan_of, no_fans in H. destruct fast, fa, fb; injection H as <-; reflexivity. }
    split; [exact G10|]. intros X B.
    assert (C10 : forall u i, corner s10 u i = corner s8 u i) by (intros u i; unfold corner; rewrite S10, S9; reflexivity).
    assert (C6 : forall u i, corner s6 u i = corner s u i) by (intros u i; unfold corner; rewrite TS6; reflexivity).
    pose proof (follows_trans _ _ _ F9 F10) as F810.
    pose proof (follows_trans _ _ _ F8 F810) as F710.
    pose proof (follows_trans _ _ _ F7 F710) as F610.
    rewrite <- (sm_fast _ _ (fo_motion _ _ F610 kv K6)) in B7.
    rewrite <- (sm_fast _ _ (fo_motion _ _ F710 kv K7)) in B8.
    eapply but_weak; [|apply B10, B9, B8, B7, B6, B5, B4, B3, B2, B1, B]. cbn beta.
    assert (KA : forall w, In w fa -> exists i, corner s8 w i = kv).
    { intros w Hw. destruct (S7' w Hw) as [i Hi]. exists i. destruct (S8 w i) as [Q|(_ & Q & _)]; [congruence|exact Q]. }
    assert (AT : forall w, k_inf_fast (vs s10 kv) = true -> (exists i, corner s8 w i = kv) ->
      exists i, nv s <= corner s10 w i /\ k_inf_fast (vs s10 (corner s10 w i)) = true).
    { intros w Q [i Hi]. exists i. rewrite C10, Hi. split; [lia|exact Q]. }
    intros w [[[[[[Hw Na]|[Q Hw]] Nb]|[Q Hw]] _] Nt]; [left|right; apply AT; auto|right; apply AT; auto].
    split; [auto|]. intros i. rewrite C10. destruct (S8 w i) as [-> |(_ & _ & Q)]; [|contradiction].
    destruct (S7 w i) as [-> |(_ & _ & Q)]; [|contradiction]. rewrite C6. apply LT.
  Qed.

  Lemma leg_first t e pivot now step s s' : good now s -> link s t e = None ->
    handle_parallel_edge_event_shorter_leg no_fans t e pivot now step s = Ok (tt, s') ->
    good now s' /\ forall X, but now X s -> but now (pending_at (fun w => X w /\ w <> t) s s') s'.
  Proof.
    intros G LN H. unfold handle_parallel_edge_event_shorter_leg in H. cbv zeta in H.
    assert (LT : forall u i, corner s u i < nv s) by apply G.
    peel H x s1 H1. apply ro_ok in H1; [|auto with ro]. subst s1.
    peel H z1 s1 H1. apply ro_ok in H1; [|auto with ro]. subst s1.
    peel H z2 s1 H1. apply gets_ok in H1. destruct H1 as [-> ->].
    peel H z3 s1 H1. apply ro_ok in H1; [|auto with ro]. subst s1.
    peel H z4 s1 H1. apply ro_ok in H1; [|auto with ro]. subst s1.
    peel H z5 s1 H1. apply ro_ok in H1; [|auto with ro]. subst s1.
    peel H nd s1 H1. apply (stop_step O addr_inj Z) in H1; [|exact G]. destruct H1 as (G1 & F1 & N1 & B1 & T1).
    peel H p s2 H1. apply ro_ok in H1; [|auto with ro]. subst s2.
    peel H z6 s2 H1.
    assert (Q2 : good now s2 /\ follows s1 s2 /\ (forall X, but now X s1 -> but now X s2) /\ ts s2 = ts s1).
    { destruct (is_none (k_stop_node p)).
      - peel H1 z7 s3 H2. apply ro_ok in H2; [|auto with ro]. subst s3. apply (stop_at_step _ nd) in H1; auto.
      - apply ret_ok in H1. destruct H1 as [_ ->]. split; [exact G1|]. split; [apply follows_refl|auto]. }
    clear H1. destruct Q2 as (G2 & F2 & B2 & T2).
    peel H z7 s3 H1. pose proof H1 as T3. apply modt_spec in T3.
    apply (tstops_step O addr_inj Z now) in H1; [|exact G2]. destruct H1 as (G3 & F3 & B3).
    assert (N3 : In nd (sk_nodes s3)).
    { destruct (fo_nodes _ _ (follows_trans _ _ _ F2 F3)) as [l ->]. apply in_app_iff. auto. }
    assert (V3 : forall u, t_v (ts s3 u) = t_v (ts s u) /\ t_n (ts s3 u) = t_n (ts s u)).
    { intros u. subst s3. cbn. rewrite <- T1, <- T2.
      match goal with |- context [upd ?a ?b ?c u] => destruct (upd_case a b c u) as [[<- ->]|[_ ->]] end; auto. }
    clear T3.
    peel H z8 s4 H1. apply ro_ok in H1; [|auto with ro]. subst s4.
    peel H z9 s4 H1. apply ro_ok in H1; [|auto with ro]. subst s4.
    peel H k1 s4 H1. apply ro_ok in H1; [|auto with ro]. subst s4.
    peel H k2 s4 H1. apply ro_ok in H1; [|auto with ro]. subst s4.
    peel H len s4 H1. apply ro_ok in H1; [|auto with ro]. subst s4.
    peel H kv s4 H1. apply (newv_step O addr_inj Z) in H1; auto. destruct H1 as (G4 & F4 & KV & B4 & T4).
    peel H wl s5 H1. apply ro_ok in H1; [|auto with ro]. subst s5.
    peel H wr s5 H1. apply ro_ok in H1; [|auto with ro]. subst s5.
    peel H y1 s5 H1. apply (wf_step O addr_inj Z now) in H1; auto. destruct H1 as (G5 & F5 & B5 & T5).
    peel H z10 s6 H1. apply gets_ok in H1. destruct H1 as [-> ->].
    pose proof (fo_nv _ _ F1) as M1. pose proof (fo_nv _ _ F2) as M2. pose proof (fo_nv _ _ F3) as M3. pose proof (fo_nv _ _ F5) as M5.
    peel H y2 s6 H1. apply (addv_step O addr_inj Z now) in H1; [|auto|lia]. destruct H1 as (G6 & F6 & B6 & T6).
    peel H k1' s7 H1. apply ro_ok in H1; [|auto with ro]. subst s7.
    peel H y3 s7 H1. apply (circ_step O addr_inj Z _ _ now) in H1; auto. destruct H1 as (G7 & F7 & B7 & T7).
    peel H k2' s8 H1. apply ro_ok in H1; [|auto with ro]. subst s8.
    peel H y4 s8 H1. apply (circ_step O addr_inj Z _ _ now) in H1; auto. destruct H1 as (G8 & F8 & B8 & T8).
    pose proof (fo_nv _ _ F6) as M6. pose proof (fo_nv _ _ F7) as M7. pose proof (fo_nv _ _ F8) as M8.
    assert (K8 : kv < nv s8) by lia.
    assert (V8 : forall u, t_v (ts s8 u) = t_v (ts s u)) by (intros u; rewrite T8, T7, T6, T5, T4; apply V3).
    assert (LN5 : get3 (t_n (ts s5 t)) e = None) by (rewrite T5, T4; destruct (V3 t) as [_ ->]; exact LN).
    assert (W1 : get3 (t_v (ts s t)) (ccw e) <> kv) by (specialize (LT t (ccw e)); unfold corner in LT; lia).
    assert (W2 : get3 (t_v (ts s t)) (cw e) <> kv) by (specialize (LT t (cw e)); unfold corner in LT; lia).
    peel H fa s9 H1. apply fan_fast_step in H1; auto. destruct H1 as (G9 & F9 & _ & B9 & S9 & S9').
    assert (K9 : kv < nv s9) by (pose proof (fo_nv _ _ F9); lia).
    peel H fb s10 H1. apply fan_fast_step in H1; auto. destruct H1 as (G10 & F10 & _ & B10 & S10 & S10').
    rewrite LN5 in H. peel H y5 s11 H1. apply ret_ok in H1. destruct H1 as [_ ->].
    peel H fast s11 H2. apply fast_at in H2. destruct H2 as [_ ->].
    assert (s' = s10) as ->.
    { unfold whenM, parallel_fan_of, no_fans in H. destruct fast, fa, fb; injection H as <-; reflexivity. }
    split; [exact G10|]. intros X B.
    assert (C8 : forall u i, corner s8 u i = corner s u i) by (intros u i; unfold corner; rewrite V8; reflexivity).
    pose proof (follows_trans _ _ _ F9 F10) as F810.
    rewrite <- (sm_fast _ _ (fo_motion _ _ F810 kv K8)) in B9.
    rewrite <- (sm_fast _ _ (fo_motion _ _ F10 kv K9)) in B10.
    eapply but_weak; [|apply B10, B9, B8, B7, B6, B5, B4, B3, B2, B1, B]. cbn beta.
    assert (KA : forall w, In w fa -> exists i, corner s10 w i = kv).
    { intros w Hw. destruct (S9' w Hw) as [i Hi]. exists i. destruct (S10 w i) as [Q|(_ & Q & _)]; [congruence|exact Q]. }
    assert (AT : forall w, k_inf_fast (vs s10 kv) = true -> (exists i, corner s10 w i = kv) ->
      exists i, nv s <= corner s10 w i /\ k_inf_fast (vs s10 (corner s10 w i)) = true).
    { intros w Q [i Hi]. exists i. rewrite Hi. split; [lia|exact Q]. }
    intros w [[[[Hw Na]|[Q Hw]] Nb]|[Q Hw]]; [left|right; apply AT; auto|right; apply AT; auto].
    split; [exact Hw|]. intros i. destruct (S10 w i) as [-> |(_ & _ & Q)]; [|contradiction].
    destruct (S9 w i) as [-> |(_ & _ & Q)]; [|contradiction]. rewrite C8. apply LT.
  Qed.

  Lemma split_first s evt step s' e : good (ev_time evt) s -> ev_side evt = [e] ->
    handle_split_event_with no_fans evt step s = Ok (tt, s') ->
    good (ev_time evt) s' /\ forall X, but (ev_time evt) X s ->
      but (ev_time evt) (pending_at (fun w => X w /\ w <> ev_tri evt) s s') s'.
  Proof.
    intros G SE H. unfold handle_split_event_with in H. rewrite SE in H.
    assert (LT : forall u i, corner s u i < nv s) by apply G.
    set (t := ev_tri evt) in *. set (now := ev_time evt) in *.
    peel H x s1 H1. apply gets_ok in H1. destruct H1 as [-> ->].
    peel H y0 s1 H1. apply ro_ok in H1; [|auto with ro]. subst s1.
    peel H y1 s1 H1. apply ro_ok in H1; [|auto with ro]. subst s1.
    peel H nd s1 H1. apply (stop_step O addr_inj Z) in H1; [|exact G]. destruct H1 as (G1 & F1 & N1 & B1 & T1').
    peel H k s2 H1. apply ro_ok in H1; [|auto with ro]. subst s2.
    peel H k1 s2 H1. apply ro_ok in H1; [|auto with ro]. subst s2.
    peel H k2 s2 H1. apply ro_ok in H1; [|auto with ro]. subst s2.
    peel H y2 s2 H1. apply ro_ok in H1; [|auto with ro]. subst s2.
    peel H len s2 H1. apply ro_ok in H1; [|auto with ro]. subst s2.
    peel H vb s2 H1. apply (newv_step O addr_inj Z) in H1; auto. destruct H1 as (G2 & F2 & KB & B2 & T2').
    peel H y3 s3 H1. apply (wf_step O addr_inj Z now) in H1; auto. destruct H1 as (G3 & F3 & B3 & T3').
    pose proof (fo_nv _ _ F3) as M3.
    peel H y4 s4 H1. apply (addv_step O addr_inj Z now) in H1; [|auto|lia]. destruct H1 as (G4 & F4 & B4 & T4').
    peel H len2 s5 H1. apply ro_ok in H1; [|auto with ro]. subst s5.
    assert (N4 : In nd (sk_nodes s4)).
    { pose proof (follows_trans _ _ _ F2 (follows_trans _ _ _ F3 F4)) as F24. destruct (fo_nodes _ _ F24) as [l ->].
      apply in_app_iff. auto. }
    peel H va s5 H1. apply (newv_step O addr_inj Z) in H1; auto. destruct H1 as (G5 & F5 & KA & B5 & T5').
    peel H y5 s6 H1. apply (wf_step O addr_inj Z now) in H1; auto. destruct H1 as (G6 & F6 & B6 & T6').
    pose proof (fo_nv _ _ F6) as M6.
    peel H y6 s7 H1. apply (addv_step O addr_inj Z now) in H1; [|auto|lia]. destruct H1 as (G7 & F7 & B7 & T7').
    peel H y7 s8 H1. apply (circ_step O addr_inj Z _ _ now) in H1; auto. destruct H1 as (G8 & F8 & B8 & T8').
    peel H y8 s9 H1. apply (circ_step O addr_inj Z _ _ now) in H1; auto. destruct H1 as (G9 & F9 & B9 & T9').
    peel H kb s10 H1. apply ro_ok in H1; [|auto with ro]. subst s10.
    peel H wl s10 H1. apply ro_ok in H1; [|auto with ro]. subst s10.
    peel H y9 s10 H1. apply ro_ok in H1; [|auto with ro]. subst s10.
    peel H wr s10 H1. apply ro_ok in H1; [|auto with ro]. subst s10.
    peel H y10 s10 H1. apply ro_ok in H1; [|auto with ro]. subst s10.
    peel H y11 s10 H1. apply (circ_step O addr_inj Z _ _ now) in H1; auto. destruct H1 as (G10 & F10 & B10 & T10').
    peel H k' s11 H1. apply ro_ok in H1; [|auto with ro]. subst s11.
    peel H y12 s11 H1. apply (circ_step O addr_inj Z _ _ now) in H1; auto. destruct H1 as (G11 & F11 & B11 & T11').
    peel H ka s12 H1. apply ro_ok in H1; [|auto with ro]. subst s12.
    peel H wl' s12 H1. apply ro_ok in H1; [|auto with ro]. subst s12.
    peel H y13 s12 H1. apply ro_ok in H1; [|auto with ro]. subst s12.
    peel H wr' s12 H1. apply ro_ok in H1; [|auto with ro]. subst s12.
    peel H y14 s12 H1. apply ro_ok in H1; [|auto with ro]. subst s12.
    peel H x' s12 H1. apply gets_ok in H1. destruct H1 as [-> ->].
    destruct (get3 (t_n (ts s11 t)) (ccw e)) as [b|]; [|discriminate H].
    pose proof (fo_nv _ _ F1) as M1. pose proof (fo_nv _ _ F4) as M4. pose proof (fo_nv _ _ F7) as M7. pose proof (fo_nv _ _ F8) as M8.
    pose proof (fo_nv _ _ F9) as M9. pose proof (fo_nv _ _ F10) as M10. pose proof (fo_nv _ _ F11) as M11.
    assert (TS11 : ts s11 = ts s) by congruence.
    assert (W1 : get3 (t_v (ts s t)) e <> vb) by (specialize (LT t e); unfold corner in LT; lia).
    assert (W2 : get3 (t_v (ts s t)) e <> va) by (specialize (LT t e); unfold corner in LT; lia).
    peel H y15 s12 H1. peel H fb s13 H2.
    assert (K : (relink b t None ;; replace_kvertex b (get3 (t_v (ts s t)) e) vb now ccw) s11 = Ok (fb, s13))
      by (rewrite (bind_eq _ _ _ _ _ H1); exact H2). clear H1 H2.
    apply (fan_fast_step (Some b) t None) in K; [|auto|lia|auto]. destruct K as (G13 & F13 & _ & B13 & S13 & S13').
    pose proof (fo_nv _ _ F13) as M13.
    peel H x'' s14 H1. apply gets_ok in H1. destruct H1 as [-> ->].
    destruct (get3 (t_n (ts s13 t)) (cw e)) as [a|]; [|discriminate H].
    peel H y16 s14 H1. peel H fa s15 H2.
    assert (K : (relink a t None ;; replace_kvertex a (get3 (t_v (ts s t)) e) va now cw) s13 = Ok (fa, s15))
      by (rewrite (bind_eq _ _ _ _ _ H1); exact H2). clear H1 H2.
    apply (fan_fast_step (Some a) t None) in K; [|auto|lia|auto]. destruct K as (G15 & F15 & _ & B15 & S15 & S15').
    pose proof (fo_nv _ _ F15) as M15.
    peel H y17 s16 H1. pose proof (seats_tstops _ _ _ _ _ H1) as S16.
    apply (tstops_step O addr_inj Z now) in H1; [|exact G15]. destruct H1 as (G16 & F16 & B16).
    pose proof (fo_nv _ _ F16) as M16.
    peel H fasta s17 H2. apply fast_at in H2. destruct H2 as [_ ->].
    peel H y18 s18 H3.
    assert (s18 = s16) as -> by (unfold whenM, no_fans in H3; destruct fasta; injection H3 as _ <-; reflexivity).
    peel H fastb s19 H4. apply fast_at in H4. destruct H4 as [_ ->].
    assert (s' = s16) as -> by (unfold whenM, no_fans in H; destruct fastb; injection H as <-; reflexivity).
    split; [exact G16|]. intros X B.
    assert (C16 : forall u i, corner s16 u i = corner s15 u i) by (intros u i; unfold corner; rewrite S16; reflexivity).
    assert (C11 : forall u i, corner s11 u i = corner s u i) by (intros u i; unfold corner; rewrite TS11; reflexivity).
    pose proof (follows_trans _ _ _ F15 F16) as F1316.
    pose proof (follows_trans _ _ _ F13 F1316) as F1116.
    rewrite <- (sm_fast _ _ (fo_motion _ _ F1116 vb ltac:(lia))) in B13.
    rewrite <- (sm_fast _ _ (fo_motion _ _ F1316 va ltac:(lia))) in B15.
    eapply but_weak; [|apply B16, B15, B13, B11, B10, B9, B8, B7, B6, B5, B4, B3, B2, B1, B]. cbn beta.
    assert (Nab : vb <> get3 (t_v (ts s t)) e) by congruence.
    assert (KB' : forall w, In w fb -> exists i, corner s15 w i = vb).
    { intros w Hw. destruct (S13' w Hw) as [i Hi]. exists i. destruct (S15 w i) as [Q|(Q & _ & _)]; [congruence|]. congruence. }
    assert (AT : forall v, nv s <= v -> forall w, k_inf_fast (vs s16 v) = true -> (exists i, corner s15 w i = v) ->
      exists i, nv s <= corner s16 w i /\ k_inf_fast (vs s16 (corner s16 w i)) = true).
    { intros v Lv w Q [i Hi]. exists i. rewrite C16, Hi. split; [exact Lv|exact Q]. }
    intros w [[[[[Hw Na]|[Q Hw]] Nb]|[Q Hw]] Nt]; [left|right; apply (AT vb); auto; lia|right; apply (AT va); auto; lia].
    split; [auto|]. intros i. rewrite C16. destruct (S15 w i) as [-> |(_ & _ & Q)]; [|contradiction].
    destruct (S13 w i) as [-> |(_ & _ & Q)]; [|contradiction]. rewrite C11. apply LT.
  Qed.

  (** ** Triangles that vanish *)
  Lemma even_step t e pivot now step s u s' : good now s -> (forall n, link s t e = Some n -> alert s n) ->
    handle_parallel_edge_event_even_legs t e pivot now step s = Ok (u, s') ->
    good now s' /\ corner s t e = pivot /\
    (forall X, but now X s -> but now (fun w => X w /\ w <> t /\ link s t e <> Some w) s').
  Proof.
    intros G AL H. unfold handle_parallel_edge_event_even_legs in H. cbv zeta in H.
    peel H x s1 H1. apply gets_ok in H1. destruct H1 as [-> ->].
    peel H z1 s1 H1. apply ro_ok in H1; [|auto with ro]. subst s1.
    peel H z2 s1 H1. apply ro_ok in H1; [|auto with ro]. subst s1.
    peel H z3 s1 H1. apply assertM_ok in H1. destruct H1 as [H1 ->]. apply Nat.eqb_eq in H1. rename H1 into PV.
    peel H nd s1 H1. apply (stop_step O addr_inj Z) in H1; [|exact G]. destruct H1 as (G1 & F1 & N1 & B1 & T1).
    peel H z4 s2 H1. apply stop_at_step in H1; auto. destruct H1 as (G2 & F2 & B2 & T2).
    peel H z5 s3 H1. pose proof H1 as T3. apply modt_spec in T3.
    assert (V3 : forall w, t_n (ts s3 w) = t_n (ts s w) /\ t_event (ts s3 w) = t_event (ts s w)).
    { intros w. subst s3. cbn. rewrite <- T1, <- T2.
      match goal with |- context [upd ?a ?b ?c w] => destruct (upd_case a b c w) as [[<- ->]|[_ ->]] end; auto. }
    clear T3. apply (tstops_step O addr_inj Z now) in H1; [|exact G2]. destruct H1 as (G3 & F3 & B3).
    peel H x s4 H1. apply gets_ok in H1. destruct H1 as [-> ->].
    destruct (V3 t) as [LN _]. rewrite LN in H. change (get3 (t_n (ts s t)) e) with (link s t e) in H.
    apply unlink_fast_step in H; [|exact G3|].
    2:{ intros n Hn. destruct (AL n Hn) as [Q|[Q|Q]].
        - left. apply (fo_tstops _ _ (follows_trans _ _ _ F1 (follows_trans _ _ _ F2 F3))), Q.
        - right. left. destruct (V3 n) as [_ ->]. exact Q.
        - right. right. exact Q. }
    destruct H as (G4 & F4 & B4). split; [exact G4|]. split; [exact PV|].
    intros X B. eapply but_weak; [|apply B4, B3, B2, B1, B]. intros w [[Hw Nw] Hl]. auto.
  Qed.
  Lemma even_at_step t pivot now step s u s' : good now s ->
    (forall e n, corner s t e = pivot -> link s t e = Some n -> alert s n) ->
    even_legs_at t pivot now step s = Ok (u, s') ->
    exists e, good now s' /\ corner s t e = pivot /\
    (forall X, but now X s -> but now (fun w => X w /\ w <> t /\ link s t e <> Some w) s').
  Proof.
    intros G AL H. unfold even_legs_at in H. peel H x s1 H1. apply gets_ok in H1. destruct H1 as [-> ->].
    peel H i s1 H1. unfold rdr in H1. apply rd_ok in H1. destruct H1 as [H1 ->]. apply vindex_get in H1.
    exists i. eapply even_step; eauto.
  Qed.

  Lemma three_step t e pivot now step s u s' : good now s -> handle_parallel_edge_event_3tri t e pivot now step s = Ok (u, s') ->
    good now s' /\ (forall X, but now X s -> but now (fun w => X w /\ w <> t) s').
  Proof.
    intros G H. unfold handle_parallel_edge_event_3tri in H. cbv zeta in H.
    peel H x s1 H1. apply gets_ok in H1. destruct H1 as [-> ->].
    do 11 (let zz := fresh "z" in peel H zz ss H1; apply ro_ok in H1; [|auto with ro]; subst ss).
    peel H nd s1 H1.
    assert (Q : good now s1 /\ In nd (sk_nodes s1) /\ (forall X, but now X s -> but now X s1)).
    { match type of H1 with (if ?b then _ else _) _ = _ => destruct b end;
        (peel H1 n s2 H2; apply (stop_step O addr_inj Z) in H2; [|exact G]; destruct H2 as (G2 & F2 & N2 & B2 & T2);
         peel H1 w s3 H2; apply stop_at_step in H2; [|exact G2|exact N2]; destruct H2 as (G3 & F3 & B3 & T3);
         apply ret_ok in H1; destruct H1 as [-> ->]; split; [exact G3|];
         split; [destruct (fo_nodes _ _ F3) as [l ->]; apply in_app_iff; auto|auto]). }
    destruct Q as (G1 & N1 & B1).
    peel H y4 s2 H2. apply stop_at_step in H2; [|exact G1|exact N1]. destruct H2 as (G2 & F2 & B2 & T2).
    peel H y5 s3 H2. apply (tstops_step O addr_inj Z now) in H2; [|exact G2]. destruct H2 as (G3 & F3 & B3).
    peel H x s4 H2. apply gets_ok in H2. destruct H2 as [-> ->].
    apply ro_ok in H; [|apply ro_forM; intros; apply ro_bind; auto with ro]. subst s'.
    split; [exact G3|]. intros X B. apply B3, B2, B1, B.
  Qed.

  Lemma isolated_step t pivot now step s u s' : good now s -> (forall i, link s t i = None) ->
    parallel_fan_isolated t pivot now step s = Ok (u, s') ->
    good now s' /\ (forall X, but now X s -> but now (fun w => X w /\ w <> t) s').
  Proof.
    intros G NO H. unfold parallel_fan_isolated in H.
    do 3 (let zz := fresh "z" in peel H zz ss H1; apply ro_ok in H1; [|auto with ro]; subst ss). cbv zeta in H.
    destruct (where3 _ _) as [|sd [|]];
      try (peel H x ss H1; apply gets_ok in H1; destruct H1 as [-> ->]; peel H i ss H1; apply ro_ok in H1; [|auto with ro]; subst ss; eapply three_step; eauto).
    destruct (near_zero _).
    - peel H x ss H1. apply gets_ok in H1. destruct H1 as [-> ->].
      apply even_at_step in H; [|exact G|intros e n _ Q; rewrite NO in Q; discriminate].
      destruct H as (e & G' & _ & B'). split; [exact G'|]. intros X B. eapply but_weak; [|apply B', B]. intros w (Q1 & Q2 & _). auto.
    - peel H x ss H1; apply gets_ok in H1; destruct H1 as [-> ->]; peel H i ss H1; apply ro_ok in H1; [|auto with ro]; subst ss; eapply three_step; eauto.
  Qed.

  Lemma flip_then_step D t0 t1 v d now step s u s' : good now s -> linked D s -> (forall u, D u -> distinct s u) -> D t0 ->
    opposite s t0 -> apart s t0 -> apart s t1 -> k_inf_fast (vs s v) = true -> (d = cw \/ d = ccw) ->
    full_fan s v d [t0; t1] -> alert s t0 -> alert s t1 ->
    flip_then_even_legs t0 t1 v now step s = Ok (u, s') ->
    good now s' /\ (forall X, but now X s -> but now (fun w => X w /\ ~ In w [t0; t1]) s').
  Proof.
    intros G L DI D0 OP AP0 AP1 VF Hd [FF FN] AL0 AL1 H. unfold flip_then_even_legs in H.
    peel H x s1 H1. apply gets_ok in H1. destruct H1 as [-> ->].
    peel H i0 s1 H1. unfold rdr in H1. apply rd_ok in H1. destruct H1 as [I0 ->].
    peel H x s1 H1. apply gets_ok in H1. destruct H1 as [-> ->].
    peel H i1 s1 H1. unfold rdr in H1. apply rd_ok in H1. destruct H1 as [I1 ->].
    assert (IX : forall a b i, nindex (ts s a) b = Ok i -> link s a i = Some b).
    { intros a b i Q. unfold link. unfold nindex in Q. apply index3_get in Q.
      destruct (get3 (t_n (ts s a)) i) as [q|]; [|discriminate]. apply Nat.eqb_eq in Q. congruence. }
    apply IX in I0, I1. clear IX.
    assert (SH : shares s t0 i0 t1 i1).
    { destruct (L t0 i0 t1 D0 I0) as (_ & j & J1 & J2). rewrite (AP1 i1 j t0 I1 J1). exact J2. }
    pose proof (OP i0 t1 i1 I0 I1 SH) as AC.
    destruct (flip_spec D s t0 i0 t1 i1 L DI D0 I0 I1 SH AC) as (s2 & F1 & F2 & V0 & N0 & V1 & N1 & F6 & F7 & F8 & L2 & DI2).
    peel H z1 s3 H1.
    destruct (keeps_flip (timed_sound O addr_inj) now t0 i0 t1 i1 s (proj1 G) tt s2 F1) as [T2 FO2].
    rewrite F1 in H1. injection H1 as <- <-.
    assert (G2 : good now s2).
    { split; [exact T2|]. intros w k. rewrite F2. cbn. destruct (Nat.eq_dec w t0) as [->|Nt].
      - rewrite V0. destruct k; cbn; apply G.
      - destruct (Nat.eq_dec w t1) as [->|Nn]; [rewrite V1; destruct k; cbn; apply G|].
        pose proof (f_equal t_v (F6 w Nt Nn (t_n (ts s w)))) as K. cbn in K. rewrite K. apply G. }
    assert (B2 : forall X, but now X s -> but now (fun w => X w \/ w = t0 \/ w = t1) s2).
    { intros X B w Nw. assert (Nt : w <> t0) by tauto. assert (Nn : w <> t1) by tauto.
      eapply settled_keep; [| | |apply B; tauto].
      - pose proof (F6 w Nt Nn (t_n (ts s w))) as K.
        apply view_follows; [apply G|exact FO2|..].
        + intros k. apply G.
        + exact (f_equal t_v K).
        + intros k. destruct (F7 w k Nt Nn) as [Q|(i & t & [Q|Q] & Q2 & _)]; unfold link in *; rewrite ?Q, ?Q2; reflexivity.
        + destruct (F8 w) as [_ ->]. reflexivity.
      - apply F8.
      - intros e _. rewrite F2. cbn. unfold same_wait. cbn. tauto. }
    assert (AL : forall w, alert s w -> alert s2 w).
    { intros w. unfold Current.alert. destruct (F8 w) as [-> ->]. auto. }
    assert (VS2 : vs s2 = vs s) by (rewrite F2; reflexivity).
    peel H f0 s3 H1. apply fasts_at in H1. destruct H1 as [-> ->].
    peel H f1 s3 H1. apply fasts_at in H1. destruct H1 as [-> ->].
    rewrite VS2, V0, V1 in H.
    (* where the sides lie *)
    assert (K0 : exists k0, corner s t0 k0 = v /\ i0 = d k0 /\ corner s t1 (d i1) = v).
    { inversion FF as [|w sd l C FF' E1 E2]. subst w l.
      change (get3 (t_n (ts s t0)) (d sd)) with (link s t0 (d sd)) in FF'.
      pose proof (fan_head _ _ _ _ _ FF') as HD. cbn [hd_error] in HD.
      exists sd. split; [exact C|]. assert (i0 = d sd) by (apply (AP0 _ _ t1); assumption). subst i0. split; [reflexivity|].
      pose proof (turn_eq d sd t1 t0 s i1 Hd SH) as TE. rewrite TE. exact C. }
    destruct K0 as (k0 & KC & -> & K1C).
    assert (D1 : D t1) by (apply (L t0 _ t1 D0 I0)).
    pose proof (DI t0 D0) as DT0. pose proof (DI t1 D1) as DT1.
    (* whichever has the vertex *)
    assert (FIN : forall t t' y, even_legs_at t v now step s2 = Ok (y, s') -> (t = t0 /\ t' = t1) \/ (t = t1 /\ t' = t0) ->
      alert s t' -> corner s2 t S1 = v -> link s2 t S1 = Some t' -> D t ->
      good now s' /\ (forall X, but now X s -> but now (fun w => X w /\ ~ In w [t0; t1]) s')).
    { intros t t' y K Ht At Ct Lt Dt. 
      assert (US : forall e, corner s2 t e = v -> e = S1) by (intros e He; apply (DI2 t Dt); congruence).
      apply even_at_step in K; [|exact G2|].
      2:{ intros e n Ce Le. rewrite (US e Ce), Lt in Le. injection Le as <-. apply AL, At. }
      destruct K as (e & G' & Ce & B'). rewrite (US e Ce), Lt in B'. split; [exact G'|]. intros X B.
      eapply but_weak; [|apply B', B2, B]. cbn beta. cbn [In]. intros w (Hw & N2 & N3).
      assert (N4 : w <> t') by congruence. destruct Ht as [[-> ->]|[-> ->]]; intuition congruence. }
    destruct Hd as [-> | ->].
    - rewrite ccw_cw in V0, H. rewrite KC in V0, H. rewrite cw_cw in V1, H.
      peel H z2 s4 H1. cbn [list3 map existsb x0 x1 x2] in H1. unfold id in H1. rewrite VF in H1. cbn [orb] in H1.
      rewrite Bool.orb_true_r in H1. cbn [whenM] in H1.
      assert (s' = s4).
      { unfold whenM in H. destruct (existsb _ _); [|apply ret_ok in H; apply H].
        apply even_at_until in H1; [|apply G2]. destruct H1 as (e & R4 & F4 & C4 & _).
        exfalso. revert H. apply even_not_at. intros i. unfold corner. rewrite C4, V1.
        destruct i; cbn [get3]; intros Q.
        - rewrite <- K1C in Q. apply DT1 in Q. destruct i1; discriminate.
        - rewrite <- KC in Q. apply DT0 in Q. destruct k0; discriminate.
        - rewrite <- KC in Q. apply DT0 in Q. destruct k0; discriminate. }
      subst s4. apply (FIN t0 t1 z2 H1); auto.
      + unfold corner. rewrite V0. reflexivity.
      + unfold link. rewrite N0. reflexivity.
    - rewrite cw_ccw in V1, H. rewrite KC in V1, H. rewrite ccw_ccw in V0, H.
      peel H z2 s4 H1.
      assert (s4 = s2).
      { unfold whenM in H1. destruct (existsb _ _); [|apply ret_ok in H1; apply H1].
        exfalso. revert H1. apply even_not_at. intros i. unfold corner. rewrite V0.
        destruct i; cbn [get3]; intros Q.
        - rewrite <- KC in Q. apply DT0 in Q. destruct k0; discriminate.
        - rewrite <- KC in Q. apply DT0 in Q. destruct k0; discriminate.
        - rewrite <- K1C in Q. apply DT1 in Q. destruct i1; discriminate. }
      subst s4. cbn [list3 map existsb x0 x1 x2] in H. unfold id in H. rewrite VF in H. cbn [orb] in H.
      rewrite Bool.orb_true_r in H. cbn [whenM] in H. apply (FIN t1 t0 u H); auto.
      + unfold corner. rewrite V1. reflexivity.
      + unfold link. rewrite N1. reflexivity.
  Qed.

  (** ** Fans *)
  Lemma fan_det D s v d : (forall u, D u -> distinct s u) -> forall o l, is_fan s v d o l -> (forall u, In u l -> D u) ->
    forall l', is_fan s v d o l' -> l = l'.
  Proof.
    intros DI o l F. induction F as [|w sd l C F IH]; intros IN l' F'.
    - inversion F'. reflexivity.
    - inversion F' as [|w' sd' r C' F'' E1 E2]. subst. f_equal.
      assert (sd' = sd) by (apply (DI w); [apply IN; simpl; auto|unfold corner; congruence]). subst sd'.
      apply IH; [intros u Hu; apply IN; simpl; auto|exact F''].
  Qed.

  Lemma fan_turned D s v d d' : (d = cw /\ d' = ccw) \/ (d = ccw /\ d' = cw) -> linked D s -> (forall u, D u -> distinct s u) ->
    forall l a k l2, is_fan s v d (Some a) l -> D a -> corner s a k = v -> is_fan s v d' (link s a (d' k)) l2 ->
    full_fan s v d' (rev l ++ l2).
  Proof.
    intros Hd L DI.
    assert (TD : d = cw \/ d = ccw) by tauto.
    assert (DD : forall k, d' (d k) = k) by (intros k; destruct Hd as [[-> ->]|[-> ->]]; destruct k; reflexivity).
    assert (BB : forall k, back d' k = d k) by (intros k; unfold back; destruct Hd as [[-> ->]|[-> ->]]; destruct k; reflexivity).
    induction l as [|x r IH]; intros a k l2 F Da C F2; [inversion F|].
    inversion F as [|w sd r' C' F' E1 E2]. subst.
    assert (sd = k) by (apply (DI x Da); unfold corner in *; congruence). subst sd.
    change (get3 (t_n (ts s x)) (d k)) with (link s x (d k)) in F'.
    cbn [rev]. rewrite <- app_assoc. cbn [app].
    assert (F3 : is_fan s (corner s x k) d' (Some x) (x :: l2)) by (apply FanProofs.fan_step with (sd := k); [reflexivity|exact F2]).
    destruct (link s x (d k)) as [b|] eqn:Hb.
    - destruct (L x (d k) b Da Hb) as (Db & j & J1 & J2).
      pose proof (turn_eq d k b x s j TD J2) as T.
      apply (IH b (d j) (x :: l2)); auto. rewrite DD, J1. exact F3.
    - inversion F'. subst r. cbn [rev app full_fan]. split; [exact F3|].
      intros k' Hk. assert (k' = k) by (apply (DI x Da); exact Hk). subst k'. rewrite BB. exact Hb.
  Qed.

  Lemma rev_last (l : list nat) x : l <> [] -> exists r, rev l = last l x :: r.
  Proof.
    intros N. destruct (exists_last N) as (r & y & ->). rewrite rev_app_distr, last_last. cbn. eauto.
  Qed.

  (** the fan as seen from either end *)
  Lemma fan_ends D s v d fan f : linked D s -> (forall u, D u -> distinct s u) -> (forall u, In u fan -> D u) ->
    full_fan s v (turn_fn d) fan -> hd_error fan = Some f ->
    exists ltri rtri lr rr, (ltri, rtri) = match d with Cw => (f, last fan f) | Ccw => (last fan f, f) end /\
      full_fan s v cw (ltri :: lr) /\ full_fan s v ccw (rtri :: rr) /\
      (forall u, In u fan <-> In u (ltri :: lr)) /\ (forall u, In u fan <-> In u (rtri :: rr)).
  Proof.
    intros L DI FD FF HD. destruct fan as [|f0 r] eqn:EF; [discriminate|]. injection HD as ->. rewrite <- EF in *.
    assert (NE : fan <> []) by (rewrite EF; discriminate).
    destruct (rev_last fan f NE) as [rr RR].
    assert (Df : D f) by (apply FD; rewrite EF; simpl; auto).
    assert (FF' : is_fan s v (turn_fn d) (Some f) fan /\ forall k, corner s f k = v -> link s f (back (turn_fn d) k) = None)
      by (rewrite EF in *; exact FF). destruct FF' as [F1 F2].
    assert (KF : exists k, corner s f k = v) by (rewrite EF in F1; inversion F1 as [|w sd l C F' E1 E2]; eauto).
    destruct KF as [k KF]. specialize (F2 k KF).
    assert (IR : forall u, In u fan <-> In u (last fan f :: rr)) by (intros u; rewrite <- RR; apply in_rev).
    assert (IF' : forall u, In u fan <-> In u (f :: r)) by (intros u; rewrite EF; tauto).
    destruct d; cbn [turn_fn] in *.
    - exists f, (last fan f), r, rr. split; [reflexivity|]. split; [rewrite <- EF; exact FF|]. split; [|auto].
      rewrite <- RR, <- (app_nil_r (rev fan)).
      apply (fan_turned D s v cw ccw (or_introl (conj eq_refl eq_refl)) L DI fan f k []); auto.
      unfold back in F2. rewrite cw_cw in F2. rewrite F2. constructor.
    - exists (last fan f), f, rr, r. split; [reflexivity|]. split; [|split; [rewrite <- EF; exact FF|auto]].
      rewrite <- RR, <- (app_nil_r (rev fan)).
      apply (fan_turned D s v ccw cw (or_intror (conj eq_refl eq_refl)) L DI fan f k []); auto.
      unfold back in F2. rewrite ccw_ccw in F2. rewrite F2. constructor.
  Qed.

  (** a triangle with an infinitely fast vertex has only neighbours that have an event *)
  Definition watchful (s : state) (v : nat) : Prop :=
    forall u i j n, active s u -> corner s u i = v -> link s u j = Some n -> alert s n.

  (** the vertices that a collapsing side leaves behind are in the two fans only *)
  Lemma merged_fast D s t e kv fa fb s1 : merged D s t e kv fa fb s1 -> (forall u i, corner s u i < nv s) -> nv s <= kv ->
    forall w i, nv s <= corner s1 w i -> k_inf_fast (vs s1 (corner s1 w i)) = true ->
    k_inf_fast (vs s1 kv) = true /\ (In w fa \/ In w fb).
  Proof.
    intros MG LT V w i Li Fi. rewrite (mg_corner _ _ _ _ _ _ _ _ MG) in Li, Fi. specialize (LT w i). revert Li Fi. unfold sub2, sub1.
    destruct (in_dec Nat.eq_dec w fa) as [Ia|Na], (in_dec Nat.eq_dec w fb) as [Ib|Nb];
      repeat (match goal with |- context [if ?b then _ else _] => destruct b end); intros Li Fi; try (split; [exact Fi|tauto]); lia.
  Qed.

  Theorem fan_settles fuel : forall fan v now d step s s',
    good now s -> linked (active s) s ->
    full_fan s v (turn_fn d) fan -> (forall u, In u fan -> active s u) ->
    (forall v1 s1, legs now step v s v1 s1 -> proper s1 /\ watchful s1 v1) ->
    but now (fun w => In w fan) s ->
    handle_parallel_fan fuel fan v now d step s = Ok (tt, s') ->
    forall w, settled now s' w.
  Proof.
    induction fuel as [|fuel IH]; intros fan v now d step s s' G L FF FA PR B H; cbn [handle_parallel_fan] in H; [discriminate|].
    destruct fan as [|f r] eqn:EF; [discriminate|]. rewrite <- EF in *.
    pose proof (PR v s (legs_none now step v s)) as [P0 W0].
    assert (LT : forall u i, corner s u i < nv s) by apply G.
    assert (DI : forall u, active s u -> distinct s u) by (intros u Hu; apply P0, Hu).
    assert (AP : forall u, active s u -> apart s u) by (intros u Hu; apply (opposite_apart (active s)); auto; apply P0, Hu).
    assert (R : registered s) by apply G.
    (* a leg *)
    assert (LEG : forall t e, active s t -> link s t e = None ->
      (forall fa fb, side_fan s t (cw e) cw fa -> side_fan s t (ccw e) ccw fb ->
         forall u, In u fan -> u <> t -> (In u fa /\ corner s t (cw e) = v) \/ (In u fb /\ corner s t (ccw e) = v)) ->
      handle_parallel_edge_event_shorter_leg (handle_parallel_fan fuel) t e v now step s = Ok (tt, s') ->
      forall w, settled now s' w).
    { intros t e At Ne COV K.
      destruct (leg_until (handle_parallel_fan fuel) (active s) t e v now step s s' R LT L DI At (AP t At) K)
        as (fa & fb & s6 & R6 & F6 & V6 & MG & ST & ST' & K6 & K0).
      assert (K1 : nv s <> corner s t (ccw e)) by (specialize (LT t (ccw e)); lia).
      assert (K2 : nv s <> corner s t (cw e)) by (specialize (LT t (cw e)); lia).
      pose proof (merged_linked (active s) s t e (nv s) fa fb s6 L DI At (AP t At) K1 K2 MG) as L6.
      assert (A6 : forall u, active s6 u <-> active s u /\ u <> t) by (apply (active_but s s6 t now F6 ST ST')).
      assert (L6' : linked (active s6) s6) by (revert L6; apply linked_iff; intros u; rewrite A6; tauto).
      assert (PR6 : forall v1 s1, legs now step (nv s) s6 v1 s1 -> proper s1 /\ watchful s1 v1).
      { intros v1 s1 Q. apply (PR v1 s1). apply (legs_one now step v s t e s6 v1 s1); assumption. }
      destruct (leg_first t e v now step s s6 G Ne K0) as [G6 B6]. specialize (B6 _ B).
      assert (FA' := mg_a _ _ _ _ _ _ _ _ MG). assert (FB' := mg_b _ _ _ _ _ _ _ _ MG). assert (MC := mg_corner _ _ _ _ _ _ _ _ MG).
      assert (N12 : corner s t (ccw e) <> corner s t (cw e)) by (intros Q; apply (DI t At) in Q; destruct e; discriminate).
      (* the triangles not settled are at the new vertex *)
      assert (B6' : but now (fun w => k_inf_fast (vs s6 (nv s)) = true /\ (In w fa \/ In w fb)) s6).
      { eapply but_weak; [|exact B6]. intros w [[[Hw Nw] C]|(i & Li & Fi)].
        - exfalso.
          assert (KW : exists k, corner s w k = v).
          { destruct fan as [|f' r']; [contradiction|]. destruct FF as [F1 _].
            destruct (is_fan_next _ _ _ _ _ F1 w Hw) as (sd & S1 & _). exists sd. exact S1. }
          destruct KW as [k KW]. specialize (C k). rewrite MC, KW in C.
          destruct (COV fa fb FA' FB' w Hw Nw) as [[I1 I2]|[I1 I2]]; rewrite <- I2 in C; unfold sub2 in C.
          + rewrite (sub1_in _ _ fa) in C by exact I1. rewrite sub1_other in C by exact K1. lia.
          + rewrite (sub1_other _ _ fa) in C by exact N12. rewrite sub1_in in C by exact I1. lia.
        - apply (merged_fast (active s) s t e (nv s) fa fb s6 MG LT (le_n _) w i Li Fi). }
      assert (REC : forall fan' d', handle_parallel_fan fuel fan' (nv s) now d' step s6 = Ok (tt, s') ->
        full_fan s6 (nv s) (turn_fn d') fan' -> (forall u, In u fan' <-> In u fa \/ In u fb) -> forall w, settled now s' w).
      { intros fan' d' Q1 Q2 Q3. apply (IH fan' (nv s) now d' step s6 s'); auto.
        - intros u Hu. apply A6. apply Q3 in Hu. destruct Hu as [I|I].
          + split; [apply (side_fan_in (active s) s t (cw e) cw fa L At FA' u I)|].
            intros ->. apply (side_fan_out (active s) s t (cw e) cw fa L DI At FA' I).
          + split; [apply (side_fan_in (active s) s t (ccw e) ccw fb L At FB' u I)|].
            intros ->. apply (side_fan_out (active s) s t (ccw e) ccw fb L DI At FB' I).
        - eapply but_weak; [|exact B6']. intros w [_ Hw]. apply Q3, Hw. }
      pose proof (merged_full (active s) s t e (nv s) fa fb s6 L DI At (AP t At) K1 K2 MG
        ltac:(intros u Hu Nu; apply (PR6 _ _ (legs_none now step (nv s) s6)); apply A6; auto)) as FULL.
      destruct (k_inf_fast (vs s6 (nv s))); cbn [whenM] in K6.
      - unfold parallel_fan_of in K6. destruct fa as [|a fa]; destruct fb as [|b fb].
        + apply ret_ok in K6. destruct K6 as [_ ->]. intros w. apply B6'. cbn [In]. tauto.
        + apply (REC _ Ccw K6 FULL). intros u. cbn [In]. tauto.
        + apply (REC _ Cw K6 FULL). intros u. cbn [In]. tauto.
        + apply (REC _ Ccw K6 FULL). intros u. rewrite in_app_iff, <- in_rev. tauto.
      - apply ret_ok in K6. destruct K6 as [_ ->]. intros w. apply B6'. intros [Q _]. discriminate Q. }
    assert (HF : In f fan) by (rewrite EF; simpl; auto).
    assert (HD : hd_error fan = Some f) by (rewrite EF; reflexivity).
    destruct (fan_ends (active s) s v d fan f L DI FA FF HD) as (ltri & rtri & lr & rr & EQ & FLc & FRc & IL & IR).
    peel H fast s1 H1. apply fast_at in H1. destruct H1 as [-> ->].
    peel H z1 s1 H1. apply assertM_ok in H1. destruct H1 as [VF ->].
    peel H x s1 H1. apply gets_ok in H1. destruct H1 as [-> ->].
    (* the fan has one triangle at least; its triangles are neighbours *)
    destruct (Nat.eqb_spec (tri_type (ts s f)) 3) as [T3|_].
    - peel H z2 s1 H1. apply ro_ok in H1; [|auto with ro]. subst s1.
      assert (NO : forall i, link s f i = None).
      { unfold tri_type in T3. unfold link. intros i. destruct (t_n (ts s f)) as [[|] [|] [|]]; cbn in T3; try discriminate. destruct i; reflexivity. }
      apply isolated_step in H; auto. destruct H as [_ H]. intros w. apply (H _ B). intros [Hw Nw].
      rewrite EF in FF, Hw. destruct FF as [F1 _]. inversion F1 as [|w' sd l C F' E1 E2]. subst w' l.
      change (get3 (t_n (ts s f)) (turn_fn d sd)) with (link s f (turn_fn d sd)) in F'. rewrite NO in F'. inversion F'. subst r.
      destruct Hw as [Hw|[]]. congruence.
    - peel H z2 s1 H1. apply ro_ok in H1; [|auto with ro]. subst s1. rewrite <- EQ in H.
      assert (AL' : active s ltri) by (apply FA, IL; simpl; auto).
      assert (AR' : active s rtri) by (apply FA, IR; simpl; auto).
      peel H x s1 H1. apply gets_ok in H1. destruct H1 as [-> ->].
      peel H li s1 H1. unfold rdr in H1. apply rd_ok in H1. destruct H1 as [LI ->]. apply vindex_get in LI.
      peel H ld s1 H1. apply ro_ok in H1; [|auto with ro]. subst s1.
      peel H x s1 H1. apply gets_ok in H1. destruct H1 as [-> ->].
      peel H ri s1 H1. unfold rdr in H1. apply rd_ok in H1. destruct H1 as [RI ->]. apply vindex_get in RI.
      peel H rdist s1 H1. apply ro_ok in H1; [|auto with ro]. subst s1.
      cbv zeta in H. destruct (near_zero _), (near_zero _); [| | |discriminate].
      + clear LEG IH. destruct r as [|t1 [|t2 r]]; [| |discriminate].
        * (* one triangle *)
          peel H z3 s1 H1. unfold assert_stopped in H. peel H x s2 H2. apply gets_ok in H2. destruct H2 as [-> ->].
          apply ro_ok in H; [|auto with ro]. subst s1.
          apply even_at_step in H1; [|exact G|].
          2:{ intros e n Ce Le. apply (W0 f e e n); auto. }
          destruct H1 as (e & _ & _ & B'). intros w. apply (B' _ B). rewrite EF. cbn [In]. intuition congruence.
        * (* two triangles *)
          peel H all2 s1 H1. apply ro_ok in H1; [|auto with ro]. subst s1.
          assert (A0 : active s f) by (apply FA, HF).
          assert (A1 : active s t1) by (apply FA; rewrite EF; simpl; auto).
          rewrite EF in FF. pose proof FF as [F1 F2].
          assert (LINK : exists k, corner s f k = v /\ link s f (turn_fn d k) = Some t1).
          { inversion F1 as [|w sd l C F' E1 E2]. subst w l. exists sd. split; [exact C|]. apply fan_head in F'. exact F'. }
          destruct LINK as (k & KC & KL). destruct (L f _ t1 A0 KL) as (_ & j & J1 & J2).
          assert (N01 : f <> t1) by (intros <-; apply (self_shares (active s) s f _ j DI A0 J2)).
          assert (Hd : turn_fn d = cw \/ turn_fn d = ccw) by (destruct d; auto).
          pose proof (turn_eq (turn_fn d) k t1 f s j Hd J2) as TE. rewrite KC in TE.
          assert (AL1 : alert s t1) by (apply (W0 f k (turn_fn d k) t1); auto).
          assert (AL0 : alert s f) by (apply (W0 t1 (turn_fn d j) j f); auto).
          destruct all2.
          -- peel H z3 s1 H1.
             pose proof (keeps_even_at kept_sound f v now step s R z3 s1 H1) as [_ KP].
             pose proof (even_at_until f v now step s z3 s1 R H1) as (e0 & R' & F' & C' & LK & ST & ST' & PV).
             apply even_at_step in H1; [|exact G|].
             2:{ intros e n Ce Le. apply (W0 f e e n); auto. }
             destruct H1 as (e0' & G1 & PV0 & B1).
             assert (e0' = e0) by (apply (DI f A0); congruence). subst e0'.
             assert (k = e0) by (apply (DI f A0); congruence). subst k.
             assert (NE1 : turn_fn d j <> j) by (destruct d, j; discriminate).
             assert (LE1 : forall e1, corner s1 t1 e1 = v -> link s1 t1 e1 = link s t1 e1).
             { intros e1 Ce. assert (Ce' : corner s t1 e1 = v) by (unfold corner in *; rewrite C' in Ce; exact Ce).
               assert (e1 = turn_fn d j) by (apply (DI t1 A1); congruence). subst e1.
               apply (lk_at s s1 _ f t1 _ LK). intros Q. apply NE1. apply (AP t1 A1 _ _ f Q J1). }
             peel H z4 s2 H1. apply even_at_step in H1; [|exact G1|].
             2:{ intros e n Ce Le. rewrite (LE1 e Ce) in Le. apply (kept_alert Z s); [exact KP|].
                 assert (Ce' : corner s t1 e = v) by (unfold corner in *; rewrite C' in Ce; exact Ce).
                 apply (W0 t1 e e n); auto. }
             destruct H1 as (e1 & G2 & PV1 & B2).
             unfold assert_stopped in H.
             peel H z5 s3 H1. peel H1 x s4 H2. apply gets_ok in H2. destruct H2 as [-> ->]. apply ro_ok in H1; [|auto with ro]. subst s3.
             peel H x s4 H2. apply gets_ok in H2. destruct H2 as [-> ->]. apply ro_ok in H; [|auto with ro]. subst s2.
             intros w. apply (B2 _ (B1 _ B)). rewrite EF. cbn [In]. intuition congruence.
          -- apply (flip_then_step (active s) f t1 v (turn_fn d) now step s tt s') in H; auto.
             ++ destruct H as [_ B']. intros w. apply (B' _ B). rewrite EF. tauto.
             ++ apply P0, A0.
      + (* the leg on the left *)
        assert (LN : link s ltri (ccw li) = None).
        { destruct FLc as [_ Q]. specialize (Q li LI). unfold back in Q. rewrite cw_cw in Q. exact Q. }
        apply (LEG ltri (ccw li)); auto.
        intros fa fb SA SB u Hu Nu. left. rewrite cw_ccw. split; [|exact LI].
        apply IL in Hu. destruct Hu as [Hu|Hu]; [congruence|].
        destruct FLc as [F1 _]. inversion F1 as [|w sd l C F' E1 E2]. subst w l.
        assert (sd = li) by (apply (DI ltri AL'); unfold corner in *; congruence). subst sd.
        change (get3 (t_n (ts s ltri)) (cw li)) with (link s ltri (cw li)) in F'.
        unfold side_fan in SA. rewrite cw_ccw in SA. destruct (link s ltri (cw li)) as [a|].
        * destruct SA as [SA _]. rewrite <- (fan_det (active s) s v cw DI (Some a) lr F'); [exact Hu| |].
          -- intros q Hq. apply FA, IL. simpl. auto.
          -- change (get3 (t_v (ts s ltri)) li) with (corner s ltri li) in LI. rewrite LI in SA. exact SA.
        * inversion F'. subst lr. destruct Hu.
      + (* the leg on the right *)
        assert (RN : link s rtri (cw ri) = None).
        { destruct FRc as [_ Q]. specialize (Q ri RI). unfold back in Q. rewrite ccw_ccw in Q. exact Q. }
        apply (LEG rtri (cw ri)); auto.
        intros fa fb SA SB u Hu Nu. right. rewrite ccw_cw. split; [|exact RI].
        apply IR in Hu. destruct Hu as [Hu|Hu]; [congruence|].
        destruct FRc as [F1 _]. inversion F1 as [|w sd l C F' E1 E2]. subst w l.
        assert (sd = ri) by (apply (DI rtri AR'); unfold corner in *; congruence). subst sd.
        change (get3 (t_n (ts s rtri)) (ccw ri)) with (link s rtri (ccw ri)) in F'.
        unfold side_fan in SB. rewrite ccw_cw in SB. destruct (link s rtri (ccw ri)) as [a|].
        * destruct SB as [SB _]. rewrite <- (fan_det (active s) s v ccw DI (Some a) rr F'); [exact Hu| |].
          -- intros q Hq. apply FA, IR. simpl. auto.
          -- change (get3 (t_v (ts s rtri)) ri) with (corner s rtri ri) in RI. rewrite RI in SB. exact SB.
        * inversion F'. subst rr. destruct Hu.
  Qed.

  (** ** Events *)
  Theorem edge_fast_settles s evt step e s' :
    good (ev_time evt) s -> shaped s -> linked (active s) s -> (forall u, active s u -> distinct s u) ->
    active s (ev_tri evt) -> apart s (ev_tri evt) -> ev_side evt = [e] -> across Z s evt ->
    (forall s1 v v1 s2, handle_edge_event_with no_fans evt step s = Ok (tt, s1) -> nv s <= v < nv s1 ->
       k_inf_fast (vs s1 v) = true -> legs (ev_time evt) step v s1 v1 s2 -> proper s2 /\ watchful s2 v1) ->
    but (ev_time evt) (only (ev_tri evt)) s ->
    handle_edge_event evt step s = Ok (tt, s') ->
    forall w, settled (ev_time evt) s' w.
  Proof.
    intros G SH L DI At AP SE AC PR B H. pose proof (proj1 (proj1 G)) as R. unfold handle_edge_event in H.
    destruct (edge_until _ (active s) s evt step e s' R SH L DI At AP SE H)
      as (kv & fa & fb & s1 & R1 & F1 & V1 & FA & FB & C1 & U1 & ST & ST' & K & K0).
    destruct (edge_first s evt step s1 e AC G SE K0) as [G1 B1]. specialize (B1 _ B).
    set (t := ev_tri evt) in *. set (now := ev_time evt) in *.
    assert (LT : forall u i, corner s u i < nv s) by apply G.
    assert (MG : merged (active s) s t e kv fa fb s1) by (constructor; assumption).
    assert (K1 : kv <> corner s t (ccw e)) by (specialize (LT t (ccw e)); lia).
    assert (K2 : kv <> corner s t (cw e)) by (specialize (LT t (cw e)); lia).
    pose proof (merged_linked (active s) s t e kv fa fb s1 L DI At AP K1 K2 MG) as L1.
    pose proof (active_but s s1 t now F1 ST ST') as A1.
    assert (L1' : linked (active s1) s1) by (revert L1; apply linked_iff; intros u; rewrite A1; tauto).
    assert (B1' : but now (fun w => k_inf_fast (vs s1 kv) = true /\ (In w fa \/ In w fb)) s1).
    { eapply but_weak; [|exact B1]. intros w [[[Q1 Q2] _]|(i & Li & Fi)]; [contradiction|].
      apply (merged_fast (active s) s t e kv fa fb s1 MG LT ltac:(lia) w i Li Fi). }
    destruct (k_inf_fast (vs s1 kv)) eqn:VF; cbn [whenM] in K.
    2:{ apply ret_ok in K. destruct K as [_ ->]. intros w. apply B1'. intros [Q _]. discriminate Q. }
    assert (PR1 : forall v1 s2, legs now step kv s1 v1 s2 -> proper s2 /\ watchful s2 v1) by (intros v1 s2 Q; apply (PR s1 kv v1 s2); auto).
    pose proof (merged_full (active s) s t e kv fa fb s1 L DI At AP K1 K2 MG
      ltac:(intros u Hu Nu; apply (PR1 _ _ (legs_none now step kv s1)); apply A1; auto)) as FULL.
    assert (IA : forall u, In u fa -> active s1 u).
    { intros u Hu. apply A1. split; [apply (side_fan_in (active s) s t (cw e) cw fa L At FA u Hu)|].
      intros ->. apply (side_fan_out (active s) s t (cw e) cw fa L DI At FA Hu). }
    assert (IB : forall u, In u fb -> active s1 u).
    { intros u Hu. apply A1. split; [apply (side_fan_in (active s) s t (ccw e) ccw fb L At FB u Hu)|].
      intros ->. apply (side_fan_out (active s) s t (ccw e) ccw fb L DI At FB Hu). }
    assert (GO : forall fan d, handle_parallel_fan reclimit fan kv now d step s1 = Ok (tt, s') ->
      full_fan s1 kv (turn_fn d) fan -> (forall u, In u fan <-> In u fa \/ In u fb) -> forall w, settled now s' w).
    { intros fan d Q1 Q2 Q3. apply (fan_settles reclimit fan kv now d step s1 s'); auto.
      - intros u Hu. apply Q3 in Hu. destruct Hu; auto.
      - eapply but_weak; [|exact B1']. intros w [_ Hw]. apply Q3, Hw. }
    unfold parallel_fan_of in K. destruct fa as [|a fa]; destruct fb as [|b fb].
    - apply ret_ok in K. destruct K as [_ ->]. intros w. apply B1'. cbn [In]. tauto.
    - apply (GO (b :: fb) Ccw K FULL). intros u. cbn [In]. tauto.
    - apply (GO (a :: fa) Cw K FULL). intros u. cbn [In]. tauto.
    - apply (GO _ Ccw K FULL). intros u. rewrite in_app_iff, <- in_rev. tauto.
  Qed.

  Theorem split_fast_settles s evt step e s' :
    good (ev_time evt) s -> shaped s -> linked (active s) s -> (forall u, active s u -> distinct s u) ->
    active s (ev_tri evt) -> apart s (ev_tri evt) -> ev_side evt = [e] ->
    (forall s1 v v1 s2, handle_split_event_with no_fans evt step s = Ok (tt, s1) -> nv s <= v < nv s1 ->
       k_inf_fast (vs s1 v) = true -> legs (ev_time evt) step v s1 v1 s2 -> proper s2 /\ watchful s2 v1) ->
    (forall s1 v w, handle_split_event_with no_fans evt step s = Ok (tt, s1) -> nv s <= v < w -> w < nv s1 ->
       k_inf_fast (vs s1 v) = true -> k_inf_fast (vs s1 w) = true -> False) ->
    but (ev_time evt) (only (ev_tri evt)) s ->
    handle_split_event evt step s = Ok (tt, s') ->
    forall w, settled (ev_time evt) s' w.
  Proof.
    intros G SH L DI At AP SE PR ON B H. pose proof (proj1 (proj1 G)) as R. unfold handle_split_event in H.
    destruct (split_until _ (active s) s evt step e s'
        ltac:(intros fan v d x y Rx Hx; apply (keeps_parallel_fan base_sound reclimit fan v (ev_time evt) d step x Rx tt y Hx))
        R SH L DI At AP SE H)
      as (vb & va & fb & fa & s1 & R1 & F1 & V1 & V2 & V3 & NE & NC & NW & FA & FB & DJ & C1 & U1 & ST & ST' & (s2 & K1 & K2) & K0).
    destruct (split_first s evt step s1 e G SE K0) as [G1 B1]. specialize (B1 _ B).
    set (t := ev_tri evt) in *. set (now := ev_time evt) in *.
    assert (LT : forall u i, corner s u i < nv s) by apply G.
    assert (N1 : va <> corner s t e) by (specialize (LT t e); lia).
    assert (N2 : vb <> corner s t e) by (specialize (LT t e); lia).
    assert (L1 : linked (fun u => active s u /\ u <> t) s1).
    { apply (split_linked (active s) s t e va vb fa fb s1 L DI At AP NE DJ FA FB); auto.
      intros f Hf Hg. destruct U1 as [W1 W2 W3]. constructor; auto. intros u j m Hu Nu Hm Hj Sm.
      rewrite (W3 u j m Hu Nu Hm Hj Sm). assert (Q : f m = Some None); [|rewrite Q; reflexivity].
      destruct (side_eqb_spec m e) as [->|Nm]; [congruence|]. destruct m, e; cbn [cw ccw] in *; congruence. }
    pose proof (active_but s s1 t now F1 ST ST') as A1.
    assert (L1' : linked (active s1) s1) by (revert L1; apply linked_iff; intros u; rewrite A1; tauto).
    assert (IA : forall u, In u fa -> active s1 u).
    { intros u Hu. apply A1. split; [apply (side_fan_in (active s) s t e cw fa L At FA u Hu)|].
      intros ->. apply (side_fan_out (active s) s t e cw fa L DI At FA Hu). }
    assert (IB : forall u, In u fb -> active s1 u).
    { intros u Hu. apply A1. split; [apply (side_fan_in (active s) s t e ccw fb L At FB u Hu)|].
      intros ->. apply (side_fan_out (active s) s t e ccw fb L DI At FB Hu). }
    assert (B1' : but now (fun w => (k_inf_fast (vs s1 va) = true /\ In w fa) \/ (k_inf_fast (vs s1 vb) = true /\ In w fb)) s1).
    { eapply but_weak; [|exact B1]. intros w [[[Q1 Q2] _]|(i & Li & Fi)]; [contradiction|].
      rewrite C1 in Li, Fi. specialize (LT w i). revert Li Fi. unfold sub1.
      destruct (in_dec Nat.eq_dec w fa) as [Ia|Na], (in_dec Nat.eq_dec w fb) as [Ib|Nb];
        try (exfalso; exact (DJ w Ia Ib));
        repeat (match goal with |- context [if ?b then _ else _] => destruct b end); intros Li Fi;
        try (left; split; [exact Fi|assumption]); try (right; split; [exact Fi|assumption]); lia. }
    (* each side is a whole fan *)
    assert (HALF : forall d fan w, (d = cw \/ d = ccw) -> side_fan s t e d fan -> link s t (d e) <> None ->
      (forall u i, In u fan -> corner s u i = corner s t e -> corner s1 u i = w) ->
      (forall u, active s1 u -> distinct s1 u) -> full_fan s1 w d fan).
    { intros d fan w Hd F N CW DI1. pose proof (side_fan_in (active s) s t e d fan L At F) as IN.
      pose proof (side_fan_out (active s) s t e d fan L DI At F) as OUT. unfold side_fan in F.
      destruct (link s t (d e)) as [a|] eqn:Ha; [|congruence]. clear N. destruct F as [F ND].
      assert (F' : is_fan s1 w d (Some a) fan).
      { apply (fan_map s s1 (corner s t e)); [|exact F]. intros u k Hu Hk.
        assert (Nu : u <> t) by (intros ->; contradiction). split; [apply CW; assumption|].
        apply (un_other _ _ _ _ _ U1); auto. intros Q. destruct (is_fan_next _ _ _ _ _ F u Hu) as (sd & S1 & S2).
        assert (sd = k) by (apply (DI u (IN u Hu)); congruence). subst sd. apply OUT, S2, Q. }
      pose proof (fan_head _ _ _ _ _ F') as HD. destruct fan as [|a0 r]; [discriminate HD|]. injection HD as <-.
      split; [exact F'|]. intros k Hk. destruct (L t (d e) a At Ha) as (Aa & j & J1 & J2).
      assert (Na : a <> t) by (intros ->; apply OUT; simpl; auto).
      pose proof (turn_eq d e a t s j Hd J2) as TE.
      assert (k = d j).
      { apply (DI1 a); [apply A1; auto|]. rewrite Hk. symmetry. apply CW; [simpl; auto|exact TE]. }
      subst k. assert (BK : back d (d j) = j) by (unfold back; destruct Hd as [-> | ->]; destruct j; reflexivity).
      rewrite BK. apply (un_back _ _ _ _ _ U1 a j (d e)); auto. }
    assert (CA : forall u i, In u fa -> corner s u i = corner s t e -> corner s1 u i = va).
    { intros u i Hu Hc. rewrite C1, Hc. rewrite (sub1_out _ vb fb); [apply sub1_in, Hu|]. intros Q. apply (DJ u Hu Q). }
    assert (CB : forall u i, In u fb -> corner s u i = corner s t e -> corner s1 u i = vb).
    { intros u i Hu Hc. rewrite C1, Hc. rewrite (sub1_in _ vb fb) by exact Hu. apply sub1_out. intros Q. apply (DJ u Q Hu). }
    destruct (k_inf_fast (vs s1 va)) eqn:VA; cbn [whenM] in K1.
    - destruct (k_inf_fast (vs s1 vb)) eqn:VB; [exfalso; apply (ON s1 vb va K0); auto; lia|].
      cbn [whenM] in K2. apply ret_ok in K2. destruct K2 as [_ ->].
      assert (PR1 : forall v1 s2, legs now step va s1 v1 s2 -> proper s2 /\ watchful s2 v1) by (intros v1 s3 Q; apply (PR s1 va v1 s3); auto; lia).
      apply (fan_settles reclimit fa va now Cw step s1 s2); auto.
      + apply HALF; auto. intros u Hu. apply (PR1 _ _ (legs_none now step va s1)), Hu.
      + eapply but_weak; [|exact B1']. intros w [[_ Q]|[Q _]]; [exact Q|discriminate].
    - apply ret_ok in K1. destruct K1 as [_ ->].
      destruct (k_inf_fast (vs s1 vb)) eqn:VB; cbn [whenM] in K2.
      + assert (PR1 : forall v1 s2, legs now step vb s1 v1 s2 -> proper s2 /\ watchful s2 v1) by (intros v1 s3 Q; apply (PR s1 vb v1 s3); auto; lia).
        apply (fan_settles reclimit fb vb now Ccw step s1 s'); auto.
        * apply HALF; auto. intros u Hu. apply (PR1 _ _ (legs_none now step vb s1)), Hu.
        * eapply but_weak; [|exact B1']. intros w [[Q _]|[_ Q]]; [discriminate|exact Q].
      + apply ret_ok in K2. destruct K2 as [_ ->]. intros w. apply B1'. intros [[Q _]|[Q _]]; discriminate Q.
  Qed.

  (** the triangles whose events are replaced at once have events: the one across the collapsing side, and
      those beside a triangle with an infinitely fast vertex, whenever such a vertex is about to be handled *)
  Record watching (s : state) (e : nat) (step : Numbers.BinNums.Z) : Prop := {
    wt_across : ev_tp (es s e) = Edge -> across Z s (es s e);
    wt_edge : ev_tp (es s e) = Edge -> forall s1 v v1 s2,
      handle_edge_event_with no_fans (es s e) step s = Ok (tt, s1) -> nv s <= v < nv s1 ->
      k_inf_fast (vs s1 v) = true -> legs (ev_time (es s e)) step v s1 v1 s2 -> watchful s2 v1;
    wt_split : ev_tp (es s e) = Split -> forall s1 v v1 s2,
      handle_split_event_with no_fans (es s e) step s = Ok (tt, s1) -> nv s <= v < nv s1 ->
      k_inf_fast (vs s1 v) = true -> legs (ev_time (es s e)) step v s1 v1 s2 -> watchful s2 v1 }.

  Theorem event_fast_settles s e step s' : let now := ev_time (es s e) in
    good now s -> shaped s -> linked (active s) s -> steady s e step -> watching s e step ->
    but now (only (ev_tri (es s e))) s ->
    handle_event e step s = Ok (tt, s') ->
    forall w, settled now s' w.
  Proof.
    intros now G SH L [TT DI OP EV PE PS ON] [WA WE WS] B H. unfold handle_event in H. peel H evt s1 H1. apply gets_ok in H1. destruct H1 as [-> ->].
    peel H x s1 H1. apply gets_ok in H1. destruct H1 as [-> ->].
    set (evt := es s e) in *. set (t := ev_tri evt) in *.
    destruct (is_some (t_stops (ts s t))) eqn:STt.
    { apply ret_ok in H. destruct H as [_ ->]. intros w. destruct (Nat.eq_dec w t) as [->|Nw]; [left; exact STt|apply B; exact Nw]. }
    assert (Dt : active s t) by (split; [exact TT|destruct (t_stops (ts s t)); [discriminate|reflexivity]]).
    pose proof (opposite_apart (active s) s t L DI Dt OP) as AP.
    destruct (ev_tp evt) eqn:TP.
    - destruct (Nat.eqb (length (ev_side evt)) 3); [eapply three_settles; eauto|].
      destruct (_ && _)%bool; [eapply one_settles; eauto|].
      destruct (Nat.eqb (length (ev_side evt)) 2); [discriminate|].
      assert (SE : exists sd, ev_side evt = [sd]).
      { unfold handle_edge_event, handle_edge_event_with in H. destruct (ev_side evt) as [|sd [|]]; try discriminate H. eauto. }
      destruct SE as [sd SE]. apply (edge_fast_settles s evt step sd s'); auto.
      intros s1 v v1 s2 Q1 Q2 Q3 Q4. split; [apply (PE eq_refl s1 v v1 s2); auto|apply (WE eq_refl s1 v v1 s2); auto].
    - eapply (flip_settles O addr_inj Z (active s)); eauto.
    - assert (SE : exists sd, ev_side evt = [sd]).
      { unfold handle_split_event, handle_split_event_with in H. destruct (ev_side evt) as [|sd [|]]; try discriminate H. eauto. }
      destruct SE as [sd SE]. apply (split_fast_settles s evt step sd s'); auto.
      + intros s1 v v1 s2 Q1 Q2 Q3 Q4. split; [apply (PS eq_refl s1 v v1 s2); auto|apply (WS eq_refl s1 v v1 s2); auto].
      + exact (ON eq_refl).
  Qed.

  (** ** Runs *)
  Theorem run_fast_settles s0 now tr s : good n0 s0 -> (forall w, settled n0 s0 w) -> shaped s0 -> linked (active s0) s0 ->
    reach s0 now tr s ->
    (forall now1 tr1 s1 e now2 s2, reach s0 now1 tr1 s1 -> length tr1 < length tr ->
       take_next now1 s1 = Ok ((e, now2), s2) ->
       steady s2 e (Z.of_nat (S (length tr1))) /\ watching s2 e (Z.of_nat (S (length tr1)))) ->
    good now s /\ nleb n0 now = true /\ forall w, settled now s w.
  Proof.
    intros G0 B0 SH0 L0 H. pose proof (proj1 (proj1 G0)) as R0.
    induction H as [|now tr s e now' s1 s' R IH T H]; intros RG; [split; [exact G0|split; [apply (nleb_refl O)|exact B0]]|].
    rewrite app_length in RG. cbn [length] in RG.
    destruct (steps_base _ _ _ _ _ _ R0 R) as [Rs Fs].
    pose proof (steps_shaped _ _ _ _ _ _ R0 SH0 R) as Ss.
    assert (C : registered s1 /\ shaped s1 /\ sk_triangles s1 = sk_triangles s /\ ts s1 = ts s).
    { apply take_next_ok in T. destruct T as [(r & _ & _ & ->)|(r & _ & _ & _ & ->)];
        (split; [destruct Rs; constructor; auto|split; [destruct Ss; constructor; auto|auto]]). }
    destruct C as (R1 & SH1 & TR & TS).
    assert (RG' : forall now1 tr1 s1 e now2 s2, reach s0 now1 tr1 s1 -> length tr1 < length tr ->
       take_next now1 s1 = Ok ((e, now2), s2) ->
       steady s2 e (Z.of_nat (S (length tr1))) /\ watching s2 e (Z.of_nat (S (length tr1)))).
    { intros now1 tr1 s3 e1 now2 s2 Q1 Q2. apply (RG now1 tr1 s3 e1 now2 s2 Q1). lia. }
    destruct (IH RG') as (Gs & Ps & Bs).
    pose proof (run_fast_mesh s0 now tr s R0 SH0 L0 R (fun a b c d f g h i j => proj1 (RG' a b c d f g h i j))) as Ls.
    destruct (take_settles O addr_inj Z now s e now' s1 Ps Gs Bs T) as (G1 & B1 & T1 & LE).
    destruct (RG now tr s e now' s1 R ltac:(lia) T) as [SY WT].
    assert (L1 : linked (active s1) s1).
    { unfold linked, active, shares, corner, link in *. rewrite TR, TS. exact Ls. }
    rewrite <- T1 in G1, B1.
    pose proof (event_fast_settles s1 e _ s' G1 SH1 L1 SY WT B1 H) as BS.
    pose proof (keeps_handle_event (timed_sound O addr_inj) e (Z.of_nat (S (length tr))) s1 (proj1 G1) tt s' H) as [T2 _].
    cbv zeta in BS. rewrite T1 in BS, T2. split; [|split; [eapply (oa_trans A O); eauto|exact BS]]. split; [exact T2|].
    pose proof (steps_shaped _ _ _ _ _ _ R0 SH0 (reach_step _ _ _ _ _ _ _ _ _ _ R T H)) as SH2.
    intros t i. apply (sh_v _ SH2).
  Qed.
End CurrentFast.
