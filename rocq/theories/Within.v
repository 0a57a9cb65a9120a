(** Events are about triangles of the skeleton, and so are the links of such triangles *)
From Coq Require Import Permutation.
From Verif Require Import Base Arith Calc VectorOps Line2d Primitives Collapse CollapseProofs EventsLib
  FlipEvent ParallelEvent EdgeEvent SplitEvent EventLoop Pass OpSpec Order StopSpec RunBase RunTimed RunLoop
  Decent Total TotalRun.

Section Within.
  Context {A : Arith} {E : Env A}.
  Local Open Scope M_scope.

  (** ** The event found for a triangle is about that triangle, in any arithmetic *)
  Lemma event_inf_tri s t now sv e : compute_event_inftriangle s t now sv = Ok (Some e) -> ev_tri e = t.
  Proof.
    unfold compute_event_inftriangle. intros H. destruct (is_none _).
    - rinv H. destruct (truthy (find_gt _ now)) as [time|] eqn:D; [|discriminate]. rinv H.
      destruct (near_zero _); [|discriminate]. injection H as <-. reflexivity.
    - rinv H. destruct (truthy (run_sieve sv _ now)) as [time|] eqn:D; [|discriminate]. rinv H.
      destruct (near_zero _); [injection H as <-; reflexivity|].
      destruct (edge_segment _ (cw _)), (edge_segment _ (ccw _)). rinv H. injection H as <-. reflexivity.
  Qed.
  Lemma collapse_event_tri s t now sv e : collapse_event s t now sv = Ok (Some e) -> ev_tri e = t.
  Proof.
    unfold collapse_event. destruct (is_some _); [discriminate|].
    destruct (is_finite s t) eqn:Hf; [|apply event_inf_tri].
    intros H. rinv H. destruct x as [e'|]; [|rinv H; discriminate].
    injection H as <-. destruct (tri_type (ts s t)) as [|[|[|]]].
    - apply event0_good in Hx. apply (wf_tri _ _ _ (proj1 Hx)).
    - apply event1_good in Hx; [|assumption]. apply (wf_tri _ _ _ (proj1 Hx)).
    - apply event2_good in Hx. apply (wf_tri _ _ _ (proj1 Hx)).
    - apply event3_good in Hx. apply (wf_tri _ _ _ (proj1 Hx)).
  Qed.
  Lemma new_edge_tri s t now e : new_edge_collapse_event s t now = Ok e -> ev_tri e = t.
  Proof. unfold new_edge_collapse_event. intros H. rinv H. injection H as <-. reflexivity. Qed.
  Lemma q_add_In s e q x : In x (q_add s e q) -> x = e \/ In x q.
  Proof.
    induction q as [|y q IH]; cbn [q_add]; [intros [H|[]]; auto|].
    destruct (compare_event_by_time _ _); simpl; intuition.
  Qed.

  (** ** The pass over the handlers: [P] are the triangles of the skeleton *)
  Context (P : nat -> Prop).
  Definition within (s : state) : Prop :=
    (forall t sd n, P t -> get3 (t_n (ts s t)) sd = Some n -> P n) /\
    (forall e, In e (queue s ++ immediate s) -> e < ne s /\ P (ev_tri (es s e))).
  Definition inside (x : ktri (A:=A)) : Prop := forall sd n, get3 (t_n x) sd = Some n -> P n.
  Definition into (o : option nat) : Prop := forall n, o = Some n -> P n.
  Definition wp {X} (m : M X) (s : state) : Prop := okp m s (fun _ s' => within s').
  Definition wfine {X} (m : M X) : Prop := forall s, within s -> wp m s.

  Lemma ro_back {X} (m : M X) s x s' : ro m -> m s = Ok (x, s') -> s' = s.
  Proof. intros R H. apply (R _ _ _ H). Qed.
  Lemma wp_bind {X Y} (m : M X) (k : X -> M Y) s : within s -> wfine m ->
    (forall x s', within s' -> wp (k x) s') -> wp (bind m k) s.
  Proof.
    intros W F C y s' H. apply bind_ok in H. destruct H as (x & s1 & H & K). apply (C x s1 (F s W _ _ H) _ _ K).
  Qed.
  Lemma wp_bind_ro {X Y} (m : M X) (k : X -> M Y) s : ro m -> (forall x, m s = Ok (x, s) -> wp (k x) s) -> wp (bind m k) s.
  Proof.
    intros R C y s' H. apply bind_ok in H. destruct H as (x & s1 & H & K).
    pose proof (R _ _ _ H). subst s1. apply (C x H _ _ K).
  Qed.
  Lemma wp_bind_ret {X Y} (x : X) (k : X -> M Y) s : wp (k x) s -> wp (bind (ret x) k) s.
  Proof. intros H. exact H. Qed.
  Lemma wp_bind_tget {Y} t (k : ktri -> M Y) s : within s -> P t -> (forall x, inside x -> wp (k x) s) -> wp (bind (tget t) k) s.
  Proof. intros [W _] T C. apply (C (ts s t)). intros sd n. apply W, T. Qed.
  Lemma wp_assoc {X Y Z} (m : M X) (f : X -> M Y) (k : Y -> M Z) s :
    wp (bind m (fun x => bind (f x) k)) s -> wp (bind (bind m f) k) s.
  Proof. unfold wp, okp, bind. destruct (m s) as [[x s1]|]; auto. Qed.
  Lemma wfine_ro {X} (m : M X) : ro m -> wfine m.
  Proof. intros R s W x s' H. rewrite (R _ _ _ H). exact W. Qed.
  Lemma wfine_bind {X Y} (m : M X) (k : X -> M Y) : wfine m -> (forall x, wfine (k x)) -> wfine (bind m k).
  Proof. intros H K s W. apply wp_bind; auto. Qed.
  Lemma wfine_whenM b m : wfine m -> wfine (whenM b m).
  Proof. destruct b; auto. intros _. apply (wfine_ro (ret tt)). auto with ro. Qed.
  Lemma wfine_forM {X} (l : list X) f : (forall x, wfine (f x)) -> wfine (forM l f).
  Proof. intros H. induction l; simpl; [apply wfine_ro; auto with ro|apply wfine_bind; auto]. Qed.

  (** operations that change neither triangles nor events *)
  Lemma within_same s s' : ts s' = ts s -> es s' = es s -> ne s' = ne s -> queue s' = queue s -> immediate s' = immediate s ->
    within s -> within s'.
  Proof. intros H1 H2 H3 H4 H5 [W1 W2]. unfold within. rewrite H1, H2, H3, H4, H5. auto. Qed.
  Lemma wfine_stop V step now pos : wfine (stop_and_register V step now pos).
  Proof. intros s W n s' H. apply stop_same in H. destruct H as (? & ? & ? & ? & ?). apply (within_same s); auto. Qed.
  Lemma wfine_stop_at v n now : wfine (stop_at v n now).
  Proof. intros s W u s' H. apply stop_at_spec in H. destruct H as [_ ->]. exact W. Qed.
  Lemma wfine_newv ul ur now n info int : wfine (compute_new_kvertex ul ur now n info int).
  Proof. intros s W u s' H. apply newv_spec in H. destruct H as (kv & _ & _ & ->). exact W. Qed.
  Lemma wfine_wf v l r : wfine (set_wf v l r).
  Proof. intros s W u s' H. apply modv_spec in H. destruct H as [_ ->]. exact W. Qed.
  Lemma wfine_addv v : wfine (add_vertex v).
  Proof. intros s W u s' H. injection H as _ <-. exact W. Qed.
  Lemma wfine_circ l r now : wfine (update_circ l r now).
  Proof. intros s W u s' H. apply circ_spec in H. destruct H as (f & -> & _). exact W. Qed.

  (** changes of a triangle *)
  Lemma wfine_modt t f : (forall x, inside x -> inside (f x)) \/ (forall x, P t -> inside (f x)) -> wfine (modt t f).
  Proof.
    intros F s [W1 W2] u s' H. apply modt_spec in H. subst s'. split; [|exact W2]. cbn.
    intros w sd n Pw. destruct (upd_case (ts s) t (f (ts s t)) w) as [[<- ->]|[_ ->]]; [|apply W1, Pw].
    destruct F as [F|F]; [apply F; intros sd' m; apply W1, Pw|apply F, Pw].
  Qed.
  Lemma wfine_tstops t now : wfine (set_tstops t now).
  Proof. apply wfine_modt. left. intros x H. exact H. Qed.
  Lemma wfine_set_tv t sd v : wfine (set_tv t sd v).
  Proof. apply wfine_modt. left. intros x H. exact H. Qed.
  Lemma wfine_set_tvs t v : wfine (set_tvs t v).
  Proof. apply wfine_modt. left. intros x H. exact H. Qed.
  Lemma wfine_set_tns t z : (forall sd, into (get3 z sd)) -> wfine (set_tns t z).
  Proof. intros H. apply wfine_modt. right. intros x _ sd n. apply H. Qed.
  Lemma wfine_set_tn t sd o : into o -> wfine (set_tn t sd o).
  Proof.
    intros H. apply wfine_modt. left. intros x K i n. cbn. rewrite get3_set3. destruct (side_eqb sd i); [apply H|apply K].
  Qed.
  Lemma wfine_relink n t o : into o -> wfine (relink n t o).
  Proof.
    intros H. unfold relink. apply wfine_bind; [apply wfine_ro; auto with ro|intros y].
    apply wfine_bind; [apply wfine_ro; auto with ro|intros i]. apply wfine_set_tn, H.
  Qed.

  (** events *)
  Lemma within_forget s o : within s -> within (forget s o).
  Proof.
    intros [W1 W2]. destruct o as [e|]; [|split; auto]. split; [exact W1|]. cbn. intros x Hx. apply W2.
    apply in_app_iff in Hx. apply in_app_iff. destruct Hx as [Hx|Hx].
    - left. eapply drop1_In; [apply q_discard_drop|exact Hx].
    - right. eapply drop1_In; [apply remove1_drop|exact Hx].
  Qed.
  Lemma wfine_forget e : wfine (bind (queue_discard (Some e)) (fun _ => immediate_remove (Some e))).
  Proof. intros s W u s' H. apply forget_spec in H. subst s'. apply (within_forget s (Some e)), W. Qed.
  Lemma wfine_riq t now : P t -> wfine (replace_in_queue t now).
  Proof.
    intros T s W u s' H. apply riq_spec in H. cbv zeta in H. apply (within_forget s (t_event (ts s t))) in W.
    destruct (forget_fields s (t_event (ts s t))) as (_ & F2 & _).
    set (s1 := forget s (t_event (ts s t))) in *. destruct H as [[_ ->]|(e & Hc & ->)]; [exact W|].
    apply collapse_event_tri in Hc. rewrite <- F2. destruct W as [W1 W2]. split; cbn.
    - intros w sd n Pw. match goal with |- context [upd ?a ?b ?c w] => destruct (upd_case a b c w) as [[<- ->]|[_ ->]] end; apply W1, Pw.
    - intros x Hx.
      assert (C : x = ne s1 \/ In x (queue s1 ++ immediate s1)).
      { apply in_app_iff in Hx. rewrite in_app_iff. destruct Hx as [Hx|Hx]; [apply q_add_In in Hx; cbn in Hx; tauto|auto]. }
      destruct C as [->|C]; [rewrite upd_same, Hc; split; [lia|exact T]|].
      destruct (W2 x C) as [L Px]. rewrite upd_other by lia. split; [lia|exact Px].
  Qed.
  Lemma wfine_sched t now : P t -> wfine (schedule_immediately t now).
  Proof.
    intros T s W u s' H. apply sched_spec in H. cbv zeta in H.
    destruct H as (e & He & _ & _ & _ & _ & _ & _ & _ & Hne & _ & _ & _ & _ & Hq & Hi & Ht & Hes).
    pose proof (within_forget s (t_event (ts s t)) W) as [W1 W2]. 
    destruct (forget_fields s (t_event (ts s t))) as (F1 & F2 & F3 & F4).
    set (s1 := forget s (t_event (ts s t))) in *. apply new_edge_tri in He. destruct W as [W _]. split.
    - intros w sd n Pw. rewrite Ht. destruct (upd_case (ts s) t (tri_event (ts s t) (Some (ne s))) w) as [[<- ->]|[_ ->]]; apply W, Pw.
    - intros x Hx. rewrite Hq, Hi, app_assoc in Hx. apply in_app_iff in Hx. rewrite Hne, Hes. destruct Hx as [Hx|[<-|[]]].
      + destruct (W2 x Hx) as [L Px]. rewrite F2 in L. rewrite upd_other by lia. rewrite F1 in Px. split; [lia|exact Px].
      + rewrite upd_same. split; [lia|]. unfold OpSpec.sched_event. destruct (Nat.eqb _ 3); cbn; rewrite He; exact T.
  Qed.

  Lemma into_None : into None. Proof. intros n H. discriminate. Qed.
  Lemma into_Some n : P n -> into (Some n). Proof. intros H m K. injection K as <-. exact H. Qed.
  Lemma into_inside x sd : inside x -> into (get3 (t_n x) sd).
  Proof. intros H n. apply H. Qed.

  Lemma wfine_unlink o t now : into o -> wfine (unlink_and_schedule o t now).
  Proof.
    intros H. unfold unlink_and_schedule. destruct o as [n|]; [|apply wfine_ro; auto with ro].
    apply wfine_bind; [apply wfine_relink, into_None|intros _].
    apply wfine_bind; [apply wfine_ro; auto with ro|intros y]. apply wfine_whenM, wfine_sched, H. reflexivity.
  Qed.

  (** the fan found by replace_kvertex consists of such triangles *)
  Lemma walk_within fuel : forall t v newv now d s, within s -> into t ->
    okp (replace_walk fuel t v newv now d) s (fun fan s' => within s' /\ Forall P fan).
  Proof.
    induction fuel as [|fuel IH]; intros t v newv now d s W T fan s' H.
    { cbn [replace_walk] in H. destruct t; [discriminate|]. injection H as <- <-. auto. }
    cbn [replace_walk] in H. destruct t as [t|]; [|injection H as <- <-; auto]. specialize (T t eq_refl).
    apply bind_ok in H. destruct H as (x & s1 & H1 & H). apply gets_ok in H1. destruct H1 as [-> ->].
    apply bind_ok in H. destruct H as (sd & s1 & H1 & H). apply ro_back in H1; [|auto with ro]. subst s1.
    apply bind_ok in H. destruct H as (y & s1 & H1 & H). apply wfine_set_tv in H1; [|exact W].
    apply bind_ok in H. destruct H as (fast & s2 & H2 & H). apply ro_back in H2; [|auto with ro]. subst s2.
    apply bind_ok in H. destruct H as (z & s2 & H2 & H).
    assert (W2 : within s2).
    { destruct (if fast then _ else None) as [e|]; [apply (wfine_forget e s1 H1 _ _ H2)|apply (wfine_riq t now T s1 H1 _ _ H2)]. }
    apply bind_ok in H. destruct H as (x2 & s3 & H3 & H). apply gets_ok in H3. destruct H3 as [-> ->].
    apply bind_ok in H. destruct H as (fan' & s3 & H3 & H). apply ret_ok in H. destruct H as [-> ->].
    apply IH in H3; [|exact W2|]. 
    - destruct H3 as [H3 H4]. auto.
    - intros n. apply (proj1 W2), T.
  Qed.
  Lemma wp_bind_replace {Y} t v newv now d (k : list nat -> M Y) s : within s -> P t ->
    (forall fan s', within s' -> Forall P fan -> wp (k fan) s') -> wp (bind (replace_kvertex t v newv now d) k) s.
  Proof.
    intros W T C y s' H. apply bind_ok in H. destruct H as (fan & s1 & H & K). unfold replace_kvertex in H.
    apply bind_ok in H. destruct H as (n & s2 & H2 & H). apply gets_ok in H2. destruct H2 as [-> ->].
    apply walk_within in H; [|exact W|apply into_Some, T]. destruct H as [H1 H2]. apply (C fan s1 H1 H2 _ _ K).
  Qed.

  (** ** The handlers *)
  Ltac intook := first [apply into_None | apply into_inside; assumption | apply into_Some; solve [eauto]
    | match goal with K : get3 (t_n ?x) ?sd = ?o, H : inside ?x |- into ?o => rewrite <- K; apply into_inside; exact H end].
  Ltac pok := first [assumption | match goal with H : inside ?x, K : get3 (t_n ?x) ?sd = Some ?n |- P ?n => exact (H sd n K) end].
  Ltac basic := first [apply wfine_stop|apply wfine_stop_at|apply wfine_newv|apply wfine_wf|apply wfine_addv|apply wfine_circ
    |apply wfine_tstops|apply wfine_unlink; intook|apply wfine_sched; pok|apply wfine_riq; pok|apply wfine_relink; intook
    |apply wfine_set_tn; intook|apply wfine_set_tvs].
  Ltac wstep := lazymatch goal with
    | |- wp (bind _ _) _ => first
      [ lazymatch goal with |- wp (bind (ret _) _) _ => apply wp_bind_ret end
      | apply wp_bind_tget; [assumption|pok|intros]
      | apply wp_bind_ro; [solve [auto with ro]|let x := fresh "x" in let K := fresh "K" in intros x K; clear K]
      | apply wp_bind_replace; [assumption|pok|intros]
      | apply wp_bind; [assumption|basic|intros] ]
    | |- wp _ ?s => first [ match goal with W : within s |- _ => solve [apply (fun R => wfine_ro _ R s W); auto with ro] end
      | match goal with W : within s |- _ => refine ((_ : wfine _) s W); basic end ]
    end.
  Ltac wstart := let s := fresh "s" in intros s ?.
  Ltac wlast lem := match goal with W : within ?s |- wp _ ?s => refine ((_ : wfine _) s W); lem end.

  Lemma wfine_even t e p now step : P t -> wfine (handle_parallel_edge_event_even_legs t e p now step).
  Proof. intros T. wstart. unfold handle_parallel_edge_event_even_legs. repeat wstep. Qed.

  Lemma wfine_3tri t e p now step : P t -> wfine (handle_parallel_edge_event_3tri t e p now step).
  Proof.
    intros T. wstart. unfold handle_parallel_edge_event_3tri. cbv zeta. do 12 wstep.
    match goal with |- context [if ?b then _ else _] => destruct b end.
    all: apply wp_bind; [assumption|apply wfine_bind; [apply wfine_stop|intros; apply wfine_bind; [apply wfine_stop_at|intros; apply wfine_ro; auto with ro]]|intros].
    all: repeat wstep.
    all: wlast ltac:(apply wfine_ro; apply ro_forM; intros; apply ro_bind; auto with ro).
  Qed.

  Definition fan_within (rec : list nat -> nat -> num -> turn -> Z -> M unit) : Prop :=
    forall fan v now d step, Forall P fan -> wfine (rec fan v now d step).
  Lemma wfine_fan_of rec fa fb kv now step : fan_within rec -> Forall P fa -> Forall P fb ->
    wfine (parallel_fan_of rec fa fb kv now step).
  Proof.
    intros R Fa Fb. destruct fa, fb; cbn [parallel_fan_of]; try (apply R; assumption); [apply wfine_ro; auto with ro|].
    apply R. apply Forall_app. split; [|exact Fb]. apply Forall_rev, Fa.
  Qed.

  Lemma wfine_shorter rec t e p now step : fan_within rec -> P t ->
    wfine (handle_parallel_edge_event_shorter_leg rec t e p now step).
  Proof.
    intros R T. wstart. unfold handle_parallel_edge_event_shorter_leg. cbv zeta. do 8 wstep.
    match goal with |- wp (bind (if ?b then _ else _) _) _ => destruct b end.
    all: [> apply wp_assoc|].
    all: repeat first [wstep | match goal with
      | |- wp (bind (match ?o with Some _ => _ | None => _ end) _) _ => destruct o eqn:?
      | |- wp (bind (bind _ _) _) _ => apply wp_assoc end].
    all: wlast ltac:(apply wfine_whenM, wfine_fan_of; auto).
  Qed.

  Lemma wfine_link_around n sd t : P t -> wfine (link_around n sd t).
  Proof. intros T. unfold link_around. destruct n; [destruct sd|]; [apply wfine_set_tn, into_Some, T|apply wfine_ro; auto with ro..]. Qed.
  Lemma wfine_flip t0 s0 t1 s1 : P t0 -> P t1 -> wfine (flip t0 s0 t1 s1).
  Proof.
    intros T0 T1. wstart. unfold flip. cbv zeta. do 10 wstep.
    do 4 (apply wp_bind; [assumption|apply wfine_link_around; assumption|intros]).
    do 3 (apply wp_bind; [assumption|first [apply wfine_set_tvs|apply wfine_set_tns; intros []; cbn; first [intook|apply into_Some; assumption]]|intros]).
    wlast ltac:(apply wfine_set_tns; intros []; cbn; first [intook|apply into_Some; assumption]).
  Qed.

  Lemma wfine_even_at t p now step : P t -> wfine (even_legs_at t p now step).
  Proof. intros T. wstart. unfold even_legs_at. repeat wstep. wlast ltac:(apply wfine_even; exact T). Qed.
  Lemma wfine_flip_then t0 t1 p now step : P t0 -> P t1 -> wfine (flip_then_even_legs t0 t1 p now step).
  Proof.
    intros T0 T1. wstart. unfold flip_then_even_legs. do 4 wstep.
    apply wp_bind; [assumption|apply wfine_flip; assumption|intros].
    do 2 (apply wp_bind_ro; [auto with ro|intros]).
    apply wp_bind; auto; [apply wfine_whenM, wfine_even_at, T0|intros]. wlast ltac:(apply wfine_whenM, wfine_even_at, T1).
  Qed.
  Lemma wfine_isolated t p now step : P t -> wfine (parallel_fan_isolated t p now step).
  Proof.
    intros T. wstart. unfold parallel_fan_isolated. do 3 wstep. cbv zeta.
    match goal with |- context [where3 ?f ?z] => destruct (where3 f z) as [|sd [|sd2 r]] end.
    2: match goal with |- context [if ?b then _ else _] => destruct b end.
    all: wstep; try (wlast ltac:(apply wfine_even_at; exact T)).
    all: wstep; wlast ltac:(apply wfine_3tri; exact T).
  Qed.

  Lemma last_within (fan : list nat) t : P t -> Forall P fan -> P (last fan t).
  Proof.
    intros T F. induction fan as [|u r IH]; [exact T|]. inversion F; subst. destruct r; [assumption|]. apply IH; assumption.
  Qed.
  Lemma wfine_parallel_fan fuel : fan_within (handle_parallel_fan fuel).
  Proof.
    induction fuel as [|fuel IH]; intros fan p now d step F; simpl; [apply wfine_ro; auto with ro|].
    destruct fan as [|first rest]; [apply wfine_ro; auto with ro|].
    pose proof (last_within (first :: rest) first ltac:(inversion F; assumption) F) as LT.
    change (last (first :: rest) first) with (last (first :: rest) first) in LT.
    set (lst := last (first :: rest) first) in *.
    assert (FT : P first) by (inversion F; assumption).
    wstart. do 3 wstep.
    match goal with |- context [if Nat.eqb (tri_type ?x) 3 then _ else _] => destruct (Nat.eqb (tri_type x) 3) end.
    { wstep. wlast ltac:(apply wfine_isolated; exact FT). }
    wstep. destruct d; cbv iota beta.
    all: do 6 wstep.
    all: cbv zeta; repeat match goal with |- context [near_zero ?x] => destruct (near_zero x) end.
    all: try (wlast ltac:(apply wfine_shorter; [exact IH|assumption])).
    all: try (solve [wlast ltac:(apply wfine_ro; auto with ro)]).
    all: destruct rest as [|t1 [|t2 r]];
      [ wlast ltac:(apply wfine_bind; [apply wfine_even_at; assumption|intros; apply wfine_ro; auto with ro])
      | | wlast ltac:(apply wfine_ro; auto with ro) ].
    all: assert (FT1 : P t1) by (inversion F as [|? ? _ F']; inversion F'; assumption).
    all: wstep; match goal with |- wp (if ?b then _ else _) _ => destruct b end;
      [|wlast ltac:(apply wfine_flip_then; assumption)].
    all: wlast ltac:(repeat (apply wfine_bind; [first [apply wfine_even_at; assumption|apply wfine_ro; auto with ro]|intros]); apply wfine_ro; auto with ro).
  Qed.

  Lemma wfine_tiny fan kv now d : Forall P fan -> wfine (schedule_if_tiny fan kv now d).
  Proof.
    intros F. unfold schedule_if_tiny. apply Forall_rev in F. destruct (rev fan); [apply wfine_ro; auto with ro|].
    inversion F; subst. wstart. do 2 wstep. destruct (edge_segment _ (d _)). do 2 wstep.
    wlast ltac:(apply wfine_whenM, wfine_sched; assumption).
  Qed.

  Lemma wfine_edge evt step : P (ev_tri evt) -> wfine (handle_edge_event evt step).
  Proof.
    intros T. unfold handle_edge_event, handle_edge_event_with. destruct (ev_side evt) as [|e [|]]; try (solve [apply wfine_ro; auto with ro]).
    wstart. cbv zeta.
    repeat first [wstep | apply wp_bind; [assumption|apply wfine_tiny; assumption|intros]
      | match goal with
      | |- wp (bind (match ?o with Some _ => _ | None => _ end) _) _ => destruct o eqn:?
      | |- wp (bind (bind _ _) _) _ => apply wp_assoc end].
    all: wlast ltac:(apply wfine_whenM, wfine_fan_of; [apply wfine_parallel_fan|auto..]).
  Qed.
  Lemma wfine_schedule_neighbour t now sd : P t -> wfine (schedule_neighbour t now sd).
  Proof.
    intros T. unfold schedule_neighbour. wstart. wstep. destruct (get3 (t_n _) sd) eqn:?; [|wlast ltac:(apply wfine_ro; auto with ro)].
    wstep. match goal with |- context [whenM ?b _] => destruct b end; cbn [whenM]; repeat wstep.
  Qed.
  Lemma wfine_3sides evt step : P (ev_tri evt) -> wfine (handle_edge_event_3sides evt step).
  Proof.
    intros T. unfold handle_edge_event_3sides. wstart. do 3 wstep.
    apply wp_bind; auto; [apply wfine_forM; intros; apply wfine_schedule_neighbour; exact T|intros]. repeat wstep.
  Qed.
  Lemma wfine_1side evt step : P (ev_tri evt) -> wfine (handle_edge_event_1side evt step).
  Proof.
    intros T. unfold handle_edge_event_1side. destruct (ev_side evt) as [|e [|]]; try (solve [apply wfine_ro; auto with ro]).
    wstart. repeat wstep.
  Qed.
  Lemma wfine_flip_event evt : P (ev_tri evt) -> wfine (handle_flip_event evt).
  Proof.
    intros T. unfold handle_flip_event. destruct (ev_side evt) as [|e [|]]; try (solve [apply wfine_ro; auto with ro]).
    wstart. wstep. destruct (get3 (t_n _) e) eqn:?; [|wlast ltac:(apply wfine_ro; auto with ro)].
    assert (Pn : P n) by pok. do 2 wstep. apply wp_bind; [assumption|apply wfine_flip; assumption|intros]. repeat wstep.
  Qed.
  Lemma wfine_split evt step : P (ev_tri evt) -> wfine (handle_split_event evt step).
  Proof.
    intros T. unfold handle_split_event, handle_split_event_with. destruct (ev_side evt) as [|e [|]]; try (solve [apply wfine_ro; auto with ro]).
    wstart. cbv zeta.
    repeat first [wstep | match goal with
      | |- wp (match get3 (t_n ?x) ?sd with Some _ => _ | None => _ end) _ => destruct (get3 (t_n x) sd) eqn:?
      end].
    apply wp_bind; auto; [apply wfine_whenM, wfine_parallel_fan; assumption|intros]. repeat wstep.
    wlast ltac:(apply wfine_whenM, wfine_parallel_fan; assumption).
  Qed.

  Theorem event_within e step s s' : within s -> P (ev_tri (es s e)) -> handle_event e step s = Ok (tt, s') -> within s'.
  Proof.
    intros W T H. unfold handle_event in H.
    apply bind_ok in H. destruct H as (evt & s1 & H1 & H). apply gets_ok in H1. destruct H1 as [-> ->].
    apply bind_ok in H. destruct H as (x & s1 & H1 & H). apply gets_ok in H1. destruct H1 as [-> ->].
    destruct (is_some (t_stops _)). { apply ret_ok in H. destruct H as [_ ->]. exact W. }
    destruct (ev_tp (es s e)).
    - destruct (Nat.eqb _ 3); [eapply wfine_3sides; eauto|].
      destruct (_ && _)%bool; [eapply wfine_1side; eauto|].
      destruct (Nat.eqb _ 2); [discriminate|]. eapply wfine_edge; eauto.
    - eapply wfine_flip_event; eauto.
    - eapply wfine_split; eauto.
  Qed.

  (** ** Runs *)
  Lemma take_within now s e now' s1 : within s -> take_next now s = Ok ((e, now'), s1) -> within s1 /\ P (ev_tri (es s1 e)).
  Proof.
    intros [W1 W2] H. apply take_next_ok in H. destruct H as [(r & I & _ & ->)|(r & I & Q & _ & ->)].
    - split; [split; [exact W1|]|].
      + cbn. intros x Hx. apply W2. rewrite I. apply in_app_iff in Hx. apply in_app_iff. simpl. tauto.
      + cbn. apply W2. rewrite I. apply in_app_iff. simpl. auto.
    - split; [split; [exact W1|]|].
      + cbn. intros x Hx. apply W2. rewrite Q, I. simpl. right. exact Hx.
      + cbn. apply W2. rewrite Q. simpl. auto.
  Qed.
  Theorem run_within now0 tr0 s0 now tr s : within s0 -> steps now0 tr0 s0 now tr s -> within s.
  Proof.
    intros W0 H. induction H as [|now tr s e now' s1 s' R IH T H]; [exact W0|].
    destruct (take_within _ _ _ _ _ IH T) as [W T1]. eapply event_within; eauto.
  Qed.
  Lemma init_within : forall tris s u s', Forall P tris -> within s ->
    forM tris (fun t => bind (compute_collapse_time t n0 FindGt)
      (fun e => match e with Some e => queue_add e | None => ret tt end)) s = Ok (u, s') -> within s'.
  Proof.
    induction tris as [|t tris IH]; intros s u s' F W H; [injection H as _ <-; exact W|].
    cbn [forM] in H. apply bind_ok in H. destruct H as ([] & s1 & H & K). inversion F; subst.
    eapply IH; [eassumption| |exact K]. clear K. apply init_tri in H. destruct H as [[_ ->]|(e & He & ->)]; [exact W|].
    apply collapse_event_tri in He. destruct W as [W1 W2]. split; cbn.
    - intros w sd n Pw. match goal with |- context [upd ?a ?b ?c w] => destruct (upd_case a b c w) as [[<- ->]|[_ ->]] end; apply W1, Pw.
    - intros x Hx.
      assert (C : x = ne s \/ In x (queue s ++ immediate s)).
      { apply in_app_iff in Hx. rewrite in_app_iff. destruct Hx as [Hx|Hx]; [apply q_add_In in Hx; cbn in Hx; tauto|auto]. }
      destruct C as [->|C]; [rewrite upd_same, He; split; [lia|assumption]|].
      destruct (W2 x C) as [L Px]. rewrite upd_other by lia. split; [lia|exact Px].
  Qed.
End Within.
