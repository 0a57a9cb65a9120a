(** Theorems about the assertions of the event handlers (C96): where the rings of kinetic vertices fit the triangles, the handlers
    do the same with and without their assertions *)
From Coq Require Import Reals Lra.
From Verif Require Import Base Arith ArithQ ArithR Calc VectorOps Line2d Primitives Collapse CollapseProofs EventsLib
  FlipEvent ParallelEvent EdgeEvent SplitEvent EventLoop Check Pass OpSpec Order StopSpec RunBase RunTimed RunLoop
  Decent Total FanProofs TotalRun Mesh MeshEvents MeshEdge MeshRun Rings RingEdge RingSplit RingFlip EdgeHead
  RingSpec RingGone RingRun Current RingLeft Initialize StarProofs InitProofs InitState InitCirc InitMesh Main Scenario ScenarioRun
  Shared InitShared NoAssert NoAssertProofs NoAssertEvents
  Properties_basic Properties_total Properties_mesh Properties_effects Properties_init TriExample Properties_start
  Properties_rings InitRing Properties_ringstart Properties_output Properties_main.
Local Close Scope R_scope.
Local Close Scope Q_scope.
Local Open Scope nat_scope.

(** ** C96 *)
(** an event of a state whose rings fit: its triangle is of the skeleton, and no side that is left over touches it except where it is
    what the event is about.  Then handling it with the assertions of the handlers gives what handling it without them gives: the same
    state, or the same exception. *)
Theorem C96_event :
  forall (A : Arith) (E : Env A), (forall x : num, near_zero (nsub x x) = true) ->
  forall s e step, shaped s -> fitting s -> lined s ->
  (forall v, v < nv s -> k_inf (vs s v) = false ->
     is_some (k_stops (vs s v)) = is_some (k_stop_node (vs s v)) /\ k_start_node (vs s v) <> None) ->
  neqb (ev_time (es s e)) (ev_time (es s e)) = true ->
  regular s e -> (t_stops (ts s (ev_tri (es s e))) = None -> tidy s e /\ sited s e) ->
  handle_event e step s = handle_event_O e step s.
Proof. intros A E Z. exact (event_same Z). Qed.
Print Assumptions C96_event.

(** the whole loop, from a start whose rings fit: both loops end in the same state at the same time, or raise the same exception *)
Theorem C96_run :
  forall (A : Arith) (E : Env A), (forall x : num, near_zero (nsub x x) = true) ->
  OrdArith A -> (forall t u : nat, addr t = addr u -> t = u) ->
  forall s s0, fresh s -> shaped s -> started s s0 -> fitting s0 -> lined s0 ->
  (forall v, v < nv s0 -> k_inf (vs s0 v) = false -> k_start_node (vs s0 v) <> None) ->
  watched_run s0 -> forall guard, loop guard 0%Z n0 s0 = loop_O guard 0%Z n0 s0.
Proof.
  intros A E Z OA inj s s0 FR SH ST F0 L0 N0 W guard.
  destruct (init_timed OA inj _ _ FR ST) as (T0 & _).
  exact (loop_same Z OA inj s0 (proj1 T0) (started_shaped OA inj _ _ FR SH ST) F0 T0 L0 N0 W guard n0 [] s0 (reach_start _ _ _)).
Qed.
Print Assumptions C96_run.

(** the whole loop on the skeleton of a triangulation *)
Theorem C96_loop :
  forall (A : Arith) (E : Env A), (forall x : num, near_zero (nsub x x) = true) ->
  OrdArith A -> (forall t u : nat, addr t = addr u -> t = u) ->
  forall (d : dtriang) si io s0, triangulation d -> (io = true -> regions d) -> init_skeleton d = Ok si ->
  started (start_of io si) s0 -> watched_run s0 ->
  loop max_events 0%Z n0 s0 = loop_O max_events 0%Z n0 s0.
Proof.
  intros A E Z OA inj d si io s0 TG RG HI ST W.
  destruct (loop_start A E OA inj d si io s0 TG RG HI ST) as (FR & _ & R0 & SH0 & F0 & _ & _ & NV).
  destruct (init_timed OA inj _ _ FR ST) as (T0 & _ & _ & _ & VS & NV' & _).
  destruct (start_heap io si) as (P1 & _ & P3 & _).
  assert (L0 : lined s0).
  { intros v Hv. rewrite VS, P1. exact (sd_inf _ _ (init_shared d si HI (tg_stars_right d TG)) v). }
  assert (S0' : forall v, v < nv s0 -> k_inf (vs s0 v) = false -> k_start_node (vs s0 v) <> None).
  { intros v Hv I. rewrite VS, P1 in *. destruct (init_known d si HI) as [_ K]. rewrite NV in Hv. destruct (K v Hv) as [Q|Q]; [|congruence].
    destruct Q as (_ & _ & Q & _). destruct (k_start_node (vs si v)); [discriminate|discriminate Q]. }
  exact (loop_same Z OA inj s0 R0 SH0 F0 T0 L0 S0' W max_events n0 [] s0 (reach_start _ _ _)).
Qed.
Print Assumptions C96_loop.

(** exact arithmetic meets the condition on differences *)
Lemma RA_zero : forall x : @num RA, near_zero (nsub x x) = true.
Proof. intros x. apply C01_near_zero_exact. cbn. unfold Rminus. rewrite Rplus_opp_r. assert (0 < / 10 ^ 10)%R by (apply Rinv_0_lt_compat, pow_lt; lra). lra. Qed.
Lemma QA_zero : forall x : @num QA, near_zero (nsub x x) = true.
Proof.
  intros x. unfold near_zero. assert (Q : @neqb QA (@nsub QA x x) (@lit QA 0%Q) = true) by
    (apply Qeq_bool_iff; change (Qred (x - x) == 0)%Q; rewrite Qred_correct; ring).
  rewrite Q. reflexivity.
Qed.

(** *** Examples *)
Section DecideSited.
  Context {A : Arith} {E : Env A}.
  Definition sitedb (s : state) (e : nat) : bool :=
    let t := ev_tri (es s e) in
    match ev_tp (es s e), ev_side (es s e) with
    | Edge, l => (1 <=? length l) && (length l <=? 3)
    | Flip, [i] => is_some (link s t i)
    | Split, [i] => is_none (link s t i) && is_some (link s t (ccw i)) && is_some (link s t (cw i))
    | _, _ => false
    end.
  Lemma sitedb_ok s e : sitedb s e = true -> sited s e.
  Proof.
    unfold sitedb. intros H. constructor; intros T; rewrite T in H.
    - apply Bool.andb_true_iff in H. destruct H as [H1 H2]. apply Nat.leb_le in H1, H2. lia.
    - destruct (ev_side (es s e)) as [|i [|]]; try discriminate. exists i. split; [reflexivity|].
      destruct (link s _ i); [discriminate|discriminate H].
    - destruct (ev_side (es s e)) as [|i [|]]; try discriminate. exists i. split; [reflexivity|].
      destruct (link s _ i), (link s _ (ccw i)), (link s _ (cw i)); try discriminate H. repeat split; discriminate.
  Qed.
  Definition linedb (s : state) : bool :=
    forallb (fun v => if k_inf (vs s v) then is_none (k_ul (vs s v)) && is_none (k_ur (vs s v))
                      else is_some (k_ul (vs s v)) && is_some (k_ur (vs s v)) && is_some (k_start_node (vs s v))) (seq 0 (nv s)).
  Lemma linedb_ok s : linedb s = true -> lined s /\ forall v, v < nv s -> k_inf (vs s v) = false -> k_start_node (vs s v) <> None.
  Proof.
    unfold linedb. rewrite forallb_forall. intros H. split; intros v Hv.
    - specialize (H v ltac:(apply in_seq; lia)). destruct (k_inf (vs s v)); rewrite ?Bool.andb_true_iff in H.
      + destruct H as [H1 H2]. destruct (k_ul (vs s v)), (k_ur (vs s v)); try discriminate. auto.
      + destruct H as [[H1 H2] _]. destruct (k_ul (vs s v)), (k_ur (vs s v)); try discriminate. split; discriminate.
    - intros I. specialize (H v ltac:(apply in_seq; lia)). rewrite I, !Bool.andb_true_iff in H. destruct H as [_ H].
      destruct (k_start_node (vs s v)); [discriminate|discriminate H].
  Qed.
End DecideSited.
Lemma go_prefix : forall k m now tr s x, go (k + m) now tr s = Ok x -> exists y, go k now tr s = Ok y.
Proof.
  induction k as [|k IH]; intros m now tr s x H; [eexists; reflexivity|]. cbn [go Nat.add] in *.
  destruct (take_next now s) as [[[e n1] s1]|]; [|discriminate].
  destruct (handle_event e _ s1) as [[[] s2]|]; [|discriminate]. eapply IH, H.
Qed.
Definition watch_at (s0 : state (A := QA)) (j : nat) : bool :=
  match go j 0%Q [] s0 with
  | Ok (now, _, s1) => forallb (fun u => negb (activeb s1 u) || distinctb s1 u) (sk_triangles s1) && slowb s1 &&
      match take_next now s1 with
      | Ok ((e, _), s2) => regularb s2 e && (is_some (t_stops (ts s2 (ev_tri (es s2 e)))) || (tidyb s2 e && sitedb s2 e))
      | Err _ => true end
  | Err _ => true
  end.
(** the loop started in [s0] ends after [k] events, or the next event raises *)
Definition watchb (k : nat) (s0 : state (A := QA)) : bool :=
  forallb (watch_at s0) (seq 0 (S k)) && match go (S k) 0%Q [] s0 with Ok _ => false | Err _ => true end.
Lemma watchb_ok k s0 : watchb k s0 = true -> watched_run s0.
Proof.
  unfold watchb. rewrite Bool.andb_true_iff, forallb_forall. intros [H N].
  assert (K : forall now tr s, reach s0 now tr s ->
    forallb (fun u => negb (activeb s u) || distinctb s u) (sk_triangles s) && slowb s &&
    match take_next now s with
    | Ok ((e, _), s2) => regularb s2 e && (is_some (t_stops (ts s2 (ev_tri (es s2 e)))) || (tidyb s2 e && sitedb s2 e))
    | Err _ => true end = true).
  { intros now tr s R. pose proof (reach_go _ _ _ _ R) as G. destruct (Nat.le_gt_cases (length tr) k) as [L|L].
    - specialize (H (length tr) ltac:(apply in_seq; lia)). unfold watch_at in H. rewrite G in H. exact H.
    - replace (length tr) with (S k + (length tr - S k)) in G by lia. apply go_prefix in G. destruct G as [y G]. rewrite G in N. discriminate. }
  constructor.
  - intros now1 tr1 s1 e now2 s2 R T. specialize (K _ _ _ R). rewrite T, !Bool.andb_true_iff in K. destruct K as [_ [K1 K2]].
    split; [apply regularb_ok, K1|]. intros Q. rewrite Q in K2. cbn [is_some is_none negb orb] in K2.
    apply Bool.andb_true_iff in K2. split; [apply tidyb_ok, K2|apply sitedb_ok, K2].
  - intros now1 tr1 s1 R u Au. specialize (K _ _ _ R). rewrite !Bool.andb_true_iff in K. destruct K as [[K _] _].
    rewrite forallb_forall in K. specialize (K u (proj1 Au)). apply activeb_ok in Au. rewrite Au in K. apply distinctb_ok, K.
  - intros now1 tr1 s1 R v Hv. specialize (K _ _ _ R). rewrite !Bool.andb_true_iff in K. destruct K as [[_ K] _].
    unfold slowb in K. rewrite forallb_forall in K. specialize (K v ltac:(apply in_seq; lia)).
    destruct (k_inf_fast (vs s1 v)); [discriminate|reflexivity].
Qed.
Definition same_run (k : nat) (s : state (A := QA)) (P : Q -> state (A := QA) -> bool) : bool :=
  match init_event_list s with
  | Ok (_, s1) => let s0 := with_qi s1 (queue s1) [] in
      fittingb s0 && linedb s0 && watchb k s0 && match loop_O 10 0%Z 0%Q s0 with Ok (now, s') => P now s' | Err _ => false end
  | Err _ => false
  end.
Lemma same_run_ok k s P : fresh s -> shaped s -> same_run k s P = true ->
  exists s0 now s', started s s0 /\ watched_run s0 /\ loop 10 0%Z 0%Q s0 = Ok (now, s') /\ P now s' = true.
Proof.
  intros FR SH. unfold same_run. destruct (init_event_list s) as [[[] s1]|] eqn:I; [|discriminate]. cbv zeta.
  set (s0 := with_qi s1 (queue s1) []). rewrite !Bool.andb_true_iff. intros [[[H1 H2] H3] H4].
  assert (ST : started s s0) by (exists s1; auto). apply linedb_ok in H2. destruct H2 as [L0 N0]. apply watchb_ok in H3.
  pose proof (C96_run QA QE QA_zero QA_ord QE_addr s s0 FR SH ST (fittingb_ok _ H1) L0 N0 H3 10) as EQ.
  change (@n0 QA) with 0%Q in EQ. rewrite <- EQ in H4. destruct (loop 10 0%Z 0%Q s0) as [[now s']|] eqn:L; [|discriminate].
  exists s0, now, s'. auto.
Qed.
(** the hourglass, whose middle side is ended from both sides, the polygon with a notch, which is split, the square, where an event
    ends all three sides, and the hexagon, where a flip comes first *)
Example C96_case_hour : exists s0 now s', started hour s0 /\ watched_run s0 /\ loop 10 0%Z 0%Q s0 = Ok (now, s') /\
  forallb (fun t => is_some (t_stops (ts s' t))) (sk_triangles s') && (4 <=? length (sk_nodes s')) = true.
Proof. apply (same_run_ok 4 hour _ hour_fresh hour_shaped). vm_compute. reflexivity. Qed.
Example C96_case_notch : exists s0 now s', started notch s0 /\ watched_run s0 /\ loop 10 0%Z 0%Q s0 = Ok (now, s') /\
  forallb (fun t => is_some (t_stops (ts s' t))) (sk_triangles s') = true.
Proof. apply (same_run_ok 4 notch _ notch_fresh notch_shaped). vm_compute. reflexivity. Qed.
Example C96_case_square : exists s0 now s', started square s0 /\ watched_run s0 /\ loop 10 0%Z 0%Q s0 = Ok (now, s') /\
  forallb (fun t => is_some (t_stops (ts s' t))) (sk_triangles s') = true.
Proof. apply (same_run_ok 2 square _ square_fresh square_shaped). vm_compute. reflexivity. Qed.
(** the first event of the hexagon is a flip *)
Definition first_event (s : state (A := QA)) (P : nat -> state (A := QA) -> bool) : bool :=
  match init_event_list s with
  | Ok (_, s1) => match take_next 0%Q (with_qi s1 (queue s1) []) with Ok ((e, _), s2) => P e s2 | Err _ => false end
  | Err _ => false
  end.
Example C96_case_flip :
  first_event ring6 (fun e s => match ev_tp (es s e) with Flip => true | _ => false end &&
    fittingb s && linedb s && regularb s e && tidyb s e && sitedb s e &&
    match handle_event e 1%Z s with Ok (_, s') => (corner s 0 S2 =? 2) && (corner s' 0 S2 =? 3) | Err _ => false end &&
    match handle_event_O e 1%Z s with Ok (_, s') => (corner s 0 S2 =? 2) && (corner s' 0 S2 =? 3) | Err _ => false end) = true.
Proof. vm_compute. reflexivity. Qed.
(** where the ring is broken an assertion fails, and without the assertions the event is handled *)
Example C96_case_broken :
  first_event quad (fun e s =>
    let s := with_vs s (fun v => if v =? 3 then lnk (vs s 3) 2 1 else vs s v) in
    regularb s e && tidyb s e && sitedb s e && negb (fittingb s) &&
    match handle_event e 1%Z s with Err AssertionError => true | _ => false end &&
    match handle_event_O e 1%Z s with Ok _ => true | Err _ => false end) = true.
Proof. vm_compute. reflexivity. Qed.
