(** The triangulation through the handling of infinitely fast vertices (C75) *)
From Coq Require Import QArith.
From Verif Require Import Base Arith ArithQ Calc VectorOps Line2d Primitives Collapse CollapseProofs EventsLib FlipEvent ParallelEvent
  EdgeEvent SplitEvent EventLoop Pass OpSpec Order StopSpec RunBase RunTimed RunLoop Total FanProofs TotalRun Mesh MeshEvents MeshEdge MeshRun
  MeshFast ScenarioRun Properties_loop Properties_total Properties_effects Properties_mesh Properties_fast
  Initialize StarProofs InitProofs InitState InitCirc Main Properties_init InitMesh TriExample Properties_main Properties_start.
Local Open Scope nat_scope.

(** ** The fan of an infinitely fast vertex *)
(** The triangles around an infinitely fast vertex, from one wavefront to the other, are
    handled, whatever happens: legs collapse one after the other, triangles vanish,
    the diagonal of the last two is flipped.  The remaining triangles are linked as before,
    if those met on the way are [proper] (three different corners, and no two neighbours
    with the same corners).  A triangle that stops was active, and stops now. *)
Theorem C75_fan :
  forall (A : Arith) (E : Env A) fuel fan v now d step s s',
  registered s -> (forall u i, corner s u i < nv s) -> linked (active s) s ->
  full_fan s v (turn_fn d) fan -> (forall u, In u fan -> active s u) ->
  (forall v1 s1, legs now step v s v1 s1 -> proper s1) ->
  handle_parallel_fan fuel fan v now d step s = Ok (tt, s') ->
  linked (active s') s' /\
  (forall u, t_stops (ts s' u) = t_stops (ts s u) \/ (active s u /\ t_stops (ts s' u) = Some now)).
Proof. intros A E. apply fan_mesh. Qed.
Print Assumptions C75_fan.

(** ** One event *)
Theorem C75_event :
  forall (A : Arith) (E : Env A) s e step s',
  registered s -> shaped s -> linked (active s) s -> steady s e step -> handle_event e step s = Ok (tt, s') ->
  linked (active s') s' /\
  (forall u, t_stops (ts s' u) = t_stops (ts s u) \/ (active s u /\ t_stops (ts s' u) = Some (ev_time (es s e)))).
Proof. intros A E. apply event_fast_mesh. Qed.
Print Assumptions C75_event.

(** ** Runs of any length, whether or not there are infinitely fast vertices *)
Theorem C75_run :
  forall (A : Arith) (E : Env A) s0 now tr s,
  registered s0 -> shaped s0 -> linked (active s0) s0 -> reach s0 now tr s ->
  (forall now1 tr1 s1 e now2 s2, reach s0 now1 tr1 s1 -> length tr1 < length tr ->
     take_next now1 s1 = Ok ((e, now2), s2) -> steady s2 e (Z.of_nat (S (length tr1)))) ->
  linked (active s) s.
Proof. intros A E. apply run_fast_mesh. Qed.
Print Assumptions C75_run.

(** from the triangulation on *)
Theorem C75_runs :
  forall (A : Arith) (E : Env A), OrdArith A -> (forall t u : nat, addr t = addr u -> t = u) ->
  forall (d : dtriang) s0 io s1 now tr s,
  triangulation d -> (io = true -> regions d) -> init_skeleton d = Ok s0 ->
  started (start_of io s0) s1 -> reach s1 now tr s ->
  (forall now1 tr1 s2 e now2 s3, reach s1 now1 tr1 s2 -> length tr1 < length tr ->
     take_next now1 s2 = Ok ((e, now2), s3) -> steady s3 e (Z.of_nat (S (length tr1)))) ->
  linked (active s) s.
Proof.
  intros A E OA inj d s0 io s1 now tr s TG RG HI ST RE RU.
  destruct (C64_start A E d s0 io TG RG HI) as [L _]. set (st := start_of io s0) in *.
  assert (F : fresh st) by (apply start_fresh, (init_fresh d s0 HI), (nleb_refl OA)).
  assert (SH : shaped st) by (apply start_shaped, (init_shaped d s0 HI)).
  pose proof (started_shaped OA inj _ _ F SH ST) as SH1.
  destruct (init_timed OA inj _ _ F ST) as ((RG1 & _) & FO & _ & M & _ & NV & _).
  assert (L1 : linked (active s1) s1).
  { assert (AC : forall u, active s1 u <-> active st u).
    { intros u. unfold active. rewrite (fo_tris _ _ FO). destruct (M u) as (_ & _ & ->). tauto. }
    intros t i n Ht H. apply AC in Ht. rewrite (mesh_same_link st s1) in H by exact M.
    destruct (L t i n Ht H) as (Hn & j & J1 & J2). split; [apply AC, Hn|]. exists j.
    rewrite (mesh_same_link st s1) by exact M. split; [exact J1|].
    unfold shares. rewrite !(mesh_same_corner st s1) by exact M. exact J2. }
  apply (C75_run A E s1 now tr s RG1 SH1 L1 RE RU).
Qed.
Print Assumptions C75_runs.

(** ** Cases *)
Section Decide.
  Context {A : Arith} {E : Env A}.
  Definition properb (s : state) : bool :=
    forallb (fun u => negb (activeb s u) || (distinctb s u && oppositeb s u)) (sk_triangles s).
  Lemma properb_ok s : properb s = true -> proper s.
  Proof.
    unfold properb. rewrite forallb_forall. intros H u Hu. specialize (H u (proj1 Hu)). apply activeb_ok in Hu. rewrite Hu in H.
    cbn [negb orb] in H. apply Bool.andb_true_iff in H. destruct H as [H1 H2]. split; [apply distinctb_ok, H1|apply oppositeb_ok, H2].
  Qed.
  (** all sequences of at most [k] legs *)
  Fixpoint legsb (k : nat) (now : num) (step : Z) (v : nat) (s : state) : bool :=
    properb s &&
    match k with
    | 0 => false
    | S k => forallb (fun t => negb (activeb s t) || forallb (fun e => is_some (link s t e) ||
        match handle_parallel_edge_event_shorter_leg no_fans t e v now step s with
        | Ok (_, s1) => legsb k now step (nv s) s1
        | Err _ => true
        end) sides) (sk_triangles s)
    end.
  Lemma legsb_ok k now step v s : legsb k now step v s = true -> forall v1 s1, legs now step v s v1 s1 -> proper s1.
  Proof.
    revert v s. induction k as [|k IH]; intros v s H v1 s1 L; cbn [legsb] in H; apply Bool.andb_true_iff in H; destruct H as [H1 H2]; [discriminate|].
    destruct L as [v s|v s t e s2 v' s' At Ne K L]; [apply properb_ok, H1|].
    rewrite forallb_forall in H2. specialize (H2 t (proj1 At)). apply activeb_ok in At. rewrite At in H2. cbn [negb orb] in H2.
    rewrite forallb_forall in H2. specialize (H2 e (side_in e)). rewrite Ne in H2. cbn [is_some orb] in H2. rewrite K in H2.
    apply (IH _ _ H2 _ _ L).
  Qed.
  Definition newb (k : nat) (now : num) (step : Z) (s : state) (r : res (unit * state)) : bool :=
    match r with
    | Ok (_, s1) => forallb (fun v => negb (k_inf_fast (vs s1 v)) || legsb k now step v s1) (seq (nv s) (nv s1 - nv s))
    | Err _ => true
    end.
  Definition onceb (s : state) (r : res (unit * state)) : bool :=
    match r with
    | Ok (_, s1) => length (filter (fun v => k_inf_fast (vs s1 v)) (seq (nv s) (nv s1 - nv s))) <=? 1
    | Err _ => true
    end.
  Lemma onceb_ok s s1 v w : onceb s (Ok (tt, s1)) = true -> nv s <= v < w -> w < nv s1 ->
    k_inf_fast (vs s1 v) = true -> k_inf_fast (vs s1 w) = true -> False.
  Proof.
    unfold onceb. rewrite Nat.leb_le. intros H V W Fv Fw.
    assert (Iv : In v (filter (fun v => k_inf_fast (vs s1 v)) (seq (nv s) (nv s1 - nv s)))) by (apply filter_In; rewrite in_seq; split; [lia|exact Fv]).
    assert (Iw : In w (filter (fun v => k_inf_fast (vs s1 v)) (seq (nv s) (nv s1 - nv s)))) by (apply filter_In; rewrite in_seq; split; [lia|exact Fw]).
    destruct (filter _ _) as [|a [|b l]]; cbn in *; try lia; intuition lia.
  Qed.
  Definition steadyb (k : nat) (s : state) (e : nat) (step : Z) : bool :=
    regularb s e &&
    match ev_tp (es s e) with
    | Edge => newb k (ev_time (es s e)) step s (handle_edge_event_with no_fans (es s e) step s)
    | Flip => true
    | Split => newb k (ev_time (es s e)) step s (handle_split_event_with no_fans (es s e) step s) &&
               onceb s (handle_split_event_with no_fans (es s e) step s)
    end.
  Lemma newb_ok k now step s s1 v v1 s2 : newb k now step s (Ok (tt, s1)) = true -> nv s <= v < nv s1 ->
    k_inf_fast (vs s1 v) = true -> legs now step v s1 v1 s2 -> proper s2.
  Proof.
    unfold newb. rewrite forallb_forall. intros H V F L. specialize (H v). rewrite in_seq in H. specialize (H ltac:(lia)).
    rewrite F in H. cbn [negb orb] in H. apply (legsb_ok _ _ _ _ _ H _ _ L).
  Qed.
  Lemma steadyb_ok k s e step : steadyb k s e step = true -> steady s e step.
  Proof.
    unfold steadyb. rewrite Bool.andb_true_iff. intros [H1 H2]. apply regularb_ok in H1. destruct H1 as [R1 R2 R3 R4].
    constructor; auto.
    - intros TP s1 v v1 s2 K V F L. rewrite TP, K in H2. eapply newb_ok; eauto.
    - intros TP s1 v v1 s2 K V F L. rewrite TP, K in H2. apply Bool.andb_true_iff in H2. eapply newb_ok; [apply H2| | |]; eauto.
    - intros TP s1 v w K V W Fv Fw. rewrite TP, K in H2. apply Bool.andb_true_iff in H2. eapply onceb_ok; [apply H2| | | |]; eauto.
  Qed.
  Fixpoint is_fanb (s : state) (v : nat) (d : side -> side) (o : option nat) (l : list nat) : bool :=
    match o, l with
    | None, [] => true
    | Some w, x :: r => (w =? x) && existsb (fun k => (corner s w k =? v) && is_fanb s v d (link s w (d k)) r) sides
    | _, _ => false
    end.
  Lemma is_fanb_ok s v d l : forall o, is_fanb s v d o l = true -> is_fan s v d o l.
  Proof.
    induction l as [|x r IH]; intros [w|] H; cbn [is_fanb] in H; try discriminate; [constructor|].
    apply Bool.andb_true_iff in H. destruct H as [H1 H2]. apply Nat.eqb_eq in H1. subst x.
    apply existsb_exists in H2. destruct H2 as (k & _ & H2). apply Bool.andb_true_iff in H2. destruct H2 as [H2 H3].
    apply Nat.eqb_eq in H2. apply fan_step with k; [exact H2|apply IH, H3].
  Qed.
  Definition full_fanb (s : state) (v : nat) (d : side -> side) (fan : list nat) : bool :=
    match fan with
    | [] => false
    | f :: _ => is_fanb s v d (Some f) fan && forallb (fun k => negb (corner s f k =? v) || is_none (link s f (back d k))) sides
    end.
  Lemma full_fanb_ok s v d fan : full_fanb s v d fan = true -> full_fan s v d fan.
  Proof.
    destruct fan as [|f r]; [discriminate|]. unfold full_fanb, full_fan. rewrite Bool.andb_true_iff. intros [H1 H2].
    split; [apply is_fanb_ok, H1|]. intros k Hk. rewrite forallb_forall in H2. specialize (H2 k (side_in k)).
    rewrite Hk, Nat.eqb_refl in H2. cbn [negb orb] in H2. destruct (link s f (back d k)); [discriminate|reflexivity].
  Qed.
  Definition fan_check (k fuel : nat) (fan : list nat) (v : nat) (now : num) (d : ParallelEvent.turn) (step : Z) (s : state) (P : state -> bool) : bool :=
    full_fanb s v (turn_fn d) fan && linkedb s && legsb k now step v s && forallb (activeb s) fan &&
    match handle_parallel_fan fuel fan v now d step s with Ok (_, s') => P s' | Err _ => false end.
  Lemma fan_example k fuel fan v now d step s P : registered s -> (forall u i, corner s u i < nv s) ->
    fan_check k fuel fan v now d step s P = true ->
    exists s', handle_parallel_fan fuel fan v now d step s = Ok (tt, s') /\ linked (active s') s' /\ P s' = true.
  Proof.
    intros R C H. unfold fan_check in H. rewrite !Bool.andb_true_iff in H. destruct H as [[[[H1 H2] H3] H4] H5].
    destruct (handle_parallel_fan fuel fan v now d step s) as [[[] s']|] eqn:K; [|discriminate]. exists s'. split; [reflexivity|].
    split; [|exact H5]. apply (C75_fan A E fuel fan v now d step s s' R C (linkedb_ok _ H2) (full_fanb_ok _ _ _ _ H1)); auto.
    - intros u Hu. rewrite forallb_forall in H4. apply activeb_ok, H4, Hu.
    - apply (legsb_ok _ _ _ _ _ H3).
  Qed.
End Decide.

(** every event of the first [k] is steady *)
Definition steady_at (s0 : state (A := QA)) (j : nat) : bool :=
  match go j 0%Q [] s0 with
  | Ok (now, tr, s1) => match take_next now s1 with Ok ((e, _), s2) => steadyb 5 s2 e (Z.of_nat (S (length tr))) | Err _ => true end
  | Err _ => true
  end.
Lemma steady_run s0 k : forallb (steady_at s0) (seq 0 k) = true ->
  forall now1 tr1 s1 e now2 s2, reach s0 now1 tr1 s1 -> length tr1 < k ->
    take_next now1 s1 = Ok ((e, now2), s2) -> steady s2 e (Z.of_nat (S (length tr1))).
Proof.
  intros H now1 tr1 s1 e now2 s2 R L T. rewrite forallb_forall in H. specialize (H (length tr1)).
  rewrite in_seq in H. specialize (H ltac:(lia)). unfold steady_at in H.
  rewrite (reach_go _ _ _ _ R), T in H. apply (steadyb_ok 5), H.
Qed.
Lemma meshfast_example k s P : fresh s -> shaped s ->
  holds_k k s (fun _ _ s' => match init_event_list s with
     | Ok (_, s1) => linkedb (with_qi s1 (queue s1) []) && forallb (steady_at (with_qi s1 (queue s1) [])) (seq 0 k) && P s'
     | Err _ => false end) = true ->
  exists s0 now tr s', started s s0 /\ reach s0 now tr s' /\ length tr = k /\ linked (active s') s' /\ P s' = true.
Proof.
  intros F SH H. apply example_k in H. destruct H as (s0 & now & tr & s' & S & R & L & H).
  exists s0, now, tr, s'. split; [exact S|]. split; [exact R|]. split; [exact L|].
  pose proof S as (s1 & I & ->). rewrite I in H. rewrite !Bool.andb_true_iff in H. destruct H as [[H1 H2] H3].
  destruct (init_timed QA_ord QE_addr _ _ F S) as ((RG & _) & _). split; [|exact H3].
  apply (C75_run QA QE _ now tr s' RG (started_shaped QA_ord QE_addr _ _ F SH S) (linkedb_ok _ H1) R).
  rewrite L. apply steady_run, H2.
Qed.

(** a rectangle: the vertex made at the first event is infinitely fast; and a rectangle with
    a vertex in the middle of a side, where two infinitely fast vertices are made one after
    the other *)
Example C75_run_rect : exists s0 now tr s', started rect s0 /\ reach s0 now tr s' /\ length tr = 1 /\ linked (active s') s' /\
  k_inf_fast (vs s' 4) = true.
Proof. apply (meshfast_example 1 rect (fun s => _)); [apply rect_fresh|apply st_shaped; [discriminate| |]; shape_list|]. vm_compute. reflexivity. Qed.
Example C75_run_rectm : exists s0 now tr s', started rectm s0 /\ reach s0 now tr s' /\ length tr = 1 /\ linked (active s') s' /\
  k_inf_fast (vs s' 5) && k_inf_fast (vs s' 6) = true.
Proof. apply (meshfast_example 1 rectm (fun s => _)); [apply rectm_fresh|apply st_shaped; [discriminate| |]; shape_list|]. vm_compute. reflexivity. Qed.
(** fans on their own: one triangle with even legs, or with one shorter; two triangles, even,
    flipped first, or with a shorter leg *)
Example C75_fan_one_even : exists s', handle_parallel_fan 3 [0] 0 Properties_fast.t1 Cw 7 (spike 5 5 (0, -1)%Q (Some 1)) = Ok (tt, s') /\ linked (active s') s' /\
  gone s' 0 && activeb s' 1 && is_none (link s' 1 S0) = true.
Proof. apply (fan_example 4 _ _ _ _ _ _ _ (fun s => _) (spike_registered _ _ _ _) (spike_seated _ _ _ _)). vm_compute. reflexivity. Qed.
Example C75_fan_one_leg : exists s', handle_parallel_fan 3 [0] 0 Properties_fast.t1 Cw 7 (spike 5 9 (0, -1)%Q (Some 1)) = Ok (tt, s') /\ linked (active s') s' /\
  gone s' 0 && cornersb s' 1 3 2 4 && is_none (link s' 1 S0) = true.
Proof. apply (fan_example 4 _ _ _ _ _ _ _ (fun s => _) (spike_registered _ _ _ _) (spike_seated _ _ _ _)). vm_compute. reflexivity. Qed.
Example C75_fan_two_even : exists s', handle_parallel_fan 3 [0; 1] 0 Properties_fast.t1 Ccw 7 (spike2 5 5 5) = Ok (tt, s') /\ linked (active s') s' /\
  gone s' 0 && gone s' 1 && activeb s' 2 && is_none (link s' 2 S0) && activeb s' 3 && is_none (link s' 3 S0) = true.
Proof. apply (fan_example 4 _ _ _ _ _ _ _ (fun s => _) (spike2_registered _ _ _) (spike2_seated _ _ _)). vm_compute. reflexivity. Qed.
Example C75_fan_two_flip : exists s', handle_parallel_fan 3 [0; 1] 0 Properties_fast.t1 Ccw 7 (spike2 5 7 5) = Ok (tt, s') /\ linked (active s') s' /\
  gone s' 1 && cornersb s' 0 1 2 3 && onat_eqb (link s' 0 S0) (Some 3) && onat_eqb (link s' 0 S2) (Some 2) && is_none (link s' 0 S1) = true.
Proof. apply (fan_example 4 _ _ _ _ _ _ _ (fun s => _) (spike2_registered _ _ _) (spike2_seated _ _ _)). vm_compute. reflexivity. Qed.
Example C75_fan_two_leg : exists s', handle_parallel_fan 3 [0; 1] 0 Properties_fast.t1 Ccw 7 (spike2 5 7 9) = Ok (tt, s') /\ linked (active s') s' /\
  gone s' 0 && cornersb s' 1 6 2 3 && onat_eqb (link s' 1 S2) (Some 2) && onat_eqb (link s' 2 S0) (Some 1) && cornersb s' 2 4 2 6 = true.
Proof. apply (fan_example 4 _ _ _ _ _ _ _ (fun s => _) (spike2_registered _ _ _) (spike2_seated _ _ _)). vm_compute. reflexivity. Qed.
