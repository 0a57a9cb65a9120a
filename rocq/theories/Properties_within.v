(** Property theorems: the events that wait are about triangles of the skeleton (C90) *)
From Coq Require Import QArith.
From Verif Require Import Base Arith ArithQ Calc VectorOps Line2d Primitives Collapse CollapseProofs EventsLib FlipEvent ParallelEvent
  EdgeEvent SplitEvent EventLoop Pass OpSpec Order StopSpec RunBase RunTimed RunLoop Total TotalRun Mesh MeshEvents MeshEdge MeshRun
  ScenarioRun Properties_loop Properties_mesh Initialize StarProofs InitProofs InitState InitCirc Main Properties_init InitMesh
  TriExample Within Properties_main Properties_start.
Local Open Scope nat_scope.

(** the triangles of the skeleton are linked among each other *)
Definition closed {A : Arith} (s : state (A:=A)) : Prop :=
  forall t i n, In t (sk_triangles s) -> get3 (t_n (ts s t)) i = Some n -> In n (sk_triangles s).
(** the events in the queue and the immediate ones *)
Definition waiting {A : Arith} (s : state (A:=A)) (e : nat) : Prop := In e (queue s) \/ In e (immediate s).

Lemma started_within {A : Arith} {E : Env A} s s0 : immediate s = [] -> closed s -> started s s0 ->
  within (fun t => In t (sk_triangles s)) s0 /\ sk_triangles s0 = sk_triangles s.
Proof.
  intros IM C (s1 & H & ->). unfold init_event_list in H.
  apply bind_ok in H. destruct H as ([] & s2 & H & K). injection H as <-.
  apply bind_ok in K. destruct K as (tris & s2 & H & K). injection H as <- <-.
  set (s2 := mkSt _ _ _ _ _ _ _ _ _ _ _ _ _ _) in K. cbn [sk_triangles] in K.
  assert (W : within (fun t => In t (sk_triangles s)) s1 /\ sk_triangles s1 = sk_triangles s).
  { split.
    - eapply init_within; [| |exact K]; [apply Forall_forall; auto|]. split; [exact C|]. cbn. rewrite IM. intros e [].
    - assert (G : forall l s s', forM l (fun t => bind (compute_collapse_time t n0 FindGt)
        (fun e => match e with Some e => queue_add e | None => ret tt end)) s = Ok (tt, s') -> sk_triangles s' = sk_triangles s).
      { clear. induction l as [|t l IH]; intros s s' H; [injection H as <-; reflexivity|].
        cbn [forM] in H. apply bind_ok in H. destruct H as ([] & s1 & H & K). rewrite (IH _ _ K).
        apply init_tri in H. destruct H as [[_ ->]|(e & _ & ->)]; reflexivity. }
      exact (G _ _ _ K). }
  destruct W as [[W1 W2] W3]. split; [|exact W3]. split; [exact W1|]. cbn. intros e He. apply W2.
  rewrite app_nil_r in He. apply in_app_iff. auto.
Qed.

(** In every run of the event loop from a skeleton whose triangles are linked among
    each other - in any arithmetic, through flips, splits and infinitely fast
    vertices - every event that waits is about a triangle of the skeleton, and the
    triangles of the skeleton stay linked among each other. *)
Theorem C90_waiting :
  forall (A : Arith) (E : Env A) s s0 now tr s',
  registered s0 -> immediate s = [] -> closed s -> started s s0 -> reach s0 now tr s' ->
  sk_triangles s' = sk_triangles s /\ closed s' /\ (forall e, waiting s' e -> In (ev_tri (es s' e)) (sk_triangles s')).
Proof.
  intros A E s s0 now tr s' R0 IM C ST R. destruct (started_within s s0 IM C ST) as [W T].
  destruct (steps_base _ _ _ _ _ _ R0 R) as [_ F]. pose proof (run_within _ _ _ _ _ _ _ W R) as [W1 W2].
  assert (T' : sk_triangles s' = sk_triangles s) by (rewrite (fo_tris _ _ F); exact T).
  split; [exact T'|]. unfold closed. rewrite T'. split; [exact W1|].
  intros e He. apply W2. apply in_app_iff. exact He.
Qed.
Print Assumptions C90_waiting.

Lemma init_unstopped {A : Arith} {E : Env A} (d : dtriang (A:=A)) s : init_skeleton d = Ok s -> forall t, t_stops (ts s t) = None.
Proof.
  intros HI t. destruct (init_skeleton_parts d s HI) as (cp & ti & b & kvs & ls & un & P).
  destruct (pa_s _ _ _ _ _ _ _ _ P) as (_ & s1 & _ & _ & ES). rewrite ES. reflexivity.
Qed.

(** the same about the runs of calc_skel, with and without the outer part *)
Theorem C90_runs :
  forall (A : Arith) (E : Env A), OrdArith A -> (forall t u : nat, addr t = addr u -> t = u) ->
  forall (d : dtriang) si io s0 now tr s,
  triangulation d -> (io = true -> regions d) -> init_skeleton d = Ok si ->
  started (start_of io si) s0 -> reach s0 now tr s ->
  sk_triangles s = sk_triangles (start_of io si) /\ closed s /\ (forall e, waiting s e -> In (ev_tri (es s e)) (sk_triangles s)).
Proof.
  intros A E OA inj d si io s0 now tr s TG RG HI ST RE.
  destruct (C64_start A E d si io TG RG HI) as [L _]. set (st := start_of io si) in *.
  assert (F : fresh st) by (apply start_fresh, (init_fresh d si HI), (nleb_refl OA)).
  destruct (init_timed OA inj _ _ F ST) as ((RG1 & _) & _).
  apply (C90_waiting A E st s0 now tr s RG1); [apply F| |exact ST|exact RE].
  intros t i n Ht Hn. apply (L t i n); [split; [exact Ht|]|exact Hn].
  unfold st, start_of. destruct io; cbn; apply (init_unstopped d si HI).
Qed.
Print Assumptions C90_runs.

(** *** What this says about the run theorems *)
(** [regular] (C45) without its first condition, that the event is about a triangle of the skeleton *)
Record ordinary {A : Arith} (s : state (A:=A)) (e : nat) : Prop := {
  or_distinct : forall u, active s u -> distinct s u;
  or_opposite : opposite s (ev_tri (es s e));
  or_events : ev_tp (es s e) = Edge -> length (ev_side (es s e)) = 3 ->
    forall i n, link s (ev_tri (es s e)) i = Some n -> t_event (ts s n) <> None }.

Theorem C90_regular :
  forall (A : Arith) (E : Env A) s s0 now tr s' e now' s1,
  registered s0 -> immediate s = [] -> closed s -> started s s0 -> reach s0 now tr s' ->
  take_next now s' = Ok ((e, now'), s1) -> (regular s1 e <-> ordinary s1 e).
Proof.
  intros A E s s0 now tr s' e now' s1 R0 IM C ST R T.
  destruct (C90_waiting A E s s0 now tr s' R0 IM C ST R) as (_ & _ & W).
  assert (K : In (ev_tri (es s1 e)) (sk_triangles s1)).
  { apply take_next_ok in T. destruct T as [(r & I & _ & ->)|(r & I & Q & _ & ->)]; cbn; apply W; [right; rewrite I|left; rewrite Q]; simpl; auto. }
  split; [intros [H1 H2 H3 H4]; constructor; assumption|intros [H2 H3 H4]; constructor; assumption].
Qed.
Print Assumptions C90_regular.

(** C64_runs without that condition *)
Theorem C90_links :
  forall (A : Arith) (E : Env A), OrdArith A -> (forall t u : nat, addr t = addr u -> t = u) ->
  forall (d : dtriang) si io s0 now tr s,
  triangulation d -> (io = true -> regions d) -> init_skeleton d = Ok si ->
  started (start_of io si) s0 -> reach s0 now tr s ->
  (forall now1 tr1 s2 e now2 s3, reach s0 now1 tr1 s2 -> length tr1 < length tr ->
     take_next now1 s2 = Ok ((e, now2), s3) -> ordinary s3 e) ->
  (forall v, nv si <= v < nv s -> k_inf_fast (vs s v) = false) ->
  linked (active s) s.
Proof.
  intros A E OA inj d si io s0 now tr s TG RG HI ST RE RU NF.
  apply (C64_runs A E OA inj d si io s0 now tr s TG RG HI ST RE); [|exact NF].
  intros now1 tr1 s2 e now2 s3 R1 L1 T. 
  destruct (C64_start A E d si io TG RG HI) as [L _]. set (st := start_of io si) in *.
  assert (F : fresh st) by (apply start_fresh, (init_fresh d si HI), (nleb_refl OA)).
  destruct (init_timed OA inj _ _ F ST) as ((RG1 & _) & _).
  apply (C90_regular A E st s0 now1 tr1 s2 e now2 s3 RG1 (fr_imm _ F)); auto; [|eapply RU; eauto].
  intros t i n Ht Hn. apply (L t i n); [split; [exact Ht|]|exact Hn].
  unfold st, start_of. destruct io; cbn; apply (init_unstopped d si HI).
Qed.
Print Assumptions C90_links.

(** *** Examples *)
(** the quadrilateral of C64 without its outer part: events wait at the start and after
    the first event, the outer triangles exist but no event is about them *)
Definition aboutb (s : state (A:=QA)) : bool :=
  forallb (fun e => mem Nat.eqb (ev_tri (es s e)) (sk_triangles s)) (queue s ++ immediate s).
Example C90_runs_case : match init_skeleton quad_dt with
  | Ok si => (nt si =? 9) && (length (sk_triangles (start_of true si)) =? 2) &&
     holds_k 1 (start_of true si) (fun _ _ s' => match init_event_list (start_of true si) with
       | Ok (_, s1) => aboutb s1 && aboutb s' && (1 <=? length (queue s1)) && (1 <=? length (queue s' ++ immediate s'))
       | Err _ => false end)
  | Err _ => false
  end = true.
Proof. vm_compute. reflexivity. Qed.
Definition closedb (s : state (A:=QA)) : bool :=
  forallb (fun t => forallb (fun i => match get3 (t_n (ts s t)) i with None => true | Some n => mem Nat.eqb n (sk_triangles s) end) sides) (sk_triangles s).
(** events of a run with an infinitely fast vertex *)
Example C90_fast_case : closedb rectm && match sk_triangles rectm with [_; _] | [_; _; _] | [_; _; _; _] => true | _ => false end &&
  holds_k 1 rectm (fun _ _ s' => aboutb s' && existsb (fun v => k_inf_fast (vs s' v)) (seq 0 (nv s'))) = true.
Proof. vm_compute. reflexivity. Qed.

(** The condition on the links is needed: with a link that leads out of the skeleton
    an event gets about a triangle that does not belong to it. *)
Definition leaky : state (A:=QA) :=
  mkSt (vs quad) (nv quad) (ts quad) (nt quad) (ns quad) (nn quad) (es quad) (ne quad) (wfs quad)
    (sk_nodes quad) (sk_vertices quad) (filter (fun t => t =? 1) (sk_triangles quad)) (queue quad) (immediate quad).
Theorem C90_open_refuted : exists (s s0 : state (A:=QA)) now tr s' e,
  immediate s = [] /\ started s s0 /\ reach s0 now tr s' /\ waiting s' e /\ ~ In (ev_tri (es s' e)) (sk_triangles s').
Proof.
  assert (H : holds_k 1 leaky (fun _ _ s' => existsb (fun e => negb (mem Nat.eqb (ev_tri (es s' e)) (sk_triangles s'))) (queue s' ++ immediate s')) = true)
    by (vm_compute; reflexivity).
  apply example_k in H. destruct H as (s0 & now & tr & s' & ST & R & L & H).
  apply existsb_exists in H. destruct H as (e & H1 & H2). apply Bool.negb_true_iff, mem_false in H2.
  exists leaky, s0, now, tr, s', e. split; [reflexivity|]. split; [exact ST|]. split; [exact R|]. split; [|exact H2].
  apply in_app_iff in H1. exact H1.
Qed.
Print Assumptions C90_open_refuted.
