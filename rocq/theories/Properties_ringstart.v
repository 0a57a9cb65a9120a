(** Theorems about the rings of the initial skeleton (C73) *)
From Verif Require Import Base Arith ArithQ Calc VectorOps Line2d Primitives Collapse CollapseProofs EventsLib
  FlipEvent ParallelEvent EdgeEvent SplitEvent EventLoop Check Pass OpSpec Order StopSpec RunBase RunTimed RunLoop
  Decent Total FanProofs TotalRun Mesh MeshEvents MeshEdge MeshRun Rings RingEdge RingSplit RingFlip EdgeHead
  RingSpec RingGone RingRun Current RingLeft Initialize StarProofs InitProofs InitState InitCirc InitMesh Main Scenario ScenarioRun
  Properties_total Properties_mesh Properties_effects Properties_init TriExample Properties_main Properties_start
  Properties_rings InitRing.
Local Close Scope Q_scope.
Local Open Scope nat_scope.

(** ** C73 *)
(** For a triangulation whose links and stars are consistent, the rings of kinetic
    vertices of the skeleton fit its triangles: around each vertex the triangles are
    linked one after the other, from a wavefront side to a wavefront side, and the
    ends of every wavefront side are neighbours in the ring and move along the same
    front.  With internal_only this holds for the inner part alone. *)
Theorem C73_start :
  forall (A : Arith) (E : Env A) (d : dtriang) s0 io,
  triangulation d -> (io = true -> regions d) -> init_skeleton d = Ok s0 ->
  let st := start_of io s0 in
  fitting st /\ ends st /\ forall u j, ~ left_over st u j.
Proof.
  intros A E d s0 io TG RG HI st. destruct (start_fitting d TG s0 io HI RG) as (F & EN & NS).
  split; [exact F|]. split; [exact EN|]. intros u j (_ & _ & K & _). exact (NS _ K).
Qed.
Print Assumptions C73_start.

(** The three checks succeed on the initial skeleton. *)
Theorem C73_checks :
  forall (A : Arith) (E : Env A) (d : dtriang) s0 io,
  triangulation d -> (io = true -> regions d) -> init_skeleton d = Ok s0 ->
  let st := start_of io s0 in
  check_active_triangles st (sk_triangles st) = Ok tt /\
  check_kinetic_vertices st (sk_triangles st) = Ok tt /\
  check_wavefront_links st (sk_triangles st) = Ok tt.
Proof.
  intros A E d s0 io TG RG HI st. destruct (C73_start A E d s0 io TG RG HI) as (F & EN & NL). fold st in F, EN, NL.
  split; [exact (C72_active A E st F)|]. split; [exact (proj2 (C72_kinetic A E st F EN) NL)|exact (C72_links A E st F EN NL)].
Qed.
Print Assumptions C73_checks.

(** what the loop starts with *)
Lemma loop_start :
  forall (A : Arith) (E : Env A), OrdArith A -> (forall t u : nat, addr t = addr u -> t = u) ->
  forall (d : dtriang) s0 io s1,
  triangulation d -> (io = true -> regions d) -> init_skeleton d = Ok s0 -> started (start_of io s0) s1 ->
  fresh (start_of io s0) /\ shaped (start_of io s0) /\ registered s1 /\ shaped s1 /\
  fitting s1 /\ ends s1 /\ (forall u j, ~ left_over s1 u j) /\ nv s1 = nv s0.
Proof.
  intros A E OA inj d s0 io s1 TG RG HI ST. destruct (C73_start A E d s0 io TG RG HI) as (F & EN & NL). set (st := start_of io s0) in *.
  assert (FR : fresh st) by (apply start_fresh, (init_fresh d s0 HI), (nleb_refl OA)).
  assert (SH : shaped st) by (apply start_shaped, (init_shaped d s0 HI)).
  pose proof (started_shaped OA inj _ _ FR SH ST) as SH1.
  destruct (init_timed OA inj _ _ FR ST) as ((RG1 & _) & FO & _ & M & VS & NV & _).
  destruct (mesh_same_fitting st s1 M VS (fo_tris _ _ FO)) as (F1 & E1 & S1).
  assert (NL1 : forall u j, ~ left_over s1 u j).
  { intros u j (_ & _ & K & _). apply S1 in K. destruct (start_fitting d TG s0 io HI RG) as (_ & _ & NS). exact (NS _ K). }
  assert (NV0 : nv st = nv s0) by apply start_heap.
  repeat (split; [solve [auto]|]). congruence.
Qed.

(** The rings keep fitting in the runs of calc_skel as long as the events are tidy. *)
Theorem C73_runs :
  forall (A : Arith) (E : Env A), OrdArith A -> (forall t u : nat, addr t = addr u -> t = u) ->
  forall (d : dtriang) s0 io s1 now tr s,
  triangulation d -> (io = true -> regions d) -> init_skeleton d = Ok s0 ->
  started (start_of io s0) s1 -> reach s1 now tr s ->
  (forall now1 tr1 s2 e now2 s3, reach s1 now1 tr1 s2 -> length tr1 < length tr ->
     take_next now1 s2 = Ok ((e, now2), s3) -> regular s3 e /\ (t_stops (ts s3 (ev_tri (es s3 e))) = None -> tidy s3 e)) ->
  (forall now1 tr1 s2, reach s1 now1 tr1 s2 -> length tr1 <= length tr -> forall u, active s2 u -> distinct s2 u) ->
  (forall v, nv s0 <= v < nv s -> k_inf_fast (vs s v) = false) ->
  fitting s.
Proof.
  intros A E OA inj d s0 io s1 now tr s TG RG HI ST RE RU DD NF.
  destruct (loop_start A E OA inj d s0 io s1 TG RG HI ST) as (_ & _ & R1 & SH1 & F1 & _ & _ & NV).
  apply (C71_run A E s1 now tr s R1 SH1 F1 RE RU DD). intros v Hv. apply NF. lia.
Qed.
Print Assumptions C73_runs.

(** Whenever no immediate event waits in such a run, the three checks succeed, as long as the events are calm. *)
Theorem C73_runs_checked :
  forall (A : Arith) (E : Env A), OrdArith A -> (forall t u : nat, addr t = addr u -> t = u) ->
  forall (d : dtriang) s0 io s1 now tr s,
  triangulation d -> (io = true -> regions d) -> init_skeleton d = Ok s0 ->
  started (start_of io s0) s1 -> reach s1 now tr s ->
  (forall now1 tr1 s2 e now2 s3, reach s1 now1 tr1 s2 -> length tr1 < length tr ->
     take_next now1 s2 = Ok ((e, now2), s3) -> regular s3 e /\ (t_stops (ts s3 (ev_tri (es s3 e))) = None -> calm s3 e)) ->
  (forall now1 tr1 s2, reach s1 now1 tr1 s2 -> length tr1 <= length tr -> forall u, active s2 u -> distinct s2 u) ->
  (forall v, nv s0 <= v < nv s -> k_inf_fast (vs s v) = false) ->
  immediate s = [] ->
  check_active_triangles s (sk_triangles s) = Ok tt /\
  check_kinetic_vertices s (sk_triangles s) = Ok tt /\
  check_wavefront_links s (sk_triangles s) = Ok tt.
Proof.
  intros A E OA inj d s0 io s1 now tr s TG RG HI ST RE RU DD NF IM.
  destruct (loop_start A E OA inj d s0 io s1 TG RG HI ST) as (FR & SH & _ & _ & F1 & E1 & NL & NV).
  apply (C72_run A E OA inj (start_of io s0) s1 now tr s FR SH ST F1 E1 NL RE RU DD); [|exact IM]. intros v Hv. apply NF. lia.
Qed.
Print Assumptions C73_runs_checked.

(** the quadrilateral of C64: six triangles are left, and the two inner ones *)
Example C73_start_case :
  match init_skeleton quad_dt with
  | Ok s => (length (sk_vertices s) =? 8) && fittingb (start_of true s) &&
            (length (sk_triangles s) =? 6) && (length (sk_triangles (start_of true s)) =? 2) &&
            onat_eqb (link s 0 S1) (Some 1) && onat_eqb (link s 0 S0) None && onat_eqb (link s 2 S0) None &&
            onat_eqb (kright (vs s (corner s 0 S1))) (Some (corner s 0 S2)) &&
            negb (onat_eqb (kright (vs s (corner s 2 S1))) (Some (corner s 0 S2)))
  | Err _ => false
  end = true.
Proof. vm_compute. reflexivity. Qed.

Definition ring_check (io : bool) (k : nat) (P : state (A := QA) -> bool) : bool :=
  match init_skeleton quad_dt with
  | Ok s0 => holds_k k (start_of io s0) (fun _ _ s' => match init_event_list (start_of io s0) with
       | Ok (_, s1) => forallb (calm_at (with_qi s1 (queue s1) [])) (seq 0 (S k)) && slowb s'
       | Err _ => false end && P s')
  | Err _ => false
  end.
Lemma ring_start_example io k P : ring_check io k P = true ->
  exists s0 s1 now tr s, init_skeleton quad_dt = Ok s0 /\ started (start_of io s0) s1 /\ reach s1 now tr s /\ length tr = k /\
    fitting s /\ (immediate s = [] -> all_checks s) /\ P s = true.
Proof.
  assert (TG : triangulation quad_dt) by (apply triangulationb_ok; vm_compute; reflexivity).
  assert (RG : io = true -> regions quad_dt) by (intros _; apply regionsb_ok; vm_compute; reflexivity).
  unfold ring_check. destruct (init_skeleton quad_dt) as [s0|] eqn:HI; [|discriminate]. intros H.
  apply example_k in H. destruct H as (s1 & now & tr & s & ST & R & L & H).
  apply Bool.andb_true_iff in H. destruct H as [H HP].
  pose proof ST as (s2 & I & E0). rewrite I in H. rewrite <- E0 in H. apply Bool.andb_true_iff in H. destruct H as [H2 H3].
  clear I E0 s2. rewrite forallb_forall in H2.
  assert (TA : forall now1 tr1 s2, reach s1 now1 tr1 s2 -> length tr1 <= k ->
     forallb (fun u => negb (activeb s2 u) || distinctb s2 u) (sk_triangles s2) &&
      match take_next now1 s2 with
      | Ok ((e, _), s2) => regularb s2 e && (is_some (t_stops (ts s2 (ev_tri (es s2 e)))) || calmb s2 e)
      | Err _ => true end = true).
  { intros now1 tr1 s2 R1 L1. specialize (H2 (length tr1)). rewrite in_seq in H2. specialize (H2 ltac:(lia)).
    unfold calm_at in H2. rewrite (reach_go _ _ _ _ R1) in H2. exact H2. }
  clear H2. rewrite <- L in TA.
  assert (RU : forall now1 tr1 s1' e now2 s2, reach s1 now1 tr1 s1' -> length tr1 < length tr ->
     take_next now1 s1' = Ok ((e, now2), s2) -> regular s2 e /\ (t_stops (ts s2 (ev_tri (es s2 e))) = None -> calm s2 e)).
  { intros now1 tr1 s2 e now2 s3 R1 L1 T. specialize (TA now1 tr1 s2 R1 ltac:(lia)).
    apply Bool.andb_true_iff in TA. destruct TA as [_ TA]. rewrite T in TA.
    apply Bool.andb_true_iff in TA. destruct TA as [T1 T2]. split; [apply regularb_ok, T1|].
    intros Q. rewrite Q in T2. cbn [is_some is_none negb orb] in T2. apply calmb_ok, T2. }
  assert (DD : forall now1 tr1 s1', reach s1 now1 tr1 s1' -> length tr1 <= length tr -> forall u, active s1' u -> distinct s1' u).
  { intros now1 tr1 s2 R1 L1 u Au. specialize (TA now1 tr1 s2 R1 L1).
    apply Bool.andb_true_iff in TA. destruct TA as [TA _]. rewrite forallb_forall in TA. specialize (TA u (proj1 Au)).
    apply activeb_ok in Au. rewrite Au in TA. apply distinctb_ok, TA. }
  destruct (loop_start QA QE QA_ord QE_addr quad_dt s0 io s1 TG RG HI ST) as (_ & _ & _ & _ & _ & _ & _ & NV).
  assert (NF : forall v, nv s0 <= v < nv s -> k_inf_fast (vs s v) = false).
  { intros v Hv. unfold slowb in H3. rewrite forallb_forall in H3. specialize (H3 v). rewrite in_seq in H3.
    specialize (H3 ltac:(lia)). destruct (k_inf_fast (vs s v)); [discriminate|reflexivity]. }
  exists s0, s1, now, tr, s. split; [reflexivity|]. split; [exact ST|]. split; [exact R|]. split; [exact L|]. split; [|split; [|exact HP]].
  - apply (C73_runs QA QE QA_ord QE_addr quad_dt s0 io s1 now tr s TG RG HI ST R); auto.
    intros now1 tr1 s2 e now2 s3 R1 L1 T. destruct (RU now1 tr1 s2 e now2 s3 R1 L1 T) as [K1 K2]. split; [exact K1|].
    intros K. apply calm_tidy, K2, K.
  - intros IM. exact (C73_runs_checked QA QE QA_ord QE_addr quad_dt s0 io s1 now tr s TG RG HI ST R RU DD NF IM).
Qed.
(** after the first event of the inner part, and after the first one of the whole *)
Example C73_case_inner : exists s0 s1 now tr s, init_skeleton quad_dt = Ok s0 /\ started (start_of true s0) s1 /\ reach s1 now tr s /\
  length tr = 1 /\ fitting s /\ (immediate s = [] -> all_checks s) /\ existsb (activeb s) (sk_triangles s) && empty (immediate s) = true.
Proof. apply ring_start_example. vm_compute. reflexivity. Qed.
Example C73_case_whole : exists s0 s1 now tr s, init_skeleton quad_dt = Ok s0 /\ started (start_of false s0) s1 /\ reach s1 now tr s /\
  length tr = 1 /\ fitting s /\ (immediate s = [] -> all_checks s) /\ forallb (fun t => negb (t_internal (ts s t)) || activeb s 0 || activeb s 1) (sk_triangles s) && empty (immediate s) = true.
Proof. apply ring_start_example. vm_compute. reflexivity. Qed.
