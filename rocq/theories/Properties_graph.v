(** Theorems about the graph that the nodes and arcs of the skeleton form (C88) *)
From Verif Require Import Base Arith ArithQ Calc VectorOps Line2d Primitives Collapse CollapseProofs EventsLib
  FlipEvent ParallelEvent EdgeEvent SplitEvent EventLoop Check Pass OpSpec Order StopSpec RunBase RunTimed RunLoop
  Decent Total FanProofs TotalRun Mesh MeshEvents MeshEdge MeshRun Rings RingEdge RingSplit RingFlip EdgeHead
  RingSpec RingGone RingRun Current RingLeft Initialize StarProofs InitProofs InitState InitCirc InitMesh InitRing InitShared Main Scenario ScenarioRun
  Properties_total Properties_mesh Properties_effects Properties_init TriExample Properties_main Properties_start
  Properties_rings Properties_ringstart Graph GraphRun Corners.
Local Close Scope Q_scope.
Local Open Scope nat_scope.

(** ** C88 *)
(** The skeleton lists every vertex once, among them every finite corner of its
    triangles. *)
Definition charted {A : Arith} (s : state) : Prop :=
  NoDup (sk_vertices s) /\
  forall u i, active s u -> k_inf (vs s (corner s u i)) = false -> In (corner s u i) (sk_vertices s).

(** The initial skeleton is charted. *)
Section Start.
  Context {A : Arith} {E : Env A}.
  Variable d : dtriang (A:=A).
  Hypothesis TG : triangulation d.

  Lemma group_internal s cp ti b kvs ls un k v g t i : init_skeleton d = Ok s -> parts d s cp ti b kvs ls un -> regions d ->
    nth_error (all_groups d) k = Some (v, g) -> In (t, i) g -> dt_internal d t = dt_internal d (fst (last g (0, S0))).
  Proof.
    intros HI P RG N I. apply in_split in I. destruct I as (X & Y & HG).
    revert X t i HG. induction Y as [|[t' i'] Y IH]; intros X t i HG.
    - rewrite HG, last_last. reflexivity.
    - pose proof (next_link d TG s cp ti b kvs ls un HI P k v g N X t i t' i' Y HG) as K.
      assert (L : t < dt_nt d).
      { apply (member d TG s cp ti b kvs ls un HI P k v g N t i). rewrite HG. apply in_or_app. right. left. reflexivity. }
      destruct (tn_link d s cp ti b kvs ls un P t (ccw i) t' L K) as (C & N' & L').
      rewrite <- (RG t (ccw i) t' L N' L' C). apply (IH (X ++ [(t, i)]) t' i'). rewrite <- app_assoc. exact HG.
  Qed.
End Start.

Theorem C88_start :
  forall (A : Arith) (E : Env A) (d : dtriang) s0 io,
  triangulation d -> (io = true -> regions d) -> init_skeleton d = Ok s0 ->
  charted (start_of io s0) /\ gone (start_of io s0) = 0 /\ ended (start_of io s0) = 0.
Proof.
  intros A E d s0 io TG RG HI.
  destruct (init_skeleton_parts d s0 HI) as (cp & ti & b & kvs & ls & un & P).
  destruct (init_vertices_cases d s0 HI) as (cp' & ti' & b' & _ & _ & _ & _ & SV & _ & VG).
  assert (VK : forall k v g, nth_error (all_groups d) k = Some (v, g) ->
    k_internal (vs s0 k) = dt_internal d (fst (last g (0, S0))) /\ k_stop_node (vs s0 k) = None).
  { intros k v g N. destruct (VG k v g N) as (kv & (lw & rw & bi & node & info & _ & _ & _ & _ & _ & _ & _ & ->) & _ & ->). split; reflexivity. }
  assert (LI : forall t i, active s0 t -> k_inf (vs s0 (corner s0 t i)) = false ->
    In (corner s0 t i) (sk_vertices s0) /\ exists v g, nth_error (all_groups d) (corner s0 t i) = Some (v, g) /\ In (t, i) g).
  { intros t i Ht KI. apply (kept_active d s0 cp ti b kvs ls un P) in Ht. destruct Ht as [L U].
    pose proof (finite_lt d s0 cp ti b kvs ls un P _ KI) as LT.
    destruct (corner_group d TG s0 cp ti b kvs ls un HI P t i L U) as (v & g & N & _ & I & _); [lia|].
    split; [|eauto]. rewrite SV, in_seq. split; [lia|]. apply nth_error_Some. congruence. }
  assert (G0 : forall t, In t (sk_triangles s0) -> t_stops (ts s0 t) = None).
  { intros t _. destruct (pa_s _ _ _ _ _ _ _ _ P) as (_ & s1 & _ & _ & ES). rewrite ES. reflexivity. }
  split; [|split].
  - split.
    + assert (NoDup (sk_vertices s0)) by (rewrite SV; apply seq_NoDup). destruct io; [apply NoDup_filter|]; assumption.
    + intros u i Hu KI. destruct io; [|apply LI; assumption].
      assert (AU : active s0 u /\ t_internal (ts s0 u) = true) by (destruct Hu as [U1 U2]; cbn in U1; apply filter_In in U1; split; [split; [apply U1|exact U2]|apply U1]).
      destruct AU as [AU IU]. destruct (LI u i AU KI) as (K1 & v & g & N & I).
      change (sk_vertices (start_of true s0)) with (filter (fun v => k_internal (vs s0 v)) (sk_vertices s0)).
      change (corner (start_of true s0) u i) with (corner s0 u i). apply filter_In. split; [exact K1|].
      pose proof (group_internal d TG s0 cp ti b kvs ls un _ v g u i HI P (RG eq_refl) N I) as Q.
      rewrite (proj1 (VK _ v g N)), <- Q.
      destruct (pa_s _ _ _ _ _ _ _ _ P) as (_ & s1 & _ & _ & ES). rewrite ES in IU. exact IU.
  - apply count_none. intros t Ht. replace (ts (start_of io s0)) with (ts s0) by (destruct io; reflexivity).
    rewrite G0; [reflexivity|]. destruct io; [cbn in Ht; apply filter_In in Ht; apply Ht|exact Ht].
  - apply count_none. intros v Hv. apply start_vertices in Hv. destruct (start_heap io s0) as (-> & _).
    rewrite SV, in_seq in Hv. destruct (nth_error (all_groups d) v) as [[w g]|] eqn:N; [|apply nth_error_None in N; lia].
    rewrite (proj2 (VK v w g N)). reflexivity.
Qed.
Print Assumptions C88_start.

(** *** Runs *)
(** From a charted skeleton, as long as the vertices that events end run and
    began earlier, and no new vertex is infinitely fast: every node made in the
    run joins exactly three arcs, and the older nodes keep theirs. *)
Definition good_run {A : Arith} {E : Env A} (s0 : state) (tr : list handled) (s : state) : Prop :=
  (forall now1 tr1 s1 e now2 s2, reach s0 now1 tr1 s1 -> length tr1 < length tr ->
     take_next now1 s1 = Ok ((e, now2), s2) -> regular s2 e /\ (t_stops (ts s2 (ev_tri (es s2 e))) = None -> plain s2 e)) /\
  forall v, nv s0 <= v < nv s -> k_inf_fast (vs s v) = false.

Lemma start_tally {A : Arith} {E : Env A} (O : OrdArith A) (inj : forall t u : nat, addr t = addr u -> t = u) s s0 :
  fresh s -> started s s0 -> charted s -> tally s0 s0 [].
Proof.
  intros F ST [C1 C2]. destruct (init_timed O inj s s0 F ST) as (_ & FO & _ & TT & VS & NV & NS & SV).
  constructor.
  - rewrite app_nil_r. reflexivity.
  - split; [constructor|intros n []].
  - rewrite SV. exact C1.
  - intros v _ _. rewrite VS. apply (fr_stop_node _ F).
  - intros u i [U1 U2]. unfold corner in *. destruct (TT u) as (T1 & T2 & T3). rewrite T1, VS, SV.
    apply C2. split; [rewrite <- (fo_tris _ _ FO); exact U1|congruence].
  - intros n [].
  - reflexivity.
  - cbn. lia.
  - cbn. lia.
Qed.

Lemma run_graph {A : Arith} {E : Env A} (O : OrdArith A) (inj : forall t u : nat, addr t = addr u -> t = u) s s0 now tr s' :
  fresh s -> shaped s -> linked (active s) s -> charted s -> started s s0 -> reach s0 now tr s' -> good_run s0 tr s' ->
  exists N, tally s0 s' N.
Proof.
  intros F SH L C ST R [G1 G2]. destruct (init_timed O inj s s0 F ST) as ((R0 & _) & FO & _ & TT & _).
  apply (run_tally s0 now tr s'); auto.
  - apply (started_shaped O inj s s0 F SH ST).
  - assert (AC : forall u, active s0 u <-> active s u).
    { intros u. unfold active. rewrite (fo_tris _ _ FO). destruct (TT u) as (_ & _ & ->). tauto. }
    intros t i n Ht K. apply AC in Ht. unfold link, shares, corner in *. rewrite (proj1 (proj2 (TT t))) in K.
    destruct (L t i n Ht K) as (Hn & j & J1 & J2 & J3). split; [apply AC, Hn|]. exists j.
    rewrite (proj1 (proj2 (TT n))), (proj1 (TT t)), (proj1 (TT n)). auto.
  - rewrite (fo_tris _ _ FO). apply (fr_tris _ F).
  - apply (start_tally O inj s s0 F ST C).
Qed.

Theorem C88_degree :
  forall (A : Arith) (E : Env A), OrdArith A -> (forall t u : nat, addr t = addr u -> t = u) ->
  forall s s0 now tr s', fresh s -> shaped s -> linked (active s) s -> charted s -> started s s0 -> reach s0 now tr s' -> good_run s0 tr s' ->
  forall n, In n (sk_nodes s') -> In n (sk_nodes s) /\ degree s' n = degree s n \/ ~ In n (sk_nodes s) /\ degree s' n = 3.
Proof.
  intros A E O inj s s0 now tr s' F SH L C ST R G n Hn.
  destruct (run_graph O inj s s0 now tr s' F SH L C ST R G) as [N TA].
  destruct (init_timed O inj s s0 F ST) as ((R0 & _) & FO & _ & TT & VS & NV & NS & SV).
  rewrite (ta_nodes _ _ _ TA) in Hn. apply in_app_iff in Hn. destruct Hn as [Hn|Hn].
  - left. rewrite <- NS. split; [exact Hn|]. rewrite (ta_old _ _ _ TA n (rg_nodes _ R0 _ Hn)). unfold degree. rewrite VS, SV. reflexivity.
  - right. split; [|apply (ta_three _ _ _ TA n Hn)]. rewrite <- NS. intros Q. apply (rg_nodes _ R0) in Q.
    apply (ta_fresh _ _ _ TA) in Hn. lia.
Qed.
Print Assumptions C88_degree.

(** As many nodes are made as triangles are removed; every node uses three ends of arcs. *)
Theorem C88_count :
  forall (A : Arith) (E : Env A), OrdArith A -> (forall t u : nat, addr t = addr u -> t = u) ->
  forall s s0 now tr s', fresh s -> shaped s -> linked (active s) s -> charted s -> started s s0 -> reach s0 now tr s' -> good_run s0 tr s' ->
  length (sk_nodes s') + gone s = length (sk_nodes s) + gone s' /\
  length (sk_vertices s') + ended s' + 3 * gone s = length (sk_vertices s) + 3 * gone s'.
Proof.
  intros A E O inj s s0 now tr s' F SH L C ST R G.
  destruct (run_graph O inj s s0 now tr s' F SH L C ST R G) as [N TA].
  destruct (init_timed O inj s s0 F ST) as ((R0 & _) & FO & _ & TT & VS & NV & NS & SV).
  pose proof (ta_gone _ _ _ TA) as Q1. pose proof (ta_ended _ _ _ TA) as Q2. pose proof (f_equal (@length _) (ta_nodes _ _ _ TA)) as Q3.
  rewrite app_length, NS in Q3. rewrite SV in Q2.
  assert (Z1 : gone s0 = gone s).
  { unfold gone. rewrite (fo_tris _ _ FO). apply count_ext. intros t _. destruct (TT t) as (_ & _ & ->). reflexivity. }
  assert (Z2 : ended s0 = 0).
  { unfold ended. apply count_none. intros v _. rewrite VS, (fr_stop_node _ F). reflexivity. }
  lia.
Qed.
Print Assumptions C88_count.

(** At the end, when all triangles are removed and every arc has ended: a skeleton
    that started with [n] vertices and [m] triangles has [m] more nodes than at
    the start, and twice the number of its arcs is [n + 3 m].  In a polygon without
    holes [m = n - 2]: the skeleton has [2 n - 3] arcs. *)
Theorem C88_end :
  forall (A : Arith) (E : Env A), OrdArith A -> (forall t u : nat, addr t = addr u -> t = u) ->
  forall s s0 now tr s', fresh s -> shaped s -> linked (active s) s -> charted s -> started s s0 -> reach s0 now tr s' -> good_run s0 tr s' ->
  (forall t, In t (sk_triangles s) -> t_stops (ts s t) = None) ->
  (forall t, In t (sk_triangles s') -> t_stops (ts s' t) <> None) ->
  (forall v, In v (sk_vertices s') -> k_stop_node (vs s' v) <> None) ->
  let n := length (sk_vertices s) in let m := length (sk_triangles s) in
  length (sk_nodes s') = length (sk_nodes s) + m /\ 2 * length (sk_vertices s') = n + 3 * m /\
  (m + 2 = n -> length (sk_vertices s') + 3 = 2 * n /\
     (length (sk_nodes s) = n -> length (sk_nodes s') = S (length (sk_vertices s')))).
Proof.
  intros A E O inj s s0 now tr s' F SH L C ST R G T0 T1 V1 n m.
  destruct (C88_count A E O inj s s0 now tr s' F SH L C ST R G) as [Q1 Q2].
  destruct (init_timed O inj s s0 F ST) as ((R0 & _) & FO & _).
  destruct (steps_base _ _ _ _ _ _ R0 R) as [_ Fs].
  assert (Z1 : gone s = 0) by (apply count_none; intros t Ht; rewrite (T0 t Ht); reflexivity).
  assert (Z2 : gone s' = m).
  { unfold m. rewrite <- (fo_tris _ _ FO), <- (fo_tris _ _ Fs). apply count_all. intros t Ht. apply T1 in Ht. destruct (t_stops _); [reflexivity|contradiction]. }
  assert (Z3 : ended s' = length (sk_vertices s')).
  { apply count_all. intros v Hv. apply V1 in Hv. destruct (k_stop_node _); [reflexivity|contradiction]. }
  fold n in Q2. lia.
Qed.
Print Assumptions C88_end.

(** *** Vertices that run *)
(** In the initial skeleton every vertex is a corner of a triangle ([busy], Corners.v:
    of every vertex listed that has not ended). *)
Theorem C88_corners_start :
  forall (A : Arith) (E : Env A) (d : dtriang) s0 io,
  triangulation d -> (io = true -> regions d) -> init_skeleton d = Ok s0 ->
  forall v, In v (sk_vertices (start_of io s0)) -> exists t i, active (start_of io s0) t /\ corner (start_of io s0) t i = v.
Proof.
  intros A E d s0 io TG RG HI v Hv.
  destruct (init_skeleton_parts d s0 HI) as (cp & ti & b & kvs & ls & un & P).
  destruct (init_vertices_cases d s0 HI) as (cp' & ti' & b' & _ & _ & _ & _ & SV & _ & VG).
  assert (Hv0 : In v (sk_vertices s0)) by (destruct io; [change (sk_vertices (start_of true s0)) with (filter (fun v => k_internal (vs s0 v)) (sk_vertices s0)) in Hv; apply filter_In in Hv; apply Hv|exact Hv]).
  rewrite SV, in_seq in Hv0. destruct (nth_error (all_groups d) v) as [[w g]|] eqn:N; [|apply nth_error_None in N; lia].
  destruct (all_groups_in d _ _ _ N) as (Lw & G & _).
  destruct (group_list d TG s0 w g HI Lw G) as (GG & _).
  assert (NG : g <> []) by (intros ->; destruct GG as [(e & l & X & _) _]; discriminate).
  destruct g as [|[t i] Y]; [congruence|]. clear NG.
  destruct (member d TG s0 cp ti b kvs ls un HI P v w ((t, i) :: Y) N t i (or_introl eq_refl)) as (Lt & _ & TV).
  pose proof (group_first_kept d TG s0 cp ti b kvs ls un HI P v w ((t, i) :: Y) N t i Y eq_refl) as U.
  assert (AT : active s0 t) by (apply (kept_active d s0 cp ti b kvs ls un P); auto).
  assert (CT : corner s0 t i = v).
  { pose proof (kept_corner d s0 cp ti b kvs ls un P t i Lt U) as K. congruence. }
  exists t, i. destruct io; [|auto]. split; [|exact CT]. destruct AT as [A1 A2]. split; [|exact A2].
  change (sk_vertices (start_of true s0)) with (filter (fun v => k_internal (vs s0 v)) (sk_vertices s0)) in Hv. apply filter_In in Hv.
  destruct Hv as [_ Hv]. destruct (VG v w ((t, i) :: Y) N) as (kv & (lw & rw & bi & node & info & _ & _ & _ & _ & _ & _ & _ & ->) & _ & EK).
  rewrite EK in Hv.
  pose proof (group_internal d TG s0 cp ti b kvs ls un _ w _ t i HI P (RG eq_refl) N (or_introl eq_refl)) as Q.
  change (sk_triangles (start_of true s0)) with (filter (fun t => t_internal (ts s0 t)) (sk_triangles s0)). apply filter_In. split; [exact A1|].
  destruct (pa_s _ _ _ _ _ _ _ _ P) as (_ & s1 & _ & _ & ES). rewrite ES. cbn [ts t_internal init_state]. rewrite Q. exact Hv.
Qed.
Print Assumptions C88_corners_start.

(** In runs as above, whose edge events have a neighbour across a side that does not
    collapse: at any time every vertex that has not ended is a corner of a triangle that
    is there. *)
Definition open_run {A : Arith} {E : Env A} (s0 : state) (tr : list handled) : Prop :=
  forall now1 tr1 s1 e now2 s2, reach s0 now1 tr1 s1 -> length tr1 < length tr ->
     take_next now1 s1 = Ok ((e, now2), s2) -> t_stops (ts s2 (ev_tri (es s2 e))) = None -> open s2 e.
Theorem C88_corners :
  forall (A : Arith) (E : Env A), OrdArith A -> (forall t u : nat, addr t = addr u -> t = u) ->
  forall s s0 now tr s', fresh s -> shaped s -> linked (active s) s -> started s s0 -> reach s0 now tr s' -> good_run s0 tr s' -> open_run s0 tr ->
  (forall v, In v (sk_vertices s) -> exists t i, active s t /\ corner s t i = v) ->
  forall v, In v (sk_vertices s') -> k_stop_node (vs s' v) = None -> exists t i, active s' t /\ corner s' t i = v.
Proof.
  intros A E O inj s s0 now tr s' F SH L ST R [G1 G2] OP B.
  destruct (init_timed O inj s s0 F ST) as ((R0 & _) & FO & _ & TT & VS & NV & NS & SV).
  assert (AC : forall u, active s0 u <-> active s u).
  { intros u. unfold active. rewrite (fo_tris _ _ FO). destruct (TT u) as (_ & _ & ->). tauto. }
  apply (run_busy s0 now tr s'); auto.
  - apply (started_shaped O inj s s0 F SH ST).
  - intros t i n Ht K. apply AC in Ht. unfold link, shares, corner in *. rewrite (proj1 (proj2 (TT t))) in K.
    destruct (L t i n Ht K) as (Hn & j & J1 & J2 & J3). split; [apply AC, Hn|]. exists j.
    rewrite (proj1 (proj2 (TT n))), (proj1 (TT t)), (proj1 (TT n)). auto.
  - intros v Hv _. rewrite SV in Hv. destruct (B v Hv) as (t & i & Ht & Q). exists t, i. split; [apply AC, Ht|].
    unfold corner in *. rewrite (proj1 (TT t)). exact Q.
  - intros now1 tr1 s1 e now2 s2 Q1 Q2 Q3. destruct (G1 _ _ _ _ _ _ Q1 Q2 Q3) as [K1 K2]. split; [exact K1|]. intros K. split; [auto|].
    apply (OP _ _ _ _ _ _ Q1 Q2 Q3 K).
Qed.
Print Assumptions C88_corners.

(** So when all triangles are gone, every arc has ended, and the numbers of [C88_end] are those
    of the skeleton. *)
Theorem C88_all_ended :
  forall (A : Arith) (E : Env A), OrdArith A -> (forall t u : nat, addr t = addr u -> t = u) ->
  forall (d : dtriang) si io s0 now tr s', triangulation d -> (io = true -> regions d) -> init_skeleton d = Ok si ->
  let s := start_of io si in
  started s s0 -> reach s0 now tr s' -> good_run s0 tr s' -> open_run s0 tr ->
  (forall t, In t (sk_triangles s') -> t_stops (ts s' t) <> None) ->
  (forall v, In v (sk_vertices s') -> k_stop_node (vs s' v) <> None) /\
  let n := length (sk_vertices s) in let m := length (sk_triangles s) in
  length (sk_nodes s') = length (sk_nodes s) + m /\ 2 * length (sk_vertices s') = n + 3 * m.
Proof.
  intros A E O inj d si io s0 now tr s' TG RG HI s ST R G OP T1.
  assert (F : fresh s) by (apply start_fresh, (init_fresh d si HI), (nleb_refl O)).
  assert (SH : shaped s) by (apply start_shaped, (init_shaped d si HI)).
  assert (L : linked (active s) s) by (destruct (C73_start A E d si io TG RG HI) as (FI & _); exact (fi_linked _ FI)).
  assert (V1 : forall v, In v (sk_vertices s') -> k_stop_node (vs s' v) <> None).
  { intros v Hv K. destruct (C88_corners A E O inj s s0 now tr s' F SH L ST R G OP (C88_corners_start A E d si io TG RG HI) v Hv K) as (t & i & [U1 U2] & _).
    apply (T1 t U1 U2). }
  split; [exact V1|]. destruct (C88_start A E d si io TG RG HI) as (CH & GO & _).
  assert (T0 : forall t, In t (sk_triangles s) -> t_stops (ts s t) = None); [|
    destruct (C88_end A E O inj s s0 now tr s' F SH L CH ST R G T0 T1 V1) as (Q1 & Q2 & _); split; [exact Q1|exact Q2]].
  intros t Ht. destruct (t_stops (ts s t)) eqn:Q; [|reflexivity]. exfalso.
  assert (K : In t (filter (fun t => is_some (t_stops (ts s t))) (sk_triangles s))) by (apply filter_In; rewrite Q; auto).
  unfold gone, count in GO. apply length_zero_iff_nil in GO. fold s in GO. rewrite GO in K. destruct K.
Qed.
Print Assumptions C88_all_ended.

(** *** Cases *)
Definition plainb (s : state (A:=QA)) (e : nat) : bool :=
  let now := ev_time (es s e) in let c i := vs s (corner s (ev_tri (es s e)) i) in
  match ev_tp (es s e), ev_side (es s e) with
  | Flip, _ => true
  | Split, [i] => negb (anchored now (c i))
  | Edge, [i] => negb (tri_type (ts s (ev_tri (es s e))) =? 3) && negb (anchored now (c (ccw i))) && negb (anchored now (c (cw i)))
  | Edge, [_; _; _] => forallb (fun i => negb (anchored now (c i))) sides
  | _, _ => false
  end.
Lemma plainb_ok s e : plainb s e = true -> plain s e.
Proof.
  unfold plainb, plain. cbv zeta. destruct (ev_tp (es s e)); [|auto|].
  - destruct (ev_side (es s e)) as [|i [|j [|k [|]]]]; try discriminate.
    + rewrite !Bool.andb_true_iff, !Bool.negb_true_iff, Nat.eqb_neq. intros [[H1 H2] H3]. right. exists i. auto.
    + intros H. left. split; [reflexivity|]. rewrite forallb_forall in H. intros l. specialize (H l (side_in l)).
      apply Bool.negb_true_iff, H.
  - destruct (ev_side (es s e)) as [|i [|]]; try discriminate. rewrite Bool.negb_true_iff. eauto.
Qed.
Definition good_at (s0 : state (A := QA)) (j : nat) : bool :=
  match go j 0%Q [] s0 with
  | Ok (now, _, s1) => match take_next now s1 with
      | Ok ((e, _), s2) => regularb s2 e && (is_some (t_stops (ts s2 (ev_tri (es s2 e)))) || plainb s2 e) | Err _ => true end
  | Err _ => true
  end.
Fixpoint nodupb (l : list nat) : bool := match l with [] => true | a :: l => negb (mem Nat.eqb a l) && nodupb l end.
Lemma nodupb_ok l : nodupb l = true -> NoDup l.
Proof.
  induction l as [|a l IH]; [constructor|]. cbn [nodupb]. rewrite Bool.andb_true_iff, Bool.negb_true_iff. intros [H1 H2].
  constructor; [|auto]. intros Q. apply mem_In in Q. congruence.
Qed.
Definition chartedb (s : state (A := QA)) : bool :=
  nodupb (sk_vertices s) &&
  forallb (fun t => forallb (fun i => k_inf (vs s (corner s t i)) || mem Nat.eqb (corner s t i) (sk_vertices s)) sides) (sk_triangles s).
Lemma chartedb_ok s : chartedb s = true -> charted s.
Proof.
  unfold chartedb. rewrite Bool.andb_true_iff. intros [H1 H2]. split; [apply nodupb_ok, H1|].
  intros u i [U _] K. rewrite forallb_forall in H2. specialize (H2 u U). rewrite forallb_forall in H2. specialize (H2 i (side_in i)).
  rewrite K in H2. apply mem_In, H2.
Qed.
Lemma graph_example k s P : fresh s -> shaped s -> linkedb s = true -> chartedb s = true ->
  holds_k k s (fun _ _ s' => match init_event_list s with
     | Ok (_, s1) => forallb (good_at (with_qi s1 (queue s1) [])) (seq 0 k) && slowb s' | Err _ => false end && P s') = true ->
  exists s0 now tr s', started s s0 /\ reach s0 now tr s' /\ length tr = k /\ linked (active s) s /\ charted s /\ good_run s0 tr s' /\ P s' = true.
Proof.
  intros F SH LK CH H. apply example_k in H. destruct H as (s0 & now & tr & s' & S & R & L & H).
  apply Bool.andb_true_iff in H. destruct H as [H HP].
  exists s0, now, tr, s'. split; [exact S|]. split; [exact R|]. split; [exact L|].
  split; [apply linkedb_ok, LK|]. split; [apply chartedb_ok, CH|]. split; [|exact HP].
  destruct S as (s1 & I & ->). rewrite I in H. apply Bool.andb_true_iff in H. destruct H as [H1 H2]. split.
  - intros now1 tr1 s3 e now2 s2 Q1 Q2 T. rewrite forallb_forall in H1. specialize (H1 (length tr1)).
    rewrite in_seq in H1. specialize (H1 ltac:(lia)). unfold good_at in H1. rewrite (reach_go _ _ _ _ Q1), T in H1.
    apply Bool.andb_true_iff in H1. destruct H1 as [H1 H3]. split; [apply regularb_ok, H1|].
    intros Q. rewrite Q in H3. apply plainb_ok, H3.
  - intros v Hv. unfold slowb in H2. rewrite forallb_forall in H2. specialize (H2 v). rewrite in_seq in H2.
    specialize (H2 ltac:(lia)). destruct (k_inf_fast (vs s' v)); [discriminate|reflexivity].
Qed.
(** the hypothesis about open sides *)
Definition open_at (s0 : state (A := QA)) (j : nat) : bool :=
  match go j 0%Q [] s0 with
  | Ok (now, _, s1) => match take_next now s1 with
      | Ok ((e, _), s2) => match ev_tp (es s2 e), ev_side (es s2 e) with
          | Edge, [i] => existsb (fun k => negb (side_eqb k i) && is_some (link s2 (ev_tri (es s2 e)) k)) sides
          | _, _ => true
          end
      | Err _ => true end
  | Err _ => true
  end.
Lemma open_at_run s0 k tr : forallb (open_at s0) (seq 0 k) = true -> length tr = k -> open_run s0 tr.
Proof.
  intros H L now1 tr1 s1 e now2 s2 Q1 Q2 T _ i TP SE. rewrite forallb_forall in H. specialize (H (length tr1)). rewrite in_seq in H.
  specialize (H ltac:(lia)). unfold open_at in H. rewrite (reach_go _ _ _ _ Q1), T, TP, SE in H.
  apply existsb_exists in H. destruct H as (j & _ & H). apply Bool.andb_true_iff in H. destruct H as [H1 H2]. exists j.
  split; [intros ->; destruct i; discriminate|]. intros Z. rewrite Z in H2. discriminate.
Qed.
(** all is over: no triangle and no arc is left open *)
Definition overb (s : state (A := QA)) : bool :=
  forallb (fun t => is_some (t_stops (ts s t))) (sk_triangles s) && forallb (fun v => is_some (k_stop_node (vs s v))) (sk_vertices s).
Definition numbers (s : state (A := QA)) (nodes arcs : nat) : bool := (length (sk_nodes s) =? nodes) && (length (sk_vertices s) =? arcs).

(** the quadrilateral: 4 + 2 nodes and 5 arcs *)
Example C88_case_edge : exists s0 now tr s', started quad s0 /\ reach s0 now tr s' /\ length tr = 2 /\ linked (active quad) quad /\
  charted quad /\ good_run s0 tr s' /\
  overb s' && numbers quad 4 4 && numbers s' 6 5 && forallb (fun n => degree s' n =? 1) (seq 0 4) && (degree s' 4 =? 3) && (degree s' 5 =? 3) = true.
Proof. apply (graph_example 2 quad _ quad_fresh quad_shaped); vm_compute; reflexivity. Qed.
(** the notch, with a split *)
Example C88_case_split : exists s0 now tr s', started notch s0 /\ reach s0 now tr s' /\ length tr = 3 /\ linked (active notch) notch /\
  charted notch /\ good_run s0 tr s' /\
  overb s' && numbers notch 5 5 && numbers s' 8 7 && forallb (fun n => degree s' n =? 1) (seq 0 5) && forallb (fun n => degree s' n =? 3) [5; 6; 7] = true.
Proof. apply (graph_example 3 notch _ notch_fresh notch_shaped); vm_compute; reflexivity. Qed.
(** a flip changes nothing in the graph *)
Example C88_case_flip : exists s0 now tr s', started ring6 s0 /\ reach s0 now tr s' /\ length tr = 1 /\ linked (active ring6) ring6 /\
  charted ring6 /\ good_run s0 tr s' /\ numbers ring6 6 6 && numbers s' 6 6 = true.
Proof. apply (graph_example 1 ring6 _ ring6_fresh ring6_shaped); vm_compute; reflexivity. Qed.

(** Without the restriction to vertices that run the first claim is false: in the square,
    whose four vertices meet in one point, the two events end them in one node. *)
Theorem C88_degree_refuted : exists (s s0 : state (A:=QA)) now tr s' n,
  fresh s /\ shaped s /\ linked (active s) s /\ charted s /\ started s s0 /\ reach s0 now tr s' /\
  (forall now1 tr1 s1 e now2 s2, reach s0 now1 tr1 s1 -> length tr1 < length tr -> take_next now1 s1 = Ok ((e, now2), s2) -> regular s2 e) /\
  (forall v, nv s0 <= v < nv s' -> k_inf_fast (vs s' v) = false) /\
  In n (sk_nodes s') /\ ~ In n (sk_nodes s) /\ degree s' n = 4.
Proof.
  assert (H : holds_k 2 square (fun _ _ s' => match init_event_list square with
     | Ok (_, s1) => forallb (regular_at (with_qi s1 (queue s1) [])) (seq 0 2) && slowb s' | Err _ => false end &&
       (mem Nat.eqb 4 (sk_nodes s') && negb (mem Nat.eqb 4 (sk_nodes square)) && (degree s' 4 =? 4))) = true) by (vm_compute; reflexivity).
  apply example_k in H. destruct H as (s0 & now & tr & s' & ST & R & L & H).
  rewrite !Bool.andb_true_iff in H. destruct H as [H [[H1 H2] H3]].
  exists square, s0, now, tr, s', 4. split; [exact square_fresh|]. split; [exact square_shaped|].
  split; [apply linkedb_ok; vm_compute; reflexivity|]. split; [apply chartedb_ok; vm_compute; reflexivity|].
  split; [exact ST|]. split; [exact R|].
  destruct ST as (s1 & I & ->). rewrite I in H. apply Bool.andb_true_iff in H. destruct H as [G1 G2].
  split; [rewrite L; apply regular_run, G1|]. split.
  { intros v Hv. unfold slowb in G2. rewrite forallb_forall in G2. specialize (G2 v). rewrite in_seq in G2.
    specialize (G2 ltac:(lia)). destruct (k_inf_fast (vs s' v)); [discriminate|reflexivity]. }
  split; [apply mem_In, H1|]. split; [|apply Nat.eqb_eq, H3].
  intros Q. apply mem_In in Q. rewrite Q in H2. discriminate.
Qed.
Print Assumptions C88_degree_refuted.

(** the quadrilateral of a triangulation, from the start to the end: all its hypotheses hold *)
Example C88_all_ended_case : match init_skeleton quad_dt with
  | Ok si => holds_k 2 (start_of true si) (fun _ _ s' => match init_event_list (start_of true si) with
     | Ok (_, s1) => let s0 := with_qi s1 (queue s1) [] in
         forallb (good_at s0) (seq 0 2) && forallb (open_at s0) (seq 0 2) && slowb s' && overb s' && numbers (start_of true si) 4 4 && numbers s' 6 5
     | Err _ => false end)
  | Err _ => false
  end = true.
Proof. vm_compute. reflexivity. Qed.
(** after one event of the notch (a split) every vertex that runs is a corner *)
Example C88_corners_case : exists s0 now tr s', started notch s0 /\ reach s0 now tr s' /\ good_run s0 tr s' /\ open_run s0 tr /\
  (forall v, In v (sk_vertices notch) -> exists t i, active notch t /\ corner notch t i = v) /\
  forallb (fun v => is_some (k_stop_node (vs s' v)) || existsb (fun t => is_none (t_stops (ts s' t)) && existsb (fun i => corner s' t i =? v) sides) (sk_triangles s'))
    (sk_vertices s') && existsb (fun v => is_none (k_stop_node (vs s' v))) (sk_vertices s') = true.
Proof.
  destruct (graph_example 1 notch (fun s' => forallb (open_at (match init_event_list notch with Ok (_, s1) => with_qi s1 (queue s1) [] | Err _ => notch end)) (seq 0 1) &&
    (forallb (fun v => is_some (k_stop_node (vs s' v)) || existsb (fun t => is_none (t_stops (ts s' t)) && existsb (fun i => corner s' t i =? v) sides) (sk_triangles s'))
    (sk_vertices s') && existsb (fun v => is_none (k_stop_node (vs s' v))) (sk_vertices s'))) notch_fresh notch_shaped)
    as (s0 & now & tr & s' & ST & R & L & _ & _ & G & H); [vm_compute; reflexivity..|].
  apply Bool.andb_true_iff in H. destruct H as [H1 H2].
  exists s0, now, tr, s'. split; [exact ST|]. split; [exact R|]. split; [exact G|]. split; [|split; [|exact H2]].
  - destruct ST as (s1 & I & ->). rewrite I in H1. apply (open_at_run _ 1); auto.
  - assert (K : forallb (fun v => existsb (fun t => is_none (t_stops (ts notch t)) && existsb (fun i => corner notch t i =? v) sides) (sk_triangles notch))
      (sk_vertices notch) = true) by (vm_compute; reflexivity).
    intros v Hv. rewrite forallb_forall in K. specialize (K v Hv). apply existsb_exists in K. destruct K as (t & T1 & K).
    apply Bool.andb_true_iff in K. destruct K as [K1 K2]. apply existsb_exists in K2. destruct K2 as (i & _ & K2). apply Nat.eqb_eq in K2.
    exists t, i. split; [split; [exact T1|]|exact K2]. destruct (t_stops (ts notch t)); [discriminate|reflexivity].
Qed.
