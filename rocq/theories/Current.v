(** Pending events are those of the triangles as they are now *)
From Coq Require Import Permutation.
From Verif Require Import Base Arith Calc VectorOps Line2d Primitives Collapse CollapseProofs EventsLib
  FlipEvent ParallelEvent EdgeEvent SplitEvent EventLoop Pass OpSpec Order StopSpec RunBase RunTimed RunLoop
  Decent Total FanProofs TotalRun Mesh MeshEvents MeshEdge MeshRun.

Section View.
  Context {A : Arith} {E : Env A}.
  Local Open Scope num_scope.

  (** ** What the event of a triangle depends on *)
  (** two states show the vertex [v] moving in the same way *)
  Record sees (s s' : state) (v : nat) : Prop := {
    se_inf : k_inf (vs s' v) = k_inf (vs s v);
    se_origin : k_origin (vs s' v) = k_origin (vs s v);
    se_velocity : k_velocity (vs s' v) = k_velocity (vs s v);
    se_ul : k_ul (vs s' v) = k_ul (vs s v);
    se_ur : k_ur (vs s' v) = k_ur (vs s v);
    se_position : forall w, position_at s' v w = position_at s v w }.

  (** two states show the triangle [t] with the same corners moving in the same
      way, the same sides without neighbour, stopped or not *)
  Record view (s s' : state) (t : nat) : Prop := {
    vw_v : t_v (ts s' t) = t_v (ts s t);
    vw_n : forall i, is_none (get3 (t_n (ts s' t)) i) = is_none (get3 (t_n (ts s t)) i);
    vw_stops : is_some (t_stops (ts s' t)) = is_some (t_stops (ts s t));
    vw_wfs : wfs s' = wfs s;
    vw_sees : forall i, sees s s' (get3 (t_v (ts s t)) i) }.

  Lemma rbind_ext {X Y} (m m' : res X) (k k' : X -> res Y) : m = m' -> (forall x, k x = k' x) -> rbind m k = rbind m' k'.
  Proof. intros -> H. destruct m'; simpl; auto. Qed.

  Section Two.
  Context (s s' : state).

  Lemma distance_view v w x : sees s s' v -> sees s s' w -> distance2_at s' v w x = distance2_at s v w x.
  Proof. intros H K. unfold distance2_at. rewrite (se_position _ _ _ H), (se_position _ _ _ K). reflexivity. Qed.
  Lemma edge_time_view v w : sees s s' v -> sees s s' w -> collapse_time_edge s' v w = collapse_time_edge s v w.
  Proof.
    intros H K. unfold collapse_time_edge.
    rewrite (se_velocity _ _ _ H), (se_velocity _ _ _ K), (se_origin _ _ _ H), (se_origin _ _ _ K). reflexivity.
  Qed.
  Lemma coeff_view o d a : sees s s' o -> sees s s' d -> sees s s' a ->
    area_collapse_time_coeff (vs s' o) (vs s' d) (vs s' a) = area_collapse_time_coeff (vs s o) (vs s d) (vs s a).
  Proof.
    intros H K L. unfold area_collapse_time_coeff.
    rewrite (se_velocity _ _ _ H), (se_velocity _ _ _ K), (se_velocity _ _ _ L),
      (se_origin _ _ _ H), (se_origin _ _ _ K), (se_origin _ _ _ L). reflexivity.
  Qed.
  Lemma areas_view o d a : sees s s' o -> sees s s' d -> sees s s' a -> area_collapse_times s' o d a = area_collapse_times s o d a.
  Proof. intros H K L. unfold area_collapse_times. rewrite coeff_view by assumption. reflexivity. Qed.
  Lemma crash_view o d a : wfs s' = wfs s -> sees s s' o -> sees s s' d -> sees s s' a ->
    vertex_crash_time s' o d a = vertex_crash_time s o d a.
  Proof.
    intros W H K L. unfold vertex_crash_time, kattr.
    rewrite (se_velocity _ _ _ L), (se_origin _ _ _ H), (se_origin _ _ _ L), (se_ur _ _ _ H), (se_ul _ _ _ K),
      (se_inf _ _ _ H), (se_inf _ _ _ K), W. reflexivity.
  Qed.
  Lemma dists2_view o d a x : sees s s' o -> sees s s' d -> sees s s' a -> dists2 s' o d a x = dists2 s o d a x.
  Proof. intros H K L. unfold dists2. rewrite !distance_view by assumption. reflexivity. Qed.
  Lemma dists_view o d a x : sees s s' o -> sees s s' d -> sees s s' a -> dists s' o d a x = dists s o d a x.
  Proof. intros H K L. unfold dists. rewrite dists2_view by assumption. reflexivity. Qed.

  Context (t : nat) (V : view s s' t).

  Lemma type_view : tri_type (ts s' t) = tri_type (ts s t).
  Proof.
    unfold tri_type, count3. pose proof (vw_n _ _ _ V S0) as H0. pose proof (vw_n _ _ _ V S1) as H1.
    pose proof (vw_n _ _ _ V S2) as H2. cbn in H0, H1, H2. rewrite H0, H1, H2. reflexivity.
  Qed.
  Lemma mkevent_view w sd tp : mkevent s' t w sd tp = mkevent s t w sd tp.
  Proof. unfold mkevent. rewrite type_view. reflexivity. Qed.
  Lemma some_view i : is_some (get3 (t_n (ts s' t)) i) = is_some (get3 (t_n (ts s t)) i).
  Proof.
    pose proof (vw_n _ _ _ V i) as H. destruct (get3 (t_n (ts s' t)) i), (get3 (t_n (ts s t)) i); try reflexivity; discriminate.
  Qed.
  Lemma index_view : index3 is_none (t_n (ts s' t)) = index3 is_none (t_n (ts s t)).
  Proof.
    unfold index3, find3. pose proof (vw_n _ _ _ V S0) as H0. pose proof (vw_n _ _ _ V S1) as H1.
    pose proof (vw_n _ _ _ V S2) as H2. cbn in H0, H1, H2. rewrite H0, H1, H2. reflexivity.
  Qed.
  Lemma finite_view : is_finite s' t = is_finite s t.
  Proof.
    unfold is_finite. rewrite (vw_v _ _ _ V). unfold list3. cbn [forallb].
    pose proof (vw_sees _ _ _ V S0) as H0. pose proof (vw_sees _ _ _ V S1) as H1. pose proof (vw_sees _ _ _ V S2) as H2.
    cbn in H0, H1, H2. rewrite (se_inf _ _ _ H0), (se_inf _ _ _ H1), (se_inf _ _ _ H2). reflexivity.
  Qed.

  Ltac vw := repeat first
    [ reflexivity
    | rewrite mkevent_view
    | rewrite distance_view by auto
    | rewrite edge_time_view by auto
    | rewrite areas_view by auto
    | rewrite coeff_view by auto
    | rewrite crash_view by auto
    | rewrite dists2_view by auto
    | rewrite dists_view by auto
    | rewrite (vw_n _ _ _ V)
    | rewrite some_view
    | match goal with |- rbind _ _ = rbind _ _ => apply rbind_ext; [|intros ?] end
    | match goal with |- match ?x with _ => _ end = match ?x with _ => _ end => destruct x end
    | match goal with |- (if ?x then _ else _) = (if ?x then _ else _) => destruct x end ].

  Lemma degenerate0_view o d a now l : sees s s' o -> sees s s' d -> sees s s' a ->
    event0_degenerate s' t o d a now l = event0_degenerate s t o d a now l.
  Proof.
    intros H K L. induction l as [|x l IH]; [reflexivity|]. cbn [event0_degenerate].
    destruct (near_zero _); [|exact IH]. vw.
  Qed.

  Lemma event0_view now sv : compute_event_0triangle s' t now sv = compute_event_0triangle s t now sv.
  Proof.
    unfold compute_event_0triangle. rewrite type_view, (vw_v _ _ _ V).
    pose proof (vw_sees _ _ _ V S0) as H0. pose proof (vw_sees _ _ _ V S1) as H1. pose proof (vw_sees _ _ _ V S2) as H2.
    cbn in H0, H1, H2. apply rbind_ext; [reflexivity|intros _].
    rewrite areas_view by auto. apply rbind_ext; [reflexivity|intros ta].
    rewrite degenerate0_view by auto. apply rbind_ext; [reflexivity|intros [e|]]; [reflexivity|].
    unfold event0_edge. vw.
  Qed.

  Lemma event1_view now sv : compute_event_1triangle s' t now sv = compute_event_1triangle s t now sv.
  Proof.
    unfold compute_event_1triangle. rewrite type_view, (vw_v _ _ _ V), index_view.
    pose proof (vw_sees _ _ _ V S0) as H0. pose proof (vw_sees _ _ _ V S1) as H1. pose proof (vw_sees _ _ _ V S2) as H2.
    cbn in H0, H1, H2. apply rbind_ext; [reflexivity|intros _]. apply rbind_ext; [reflexivity|intros wf].
    pose proof (vw_sees _ _ _ V (ccw wf)) as H3. pose proof (vw_sees _ _ _ V (cw wf)) as H4. pose proof (vw_sees _ _ _ V wf) as H5.
    pose proof (vw_wfs _ _ _ V) as W. unfold event1_degenerate, event1_caseA, event1_caseB, event1_caseD.
    rewrite crash_view by auto. apply rbind_ext; [reflexivity|intros cr]. vw.
  Qed.

  Lemma event2_view now sv : compute_event_2triangle s' t now sv = compute_event_2triangle s t now sv.
  Proof.
    unfold compute_event_2triangle. rewrite type_view, (vw_v _ _ _ V).
    pose proof (vw_sees _ _ _ V S0) as H0. pose proof (vw_sees _ _ _ V S1) as H1. pose proof (vw_sees _ _ _ V S2) as H2.
    cbn in H0, H1, H2. rewrite !(vw_n _ _ _ V). unfold event2_at. vw.
  Qed.

  Lemma event3_view now sv : compute_event_3triangle s' t now sv = compute_event_3triangle s t now sv.
  Proof.
    unfold compute_event_3triangle. rewrite type_view, (vw_v _ _ _ V).
    pose proof (vw_sees _ _ _ V S0) as H0. pose proof (vw_sees _ _ _ V S1) as H1. pose proof (vw_sees _ _ _ V S2) as H2.
    cbn in H0, H1, H2. vw.
  Qed.

  Lemma eventinf_view now sv : compute_event_inftriangle s' t now sv = compute_event_inftriangle s t now sv.
  Proof.
    unfold compute_event_inftriangle. rewrite type_view, (vw_v _ _ _ V).
    pose proof (vw_sees _ _ _ V S0) as H0. pose proof (vw_sees _ _ _ V S1) as H1. pose proof (vw_sees _ _ _ V S2) as H2.
    cbn in H0, H1, H2.
    assert (F : find3 (fun v => k_inf (vs s' v)) (t_v (ts s t)) = find3 (fun v => k_inf (vs s v)) (t_v (ts s t))).
    { unfold find3. rewrite (se_inf _ _ _ H0), (se_inf _ _ _ H1), (se_inf _ _ _ H2). reflexivity. }
    rewrite F. set (sd := match find3 _ _ with Some i => i | None => S2 end). clearbody sd. clear F.
    pose proof (vw_sees _ _ _ V) as HA. unfold edge_segment. rewrite (vw_v _ _ _ V). vw.
  Qed.

  Theorem collapse_view now sv : collapse_event s' t now sv = collapse_event s t now sv.
  Proof.
    unfold collapse_event. rewrite (vw_stops _ _ _ V), finite_view, type_view.
    destruct (is_some _); [reflexivity|]. destruct (is_finite s t); [|apply eventinf_view].
    rewrite event0_view, event1_view, event2_view, event3_view. apply rbind_ext; [reflexivity|].
    intros [e|]; [reflexivity|]. rewrite (vw_v _ _ _ V). apply rbind_ext; [|reflexivity].
    unfold list3. cbn [rmapl].
    pose proof (se_position _ _ _ (vw_sees _ _ _ V S0)) as H0. pose proof (se_position _ _ _ (vw_sees _ _ _ V S1)) as H1.
    pose proof (se_position _ _ _ (vw_sees _ _ _ V S2)) as H2. cbn in H0, H1, H2. rewrite H0, H1, H2. reflexivity.
  Qed.

  Theorem new_edge_view now : new_edge_collapse_event s' t now = new_edge_collapse_event s t now.
  Proof.
    unfold new_edge_collapse_event. rewrite (vw_v _ _ _ V).
    pose proof (vw_sees _ _ _ V S0) as H0. pose proof (vw_sees _ _ _ V S1) as H1. pose proof (vw_sees _ _ _ V S2) as H2.
    cbn in H0, H1, H2. vw.
  Qed.
  Theorem sched_view e : OpSpec.sched_event s' t e = OpSpec.sched_event s t e.
  Proof. unfold OpSpec.sched_event. rewrite type_view. reflexivity. Qed.
  End Two.

  Lemma sees_follows s s' v : registered s -> follows s s' -> v < nv s -> sees s s' v.
  Proof.
    intros R F L. pose proof (fo_motion _ _ F v L) as Mo. constructor; try apply Mo.
    intros w. unfold position_at. rewrite (sm_inf _ _ Mo), (sm_origin _ _ Mo), (sm_velocity _ _ Mo), (sm_fast _ _ Mo), (sm_start_node _ _ Mo).
    destruct (k_inf _); [reflexivity|]. destruct (k_inf_fast _); [|reflexivity].
    destruct (k_start_node (vs s v)) as [n|] eqn:K; [|reflexivity].
    rewrite (fo_ns _ _ F); [reflexivity|]. apply (rg_nodes _ R). eapply (rg_start _ R), K.
  Qed.
  Lemma view_follows s s' t : registered s -> follows s s' -> (forall i, get3 (t_v (ts s t)) i < nv s) ->
    t_v (ts s' t) = t_v (ts s t) -> (forall i, is_none (get3 (t_n (ts s' t)) i) = is_none (get3 (t_n (ts s t)) i)) ->
    is_some (t_stops (ts s' t)) = is_some (t_stops (ts s t)) -> view s s' t.
  Proof.
    intros R F L H1 H2 H3. constructor; auto; [apply (fo_wfs _ _ F)|]. intros i. apply sees_follows; auto.
  Qed.
End View.

Section Settled.
  Context {A : Arith} {E : Env A}.
  Context (O : OrdArith A).
  Context (addr_inj : forall t u : nat, addr t = addr u -> t = u).
  Local Open Scope M_scope.

  (** triangles of which nothing is claimed as long as they have no event *)
  Context (Z : nat -> Prop).

  (** the events still to be handled *)
  Definition waits (s : state) (e : nat) : Prop := In e (queue s ++ immediate s).

  (** the event [e] is what the state [s] shows to be the event of triangle [t]
      after time [w]: in the queue, the result of the search for its next event; among
      the immediate events, the collapse of its shortest sides right at that time *)
  Definition computed (s : state) (t : nat) (w : num) (e : nat) : Prop :=
    (In e (queue s) /\ exists sv, collapse_event s t w sv = Ok (Some (es s e))) \/
    (In e (immediate s) /\ exists ev0, new_edge_collapse_event s t w = Ok ev0 /\ es s e = OpSpec.sched_event s t ev0).
  Lemma computed_waits s t w e : computed s t w e -> waits s e.
  Proof. intros [[H _]|[H _]]; apply in_app_iff; auto. Qed.

  (** a moment from the start up to [now] *)
  Definition past (now w : num) : Prop := nleb w now = true /\ (nleb n0 now = true -> nleb n0 w = true).
  Lemma past_now now : past now now.
  Proof. split; [apply (nleb_refl O)|auto]. Qed.

  (** triangle [t] is stopped, or its event waits and is what the present state
      shows, or no event waits and the present state shows none *)
  Definition settled (now : num) (s : state) (t : nat) : Prop :=
    is_some (t_stops (ts s t)) = true \/
    (t_event (ts s t) = None /\ (Z t \/ exists w sv, past now w /\ collapse_event s t w sv = Ok None)) \/
    exists e w, t_event (ts s t) = Some e /\ past now w /\
      (computed s t w e \/ (~ waits s e /\ exists sv, collapse_event s t w sv = Ok None)).

  Definition but (now : num) (X : nat -> Prop) (s : state) : Prop := forall t, ~ X t -> settled now s t.
  Definition placed (s : state) : Prop := forall t i, get3 (t_v (ts s t)) i < nv s.
  Definition good (now : num) (s : state) : Prop := timed now s /\ placed s.

  Lemma but_weak now (X Y : nat -> Prop) s : (forall t, X t -> Y t) -> but now X s -> but now Y s.
  Proof. intros H B t N. apply B. auto. Qed.

  (** [e] waits in the same place, unchanged *)
  Definition same_wait (s s' : state) (e : nat) : Prop :=
    (In e (queue s') <-> In e (queue s)) /\ (In e (immediate s') <-> In e (immediate s)) /\ es s' e = es s e.
  Lemma kept_waits s s' e : same_wait s s' e -> (waits s' e <-> waits s e).
  Proof. intros (H1 & H2 & _). unfold waits. rewrite !in_app_iff. tauto. Qed.
  Lemma computed_view s s' t w e : view s s' t -> same_wait s s' e -> computed s t w e -> computed s' t w e.
  Proof.
    intros V (K1 & K2 & K3) [[Q [sv H]]|(Q & ev & H & K)].
    - left. split; [tauto|]. exists sv. rewrite (collapse_view s s' t V), K3. exact H.
    - right. split; [tauto|]. exists ev. rewrite (new_edge_view s s' t V), (sched_view s s' t V), K3. auto.
  Qed.

  Lemma settled_keep now s s' t : view s s' t -> t_event (ts s' t) = t_event (ts s t) ->
    (forall e, t_event (ts s t) = Some e -> same_wait s s' e) ->
    settled now s t -> settled now s' t.
  Proof.
    intros V H K [S|[[S S']|(e & w & S1 & S2 & S3)]].
    - left. rewrite (vw_stops _ _ _ V). exact S.
    - right. left. split; [congruence|]. destruct S' as [S'|(w & sv & S1 & S2)]; [left; exact S'|right].
      exists w, sv. rewrite (collapse_view s s' t V). auto.
    - right. right. exists e, w. rewrite H. split; [exact S1|]. split; [exact S2|].
      specialize (K e S1). rewrite (kept_waits _ _ _ K). destruct S3 as [S3|[S3 [sv S4]]].
      + left. eapply computed_view; eauto.
      + right. split; [exact S3|]. exists sv. rewrite (collapse_view s s' t V). exact S4.
  Qed.

  (** operations that change neither triangles nor events *)
  Lemma inert now s s' : good now s -> timed now s' -> follows s s' -> ts s' = ts s -> es s' = es s ->
    queue s' = queue s -> immediate s' = immediate s -> good now s' /\ (forall X, but now X s -> but now X s').
  Proof.
    intros [T P] T' F H1 H2 H3 H4. split.
    - split; [exact T'|]. intros t i. rewrite H1. specialize (P t i). pose proof (fo_nv _ _ F). lia.
    - intros X B t N. eapply settled_keep; [| | |apply B, N].
      + apply view_follows; auto; try (rewrite H1; reflexivity). apply T.
      + rewrite H1. reflexivity.
      + intros e _. unfold same_wait. rewrite H2, H3, H4. tauto.
  Qed.

  Lemma stop_step V step now pos s n s' : good now s -> stop_and_register V step now pos s = Ok (n, s') ->
    good now s' /\ follows s s' /\ In n (sk_nodes s') /\ (forall X, but now X s -> but now X s') /\ ts s' = ts s.
  Proof.
    intros G H. destruct (s_stop (timed_sound O addr_inj) now s V step pos (proj1 G) n s' H) as (T & F & N).
    apply stop_same in H. destruct H as (H1 & H2 & H3 & H4 & H5). destruct (inert now s s'); auto.
  Qed.
  Lemma newv_step ul ur now n info int s v s' : good now s -> In n (sk_nodes s) ->
    compute_new_kvertex ul ur now n info int s = Ok (v, s') ->
    good now s' /\ follows s s' /\ nv s <= v < nv s' /\ (forall X, but now X s -> but now X s') /\ ts s' = ts s.
  Proof.
    intros G N H. destruct (s_newv (timed_sound O addr_inj) now s ul ur n info int (proj1 G) N v s' H) as (T & F & L).
    apply newv_spec in H. destruct H as (kv & _ & -> & ->). edestruct (inert now s); eauto; cbn; auto.
  Qed.
  Lemma wf_step now v l r s u s' : good now s -> set_wf v l r s = Ok (u, s') ->
    good now s' /\ follows s s' /\ (forall X, but now X s -> but now X s') /\ ts s' = ts s.
  Proof.
    intros G H. destruct (s_wf (timed_sound O addr_inj) now s v l r (proj1 G) u s' H) as (T & F).
    apply modv_spec in H. destruct H as [_ ->]. edestruct (inert now s); eauto.
  Qed.
  Lemma addv_step now v s u s' : good now s -> v < nv s -> add_vertex v s = Ok (u, s') ->
    good now s' /\ follows s s' /\ (forall X, but now X s -> but now X s') /\ ts s' = ts s.
  Proof.
    intros G L H. destruct (s_addv (timed_sound O addr_inj) now s v (proj1 G) L u s' H) as (T & F).
    injection H as _ <-. edestruct (inert now s); eauto.
  Qed.
  Lemma circ_step l r now s u s' : good now s -> update_circ l r now s = Ok (u, s') ->
    good now s' /\ follows s s' /\ (forall X, but now X s -> but now X s') /\ ts s' = ts s.
  Proof.
    intros G H. destruct (s_circ (timed_sound O addr_inj) now s l r (proj1 G) u s' H) as (T & F).
    apply circ_spec in H. destruct H as (f & -> & _). edestruct (inert now s); eauto.
  Qed.

  (** changing a triangle *)
  Lemma modt_keep now s t f X : good now s -> timed now (with_ts s (upd (ts s) t (f (ts s t)))) ->
    follows s (with_ts s (upd (ts s) t (f (ts s t)))) -> but now X s ->
    forall u, u <> t -> ~ X u -> settled now (with_ts s (upd (ts s) t (f (ts s t)))) u.
  Proof.
    intros G T F B u Nu N. eapply settled_keep; [| | |apply B, N].
    - apply view_follows; auto; try apply G; cbn; rewrite upd_other by auto; reflexivity.
    - cbn. rewrite upd_other by auto. reflexivity.
    - intros e _. unfold same_wait. cbn. tauto.
  Qed.
  Lemma mesh_step now s t f u s' : good now s -> mesh_change f -> (forall i, get3 (t_v (f (ts s t))) i < nv s) ->
    modt t f s = Ok (u, s') ->
    good now s' /\ follows s s' /\ (forall X, but now X s -> but now (fun w => X w \/ w = t) s').
  Proof.
    intros G F P H. destruct (s_mesh (timed_sound O addr_inj) now s t f (proj1 G) F u s' H) as (T & Fo).
    apply modt_spec in H. subst s'. split; [split; [exact T|]|split; [exact Fo|]].
    - intros w i. cbn. destruct (upd_case (ts s) t (f (ts s t)) w) as [[_ ->]|[_ ->]]; [apply P|apply G].
    - intros X B w N. eapply modt_keep; eauto.
  Qed.
  Lemma tstops_step now s t u s' : good now s -> set_tstops t now s = Ok (u, s') ->
    good now s' /\ follows s s' /\ (forall X, but now X s -> but now (fun w => X w /\ w <> t) s').
  Proof.
    intros G H. destruct (s_tstops (timed_sound O addr_inj) now s t (proj1 G) u s' H) as (T & Fo).
    apply modt_spec in H. subst s'. split; [split; [exact T|]|split; [exact Fo|]].
    - intros w i. cbn. destruct (upd_case (ts s) t (tri_stops (ts s t) (Some now)) w) as [[-> ->]|[_ ->]]; apply G.
    - intros X B w N. destruct (Nat.eq_dec w t) as [->|Nw].
      + left. cbn. rewrite upd_same. reflexivity.
      + eapply (modt_keep now s t (fun x => tri_stops x (Some now)) X); eauto.
  Qed.

  (** the event of another triangle stays *)
  Lemma discard_stays s e q x : In x q -> ev_tri (es s x) <> ev_tri (es s e) -> In x (q_discard s e q).
  Proof.
    induction q as [|y r IH]; [auto|]. intros H N. cbn [q_discard].
    destruct (compare_event_by_time (es s e) (es s y)) eqn:C.
    - destruct H as [<-|H]; [|exact H]. apply (cmp_eq O addr_inj) in C. destruct C as (_ & _ & C). congruence.
    - destruct H as [<-|H]; [simpl; auto|right; auto].
    - destruct H as [<-|H]; [simpl; auto|right; auto].
  Qed.
  Lemma remove1_stays e q x : In x q -> x <> e -> In x (remove1 e q).
  Proof.
    induction q as [|y r IH]; [auto|]. intros H N. cbn [remove1]. destruct (Nat.eqb_spec e y) as [->|].
    - destruct H as [H|H]; [congruence|exact H].
    - destruct H as [<-|H]; [simpl; auto|right; auto].
  Qed.
  Lemma forget_waits now s t x : pending now s -> ev_tri (es s x) <> t -> same_wait s (forget s (t_event (ts s t))) x.
  Proof.
    intros P N. unfold same_wait. destruct (t_event (ts s t)) as [e|] eqn:K; [|repeat split; auto]. cbn.
    pose proof (pe_ev _ _ P t e K) as [_ Te]. split; [|split; [|reflexivity]]; split; intros H.
    - eapply drop1_In; [apply q_discard_drop|exact H].
    - apply discard_stays; [exact H|congruence].
    - eapply drop1_In; [apply remove1_drop|exact H].
    - apply remove1_stays; [exact H|congruence].
  Qed.
  Lemma forget_gone now s t e : pending now s -> t_event (ts s t) = Some e -> ~ waits (forget s (t_event (ts s t))) e.
  Proof.
    intros P K W. apply (forget_none O now s t P e W). apply (pe_ev _ _ P t e K).
  Qed.

  Lemma event_tri now s t e : pending now s -> t_event (ts s t) = Some e -> ev_tri (es s e) = t /\ e < ne s.
  Proof. intros P K. destruct (pe_ev _ _ P t e K). auto. Qed.

  Lemma riq_step now s t u s' : good now s -> replace_in_queue t now s = Ok (u, s') ->
    good now s' /\ follows s s' /\ (forall X, but now X s -> but now (fun w => X w /\ w <> t) s').
  Proof.
    intros G H. destruct (s_riq (timed_sound O addr_inj) now s t (proj1 G) u s' H) as (T & Fo).
    pose proof (mesh_same_riq _ _ _ _ _ H) as MS.
    assert (G' : good now s').
    { split; [exact T|]. intros w i. destruct (MS w) as (-> & _). destruct G as [_ G]. specialize (G w i). pose proof (fo_nv _ _ Fo). lia. }
    split; [exact G'|]. split; [exact Fo|]. intros X B w N.
    assert (VW : forall w, view s s' w).
    { intros w0. destruct (MS w0) as (M1 & M2 & M3). apply view_follows; auto; try apply G; rewrite ?M2, ?M3; reflexivity. }
    pose proof (proj2 (proj2 (proj1 G))) as P.
    apply riq_spec in H. set (s1 := forget s (t_event (ts s t))) in *.
    destruct (forget_fields s (t_event (ts s t))) as (F1 & F2 & F3 & F4). fold s1 in F1, F2, F3, F4.
    assert (C1 : forall sv, collapse_event s' t now sv = collapse_event s1 t now sv).
    { intros sv. rewrite (collapse_view s s' t (VW t)). symmetry.
      apply collapse_view. constructor; try (rewrite F3; reflexivity).
      - unfold s1, forget. destruct (t_event (ts s t)); reflexivity.
      - intros i. constructor; try (rewrite F4; reflexivity). intros z. unfold position_at. rewrite F4.
        unfold s1, forget. destruct (t_event (ts s t)); reflexivity. }
    destruct (Nat.eq_dec w t) as [->|Nw].
    - clear N. right. destruct H as [[Hc ->]|(e & Hc & ->)].
      + destruct (t_event (ts s t)) as [e|] eqn:K.
        * right. exists e, now. rewrite F3. split; [exact K|]. split; [apply past_now|]. right.
          split; [|exists FindGte; exact Hc]. intros W. apply (forget_gone now s t e P K). rewrite K. exact W.
        * left. rewrite F3. split; [exact K|]. right. exists now, FindGte. split; [apply past_now|exact Hc].
      + right. exists (ne s), now. cbn in C1 |- *. rewrite <- F2. rewrite !upd_same. cbn. split; [reflexivity|].
        split; [apply past_now|]. left. left. split.
        * cbn.
          assert (P1 : pending now s1) by (apply pending_forget, P).
          destruct (pending_add O addr_inj now s1 t e P1) as [_ PP].
          { intros x Hx. rewrite F1. apply (forget_none O now s t P). exact Hx. }
          { apply (collapse_event_good O) in Hc. destruct Hc as [W _]. apply (wf_tri _ _ _ W). }
          { apply (collapse_event_good O) in Hc. apply (good_time O _ _ _ _ _ Hc). }
          eapply Permutation_in; [exact PP|]. simpl. auto.
        * exists FindGte. rewrite <- F2 in C1. rewrite C1. cbn. rewrite upd_same. exact Hc.
    - assert (NX : ~ X w) by tauto. eapply settled_keep; [apply VW| | |apply B, NX].
      + destruct H as [[Hc ->]|(e & Hc & ->)]; cbn; rewrite F3; [reflexivity|]. rewrite upd_other by auto. reflexivity.
      + intros e Ke. destruct (event_tri now s w e P Ke) as [Te Le].
        pose proof (forget_waits now s t e P ltac:(congruence)) as FW. fold s1 in FW.
        destruct H as [[Hc ->]|(e1 & Hc & ->)].
        * exact FW.
        * destruct FW as (FW1 & FW2 & _). unfold same_wait. cbn. rewrite F1, upd_other by lia. split; [|split; [exact FW2|reflexivity]]. rewrite <- FW1.
          assert (P1 : pending now s1) by (apply pending_forget, P).
          destruct (pending_add O addr_inj now s1 t e1 P1) as [_ PP].
          { intros x Hx. rewrite F1. apply (forget_none O now s t P). exact Hx. }
          { apply (collapse_event_good O) in Hc. destruct Hc as [W _]. apply (wf_tri _ _ _ W). }
          { apply (collapse_event_good O) in Hc. apply (good_time O _ _ _ _ _ Hc). }
          rewrite <- F2. cbn in PP. split; intros K.
          -- eapply Permutation_in in K; [|symmetry; exact PP]. destruct K as [K|K]; [lia|exact K].
          -- eapply Permutation_in; [exact PP|]. simpl. auto.
  Qed.

  Lemma sched_step now s t u s' : good now s -> schedule_immediately t now s = Ok (u, s') ->
    good now s' /\ follows s s' /\ (forall X, but now X s -> but now (fun w => X w /\ w <> t) s').
  Proof.
    intros G H. destruct (s_sched (timed_sound O addr_inj) now s t (proj1 G) u s' H) as (T & Fo).
    pose proof (mesh_same_sched _ _ _ _ _ H) as MS.
    assert (G' : good now s').
    { split; [exact T|]. intros w i. destruct (MS w) as (-> & _). destruct G as [_ G]. specialize (G w i). pose proof (fo_nv _ _ Fo). lia. }
    split; [exact G'|]. split; [exact Fo|]. intros X B w N.
    assert (VW : forall w, view s s' w).
    { intros w0. destruct (MS w0) as (M1 & M2 & M3). apply view_follows; auto; try apply G; rewrite ?M2, ?M3; reflexivity. }
    pose proof (proj2 (proj2 (proj1 G))) as P.
    apply sched_spec in H. set (s1 := forget s (t_event (ts s t))) in *.
    destruct (forget_fields s (t_event (ts s t))) as (F1 & F2 & F3 & F4). fold s1 in F1, F2, F3, F4.
    destruct H as (e & He & _ & _ & _ & _ & _ & _ & _ & Hne & _ & _ & _ & _ & Hq & Hi & Ht & Hes).
    assert (C1 : new_edge_collapse_event s' t now = new_edge_collapse_event s1 t now).
    { rewrite (new_edge_view s s' t (VW t)). symmetry.
      apply new_edge_view. constructor; try (rewrite F3; reflexivity).
      - unfold s1, forget. destruct (t_event (ts s t)); reflexivity.
      - intros i. constructor; try (rewrite F4; reflexivity). intros z. unfold position_at. rewrite F4.
        unfold s1, forget. destruct (t_event (ts s t)); reflexivity. }
    destruct (Nat.eq_dec w t) as [->|Nw].
    - clear N. right. right. exists (ne s), now. rewrite Ht, upd_same. cbn. split; [reflexivity|].
      split; [apply past_now|]. left. right. split.
      + rewrite Hi, in_app_iff. simpl. auto.
      + exists e. rewrite C1. split; [exact He|]. rewrite Hes, upd_same. symmetry. apply (sched_view s s' t (VW t)).
    - assert (NX : ~ X w) by tauto. eapply settled_keep; [apply VW| | |apply B, NX].
      + rewrite Ht, upd_other by auto. reflexivity.
      + intros x Kx. destruct (event_tri now s w x P Kx) as [Te Le].
        pose proof (forget_waits now s t x P ltac:(congruence)) as FW. fold s1 in FW.
        destruct FW as (FW1 & FW2 & _). unfold same_wait. rewrite Hes, upd_other by lia. rewrite <- FW1, <- FW2, Hq, Hi, !in_app_iff.
        simpl. intuition lia.
  Qed.

  Ltac peel H n s1 H1 := apply bind_ok in H; destruct H as (n & s1 & H1 & H).

  Lemma set_tv_step now s t sd v u s' : good now s -> v < nv s -> set_tv t sd v s = Ok (u, s') ->
    good now s' /\ follows s s' /\ (forall X, but now X s -> but now (fun w => X w \/ w = t) s').
  Proof.
    intros G L H. eapply mesh_step; eauto.
    - intros x. repeat split; reflexivity.
    - intros i. cbn. rewrite get_set3. destruct (side_eq_dec i sd); [exact L|apply G].
  Qed.
  Lemma set_tn_step now s t sd n u s' : good now s -> set_tn t sd n s = Ok (u, s') ->
    good now s' /\ follows s s' /\ (forall X, but now X s -> but now (fun w => X w \/ w = t) s').
  Proof.
    intros G H. eapply mesh_step; eauto.
    - intros x. repeat split; reflexivity.
    - intros i. cbn. apply G.
  Qed.
  Lemma relink_step now s n t x u s' : good now s -> relink n t x s = Ok (u, s') ->
    good now s' /\ follows s s' /\ (forall X, but now X s -> but now (fun w => X w \/ w = n) s') /\
    t_event (ts s' n) = t_event (ts s n) /\ t_stops (ts s' n) = t_stops (ts s n).
  Proof.
    intros G H. pose proof H as H0. apply relink_ok in H0; [|apply G]. destruct H0 as (_ & _ & V & _).
    unfold relink in H. peel H y s1 H1. apply ro_ok in H1; [|auto with ro]. subst s1.
    peel H i s1 H1. apply ro_ok in H1; [|auto with ro]. subst s1.
    apply (set_tn_step now) in H; auto. destruct H as (H1 & H2 & H3). destruct (V n) as (_ & V1 & V2). auto.
  Qed.

  Lemma walk_settles fuel : forall t v newv now d s fan s', good now s -> newv < nv s ->
    replace_walk fuel t v newv now d s = Ok (fan, s') ->
    good now s' /\ follows s s' /\
    (k_inf_fast (vs s newv) = false -> forall X, but now X s -> but now (fun w => X w /\ t <> Some w) s').
  Proof.
    induction fuel as [|fuel IH]; intros t v newv now d s fan s' G L H.
    { cbn [replace_walk] in H. destruct t; [discriminate|]. injection H as <- <-. split; [exact G|]. split; [apply follows_refl|].
      intros _ X B. eapply but_weak; [|exact B]. intros t Ht. split; [exact Ht|discriminate]. }
    cbn [replace_walk] in H. destruct t as [t|].
    2:{ injection H as <- <-. split; [exact G|]. split; [apply follows_refl|].
      intros _ X B. eapply but_weak; [|exact B]. intros t Ht. split; [exact Ht|discriminate]. }
    peel H x s1 H1. apply gets_ok in H1. destruct H1 as [-> ->].
    peel H sd s1 H1. apply ro_ok in H1; [|auto with ro]. subst s1.
    peel H y s1 H1. apply (set_tv_step now) in H1; auto. destruct H1 as (G1 & F1 & B1).
    peel H fast s1' H1. unfold vattr in H1. apply rd_ok in H1. destruct H1 as [H1 ->].
    assert (FA : k_inf_fast (vs s newv) = fast).
    { unfold kattr in H1. rewrite <- (sm_fast _ _ (fo_motion _ _ F1 newv L)). destruct (k_inf (vs s1 newv)); [discriminate|]. injection H1 as H1. exact H1. }
    peel H y2 s2 H2.
    assert (K2 : good now s2 /\ follows s1 s2 /\ (fast = false -> forall X, but now X s1 -> but now (fun w => X w /\ w <> t) s2)).
    { destruct fast.
      - destruct (t_event (ts s t)) as [e|].
        + destruct (s_forget (timed_sound O addr_inj) now s1 e (proj1 G1) y2 s2 H2) as [T F].
          split; [split; [exact T|]|split; [exact F|discriminate]].
          apply forget_spec in H2. subst s2. cbn. apply G1.
        + apply (riq_step now) in H2; auto. destruct H2 as (? & ? & ?). split; [assumption|]. split; [assumption|discriminate].
      - apply (riq_step now) in H2; auto. destruct H2 as (? & ? & ?). auto. }
    destruct K2 as (G2 & F2 & B2).
    peel H z s3 H3. apply gets_ok in H3. destruct H3 as [-> ->].
    peel H fan' s3 H3. apply ret_ok in H. destruct H as [_ ->].
    assert (L2 : newv < nv s2) by (pose proof (fo_nv _ _ F1); pose proof (fo_nv _ _ F2); lia).
    apply IH in H3; auto. destruct H3 as (G3 & F3 & B3).
    pose proof (follows_trans _ _ _ F1 F2) as F12.
    split; [exact G3|]. split; [exact (follows_trans _ _ _ F12 F3)|]. intros NF X B.
    assert (fast = false) as E0 by congruence.
    rewrite <- (sm_fast _ _ (fo_motion _ _ F12 newv L)) in NF.
    eapply but_weak; [|apply (B3 NF), (B2 E0), B1, B]. intros w [[[Hw|Hw] Nw] _]; [|congruence].
    split; [exact Hw|congruence].
  Qed.

  Lemma replace_step t v newv now d s fan s' : good now s -> newv < nv s ->
    replace_kvertex t v newv now d s = Ok (fan, s') ->
    good now s' /\ follows s s' /\
    (k_inf_fast (vs s newv) = false -> forall X, but now X s -> but now (fun w => X w /\ w <> t) s').
  Proof.
    intros G L H. unfold replace_kvertex in H. peel H n s1 H1. apply gets_ok in H1. destruct H1 as [-> ->].
    apply walk_settles in H; auto. destruct H as (H1 & H2 & H3). split; [exact H1|]. split; [exact H2|].
    intros NF X B. eapply but_weak; [|apply (H3 NF X B)]. intros w [Hw Nw]. split; [exact Hw|congruence].
  Qed.

  Lemma tiny_step fan kv now d s u s' : good now s -> schedule_if_tiny fan kv now d s = Ok (u, s') ->
    good now s' /\ follows s s' /\ (forall X, but now X s -> but now X s').
  Proof.
    intros G H. unfold schedule_if_tiny in H. destruct (rev fan) as [|t r].
    { apply ret_ok in H. destruct H as [_ ->]. split; [exact G|]. split; [apply follows_refl|auto]. }
    peel H x s1 H1. apply ro_ok in H1; [|auto with ro]. subst s1.
    peel H i s1 H1. apply ro_ok in H1; [|auto with ro]. subst s1.
    destruct (edge_segment x (d i)) as [o d0].
    peel H d2 s1 H1. apply ro_ok in H1; [|auto with ro]. subst s1.
    peel H r0 s1 H1. apply ro_ok in H1; [|auto with ro]. subst s1.
    unfold whenM in H. destruct (near_zero r0).
    - apply (sched_step now) in H; auto. destruct H as (H1 & H2 & H3). split; [exact H1|]. split; [exact H2|].
      intros X B. eapply but_weak; [|apply (H3 X B)]. intros w [Hw _]; exact Hw.
    - apply ret_ok in H. destruct H as [_ ->]. split; [exact G|]. split; [apply follows_refl|auto].
  Qed.

  Lemma but_done now (X : nat -> Prop) s n : but now (fun w => X w \/ w = n) s ->
    (t_event (ts s n) = None /\ Z n \/ is_some (t_stops (ts s n)) = true) -> but now X s.
  Proof.
    intros B K w N. destruct (Nat.eq_dec w n) as [->|Nw].
    - destruct K as [[K K']|K]; [right; left; auto|left; exact K].
    - apply B. tauto.
  Qed.

  (** the triangle [n] may lose a neighbour *)
  Definition alert (s : state) (n : nat) : Prop :=
    is_some (t_stops (ts s n)) = true \/ is_some (t_event (ts s n)) = true \/ Z n.

  Lemma when_sched_step n now s u s' : good now s -> alert s n ->
    whenM (is_some (t_event (ts s n)) && is_none (t_stops (ts s n))) (schedule_immediately n now) s = Ok (u, s') ->
    good now s' /\ follows s s' /\ (forall X, but now (fun w => X w \/ w = n) s -> but now X s').
  Proof.
    intros G AL H. unfold whenM in H. destruct (_ && _)%bool eqn:C.
    - apply (sched_step now) in H; auto. destruct H as (H1 & H2 & H3). split; [exact H1|]. split; [exact H2|].
      intros X B. eapply but_weak; [|apply (H3 _ B)]. intros w [[Hw|Hw] Nw]; [exact Hw|contradiction].
    - apply ret_ok in H. destruct H as [_ ->]. split; [exact G|]. split; [apply follows_refl|].
      intros X B. eapply but_done; [exact B|]. destruct AL as [AL|[AL|AL]]; [auto| |].
      + destruct (t_event (ts s n)); [|discriminate]. destruct (t_stops (ts s n)); [auto|discriminate].
      + destruct (t_event (ts s n)); [|auto]. destruct (t_stops (ts s n)); [auto|discriminate].
  Qed.

  Lemma unlink_step o t now s u s' : good now s -> (forall n, o = Some n -> alert s n) -> unlink_and_schedule o t now s = Ok (u, s') ->
    good now s' /\ follows s s' /\ (forall X, but now X s -> but now X s').
  Proof.
    intros G AL H. destruct o as [n|]; cbn [unlink_and_schedule] in H.
    2:{ apply ret_ok in H. destruct H as [_ ->]. split; [exact G|]. split; [apply follows_refl|auto]. }
    peel H y s1 H1. apply (relink_step now) in H1; auto. destruct H1 as (G1 & F1 & B1 & E1 & S1').
    peel H y2 s2 H1. apply gets_ok in H1. destruct H1 as [-> ->].
    apply when_sched_step in H; auto.
    2:{ unfold alert. rewrite E1, S1'. apply AL. reflexivity. }
    destruct H as (G2 & F2 & B2).
    split; [exact G2|]. split; [exact (follows_trans _ _ _ F1 F2)|]. intros X B. apply B2, B1, B.
  Qed.

  Lemma neighbour_step t now sd s u s' : good now s -> schedule_neighbour t now sd s = Ok (u, s') ->
    good now s' /\ follows s s' /\ (forall X, but now X s -> but now X s').
  Proof.
    intros G H. unfold schedule_neighbour in H. peel H x s1 H1. apply gets_ok in H1. destruct H1 as [-> ->].
    destruct (get3 (t_n (ts s t)) sd) as [n|].
    2:{ apply ret_ok in H. destruct H as [_ ->]. split; [exact G|]. split; [apply follows_refl|auto]. }
    peel H y s1 H1. apply gets_ok in H1. destruct H1 as [-> ->]. unfold whenM in H. destruct (_ && _)%bool eqn:C.
    2:{ apply ret_ok in H. destruct H as [_ ->]. split; [exact G|]. split; [apply follows_refl|auto]. }
    peel H y s1 H1. apply (relink_step now) in H1; auto. destruct H1 as (G1 & F1 & B1 & _).
    apply (sched_step now) in H; auto. destruct H as (G2 & F2 & B2).
    split; [exact G2|]. split; [exact (follows_trans _ _ _ F1 F2)|]. intros X B.
    eapply but_weak; [|apply B2, B1, B]. intros w [[Hw|Hw] Nw]; [exact Hw|contradiction].
  Qed.

  (** no triangle loses its event *)
  Definition kept (s s' : state) : Prop :=
    follows s s' /\ forall t, is_some (t_event (ts s t)) = true -> is_some (t_event (ts s' t)) = true.
  Lemma kept_sound : Sound (fun _ => registered) kept.
  Proof.
    assert (K : forall s s' : state, ts s' = ts s -> forall t, is_some (t_event (ts s t)) = true -> is_some (t_event (ts s' t)) = true).
    { intros s s' ->. auto. }
    constructor.
    - intros s. split; [apply follows_refl|auto].
    - intros s s' s'' [F1 K1] [F2 K2]. split; [exact (follows_trans _ _ _ F1 F2)|auto].
    - intros s s' n [F _]. apply (G_reg base_sound _ _ _ F).
    - intros s s' [F _]. apply F.
    - intros now s V step pos R n s' H. destruct (s_stop base_sound now s V step pos R n s' H) as (H1 & H2 & H3).
      split; [exact H1|]. split; [split; [exact H2|apply K; apply stop_same in H; apply H]|exact H3].
    - intros now s v n R Hn u s' H. destruct (s_stop_at base_sound now s v n R Hn u s' H) as (H1 & H2).
      split; [exact H1|]. split; [exact H2|]. apply K. apply stop_at_eff in H. destruct H as (f & -> & _). reflexivity.
    - intros now s ul ur n info int R Hn v s' H. destruct (s_newv base_sound now s ul ur n info int R Hn v s' H) as (H1 & H2 & H3).
      split; [exact H1|]. split; [split; [exact H2|]|exact H3]. apply K. apply newv_spec in H. destruct H as (kv & _ & _ & ->). reflexivity.
    - intros now s v l r R u s' H. destruct (s_wf base_sound now s v l r R u s' H) as (H1 & H2).
      split; [exact H1|]. split; [exact H2|]. apply K. apply modv_spec in H. destruct H as (_ & ->). reflexivity.
    - intros now s v R Hv u s' H. destruct (s_addv base_sound now s v R Hv u s' H) as (H1 & H2).
      split; [exact H1|]. split; [exact H2|]. apply K. injection H as _ <-. reflexivity.
    - intros now s l r R u s' H. destruct (s_circ base_sound now s l r R u s' H) as (H1 & H2).
      split; [exact H1|]. split; [exact H2|]. apply K. apply circ_spec in H. destruct H as (f & -> & _). reflexivity.
    - intros now s t f R Hf u s' H. destruct (s_mesh base_sound now s t f R Hf u s' H) as (H1 & H2).
      split; [exact H1|]. split; [exact H2|]. apply modt_spec in H. subst s'. cbn. intros w.
      destruct (upd_case (ts s) t (f (ts s t)) w) as [[<- ->]|[_ ->]]; auto. destruct (Hf (ts s t)) as (-> & _). auto.
    - intros now s t R u s' H. destruct (s_tstops base_sound now s t R u s' H) as (H1 & H2).
      split; [exact H1|]. split; [exact H2|]. apply modt_spec in H. subst s'. cbn. intros w.
      destruct (upd_case (ts s) t (tri_stops (ts s t) (Some now)) w) as [[<- ->]|[_ ->]]; auto.
    - intros now s e R u s' H. destruct (s_forget base_sound now s e R u s' H) as (H1 & H2).
      split; [exact H1|]. split; [exact H2|]. apply K. apply forget_spec in H. subst s'. reflexivity.
    - intros now s t R u s' H. destruct (s_riq base_sound now s t R u s' H) as (H1 & H2).
      split; [exact H1|]. split; [exact H2|]. apply riq_spec in H.
      destruct (forget_fields s (t_event (ts s t))) as (_ & _ & F3 & _).
      destruct H as [[_ ->]|(e & _ & ->)]; cbn; intros w; rewrite F3; auto.
      match goal with |- context [upd ?a ?b ?c w] => destruct (upd_case a b c w) as [[<- ->]|[_ ->]]; auto end.
    - intros now s t R u s' H. destruct (s_sched base_sound now s t R u s' H) as (H1 & H2).
      split; [exact H1|]. split; [exact H2|]. apply sched_spec in H.
      destruct H as (e & _ & _ & _ & _ & _ & _ & _ & _ & _ & _ & _ & _ & _ & _ & _ & Ht & _).
      intros w. rewrite Ht. destruct (upd_case (ts s) t (tri_event (ts s t) (Some (ne s))) w) as [[<- ->]|[_ ->]]; auto.
  Qed.
  Lemma kept_alert s s' n : kept s s' -> alert s n -> alert s' n.
  Proof. intros [F K] [H|[H|H]]; [left; apply (fo_tstops _ _ F), H|right; left; auto|right; right; exact H]. Qed.

  (** one of the two sides of a collapsing triangle *)
  Lemma side_step o t x v kv now d s fan s' : good now s -> kv < nv s ->
    match o with
    | None => ret []
    | Some a => relink a t x ;;
        let! fan := replace_kvertex a v kv now d in schedule_if_tiny fan kv now d ;; ret fan
    end s = Ok (fan, s') ->
    good now s' /\ follows s s' /\ (k_inf_fast (vs s kv) = false -> forall X, but now X s -> but now X s') /\ kept s s'.
  Proof.
    intros G L H. destruct o as [a|].
    2:{ apply ret_ok in H. destruct H as [_ ->]. split; [exact G|]. split; [apply follows_refl|]. split; [auto|apply (G_refl kept_sound)]. }
    peel H y s1 H1. destruct (keeps_relink kept_sound now a t x s (proj1 (proj1 G)) y s1 H1) as [R1 K1].
    apply (relink_step now) in H1; auto. destruct H1 as (G1 & F1 & B1 & _).
    peel H fan0 s2 H1. destruct (keeps_replace_kvertex kept_sound a v kv now d s1 R1 fan0 s2 H1) as [R2 K2].
    apply replace_step in H1; auto. 2:{ pose proof (fo_nv _ _ F1) as M1. lia. }
    destruct H1 as (G2 & F2 & B2). peel H y3 s3 H1.
    destruct (keeps_tiny kept_sound fan0 kv now d s2 R2 y3 s3 H1) as [_ K3]. apply tiny_step in H1; auto. destruct H1 as (G3 & F3 & B3).
    apply ret_ok in H. destruct H as [_ ->]. pose proof (follows_trans _ _ _ F1 F2) as F12.
    split; [exact G3|]. split; [exact (follows_trans _ _ _ F12 F3)|].
    split; [|eapply (G_trans kept_sound); [exact K1|]; eapply (G_trans kept_sound); eauto]. intros NF X B. apply B3.
    rewrite <- (sm_fast _ _ (fo_motion _ _ F1 kv L)) in NF.
    eapply but_weak; [|apply (B2 NF), B1, B]. intros w [[Hw|Hw] Nw]; [exact Hw|contradiction].
  Qed.

  Definition only (t : nat) : nat -> Prop := fun w => w = t.
  Lemma but_stopped now t s s' u : good now s -> but now (only t) s -> set_tstops t now s = Ok (u, s') ->
    forall w, settled now s' w.
  Proof.
    intros G B H w. apply (tstops_step now) in H; auto. destruct H as (_ & _ & H). apply (H _ B). unfold only. tauto.
  Qed.

  (** the triangle across a collapsing side *)
  Definition across (s : state) (evt : event) : Prop :=
    forall e n, ev_side evt = [e] -> get3 (t_n (ts s (ev_tri evt))) e = Some n -> alert s n.

  Theorem edge_settles s evt step s' : across s evt -> good (ev_time evt) s -> but (ev_time evt) (only (ev_tri evt)) s ->
    handle_edge_event evt step s = Ok (tt, s') ->
    (forall v, nv s <= v < nv s' -> k_inf_fast (vs s' v) = false) ->
    forall w, settled (ev_time evt) s' w.
  Proof.
    intros AC G B H NF. unfold handle_edge_event, handle_edge_event_with in H. unfold across in AC.
    set (t := ev_tri evt) in *. set (now := ev_time evt) in *. destruct (ev_side evt) as [|e [|]]; try discriminate H.
    specialize (AC e).
    peel H x s1 H1. apply gets_ok in H1. destruct H1 as [-> ->].
    peel H x s1 H1. apply ro_ok in H1; [|auto with ro]. subst s1.
    peel H k1 s1 H1. apply ro_ok in H1; [|auto with ro]. subst s1.
    peel H k2 s1 H1. apply ro_ok in H1; [|auto with ro]. subst s1.
    peel H bi s1 H1. apply ro_ok in H1; [|auto with ro]. subst s1.
    peel H pos s1 H1. apply ro_ok in H1; [|auto with ro]. subst s1.
    peel H nd s1 H1. apply stop_step in H1; [|exact G]. destruct H1 as (G1 & F1 & N1 & B1 & T1').
    peel H k1' s2 H1. apply ro_ok in H1; [|auto with ro]. subst s2.
    peel H k2' s2 H1. apply ro_ok in H1; [|auto with ro]. subst s2.
    peel H len s2 H1. apply ro_ok in H1; [|auto with ro]. subst s2.
    peel H kv s2 H1. apply newv_step in H1; auto. destruct H1 as (G2 & F2 & KV & B2 & T2').
    peel H y1 s3 H1. apply (wf_step now) in H1; auto. destruct H1 as (G3 & F3 & B3 & T3').
    peel H y2 s4 H1. apply ro_ok in H1; [|destruct (kleft k1'); [apply ro_bind; auto with ro|auto with ro]]. subst s4.
    peel H y3 s4 H1. apply ro_ok in H1; [|destruct (kright k2'); [apply ro_bind; auto with ro|auto with ro]]. subst s4.
    pose proof (fo_nv _ _ F3) as M3.
    peel H y4 s4 H1. apply (addv_step now) in H1; [|auto|lia]. destruct H1 as (G4 & F4 & B4 & T4').
    peel H y5 s5 H1. apply (circ_step _ _ now) in H1; auto. destruct H1 as (G5 & F5 & B5 & T5').
    peel H k2'' s6 H1. apply ro_ok in H1; [|auto with ro]. subst s6.
    peel H y6 s6 H1. apply (circ_step _ _ now) in H1; auto. destruct H1 as (G6 & F6 & B6 & T6').
    peel H k s7 H1. apply ro_ok in H1; [|auto with ro]. subst s7.
    peel H wl s7 H1. apply ro_ok in H1; [|auto with ro]. subst s7.
    peel H y7 s7 H1. apply ro_ok in H1; [|auto with ro]. subst s7.
    peel H wr s7 H1. apply ro_ok in H1; [|auto with ro]. subst s7.
    peel H y8 s7 H1. apply ro_ok in H1; [|auto with ro]. subst s7.
    peel H y9 s7 H1. apply gets_ok in H1. destruct H1 as [-> ->].
    pose proof (fo_nv _ _ F1) as M1. pose proof (fo_nv _ _ F4) as M4. pose proof (fo_nv _ _ F5) as M5. pose proof (fo_nv _ _ F6) as M6.
    assert (K6 : kv < nv s6) by lia.
    peel H fa s7 H1. apply side_step in H1; auto. destruct H1 as (G7 & F7 & B7 & K7').
    assert (K7 : kv < nv s7) by (pose proof (fo_nv _ _ F7); lia).
    peel H fb s8 H1. apply side_step in H1; auto. destruct H1 as (G8 & F8 & B8 & K8').
    assert (TS6 : ts s6 = ts s) by congruence.
    peel H y10 s9 H1. apply unlink_step in H1; auto.
    2:{ intros n Hn. rewrite TS6 in Hn. apply (kept_alert s7); [exact K8'|]. apply (kept_alert s6); [exact K7'|].
        unfold alert. rewrite TS6. apply (AC n eq_refl Hn). }
    destruct H1 as (G9 & F9 & B9).
    peel H y11 s10 H1. pose proof (tstops_step now s9 t y11 s10 G9 H1) as (G10 & F10 & _).
    assert (K8 : kv < nv s8) by (pose proof (fo_nv _ _ F8); lia).
    assert (K10 : kv < nv s10) by (pose proof (fo_nv _ _ F9); pose proof (fo_nv _ _ F10); lia).
    peel H fast s11 H2.
    assert (FF : forall x y, registered x -> parallel_fan_of (handle_parallel_fan reclimit) fa fb kv now step x = Ok (tt, y) ->
       registered y /\ follows x y).
    { intros x1 y1' Rx Hx. exact (keeps_fan_of base_sound _ fa fb kv now step (keeps_parallel_fan base_sound reclimit) x1 Rx tt y1' Hx). }
    assert (F10' : follows s10 s').
    { unfold vattr in H2. apply rd_ok in H2. destruct H2 as [_ ->]. unfold whenM in H. destruct fast.
      - apply (FF s10); [apply G10|exact H].
      - apply ret_ok in H. destruct H as [_ ->]. apply follows_refl. }
    assert (NFk : k_inf_fast (vs s' kv) = false) by (apply NF; pose proof (fo_nv _ _ F10'); lia).
    assert (s' = s10) as ->.
    { eapply fast_ok; [apply G10|exact K10|exact H2|exact H|exact FF|exact NFk]. }
    assert (P10 : k_inf_fast (vs s9 kv) = false).
    { rewrite <- (sm_fast _ _ (fo_motion _ _ F10 kv ltac:(pose proof (fo_nv _ _ F9); lia))). exact NFk. }
    assert (P8 : k_inf_fast (vs s8 kv) = false) by (rewrite <- (sm_fast _ _ (fo_motion _ _ F9 kv K8)); exact P10).
    assert (P7 : k_inf_fast (vs s7 kv) = false) by (rewrite <- (sm_fast _ _ (fo_motion _ _ F8 kv K7)); exact P8).
    assert (P6 : k_inf_fast (vs s6 kv) = false) by (rewrite <- (sm_fast _ _ (fo_motion _ _ F7 kv K6)); exact P7).
    eapply but_stopped; [exact G9| |exact H1]. apply B9, (B8 P7), (B7 P6), B6, B5, B4, B3, B2, B1, B.
  Qed.

  Theorem three_settles s evt step s' : good (ev_time evt) s -> but (ev_time evt) (only (ev_tri evt)) s ->
    handle_edge_event_3sides evt step s = Ok (tt, s') ->
    forall w, settled (ev_time evt) s' w.
  Proof.
    intros G B H. unfold handle_edge_event_3sides in H. set (t := ev_tri evt) in *. set (now := ev_time evt) in *.
    peel H y0 s1 H1. apply ro_ok in H1; [|auto with ro]. subst s1.
    peel H x s1 H1. apply ro_ok in H1; [|auto with ro]. subst s1.
    peel H nd s1 H1. apply stop_step in H1; [|exact G]. destruct H1 as (G1 & F1 & N1 & B1 & T1').
    peel H y s5 H1. unfold sides in H1. cbn [forM] in H1.
    peel H1 z0 s2 H2. peel H1 z1 s3 H3. peel H1 z2 s4 H4. apply ret_ok in H1. destruct H1 as [_ ->].
    apply neighbour_step in H2; auto. destruct H2 as (G2 & _ & B2).
    apply neighbour_step in H3; auto. destruct H3 as (G3 & _ & B3).
    apply neighbour_step in H4; auto. destruct H4 as (G4 & _ & B4).
    eapply but_stopped; [exact G4| |exact H]. apply B4, B3, B2, B1, B.
  Qed.

  Theorem one_settles s evt step s' : good (ev_time evt) s -> but (ev_time evt) (only (ev_tri evt)) s ->
    handle_edge_event_1side evt step s = Ok (tt, s') ->
    forall w, settled (ev_time evt) s' w.
  Proof.
    intros G B H. unfold handle_edge_event_1side in H. set (t := ev_tri evt) in *. set (now := ev_time evt) in *.
    destruct (ev_side evt) as [|e [|]]; try discriminate H.
    peel H x s1 H1. apply ro_ok in H1; [|auto with ro]. subst s1.
    peel H nd s1 H1. apply stop_step in H1; [|exact G]. destruct H1 as (G1 & F1 & N1 & B1 & T1').
    peel H k1 s2 H1. apply ro_ok in H1; [|auto with ro]. subst s2.
    peel H k2 s2 H1. apply ro_ok in H1; [|auto with ro]. subst s2.
    peel H len s2 H1. apply ro_ok in H1; [|auto with ro]. subst s2.
    peel H kv s2 H1. apply newv_step in H1; auto. destruct H1 as (G2 & F2 & KV & B2 & T2').
    peel H pos s3 H1. apply ro_ok in H1; [|auto with ro]. subst s3.
    peel H y s3 H1. apply (addv_step now) in H1; [|auto|lia]. destruct H1 as (G3 & F3 & B3 & T3').
    peel H nd2 s4 H1. apply stop_step in H1; [|exact G3]. destruct H1 as (G4 & F4 & _ & B4 & T4').
    eapply but_stopped; [exact G4| |exact H]. apply B4, B3, B2, B1, B.
  Qed.

  Theorem split_settles s evt step s' : good (ev_time evt) s -> but (ev_time evt) (only (ev_tri evt)) s ->
    handle_split_event evt step s = Ok (tt, s') ->
    (forall v, nv s <= v < nv s' -> k_inf_fast (vs s' v) = false) ->
    forall w, settled (ev_time evt) s' w.
  Proof.
    intros G B H NF. unfold handle_split_event, handle_split_event_with in H.
    set (t := ev_tri evt) in *. set (now := ev_time evt) in *. destruct (ev_side evt) as [|e [|]]; try discriminate H.
    peel H x s1 H1. apply gets_ok in H1. destruct H1 as [-> ->].
    peel H y0 s1 H1. apply ro_ok in H1; [|auto with ro]. subst s1.
    peel H y1 s1 H1. apply ro_ok in H1; [|auto with ro]. subst s1.
    peel H nd s1 H1. apply stop_step in H1; [|exact G]. destruct H1 as (G1 & F1 & N1 & B1 & T1').
    peel H k s2 H1. apply ro_ok in H1; [|auto with ro]. subst s2.
    peel H k1 s2 H1. apply ro_ok in H1; [|auto with ro]. subst s2.
    peel H k2 s2 H1. apply ro_ok in H1; [|auto with ro]. subst s2.
    peel H y2 s2 H1. apply ro_ok in H1; [|auto with ro]. subst s2.
    peel H len s2 H1. apply ro_ok in H1; [|auto with ro]. subst s2.
    peel H vb s2 H1. apply newv_step in H1; auto. destruct H1 as (G2 & F2 & KB & B2 & T2').
    peel H y3 s3 H1. apply (wf_step now) in H1; auto. destruct H1 as (G3 & F3 & B3 & T3').
    pose proof (fo_nv _ _ F3) as M3.
    peel H y4 s4 H1. apply (addv_step now) in H1; [|auto|lia]. destruct H1 as (G4 & F4 & B4 & T4').
    peel H len2 s5 H1. apply ro_ok in H1; [|auto with ro]. subst s5.
    assert (N4 : In nd (sk_nodes s4)).
    { pose proof (follows_trans _ _ _ F2 (follows_trans _ _ _ F3 F4)) as F24. destruct (fo_nodes _ _ F24) as [l ->].
      apply in_app_iff. auto. }
    peel H va s5 H1. apply newv_step in H1; auto. destruct H1 as (G5 & F5 & KA & B5 & T5').
    peel H y5 s6 H1. apply (wf_step now) in H1; auto. destruct H1 as (G6 & F6 & B6 & T6').
    pose proof (fo_nv _ _ F6) as M6.
    peel H y6 s7 H1. apply (addv_step now) in H1; [|auto|lia]. destruct H1 as (G7 & F7 & B7 & T7').
    peel H y7 s8 H1. apply (circ_step _ _ now) in H1; auto. destruct H1 as (G8 & F8 & B8 & T8').
    peel H y8 s9 H1. apply (circ_step _ _ now) in H1; auto. destruct H1 as (G9 & F9 & B9 & T9').
    peel H kb s10 H1. apply ro_ok in H1; [|auto with ro]. subst s10.
    peel H wl s10 H1. apply ro_ok in H1; [|auto with ro]. subst s10.
    peel H y9 s10 H1. apply ro_ok in H1; [|auto with ro]. subst s10.
    peel H wr s10 H1. apply ro_ok in H1; [|auto with ro]. subst s10.
    peel H y10 s10 H1. apply ro_ok in H1; [|auto with ro]. subst s10.
    peel H y11 s10 H1. apply (circ_step _ _ now) in H1; auto. destruct H1 as (G10 & F10 & B10 & T10').
    peel H k' s11 H1. apply ro_ok in H1; [|auto with ro]. subst s11.
    peel H y12 s11 H1. apply (circ_step _ _ now) in H1; auto. destruct H1 as (G11 & F11 & B11 & T11').
    peel H ka s12 H1. apply ro_ok in H1; [|auto with ro]. subst s12.
    peel H wl' s12 H1. apply ro_ok in H1; [|auto with ro]. subst s12.
    peel H y13 s12 H1. apply ro_ok in H1; [|auto with ro]. subst s12.
    peel H wr' s12 H1. apply ro_ok in H1; [|auto with ro]. subst s12.
    peel H y14 s12 H1. apply ro_ok in H1; [|auto with ro]. subst s12.
    peel H x' s12 H1. apply gets_ok in H1. destruct H1 as [-> ->].
    destruct (get3 (t_n (ts s11 t)) (ccw e)) as [b|]; [|discriminate H].
    pose proof (fo_nv _ _ F1) as M1. pose proof (fo_nv _ _ F4) as M4. pose proof (fo_nv _ _ F7) as M7. pose proof (fo_nv _ _ F8) as M8.
    pose proof (fo_nv _ _ F9) as M9. pose proof (fo_nv _ _ F10) as M10. pose proof (fo_nv _ _ F11) as M11.
    peel H y15 s12 H1. apply (relink_step now) in H1; auto. destruct H1 as (G12 & F12 & B12 & _).
    pose proof (fo_nv _ _ F12) as M12.
    peel H fb s13 H1. apply replace_step in H1; [|auto|lia]. destruct H1 as (G13 & F13 & B13).
    pose proof (fo_nv _ _ F13) as M13.
    peel H x'' s14 H1. apply gets_ok in H1. destruct H1 as [-> ->].
    destruct (get3 (t_n (ts s13 t)) (cw e)) as [a|]; [|discriminate H].
    peel H y16 s14 H1. apply (relink_step now) in H1; auto. destruct H1 as (G14 & F14 & B14 & _).
    pose proof (fo_nv _ _ F14) as M14.
    peel H fa s15 H1. apply replace_step in H1; [|auto|lia]. destruct H1 as (G15 & F15 & B15).
    pose proof (fo_nv _ _ F15) as M15.
    peel H y17 s16 H1. pose proof (tstops_step now s15 t y17 s16 G15 H1) as (G16 & F16 & _).
    pose proof (fo_nv _ _ F16) as M16.
    peel H fasta s17 H2. peel H y18 s18 H3. peel H fastb s19 H4.
    assert (FF : forall fan v d x y, registered x -> handle_parallel_fan reclimit fan v now d step x = Ok (tt, y) ->
       registered y /\ follows x y).
    { intros fan v d x1 y1' Rx Hx. exact (keeps_parallel_fan base_sound reclimit fan v now d step x1 Rx tt y1' Hx). }
    assert (FW : forall q fan v d f x y u, registered x -> vattr q k_inf_fast x = Ok (f, y) -> 
       forall z, whenM f (handle_parallel_fan reclimit fan v now d step) y = Ok (u, z) -> registered z /\ follows x z).
    { intros q fan v d f x1 y1' u Rx Hv z Hz. unfold vattr in Hv. apply rd_ok in Hv. destruct Hv as [_ ->].
      unfold whenM in Hz. destruct f; [destruct u; eapply FF; eauto|]. apply ret_ok in Hz. destruct Hz as [_ ->]. split; [exact Rx|apply follows_refl]. }
    destruct (FW va fa va Cw fasta s16 s17 y18 (proj1 (proj1 G16)) H2 s18 H3) as [R18 F18].
    destruct (FW vb fb vb Ccw fastb s18 s19 tt R18 H4 s' H) as [_ F19].
    pose proof (fo_nv _ _ F18) as M18. pose proof (fo_nv _ _ F19) as M19.
    assert (s' = s18) as ->.
    { eapply fast_ok; [exact R18| |exact H4|exact H|apply FF|apply NF; lia]. lia. }
    assert (NFa : k_inf_fast (vs s18 va) = false) by (apply NF; lia).
    assert (NFb : k_inf_fast (vs s18 vb) = false) by (apply NF; lia).
    assert (s18 = s16) as ->.
    { eapply fast_ok; [apply G16| |exact H2|exact H3|apply FF|exact NFa]. lia. }
    assert (P15a : k_inf_fast (vs s14 va) = false).
    { rewrite <- (sm_fast _ _ (fo_motion _ _ (follows_trans _ _ _ F15 F16) va ltac:(lia))). exact NFa. }
    assert (P12b : k_inf_fast (vs s12 vb) = false).
    { rewrite <- (sm_fast _ _ (fo_motion _ _ (follows_trans _ _ _ F13 (follows_trans _ _ _ F14 (follows_trans _ _ _ F15 F16))) vb ltac:(lia))). exact NFb. }
    eapply but_stopped; [exact G15| |exact H1].
    assert (BB : but now (only t) s13).
    { eapply but_weak; [|apply (B13 P12b), B12, B11, B10, B9, B8, B7, B6, B5, B4, B3, B2, B1, B].
      intros w [[Hw|Hw] Nw]; [exact Hw|contradiction]. }
    eapply but_weak; [|apply (B15 P15a), B14, BB]. intros w [[Hw|Hw] Nw]; [exact Hw|contradiction].
  Qed.

  Theorem flip_settles D s evt s' : good (ev_time evt) s -> but (ev_time evt) (only (ev_tri evt)) s ->
    linked D s -> (forall u, D u -> distinct s u) -> D (ev_tri evt) -> apart s (ev_tri evt) -> opposite s (ev_tri evt) ->
    handle_flip_event evt s = Ok (tt, s') ->
    forall w, settled (ev_time evt) s' w.
  Proof.
    intros G B L DI Dt AP OP H. unfold handle_flip_event in H.
    set (t := ev_tri evt) in *. set (now := ev_time evt) in *. destruct (ev_side evt) as [|i [|]]; try discriminate H.
    peel H x s1 H1. apply gets_ok in H1. destruct H1 as [-> ->].
    change (get3 (t_n (ts s t)) i) with (link s t i) in H. destruct (link s t i) as [n|] eqn:Hn; [|discriminate H].
    peel H y s1 H1. apply gets_ok in H1. destruct H1 as [-> ->].
    peel H j s1 H1. unfold rdr in H1. apply rd_ok in H1. destruct H1 as [H1 ->].
    assert (LJ : link s n j = Some t).
    { unfold link. unfold nindex in H1. apply index3_get in H1.
      destruct (get3 (t_n (ts s n)) j) as [q|]; [|discriminate]. apply Nat.eqb_eq in H1. congruence. }
    assert (SJ : shares s t i n j).
    { destruct (L t i n Dt Hn) as (Dn & _). destruct (L n j t Dn LJ) as (_ & m0 & M1 & M2).
      rewrite (AP i m0 n Hn M1). apply shares_sym, M2. }
    destruct (flip_spec D s t i n j L DI Dt Hn LJ SJ (OP i n j Hn LJ SJ)) as (s2 & F1 & F2 & V0 & _ & V1 & _ & F6 & F7 & F8 & _).
    peel H y s3 H2. rewrite F1 in H2. injection H2 as <- <-.
    destruct (keeps_flip (timed_sound O addr_inj) now t i n j s (proj1 G) tt s2 F1) as [T2 FO2].
    assert (G2 : good now s2).
    { split; [exact T2|]. intros w k. rewrite F2. cbn. destruct (Nat.eq_dec w t) as [->|Nt].
      - rewrite V0. destruct k; cbn; apply G.
      - destruct (Nat.eq_dec w n) as [->|Nn]; [rewrite V1; destruct k; cbn; apply G|].
        pose proof (f_equal t_v (F6 w Nt Nn (t_n (ts s w)))) as K. cbn in K. rewrite K. apply G. }
    assert (B2 : but now (fun w => w = t \/ w = n) s2).
    { intros w Nw. assert (Nt : w <> t) by tauto. assert (Nn : w <> n) by tauto.
      eapply settled_keep; [| | |apply B; exact Nt].
      - pose proof (F6 w Nt Nn (t_n (ts s w))) as K.
        apply view_follows; [apply G|exact FO2|..].
        + intros k. apply G.
        + exact (f_equal t_v K).
        + intros k. destruct (F7 w k Nt Nn) as [Q|(i0 & t0 & [Q|Q] & Q2 & _)]; unfold link in *; rewrite ?Q, ?Q2; reflexivity.
        + destruct (F8 w) as [_ ->]. reflexivity.
      - apply F8.
      - intros e _. rewrite F2. cbn. unfold same_wait. cbn. tauto. }
    peel H y s3 H2. apply (riq_step now) in H2; auto. destruct H2 as (G3 & _ & B3).
    apply (riq_step now) in H; auto. destruct H as (G4 & _ & B4).
    intros w. apply (B4 _ (B3 _ B2)). tauto.
  Qed.

  (** the event [e] of the state [s], its clock being at the time of [e]: what a
      flip needs of the mesh *)
  Definition flippable (s : state) (e : nat) : Prop :=
    linked (active s) s /\ (forall u, active s u -> distinct s u) /\
    In (ev_tri (es s e)) (sk_triangles s) /\ opposite s (ev_tri (es s e)).

  Theorem event_settles s e step s' : let now := ev_time (es s e) in
    good now s -> but now (only (ev_tri (es s e))) s ->
    (ev_tp (es s e) = Flip -> flippable s e) -> (ev_tp (es s e) = Edge -> across s (es s e)) ->
    handle_event e step s = Ok (tt, s') ->
    (forall v, nv s <= v < nv s' -> k_inf_fast (vs s' v) = false) ->
    forall w, settled now s' w.
  Proof.
    intros now G B FL AC H NF. unfold handle_event in H. peel H evt s1 H1. apply gets_ok in H1. destruct H1 as [-> ->].
    peel H x s1 H1. apply gets_ok in H1. destruct H1 as [-> ->].
    set (evt := es s e) in *. set (t := ev_tri evt) in *.
    destruct (is_some (t_stops (ts s t))) eqn:STt.
    { apply ret_ok in H. destruct H as [_ ->]. intros w. destruct (Nat.eq_dec w t) as [->|Nw]; [left; exact STt|apply B; exact Nw]. }
    destruct (ev_tp evt) eqn:TP.
    - destruct (Nat.eqb (length (ev_side evt)) 3); [eapply three_settles; eauto|].
      destruct (_ && _)%bool; [eapply one_settles; eauto|].
      destruct (Nat.eqb (length (ev_side evt)) 2); [discriminate|]. eapply edge_settles; eauto.
    - destruct (FL eq_refl) as (L & DI & TT & OP).
      assert (Dt : active s t) by (split; [exact TT|destruct (t_stops (ts s t)); [discriminate|reflexivity]]).
      eapply (flip_settles (active s)); eauto. apply (opposite_apart (active s)); auto.
    - eapply split_settles; eauto.
  Qed.

  (** taking the next event *)
  Lemma settled_later now now' s t : nleb n0 now = true -> nleb now now' = true -> settled now s t -> settled now' s t.
  Proof.
    intros H0 H.
    assert (PA : forall w, past now w -> past now' w).
    { intros w [P1 P2]. split; [eapply (oa_trans A O); eauto|auto]. }
    intros [S|[[S S']|(e & w & S1 & S2 & S3)]]; [left; exact S|right; left|right; right].
    { split; [exact S|]. destruct S' as [S'|(w & sv & S1 & S2)]; [left; exact S'|right].
      exists w, sv. split; [apply PA, S1|exact S2]. }
    exists e, w. split; [exact S1|]. split; [apply PA, S2|exact S3].
  Qed.
  Lemma take_settles now s e now' s1 : nleb n0 now = true -> good now s -> (forall w, settled now s w) ->
    take_next now s = Ok ((e, now'), s1) ->
    good now' s1 /\ but now' (only (ev_tri (es s1 e))) s1 /\ ev_time (es s1 e) = now' /\ nleb now now' = true.
  Proof.
    intros P0 [T P] B H.
    assert (C : timed now' s1 /\ ev_time (es s1 e) = now' /\ nleb now now' = true).
    { apply take_next_ok in H. destruct H as [(r & I & -> & ->)|(r & I & Q & -> & ->)].
      - destruct (timed_take_imm addr_inj _ _ _ _ T I). cbn. split; [auto|]. split; [auto|]. apply (nleb_refl O).
      - destruct (timed_take_queue O addr_inj _ _ _ _ T I Q). cbn. auto. }
    destruct C as (C1 & C2 & C3).
    assert (D : ts s1 = ts s /\ vs s1 = vs s /\ nv s1 = nv s /\ es s1 = es s /\ wfs s1 = wfs s /\ ns s1 = ns s /\
       (forall x, x <> e -> same_wait s s1 x)).
    { apply take_next_ok in H. destruct H as [(r & I & -> & ->)|(r & I & Q & -> & ->)]; cbn; do 6 (split; [reflexivity|]);
        intros x Nx; unfold same_wait; cbn; rewrite I, ?Q; simpl; intuition congruence. }
    destruct D as (D1 & D2 & D3 & D4 & D5 & D7 & D6).
    split; [split; [exact C1|]|split; [|split; [exact C2|exact C3]]].
    - intros t i. rewrite D1, D3. apply P.
    - intros t N. apply (settled_later now); [exact P0|exact C3|].
      eapply settled_keep; [| | |apply B].
      + constructor; try (rewrite D1; reflexivity); [exact D5|]. intros i. constructor; try (rewrite D2; reflexivity).
        intros z. unfold position_at. rewrite D2, ?D7. reflexivity.
      + rewrite D1. reflexivity.
      + intros x Hx. apply D6. intros ->. apply N. unfold only. rewrite D4.
        symmetry. apply (pe_ev _ _ (proj2 (proj2 T)) t e Hx).
  Qed.

  (** ** Runs *)
  Theorem run_settles s0 now tr s : good n0 s0 -> (forall w, settled n0 s0 w) -> shaped s0 -> linked (active s0) s0 ->
    reach s0 now tr s ->
    (forall now1 tr1 s1 e now2 s2, reach s0 now1 tr1 s1 -> length tr1 < length tr ->
       take_next now1 s1 = Ok ((e, now2), s2) -> regular s2 e /\ (ev_tp (es s2 e) = Edge -> across s2 (es s2 e))) ->
    (forall v, nv s0 <= v < nv s -> k_inf_fast (vs s v) = false) ->
    good now s /\ nleb n0 now = true /\ forall w, settled now s w.
  Proof.
    intros G0 B0 SH0 L0 H. pose proof (proj1 (proj1 G0)) as R0.
    induction H as [|now tr s e now' s1 s' R IH T H]; intros RG NF; [split; [exact G0|split; [apply (nleb_refl O)|exact B0]]|].
    rewrite app_length in RG. cbn [length] in RG.
    destruct (steps_base _ _ _ _ _ _ R0 R) as [Rs Fs].
    assert (N1 : nv s1 = nv s /\ vs s1 = vs s /\ ts s1 = ts s /\ sk_triangles s1 = sk_triangles s /\ registered s1).
    { apply take_next_ok in T. destruct T as [(r & _ & _ & ->)|(r & _ & _ & _ & ->)];
        repeat (split; [reflexivity|]); (destruct Rs; constructor; auto). }
    destruct N1 as (N1 & VS & TS & TR & R1).
    pose proof (keeps_handle_event base_sound e (Z.of_nat (S (length tr))) s1 R1 tt s' H) as [R2 F2].
    assert (RG' : forall now1 tr1 s1 e now2 s2, reach s0 now1 tr1 s1 -> length tr1 < length tr ->
       take_next now1 s1 = Ok ((e, now2), s2) -> regular s2 e /\ (ev_tp (es s2 e) = Edge -> across s2 (es s2 e))).
    { intros now1 tr1 s3 e1 now2 s2 Q1 Q2. apply (RG now1 tr1 s3 e1 now2 s2 Q1). lia. }
    assert (NF' : forall v, nv s0 <= v < nv s -> k_inf_fast (vs s v) = false).
    { intros v Hv. pose proof (fo_nv _ _ F2) as O2.
      assert (K : v < nv s1) by lia. pose proof (sm_fast _ _ (fo_motion _ _ F2 v K)) as Q.
      rewrite VS in Q. rewrite <- Q. apply NF. lia. }
    destruct (IH RG' NF') as (Gs & Ps & Bs).
    pose proof (run_mesh s0 now tr s R0 SH0 L0 R (fun a b c d f g h i j => proj1 (RG' a b c d f g h i j)) NF') as Ls.
    destruct (take_settles now s e now' s1 Ps Gs Bs T) as (G1 & B1 & T1 & LE).
    destruct (RG now tr s e now' s1 R ltac:(lia) T) as [[Q1 Q2 Q4 Q5] AC].
    assert (FL : flippable s1 e).
    { split; [|auto]. unfold linked, active, shares, corner, link in *. rewrite TR, TS. exact Ls. }
    rewrite <- T1 in G1, B1.
    assert (NF1 : forall v, nv s1 <= v < nv s' -> k_inf_fast (vs s' v) = false).
    { intros v Hv. apply NF. pose proof (fo_nv _ _ Fs). lia. }
    pose proof (event_settles s1 e _ s' G1 B1 (fun _ => FL) AC H NF1) as BS.
    pose proof (keeps_handle_event (timed_sound O addr_inj) e (Z.of_nat (S (length tr))) s1 (proj1 G1) tt s' H) as [T2 _].
    cbv zeta in BS. rewrite T1 in BS, T2. split; [|split; [eapply (oa_trans A O); eauto|exact BS]]. split; [exact T2|].
    pose proof (steps_shaped _ _ _ _ _ _ R0 SH0 (reach_step _ _ _ _ _ _ _ _ _ _ R T H)) as SH2.
    intros t i. apply (sh_v _ SH2).
  Qed.

  (** the events found when the run starts *)
  Lemma init_settles : forall tris s u s',
    NoDup tris -> (forall t, In t tris -> t_event (ts s t) = None) -> good n0 s -> immediate s = [] ->
    but n0 (fun w => In w tris) s ->
    forM tris (fun t => bind (compute_collapse_time t n0 FindGt)
      (fun e => match e with Some e => queue_add e | None => ret tt end)) s = Ok (u, s') ->
    forall w, settled n0 s' w.
  Proof.
    induction tris as [|t tris IH]; intros s u s' N NE G I B H.
    { injection H as _ <-. intros w. apply B. intros []. }
    cbn [forM] in H. apply bind_ok in H. destruct H as ([] & s1 & H & K).
    assert (HL : timed n0 s1 /\ follows s s1 /\ immediate s1 = [] /\ 
      (forall t, t_v (ts s1 t) = t_v (ts s t) /\ t_n (ts s1 t) = t_n (ts s t) /\ t_stops (ts s1 t) = t_stops (ts s t)) /\ vs s1 = vs s /\ nv s1 = nv s).
    { inversion N as [|? ? Nt Nr]; subst.
      assert (HH : forM [t] (fun t => bind (compute_collapse_time t n0 FindGt)
        (fun e => match e with Some e => queue_add e | None => ret tt end)) s = Ok (tt, s1)).
      { cbn [forM]. unfold bind at 1. rewrite H. reflexivity. }
      apply (init_loop O addr_inj) in HH; [|repeat constructor; intros []|intros x [<-|[]]; apply NE; simpl; auto|apply G|exact I].
      destruct HH as (A1 & A2 & A3 & A4 & A5 & A6 & _). auto 10. }
    destruct HL as (T1 & F1 & I1 & M1 & V1 & NV1).
    pose proof (NE t (or_introl eq_refl)) as NEt. inversion N as [|? ? Nt Nr]; subst.
    assert (VW : forall w, view s s1 w).
    { intros w. destruct (M1 w) as (Q1 & Q2 & Q3). apply view_follows; auto; try apply G; rewrite ?Q2, ?Q3; reflexivity. }
    assert (G1 : good n0 s1).
    { split; [exact T1|]. intros w i. destruct (M1 w) as (-> & _). rewrite NV1. apply G. }
    apply init_tri in H. destruct H as [[Hc ->]|(e & He & E1)].
    { eapply IH; eauto; [intros; apply NE; simpl; auto|]. intros w Nw. destruct (Nat.eq_dec w t) as [->|Nwt].
      - right. left. split; [exact NEt|]. right. exists n0, FindGt. split; [apply past_now|exact Hc].
      - apply B. intros [K1|K1]; [congruence|contradiction]. }
    pose proof (proj2 (proj2 (proj1 G))) as P.
    cbv zeta in E1.
    assert (PA : Permutation (ne s :: queue s) (queue s1)).
    { subst s1. cbn. pose proof (collapse_event_good O _ _ _ _ _ He) as Hg. apply (pending_add O addr_inj n0 s t e P).
      - intros x Hx Hxt. apply (pe_cur _ _ P) in Hx. rewrite Hxt, NEt in Hx. discriminate.
      - destruct Hg as [W _]. apply (wf_tri _ _ _ W).
      - apply (good_time O _ _ _ _ _ Hg). }
    assert (IM : immediate s1 = immediate s) by (rewrite I1, I; reflexivity).
    assert (EV : forall w, w <> t -> t_event (ts s1 w) = t_event (ts s w)).
    { intros w Nw. subst s1. cbn. rewrite upd_other by auto. reflexivity. }
    assert (ES : forall x, x < ne s -> es s1 x = es s x).
    { intros x Hx. subst s1. cbn. rewrite upd_other by lia. reflexivity. }
    eapply (IH s1); eauto.
    - intros x Hx. rewrite EV; [apply NE; simpl; auto|congruence].
    - intros w NX. destruct (Nat.eq_dec w t) as [->|Nw].
      + right. right. exists (ne s), n0. split; [subst s1; cbn; rewrite upd_same; reflexivity|].
        split; [apply past_now|]. left. left. split.
        * eapply Permutation_in; [exact PA|]. simpl. auto.
        * exists FindGt. rewrite (collapse_view s s1 t (VW t)), He. subst s1. cbn. rewrite upd_same. reflexivity.
      + eapply settled_keep; [apply VW|apply EV, Nw| |apply B; intros [K1|K1]; [congruence|contradiction]].
        intros x Kx. destruct (event_tri n0 s w x P Kx) as [Te Le]. split; [|split; [rewrite IM; tauto|apply ES, Le]].
        split; intros Q.
        * eapply Permutation_in in Q; [|symmetry; exact PA]. destruct Q as [Q|Q]; [lia|exact Q].
        * eapply Permutation_in; [exact PA|]. simpl. auto.
  Qed.

  Theorem start_settles s s0 : (forall t, ~ In t (sk_triangles s) -> Z t) -> fresh s -> shaped s -> started s s0 ->
    good n0 s0 /\ shaped s0 /\ forall w, settled n0 s0 w.
  Proof.
    intros OUT F SH ST. pose proof (started_shaped O addr_inj _ _ F SH ST) as SH0.
    destruct (init_timed O addr_inj _ _ F ST) as (T0 & _ & I0 & _).
    split; [split; [exact T0|intros t i; apply (sh_v _ SH0)]|]. split; [exact SH0|].
    destruct ST as (s1 & H & ->). cbn in I0. unfold init_event_list in H.
    apply bind_ok in H. destruct H as ([] & s2 & H & K). injection H as <-.
    apply bind_ok in K. destruct K as (tris & s2 & H & K). injection H as <- <-.
    set (s2 := mkSt _ _ _ _ _ _ _ _ _ _ _ _ _ _) in K. cbn [sk_triangles] in K.
    destruct F as [F1 F2 F3 F4 F5 F6 F7].
    assert (T : timed n0 s2).
    { split; [destruct F7; constructor; auto|]. split.
      - constructor; cbn; intros v *; rewrite ?F3, ?F4; try reflexivity; try discriminate. apply F5.
      - constructor; cbn; rewrite ?F6; try constructor; intros; try contradiction; rewrite F2 in *; discriminate. }
    assert (G2 : good n0 s2) by (split; [exact T|intros t i; apply (sh_v _ SH)]).
    assert (I2 : immediate s2 = []) by exact F6.
    assert (B2 : but n0 (fun w => In w (sk_triangles s)) s2).
    { intros w Nw. right. left. split; [apply F2|]. left. apply OUT, Nw. }
    destruct (init_loop O addr_inj (sk_triangles s) s2 tt s1 F1 (fun t _ => F2 t) T I2 K) as (_ & _ & K3 & _).
    replace (with_qi s1 (queue s1) []) with s1 by (rewrite <- K3; destruct s1; reflexivity).
    exact (init_settles (sk_triangles s) s2 tt s1 F1 (fun t _ => F2 t) G2 I2 B2 K).
  Qed.
End Settled.
