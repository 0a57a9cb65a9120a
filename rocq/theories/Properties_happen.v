(** C79: when the loop takes an event, what it announces happens (exact reals) *)
From Coq Require Import Reals Lra.
From Verif Require Import Base Arith ArithR ArithQ Calc CalcProofs VectorOps Line2d Line2dProofs Primitives Collapse CollapseProofs CollapseR
  EventsLib FlipEvent ParallelEvent EdgeEvent SplitEvent EventLoop Pass OpSpec Order StopSpec RunBase RunTimed RunLoop Bisect
  Decent Total FanProofs TotalRun Scenario ScenarioRun Properties_total
  Properties_collapse EventGeom EventFirst Properties_effects Properties_geometry Mesh MeshEvents MeshEdge MeshRun Properties_mesh
  Current Properties_current Rings RingEdge RingSplit RingFlip EdgeHead RingSpec RingGone RingRun RingLeft
  Initialize StarProofs InitProofs InitState InitCirc InitBisect InitMesh Main TriExample Properties_init
  Properties_main Properties_start Properties_rings InitRing Properties_ringstart
  Properties_fronts.
Local Close Scope Q_scope.
Local Open Scope nat_scope.

(** ** Specification *)
(** The event [ev] of the state [s]: at its time the corners of its triangle, moving as they do in [s], are as it says.
    [fronts s t] are the wavefront sides of [t]. *)
Section Spec.
  Variable s : state (A:=RA).
  Let at_wavefront (t : nat) (i : side) (f : nat) : Prop :=
    link s t i = None /\ k_ur (vs s (corner s t (ccw i))) = Some f /\ k_ul (vs s (corner s t (cw i))) = Some f.

  (** no wavefront side: sides of (nearly) no length, or the triangle is flat and its longest side is named *)
  Definition happens0 (ev : event (A:=RA)) : Prop :=
    let t := ev_tri ev in let x := ev_time ev in
    (ev_tp ev = Edge /\ forall i, In i (ev_side ev) -> (len2 s t i x <= 2 / 10^10)%R) \/
    (ev_tp ev = Flip /\ exists i y, ev_side ev = [i] /\ longest s t i x /\ (Rabs (y - x) <= / 10^10)%R /\ flat s t y).
  (** one wavefront side [w]: sides of no length, or the opposite corner reaches the wavefront: where the side is longest,
      a split; otherwise the longest side is flipped *)
  Definition happens1 (ev : event (A:=RA)) : Prop :=
    let t := ev_tri ev in let x := ev_time ev in
    exists w f, at_wavefront t w f /\
    let reaches i := (exists y, (Rabs (y - x) <= / 10^5)%R /\
                        forall p, position_at s (corner s t w) y = Ok p -> signed_distance (A:=RA) (wf_line (wfs s f)) p = y) /\
                     (exists y, (Rabs (y - x) <= / 10^5)%R /\ longest s t i y) in
    (ev_tp ev = Edge /\ forall i, In i (ev_side ev) -> (len2 s t i x <= / 10^20)%R) \/
    (ev_tp ev = Split /\ ev_side ev = [w] /\ reaches w) \/
    (ev_tp ev = Flip /\ exists i, ev_side ev = [i] /\ reaches i).
  (** two wavefront sides: one of them has no length (or they vanish nearly together, half of the time before and after),
      and the named sides are the shortest *)
  Definition happens2 (ev : event (A:=RA)) : Prop :=
    let t := ev_tri ev in let x := ev_time ev in
    ev_tp ev = Edge /\ (exists i j f g, i <> j /\ at_wavefront t i f /\ at_wavefront t j g /\
      (len2 s t i x = 0 \/ len2 s t j x = 0 \/
       exists y z, len2 s t i y = 0 /\ len2 s t j z = 0 /\ Rabs (y - z) <= 2 / 10^5 /\ x = (y + z) / 2)%R) /\
    forall k m, In k (ev_side ev) -> (sqrt (len2 s t k x) <= sqrt (len2 s t m x) + / 10^10)%R.
  (** three: the corners are all in one point *)
  Definition happens3 (ev : event (A:=RA)) : Prop :=
    ev_tp ev = Edge /\ ev_side ev = [S0; S1; S2] /\ exists p, forall i, position_at s (corner s (ev_tri ev) i) (ev_time ev) = Ok p.

  Definition happens (ev : event (A:=RA)) : Prop :=
    match tri_type (ts s (ev_tri ev)) with
    | 0 => happens0 ev | 1 => happens1 ev | 2 => happens2 ev | _ => happens3 ev
    end.
End Spec.

Lemma gap_zero (L : line2 (A:=RA)) s v (y : R) : k_inf (vs s v) = false -> k_inf_fast (vs s v) = false ->
  gap L (vs s v) y = 0%R -> forall p, position_at s v y = Ok p -> signed_distance (A:=RA) L p = y.
Proof.
  intros I F G p P. unfold position_at in P. rewrite I, F in P. injection P as <-. rewrite signed_distance_R.
  unfold gap, path, moving in G. unfold eval. cbn [fst snd] in *. ra_simp. lra.
Qed.
Lemma place_position s t i (x : R) : ordinary s t -> position_at s (corner s t i) x = Ok (place s t i x).
Proof.
  intros O. destruct (O i) as [O1 O2]. unfold position_at, corner, place, path, moving. rewrite O1, O2. ra_simp. reflexivity.
Qed.

(** an event that the search yields, of a triangle whose wavefront sides move along their fronts *)
Lemma search_truth (s : state (A:=RA)) t (w : R) sv ev : fitting s -> units s -> (forall v, v < nv s -> tracks s v) -> shaped s ->
  active s t -> ordinary s t -> (forall i, crossing s (corner s t i)) -> (forall i, ~ left_over s t i) -> sharp s t -> (0 <= w)%R ->
  collapse_event s t w sv = Ok (Some ev) -> ev_tri ev = t /\ happens s ev.
Proof.
  intros F U T SH AC OR CR NL (OP & CG & CD & CS & CA & C3) W0 H.
  pose proof (collapse_event_good RA_ord _ _ _ _ _ H) as [WE _].
  assert (TT : ev_tri ev = t) by apply (wf_tri _ _ _ WE). split; [exact TT|].
  assert (ON : forall i, link s t i = None -> exists f, k_ur (vs s (corner s t (ccw i))) = Some f /\
    k_ul (vs s (corner s t (cw i))) = Some f /\ on_front s t i (wf_line (wfs s f))).
  { intros i Hi. apply side_on; auto. }
  unfold happens. rewrite TT. destruct (tri_type (ts s t)) as [|[|[|m]]] eqn:TY.
  - unfold happens0. rewrite TT. exact (C67_no_front s t w sv ev OR TY H).
  - assert (exists i, link s t i = None) as (i & Hi).
    { unfold tri_type, count3 in TY. unfold link. destruct (t_n (ts s t)) as [[|] [|] [|]]; cbn in TY; try discriminate;
        [exists S2|exists S1|exists S0]; reflexivity. }
    destruct (ON i Hi) as (f & K1 & K2 & K3).
    assert (CF : clear_front s t i (wf_line (wfs s f))).
    { split; [apply CS, Hi|]. split; [apply (CA eq_refl i f Hi K1)|]. auto. }
    unfold happens1. rewrite TT. exists i, f. split; [auto|]. cbv zeta.
    assert (RC : forall j, EventGeom.touches s t i (wf_line (wfs s f)) j (ev_time ev) ->
      (exists y, (Rabs (y - ev_time ev) <= / 10^5)%R /\
         forall p, position_at s (corner s t i) y = Ok p -> signed_distance (A:=RA) (wf_line (wfs s f)) p = y) /\
      (exists y, (Rabs (y - ev_time ev) <= / 10^5)%R /\ longest s t j y)).
    { intros j [(y & Y1 & Y2) L]. split; [|exact L]. exists y. split; [exact Y1|]. apply gap_zero; [apply OR|apply OR|exact Y2]. }
    destruct (C67_one_front s t i (wf_line (wfs s f)) w sv ev OR K3 TY Hi CF W0 H) as [Q|[(Q1 & Q2 & Q3)|(Q1 & j & Q2 & Q3)]].
    + left. exact Q.
    + right. left. split; [exact Q1|]. split; [exact Q2|]. apply RC, Q3.
    + right. right. split; [exact Q1|]. exists j. split; [exact Q2|]. apply RC, Q3.
  - assert (exists i j, i <> j /\ link s t i = None /\ link s t j = None) as (i & j & IJ & Wi & Wj).
    { unfold tri_type, count3 in TY. unfold link. destruct (t_n (ts s t)) as [[|] [|] [|]]; cbn in TY; try discriminate;
        [exists S1, S2|exists S0, S2|exists S0, S1]; repeat split; discriminate. }
    destruct (ON i Wi) as (f & A1 & A2 & Ki). destruct (ON j Wj) as (g & B1 & B2 & Kj).
    destruct (C67_two_fronts s t i j _ _ w sv ev OR IJ Ki Kj TY Wi Wj) as (Q1 & Q2 & Q3); auto.
    { repeat (split; auto). }
    unfold happens2. rewrite TT. split; [exact Q1|]. split; [|exact Q3]. exists i, j, f, g. auto 7.
  - assert (TY3 : tri_type (ts s t) = 3).
    { rewrite TY. unfold tri_type, count3 in TY. destruct (t_n (ts s t)) as [[|] [|] [|]]; cbn in TY; congruence. }
    assert (Wn : forall i, link s t i = None).
    { unfold tri_type, count3 in TY. unfold link. destruct (t_n (ts s t)) as [[|] [|] [|]]; cbn in TY; try discriminate. intros []; reflexivity. }
    destruct (ON S0 (Wn S0)) as (f0 & A0 & B0 & K0). destruct (ON S1 (Wn S1)) as (f1 & A1 & B1 & K1). destruct (ON S2 (Wn S2)) as (f2 & A2 & B2 & K2).
    destruct (C67_three_fronts s t
      (fun i => match i with S0 => wf_line (wfs s f0) | S1 => wf_line (wfs s f1) | S2 => wf_line (wfs s f2) end) OR) as (x & p & M & HH); auto.
    + intros []; assumption.
    + assert (P10 : (0 < / 10^10)%R) by (apply Rinv_0_lt_compat, pow_lt; lra).
      assert (DT : forall (a b : line2 (A:=RA)), (Rabs (det a b) > / 10^10)%R -> lw a <> lw b /\ lw b <> lw a).
      { intros a b Q0. assert (Q : lw a <> lw b); [|split; congruence]. intros Q. unfold det in Q0. rewrite Q in Q0.
        match type of Q0 with (Rabs ?d > _)%R => assert (Z : d = 0%R) by (ra_simp; ring); rewrite Z, Rabs_R0 in Q0 end. lra. }
      destruct (CR S0) as (a & b & Q1 & Q2 & Q3). destruct (CR S1) as (a' & b' & Q1' & Q2' & Q3').
      destruct (CR S2) as (a'' & b'' & Q1'' & Q2'' & Q3''). cbn [ccw cw] in *.
      assert (a = f1) by congruence. assert (b = f2) by congruence. assert (a' = f2) by congruence. assert (b' = f0) by congruence.
      assert (a'' = f0) by congruence. assert (b'' = f1) by congruence. subst.
      apply DT in Q3, Q3', Q3''. intros [] [] N; try (destruct (N eq_refl)); tauto.
    + intros i. specialize (CS i (Wn i)). destruct CS as [CS|CS]; [destruct (C3 (eq_trans (eq_sym TY) TY3) i CS)|].
      rewrite Rabs_right in CS; [exact CS|]. apply Rle_ge. unfold spread, dv2, sqdist. apply Rplus_le_le_0_compat; apply Rle_0_sqr || apply pow2_ge_0.
    + apply AC.
    + destruct (HH w sv W0) as [H1 H2].
      assert (Q : collapse_event s t w sv = Ok (Some (mkEv (A:=RA) x t [S0; S1; S2] Edge 3))).
      { destruct (Rlt_dec x 0) as [L|L].
        - rewrite H2 in H; [discriminate|]. left. destruct sv; cbn; lra.
        - destruct (Req_dec x 0) as [Z|Z]; [rewrite H2 in H; [discriminate|auto]|].
          destruct sv; cbn [adm] in *.
          + destruct (Rgt_dec x (w + / 10^10)) as [G|G]; [auto|rewrite H2 in H; [discriminate|auto]].
          + destruct (Rle_dec w x) as [G|G]; [auto|rewrite H2 in H; [discriminate|auto]]. }
      rewrite Q in H. injection H as <-. unfold happens3. cbn [ev_tp ev_side ev_tri ev_time]. do 2 (split; [reflexivity|]).
      exists p. intros i. rewrite (place_position s t i x OR), (M i). reflexivity.
Qed.

Lemma run_tris {A : Arith} {E : Env A} (OA : OrdArith A) (addr_inj : forall t u : nat, addr t = addr u -> t = u) s now s' :
  the_run s now s' -> sk_triangles s' = sk_triangles s.
Proof.
  intros (FR & SH & s0 & tr & ST & L & R & _). destruct (init_timed OA addr_inj _ _ FR ST) as ((RG & _) & FO & _).
  destruct (steps_base _ _ _ _ _ _ RG R) as [_ FO']. rewrite (fo_tris _ _ FO'). apply (fo_tris _ _ FO).
Qed.

(** ** C79 *)
(** In a run, the event that the loop takes from the queue happens: at its time, which is the clock's from now on, the
    triangle is as the event says. *)
Theorem C79_happens :
  forall (E : Env RA), (forall t u : nat, addr (A:=RA) t = addr (A:=RA) u -> t = u) ->
  forall (s : state (A:=RA)) (now : R) s' e (now' : R) s1, firm_run s now s' -> immediate s' = [] ->
  take_next now s' = Ok ((e, now'), s1) -> let t := ev_tri (es s' e) in
  active s' t -> ordinary s' t -> (forall i, crossing s' (corner s' t i)) -> (forall i, ~ left_over s' t i) -> sharp s' t ->
  now' = ev_time (es s' e) /\ happens s' (es s' e).
Proof.
  intros E addr_inj s now s' e now' s1 RUN IM TN t AC OR CR NL SP.
  destruct (firm_facts E addr_inj _ _ _ RUN) as (RUN' & F & U & T & SH & TR).
  destruct (run_pending RA_ord addr_inj _ _ _ RUN') as [(_ & _ & P) N0].
  apply take_next_ok in TN. destruct TN as [(r & I & _)|(r & _ & Q & -> & _)]; [rewrite IM in I; discriminate|].
  split; [reflexivity|].
  assert (UP : up_to_date now s' t).
  { destruct RUN' as (FR & SH0 & s0 & tr & ST & L & R & O' & NF). eapply (C69_run RA E RA_ord addr_inj s s0); eauto.
    rewrite <- TR. apply AC. }
  assert (W : waits s' e) by (unfold waits; rewrite Q; left; reflexivity).
  destruct UP as [UP|[(e' & w & K1 & K2 & K3 & K4)|(UP & _)]].
  - destruct AC as [_ AC]. congruence.
  - assert (e' = e) as ->.
    { pose proof (pe_cur _ _ P _ W) as C1. pose proof (pe_cur _ _ P _ (computed_waits _ _ _ _ K4)) as C2.
      rewrite K1 in C2. fold t in C1. congruence. }
    destruct K4 as [(_ & sv & K4)|(K4 & _)]; [|rewrite IM in K4; destruct K4].
    apply le_R in K2. rewrite zero_R in K2. exact (proj2 (search_truth s' t w sv _ F U T SH AC OR CR NL SP K2 K4)).
  - destruct (UP e W eq_refl).
Qed.
Print Assumptions C79_happens.

(** An event for right now, which the loop takes first: the collapse of the sides that are the shortest now, or of all
    sides of a triangle with three wavefronts. *)
Theorem C79_immediate :
  forall (A : Arith) (E : Env A), OrdArith A -> (forall t u : nat, addr t = addr u -> t = u) ->
  forall s now s' e now' s1, the_run s now s' -> immediate s' <> [] -> take_next now s' = Ok ((e, now'), s1) ->
  let t := ev_tri (es s' e) in active s' t ->
  now' = now /\ ev_time (es s' e) = now /\ ev_tp (es s' e) = Edge /\
  exists d0 d1 d2, dists s' (corner s' t S0) (corner s' t S1) (corner s' t S2) now = Ok (mk3 d0 d1 d2) /\
  ev_side (es s' e) = if Nat.eqb (tri_type (ts s' t)) 3 then [S0; S1; S2]
    else filter (fun i => near_zero (get3 (mk3 d0 d1 d2) i - min3 (mk3 d0 d1 d2)))%num [S0; S1; S2].
Proof.
  intros A E OA addr_inj s now s' e now' s1 RUN IM TN t AC.
  pose proof (run_tris OA addr_inj _ _ _ RUN) as TR.
  destruct (run_pending OA addr_inj _ _ _ RUN) as [(_ & _ & P) N0].
  apply take_next_ok in TN. destruct TN as [(r & I & -> & _)|(r & I & _)]; [|congruence].
  split; [reflexivity|].
  assert (TE : ev_time (es s' e) = now).
  { apply (pe_imm _ _ P). rewrite I. left. reflexivity. }
  split; [exact TE|].
  assert (UP : up_to_date now s' t).
  { destruct RUN as (FR & SH0 & s0 & tr & ST & L & R & O' & NF). eapply (C69_run A E OA addr_inj s s0); eauto.
    rewrite <- TR. apply AC. }
  assert (W : waits s' e) by (unfold waits; rewrite I; apply in_app_iff; right; left; reflexivity).
  destruct UP as [UP|[(e' & w & K1 & K2 & K3 & K4)|(UP & _)]].
  - destruct AC as [_ AC]. congruence.
  - assert (e' = e) as ->.
    { pose proof (pe_cur _ _ P _ W) as C1. pose proof (pe_cur _ _ P _ (computed_waits _ _ _ _ K4)) as C2.
      rewrite K1 in C2. fold t in C1. congruence. }
    destruct K4 as [(K4 & _)|(_ & ev0 & K4 & K5)].
    + exfalso. pose proof (pe_nodup _ _ P) as ND. rewrite I in ND. apply NoDup_remove in ND. apply (proj2 ND), in_app_iff. auto.
    + unfold new_edge_collapse_event in K4. apply rbind_ok in K4. destruct K4 as (ds & K6 & K4). injection K4 as <-.
      assert (w = now) as ->.
      { rewrite <- TE, K5. unfold OpSpec.sched_event. destruct (Nat.eqb _ _); reflexivity. }
      rewrite K5. split; [unfold OpSpec.sched_event; destruct (Nat.eqb _ _); reflexivity|].
      destruct ds as [d0 d1 d2]. exists d0, d1, d2. split; [exact K6|].
      unfold OpSpec.sched_event. destruct (Nat.eqb _ _); reflexivity.
  - destruct (UP e W eq_refl).
Qed.
Print Assumptions C79_immediate.

(** in exact reals: no side is shorter, up to the tolerance *)
Theorem C79_shortest :
  forall (E : Env RA), (forall t u : nat, addr (A:=RA) t = addr (A:=RA) u -> t = u) ->
  forall (s : state (A:=RA)) (now : R) s' e (now' : R) s1, the_run s now s' -> immediate s' <> [] ->
  take_next now s' = Ok ((e, now'), s1) -> let t := ev_tri (es s' e) in
  active s' t -> ordinary s' t -> tri_type (ts s' t) <> 3 ->
  ev_side (es s' e) <> [] /\
  forall i j, In i (ev_side (es s' e)) -> (sqrt (len2 s' t i now) <= sqrt (len2 s' t j now) + / 10^10)%R.
Proof.
  intros E addr_inj s now s' e now' s1 RUN IM TN t AC OR N3.
  destruct (C79_immediate RA E RA_ord addr_inj s now s' e now' s1 RUN IM TN AC) as (_ & _ & _ & d0 & d1 & d2 & D & SD).
  fold t in D, SD. unfold corner in D. cbn [get3] in D. rewrite (dists_val _ _ OR) in D.
  assert (D' : map3 sqrt (lens s' t now) = mk3 d0 d1 d2) by congruence. clear D. rename D' into D.
  destruct (Nat.eqb _ _) eqn:TY in SD; [apply Nat.eqb_eq in TY; contradiction|]. rewrite SD.
  assert (IN : forall i, In i (filter (fun i => near_zero (A:=RA) (get3 (mk3 d0 d1 d2) i - min3 (A:=RA) (mk3 d0 d1 d2))%num) [S0; S1; S2]) <->
    near_zero (A:=RA) (get3 (mk3 d0 d1 d2) i - min3 (A:=RA) (mk3 d0 d1 d2))%num = true).
  { intros i. rewrite filter_In. split; [tauto|]. intros K. split; [|exact K]. destruct i; cbn; auto. }
  split.
  - destruct (min3_is (mk3 d0 d1 d2)) as [m M]. intros Z. assert (Q : In m []) by (rewrite <- Z; apply IN, near_zero_R; change (@get3 (@num RA)) with (@get3 R); rewrite M; ra_simp;
      rewrite Rminus_diag_eq by reflexivity; lra). destruct Q.
  - intros i j Hi. apply IN in Hi. apply near_le in Hi. pose proof (min3_R (mk3 d0 d1 d2) j) as M.
    rewrite <- D in Hi, M. change (@get3 (@num RA)) with (@get3 R) in Hi. rewrite get_map3, get_lens in Hi, M. ra_simp. lra.
Qed.
Print Assumptions C79_shortest.

(** ** Cases *)
(** the triangle with sides 3, 4, 5: its event at time 1, when the corners meet in (1, 1) *)
Example C79_case : forall (E : Env RA), (forall t u : nat, addr (A:=RA) t = addr (A:=RA) u -> t = u) ->
  happens trio_started (es trio_started 0) /\ ev_time (es trio_started 0) = 1%R /\
  forall i, position_at trio_started (corner trio_started 0 i) 1%R = Ok (1, 1)%R.
Proof.
  intros E addr_inj. destruct (C76_case E addr_inj) as (R & (s1 & TN) & AC & OR & CR & L & SP & _).
  split; [|split; [reflexivity|]].
  - apply (C79_happens E addr_inj trio 0%R trio_started 0 1%R s1 R eq_refl TN AC OR CR); [apply L|exact SP].
  - intros i. rewrite (place_position trio_started 0 i 1%R OR). f_equal. change (place trio_started 0 i) with (place trio 0 i).
    destruct i; in_R3; f_equal; lra.
Qed.

(** executable runs: the first [k] events of [s] are as [the_run] asks, and [P] holds after them *)
Lemma run_example k s P : fresh s -> shaped s ->
  holds_k k s (fun now _ s' => match init_event_list s with
     | Ok (_, s1) => let s0 := with_qi s1 (queue s1) [] in mesh_run k s0 s' && forallb (watched_at s0) (seq 0 k)
     | Err _ => false end && P now s') = true ->
  exists now s', the_run s now s' /\ P now s' = true.
Proof.
  intros F SH H. apply example_k in H. destruct H as (s0 & now & tr & s' & ST & R & L & H).
  exists now, s'. pose proof ST as (s1 & I & ->). rewrite I in H. unfold mesh_run in H. cbv zeta in H.
  rewrite !Bool.andb_true_iff in H. destruct H as [[[[H1 H2] H3] H4] H6].
  split; [|exact H6]. split; [exact F|]. split; [exact SH|]. eexists _, tr. split; [exact ST|]. split; [apply (linkedb_ok _ H1)|].
  split; [exact R|]. split.
  - rewrite L. apply orderly_run; assumption.
  - intros v Hv. unfold slowb in H3. rewrite forallb_forall in H3. specialize (H3 v). rewrite in_seq in H3.
    specialize (H3 ltac:(lia)). destruct (k_inf_fast (vs s' v)); [discriminate|reflexivity].
Qed.
(** an event [e] for right now is the next one: of a triangle that is there, with [n] wavefronts and these sides *)
Definition nowb (n : nat) (sides : list side) (now : Q) (s : state (A:=QA)) : bool :=
  match immediate s with
  | e :: _ => let t := ev_tri (es s e) in mem Nat.eqb t (sk_triangles s) && is_none (t_stops (ts s t)) && (tri_type (ts s t) =? n) &&
      if list_eq_dec FanProofs.side_eq_dec (ev_side (es s e)) sides then true else false
  | [] => false
  end.
Example C79_case_three : exists now s', the_run square now s' /\ nowb 3 [S0; S1; S2] now s' = true.
Proof. apply (run_example 1 square (nowb 3 [S0; S1; S2]) square_fresh square_shaped). vm_compute. reflexivity. Qed.
Example C79_case_two : exists now s', the_run hour now s' /\ nowb 2 [S1] now s' = true.
Proof. apply (run_example 1 hour (nowb 2 [S1]) hour_fresh hour_shaped). vm_compute. reflexivity. Qed.
