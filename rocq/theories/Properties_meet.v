(** C99: the node in which vertices end is close to each of them (exact reals) *)
From Coq Require Import Reals Lra.
From Verif Require Import Base Arith ArithR ArithQ Calc CalcProofs VectorOps Line2d Primitives Collapse
  EventsLib EdgeEvent SplitEvent EventLoop Check Pass OpSpec StopSpec RunBase RunTimed RunLoop Effects Scenario ScenarioRun Properties_events Properties_location.
Local Close Scope Q_scope.
Local Open Scope R_scope.

(** ** Means *)
Definition total (l : list R) : R := fold_right Rplus 0 l.
Lemma total_bounds (l : list R) a b : (forall y, In y l -> a <= y <= b) -> a * INR (length l) <= total l <= b * INR (length l).
Proof.
  induction l as [|y l IH]; intros H; [cbn; lra|]. cbn [total fold_right length]. fold (total l). rewrite S_INR.
  assert (K : a <= y <= b) by (apply H; left; reflexivity). assert (L : a * INR (length l) <= total l <= b * INR (length l)) by (apply IH; intros z Hz; apply H; right; exact Hz).
  lra.
Qed.
(** a mean is as close to a number as all the values are *)
Lemma mean_close (l : list R) (m x e : R) : l <> [] -> m * INR (length l) = total l -> (forall y, In y l -> Rabs (y - x) <= e) -> Rabs (m - x) <= e.
Proof.
  intros NE M H. assert (P : 0 < INR (length l)) by (destruct l; [contradiction|cbn [length]; apply lt_0_INR; lia]).
  assert (B : (x - e) * INR (length l) <= total l <= (x + e) * INR (length l)).
  { apply total_bounds. intros y Hy. specialize (H y Hy). unfold Rabs in H. destruct (Rcase_abs (y - x)); lra. }
  rewrite <- M in B. destruct B as [B1 B2]. apply Rmult_le_reg_r in B1; [|exact P]. apply Rmult_le_reg_r in B2; [|exact P].
  unfold Rabs. destruct (Rcase_abs (m - x)); lra.
Qed.
(** of at most three values that are close to the first, the mean is close to each *)
Lemma mean_of_few (y : R) (l : list R) (m e : R) : (length l <= 2)%nat -> m * INR (length (y :: l)) = total (y :: l) ->
  (forall z, In z l -> Rabs (y - z) <= e) -> 0 <= e -> forall z, In z (y :: l) -> Rabs (m - z) <= e.
Proof.
  intros L M H E0 z Hz. assert (AB : forall u, Rabs u <= e <-> - e <= u <= e) by (intros u; unfold Rabs; destruct (Rcase_abs u); lra).
  apply AB. destruct l as [|a [|b [|]]]; [| | |cbn in L; lia].
  - cbn in M. destruct Hz as [<-|[]]; lra.
  - assert (Ha : Rabs (y - a) <= e) by (apply H; left; reflexivity). apply AB in Ha. cbn in M. destruct Hz as [<-|[<-|[]]]; lra.
  - assert (Ha : Rabs (y - a) <= e) by (apply H; left; reflexivity). assert (Hb : Rabs (y - b) <= e) by (apply H; right; left; reflexivity).
    apply AB in Ha. apply AB in Hb. cbn in M. destruct Hz as [<-|[<-|[<-|[]]]]; lra.
Qed.

(** ** stop_kvertices *)

(** the check that the tests make for a vertex that has ended *)
Definition ends_well (s : state (A:=RA)) (v : nat) : Prop :=
  exists n (t : R), k_stop_node (vs s v) = Some n /\ k_stops (vs s v) = Some t /\ at_same_location s [ANode n; AVertex v] t = Ok true.

Section Stop.
  Context (E : Env RA) (V : list nat) (step : Z) (now : R) (s : state (A:=RA)) (n : nat) (s' : state (A:=RA)) (pos : option (R * R)).
  Context (H : stop_kvertices (A:=RA) V step now pos s = Ok ((n, true), s')).
  Context (RG : registered s) (ND : NoDup V) (PR : forall v, In v V -> proper (vs s v)).

  Lemma stop_positions v p : In v V -> position_at s v now = Ok p -> position_at s' v now = Ok p.
  Proof.
    intros Hv P. destruct (C35_stop_kvertices RA E V step now pos s n true s' H ND PR) as (_ & _ & _ & _ & NS & _ & SM & _).
    destruct (SM v) as (M & _). destruct M. unfold position_at in *. rewrite sm_inf, sm_fast, sm_start_node, sm_origin, sm_velocity.
    destruct (k_inf (vs s v)); [exact P|]. destruct (k_inf_fast (vs s v)); [|exact P].
    destruct (k_start_node (vs s v)) as [a|] eqn:A; [|exact P]. rewrite NS; [exact P|]. apply (rg_nodes _ RG). eapply (rg_start _ RG). exact A.
  Qed.
  Lemma stop_ends_well v p : In v V -> position_at s v now = Ok p -> close (sn_pos (ns s' n)) p -> ends_well s' v.
  Proof.
    intros Hv P C. destruct (C35_stop_kvertices RA E V step now pos s n true s' H ND PR) as (EN & _). destruct (EN v Hv) as [E1 E2].
    exists n, now. split; [exact E1|]. split; [exact E2|]. destruct (C98_meaning s' [ANode n; AVertex v] now) as (_ & _ & M).
    destruct (M (sn_pos (ns s' n)) [p]) as (b & Hb & Eb).
    { constructor; [reflexivity|]. constructor; [exact (stop_positions v p Hv P)|constructor]. }
    rewrite Hb. f_equal. apply Eb. intros q [<-|[]]. exact C.
  Qed.
End Stop.

(** Vertices any two of which are close to each other at the time when they are stopped
    end in a node (if a new one is made) that is close to each of them: the check of the
    tests succeeds for all of them. *)
Theorem C99_meet :
  forall (E : Env RA) V step (now : R) s n s',
  stop_kvertices (A:=RA) V step now None s = Ok ((n, true), s') ->
  registered s -> NoDup V -> V <> [] -> (forall v, In v V -> proper (vs s v)) ->
  (forall v w p q, In v V -> In w V -> position_at s v now = Ok p -> position_at s w now = Ok q -> close p q) ->
  forall v, In v V -> ends_well s' v.
Proof.
  intros E V step now s n s' H RG ND NE PR CL v Hv.
  destruct (C35_mean E V step now s n s' H ND PR) as (ps & F & MX & MY).
  assert (LN : length ps = length V) by (clear -F; induction F; cbn; congruence). rewrite <- LN in MX, MY.
  assert (NP : ps <> []) by (intros ->; destruct V; [contradiction|discriminate LN]).
  assert (FP : exists p, position_at s v now = Ok p /\ forall q, In q ps -> close q p).
  { assert (X : exists p, position_at s v now = Ok p).
    { clear -F Hv. induction F as [|w q V' ps' Hq F IH]; [contradiction|]. destruct Hv as [<-|Hv]; eauto. }
    destruct X as [p P]. exists p. split; [exact P|]. intros q Hq.
    assert (Y : exists w, In w V /\ position_at s w now = Ok q).
    { clear -F Hq. induction F as [|w q' V' ps' Hq' F IH]; [contradiction|]. destruct Hq as [<-|Hq]; [exists w; split; [left; reflexivity|exact Hq']|].
      destruct (IH Hq) as (w' & K1 & K2). exists w'. split; [right; exact K1|exact K2]. }
    destruct Y as (w & Hw & Q). exact (CL w v q p Hw Hv Q P). }
  destruct FP as (p & P & C). apply (stop_ends_well E V step now s n s' None H RG ND PR v p Hv P). split.
  - apply (mean_close (map fst ps)); [destruct ps; [contradiction|discriminate]|rewrite map_length; exact MX|].
    intros y Hy. apply in_map_iff in Hy. destruct Hy as (q & <- & Hq). apply (C q Hq).
  - apply (mean_close (map snd ps)); [destruct ps; [contradiction|discriminate]|rewrite map_length; exact MY|].
    intros y Hy. apply in_map_iff in Hy. destruct Hy as (q & <- & Hq). apply (C q Hq).
Qed.
Print Assumptions C99_meet.

Lemma items_of (s : state (A:=RA)) (now : R) (V : list nat) l : Forall2 (fun v p => position_at s v now = Ok p) V l ->
  Forall2 (fun i q => match i with AVertex v => position_at s v now = Ok q | ANode n => q = sn_pos (ns s n) end) (map AVertex V) l.
Proof. induction 1; constructor; auto. Qed.
Lemma Forall2_some {X Y} (P : X -> Y -> Prop) V l v : Forall2 P V l -> In v V -> exists p, P v p /\ In p l.
Proof.
  induction 1 as [|x y V l Hp F IH]; [contradiction|]. intros [<-|Hv]; [exists y; split; [exact Hp|left; reflexivity]|].
  destruct (IH Hv) as (p & K1 & K2). exists p. split; [exact K1|right; exact K2].
Qed.

(** At most three vertices: it is enough that at_same_location says so, which compares
    with the first only. *)
Theorem C99_few :
  forall (E : Env RA) V step (now : R) s n s',
  stop_kvertices (A:=RA) V step now None s = Ok ((n, true), s') ->
  registered s -> NoDup V -> (length V <= 3)%nat -> (forall v, In v V -> proper (vs s v)) ->
  at_same_location s (map AVertex V) now = Ok true ->
  forall v, In v V -> ends_well s' v.
Proof.
  intros E V step now s n s' H RG ND L3 PR AT v Hv.
  assert (E10 : 0 < / 10^10) by (apply Rinv_0_lt_compat, pow_lt; lra).
  destruct (C35_mean E V step now s n s' H ND PR) as (ps & F & MX & MY).
  assert (LN : length ps = length V) by (clear -F; induction F; cbn; congruence). rewrite <- LN in MX, MY, L3.
  destruct ps as [|p0 ps]; [destruct V; [contradiction|discriminate LN]|].
  destruct (C98_meaning s (map AVertex V) now) as (_ & _ & M). destruct (M p0 ps) as (b & Hb & Eb).
  { apply items_of. exact F. }
  rewrite AT in Hb. injection Hb as <-. assert (CL : forall q, In q ps -> close p0 q) by (apply Eb; reflexivity). clear M Eb.
  assert (X : exists p, position_at s v now = Ok p /\ In p (p0 :: ps)).
  { exact (Forall2_some _ _ _ v F Hv). }
  destruct X as (p & P & IP). apply (stop_ends_well E V step now s n s' None H RG ND PR v p Hv P). cbn [length] in L3. split.
  - apply (mean_of_few (fst p0) (map fst ps)); [rewrite map_length; lia| | |lra|].
    + cbn [length]. rewrite map_length. exact MX.
    + intros z Hz. apply in_map_iff in Hz. destruct Hz as (q & <- & Hq). apply (CL q Hq).
    + apply (in_map fst) in IP. exact IP.
  - apply (mean_of_few (snd p0) (map snd ps)); [rewrite map_length; lia| | |lra|].
    + cbn [length]. rewrite map_length. exact MY.
    + intros z Hz. apply in_map_iff in Hz. destruct Hz as (q & <- & Hq). apply (CL q Hq).
    + apply (in_map snd) in IP. exact IP.
Qed.
Print Assumptions C99_few.

(** For a position that the caller gives, the check succeeds exactly for the vertices
    that are close to it. *)
Theorem C99_given :
  forall (E : Env RA) V step (now : R) s n s' q,
  stop_kvertices (A:=RA) V step now (Some q) s = Ok ((n, true), s') ->
  registered s -> NoDup V -> (forall v, In v V -> proper (vs s v)) ->
  forall v p, In v V -> position_at s v now = Ok p -> (ends_well s' v <-> close q p).
Proof.
  intros E V step now s n s' q H RG ND PR v p Hv P.
  destruct (C35_stop_kvertices RA E V step now (Some q) s n true s' H ND PR) as (EN & _ & NW & _).
  destruct (NW eq_refl) as (_ & _ & NQ). destruct (EN v Hv) as [E1 E2]. split.
  - intros (n' & t & K1 & K2 & K3). rewrite E1 in K1. injection K1 as <-. rewrite E2 in K2. injection K2 as <-.
    destruct (C98_meaning s' [ANode n; AVertex v] now) as (_ & _ & M). destruct (M (sn_pos (ns s' n)) [p]) as (b & Hb & Eb).
    { constructor; [reflexivity|]. constructor; [|constructor]. exact (stop_positions E V step now s n s' (Some q) H RG ND PR v p Hv P). }
    rewrite K3 in Hb. injection Hb as <-. rewrite <- NQ. apply Eb; [reflexivity|left; reflexivity].
  - intros C. apply (stop_ends_well E V step now s n s' (Some q) H RG ND PR v p Hv P). rewrite NQ. exact C.
Qed.
Print Assumptions C99_given.

(** ** The event of all three sides *)
(** If the three corners are where the first is, and none of them has ended or just
    begun, then they end well. *)
Theorem C99_three_sides :
  forall (E : Env RA) evt step s s',
  handle_edge_event_3sides (A:=RA) evt step s = Ok (tt, s') ->
  let V := list3 (t_v (ts s (ev_tri evt))) in let now := ev_time evt in
  registered s -> NoDup V -> (forall v, In v V -> proper (vs s v) /\ ~ has_node_at now (vs s v)) ->
  at_same_location s (map AVertex V) now = Ok true ->
  forall v, In v V -> ends_well s' v.
Proof.
  intros E evt step s s' H V now RG ND PR AT v Hv. unfold handle_edge_event_3sides in H. cbv zeta in H.
  apply bind_ok in H. destruct H as (? & s1 & H0 & H). apply assertM_ok in H0. destruct H0 as [_ ->].
  apply bind_ok in H. destruct H as (y & s1 & H0 & H). injection H0 as <- <-.
  apply bind_ok in H. destruct H as (n & s1 & H1 & H). fold V now in H1.
  apply stop_and_register_spec in H1. destruct H1 as (new & s0 & H1 & E1).
  assert (PR' : forall w, In w V -> proper (vs s w)) by (intros w Hw; apply (PR w Hw)).
  assert (NW : new = true).
  { destruct (C35_stop_kvertices RA E V step now None s n new s0 H1 ND PR') as (_ & NW & _). apply NW. intros w Hw. apply (PR w Hw). }
  subst new. assert (L3 : (length V <= 3)%nat) by (unfold V; destruct (t_v (ts s (ev_tri evt))); cbn; lia).
  destruct (C99_few E V step now s n s0 H1 RG ND L3 PR' AT v Hv) as (m & t & K1 & K2 & K3).
  apply bind_ok in H. destruct H as (? & s2 & H2 & H).
  apply (quiets_forM sides (schedule_neighbour (ev_tri evt) (ev_time evt))) in H2; [|intros; apply quiets_neighbour].
  apply modt_spec in H.
  assert (V1 : vs s1 = vs s0 /\ ns s1 = ns s0) by (rewrite E1; split; reflexivity). destruct V1 as [V1 N1].
  assert (V2 : vs s' = vs s2 /\ ns s' = ns s2) by (subst s'; split; reflexivity). destruct V2 as [V2 N2].
  exists m, t. rewrite V2, (qu_stop_node _ _ H2), (qu_stops _ _ H2), V1. split; [exact K1|]. split; [exact K2|].
  rewrite <- K3. unfold at_same_location. cbn [rmapl item_at]. rewrite N2, (qu_ns _ _ H2), N1.
  assert (PE : position_at s' v t = position_at s0 v t).
  { unfold position_at. rewrite V2, N2, (qu_ns _ _ H2), N1. pose proof (qu_motion _ _ H2 v) as SM. destruct SM.
    rewrite sm_inf, sm_fast, sm_start_node, sm_origin, sm_velocity, V1. reflexivity. }
  rewrite PE. reflexivity.
Qed.
Print Assumptions C99_three_sides.

(** *** cases *)
(** the right triangle: its corners meet at time 1, and pass the check afterwards *)
Example C99_case :
  match at_same_location (A:=QA) rt2 (map AVertex [0; 1; 2]%nat) 1%Q, stop_kvertices [0; 1; 2]%nat 1 (1%Q : @num QA) None rt2 with
  | Ok b, Ok ((n, new), s') => b && new && forallb (fun v => match at_same_location s' [ANode n; AVertex v] 1%Q with Ok c => c | Err _ => false end) [0; 1; 2]%nat
  | _, _ => false end = true.
Proof. vm_compute. reflexivity. Qed.
(** for four vertices it is not enough that all are close to the first *)
Definition resting (x : Q) : kvertex (A:=QA) :=
  mkKV (A:=QA) false (x, 0%Q) (0%Q, 0%Q) [] [] (Some 0%Q) None (Some 0%nat) None None None None None 0 false true.
Definition four : state (A:=QA) :=
  mkSt (A:=QA) (fun v => resting (match v with 0%nat => 0 | 1%nat => 1 # 10000000000 | _ => - (1 # 10000000000) end)%Q) 4
    (fun _ => mkTri (A:=QA) (mk3 0 1 2)%nat (mk3 None None None) None 0 None true) 0
    (fun _ => mkNode (A:=QA) (0%Q, 0%Q) 0 None) 1 (fun _ => mkEv (A:=QA) 0%Q 0%nat [] Edge 0) 0
    (fun _ => mkWF (A:=QA) (mkLine (A:=QA) (1%Q, 0%Q) 0%Q) (0%Q, 0%Q) (0%Q, 0%Q)) [0]%nat [0; 1; 2; 3]%nat [] [] [].
Theorem C99_four_refuted : exists (s : state (A:=QA)) V v,
  match at_same_location s (map AVertex V) 1%Q, stop_kvertices V 1 (1%Q : @num QA) None s with
  | Ok b, Ok ((n, new), s') => b && new && mem Nat.eqb v V && match at_same_location s' [ANode n; AVertex v] 1%Q with Ok c => negb c | Err _ => false end
  | _, _ => false end = true.
Proof. exists four, [0; 1; 2; 3]%nat, 1%nat. vm_compute. reflexivity. Qed.
Print Assumptions C99_four_refuted.
