(** C87: the arcs of the skeleton end where their vertices are (exact reals) *)
From Coq Require Import Reals Lra.
From Verif Require Import Base Arith ArithR ArithQ Calc CalcProofs VectorOps Line2d Line2dProofs Primitives Collapse CollapseProofs CollapseR
  EventsLib FlipEvent ParallelEvent EdgeEvent SplitEvent EventLoop Pass OpSpec Order StopSpec RunBase RunTimed RunLoop Bisect
  Decent Total FanProofs TotalRun Scenario ScenarioRun Properties_total
  Properties_collapse EventGeom EventFirst Properties_effects Properties_geometry Mesh MeshEvents MeshEdge MeshRun Properties_mesh
  Current Properties_current Rings RingEdge RingSplit RingFlip EdgeHead RingSpec RingGone RingRun RingLeft
  Initialize StarProofs InitProofs InitState InitCirc InitBisect InitMesh Main TriExample Properties_init
  Properties_main Properties_start Properties_rings InitRing Properties_ringstart
  Properties_fronts Properties_happen Placed PlacedNode.
Local Close Scope Q_scope.
Local Open Scope nat_scope.

(** ** Specification *)
Definition dist (p q : R * R) : R := sqrt ((fst p - fst q)^2 + (snd p - snd q)^2).
(** the loop takes an event [e] of triangle [t], which is as it should be *)
Definition good_event (s : state (A:=RA)) (t : nat) : Prop :=
  active s t /\ ordinary s t /\ (forall i, crossing s (corner s t i)) /\ (forall i, ~ left_over s t i) /\ sharp s t.
(** the point has the same distance [x] from the front as the front has come since the start *)
Definition at_front (s : state (A:=RA)) (o : option nat) (x : R) (p : R * R) : Prop :=
  exists f, o = Some f /\ signed_distance (A:=RA) (wf_line (wfs s f)) p = x.

(** ** The wavefronts of a vertex *)
Theorem C87_fronts :
  forall (A : Arith) (E : Env A) s0 now tr s, registered s0 -> shaped s0 -> own_fronts s0 -> reach s0 now tr s ->
  (forall now1 tr1 s1 e now2 s2, reach s0 now1 tr1 s1 -> length tr1 < length tr ->
     take_next now1 s1 = Ok ((e, now2), s2) -> t_stops (ts s2 (ev_tri (es s2 e))) = None -> distinct s2 (ev_tri (es s2 e))) ->
  (forall v, nv s0 <= v < nv s -> k_inf_fast (vs s v) = false) ->
  forall v, v < nv s -> k_inf (vs s v) = false -> k_wfl (vs s v) <> None \/ k_wfr (vs s v) <> None ->
  k_wfl (vs s v) = k_ul (vs s v) /\ k_wfr (vs s v) = k_ur (vs s v).
Proof.
  intros A E s0 now tr s R SH O RE DI NF v Hv KI W. destruct (run_own s0 now tr s R SH O RE DI NF v Hv KI) as [[K1 K2]|K]; [|exact K].
  destruct W; contradiction.
Qed.
Print Assumptions C87_fronts.

Lemma firm_registered (E : Env RA) (addr_inj : forall t u : nat, addr (A:=RA) t = addr (A:=RA) u -> t = u) s now s' :
  firm_run s now s' -> registered s'.
Proof.
  intros ((FR & SH & F & U & T) & s0 & tr & ST & RE & OR & TI & DD & NF).
  destruct (init_timed RA_ord addr_inj _ _ FR ST) as ((RG1 & _) & _). apply (steps_base _ _ _ _ _ _ RG1 RE).
Qed.
Lemma firm_own (E : Env RA) (addr_inj : forall t u : nat, addr (A:=RA) t = addr (A:=RA) u -> t = u) s now s' :
  firm_run s now s' -> own_fronts s -> own_fronts s' /\ registered s' /\ (forall u, active s' u -> distinct s' u).
Proof.
  intros ((FR & SH & F & U & T) & s0 & tr & ST & RE & OR & TI & DD & NF) O.
  destruct (init_timed RA_ord addr_inj _ _ FR ST) as ((RG1 & _) & FO & _ & M & VS & NV & _).
  pose proof (started_shaped RA_ord addr_inj _ _ FR SH ST) as SH1.
  destruct (steps_base _ _ _ _ _ _ RG1 RE) as [RG _].
  split; [|split; [exact RG|exact (DD _ _ _ RE (Nat.le_refl _))]].
  apply (run_own s0 now tr s' RG1 SH1); auto.
  - unfold own_fronts. rewrite NV, VS. exact O.
  - intros now1 tr1 s1 e now2 s2 Q1 Q2 Q3 Q4. apply (re_distinct _ _ (proj1 (OR _ _ _ _ _ _ Q1 Q2 Q3))). split; [|exact Q4].
    apply (re_tri _ _ (proj1 (OR _ _ _ _ _ _ Q1 Q2 Q3))).
Qed.

(** what the handler is given: the state with the event taken off the queue *)
Lemma taken_state (E : Env RA) (s' : state (A:=RA)) now e (now' : R) s1 : immediate s' = [] -> take_next now s' = Ok ((e, now'), s1) ->
  now' = ev_time (es s' e) /\ exists r, s1 = with_qi s' r [].
Proof.
  intros IM TN. apply take_next_ok in TN. destruct TN as [(r & I & _)|(r & _ & _ & -> & ->)]; [congruence|]. eauto.
Qed.
Lemma eval_front (s : state (A:=RA)) f (p : R * R) x : eval (wf_line (wfs s f)) p = x -> signed_distance (A:=RA) (wf_line (wfs s f)) p = x.
Proof. intros H. rewrite signed_distance_R. exact H. Qed.
Lemma dist_sym p q : dist p q = dist q p.
Proof. unfold dist. f_equal. ring. Qed.
Lemma dist_scaled (p q : R * R) (d e : R) : (sqdist p q * d^2 <= e)%R -> (dist p q * Rabs d <= sqrt e)%R.
Proof.
  intros H. rewrite <- (sqrt_Rsqr_abs d). unfold dist. rewrite <- sqrt_mult; [|apply Rplus_le_le_0_compat; apply pow2_ge_0|apply Rle_0_sqr].
  apply sqrt_le_1_alt. unfold sqdist, Rsqr in *. lra.
Qed.
Lemma dist_half (p q : R * R) : dist p ((fst p + fst q) / 2, (snd p + snd q) / 2)%R = (dist p q / 2)%R /\
  dist q ((fst p + fst q) / 2, (snd p + snd q) / 2)%R = (dist p q / 2)%R.
Proof.
  assert (K : forall a b, (0 <= b -> a = b / 4 -> sqrt a = sqrt b / 2)%R).
  { intros a b B ->. replace (b / 4)%R with (b * (/2 * /2))%R by field. rewrite sqrt_mult; [|exact B|lra]. rewrite sqrt_square by lra. lra. }
  unfold dist. cbn [fst snd]. split; (apply K; [apply Rplus_le_le_0_compat; apply pow2_ge_0|field]).
Qed.

Lemma det_flip (L K : line2 (A:=RA)) : (det L K ^2 = det K L ^2)%R.
Proof. unfold det. ra_simp. ring. Qed.
Lemma sqsub_sym (a b : R) : ((a - b)^2 = (b - a)^2)%R.
Proof. ring. Qed.

(** ** C87 *)
(** An edge event of a side, taken from the queue: both vertices of the side end in one node, from which the new vertex
    leaves.  The node is exactly where the two outer fronts are; the ends of the vertices' paths are as near to it as the
    side is short (divided by the sine of the angle between the outer fronts). *)
Theorem C87_edge :
  forall (E : Env RA), (forall t u : nat, addr (A:=RA) t = addr (A:=RA) u -> t = u) ->
  forall (s : state (A:=RA)) (now : R) s' e (now' : R) s1 step s2 i, firm_run s now s' -> own_fronts s -> immediate s' = [] ->
  take_next now s' = Ok ((e, now'), s1) -> handle_event e step s1 = Ok (tt, s2) ->
  let t := ev_tri (es s' e) in let v1 := corner s' t (ccw i) in let v2 := corner s' t (cw i) in
  good_event s' t -> ev_tp (es s' e) = Edge -> ev_side (es s' e) = [i] ->
  running s' now' v1 -> running s' now' v2 -> k_inf_fast (vs s2 (nv s')) = false ->
  exists n l r, k_ul (vs s' v1) = Some l /\ k_ur (vs s' v2) = Some r /\
    ended_at s2 v1 n now' /\ ended_at s2 v2 n now' /\ begun_at s2 (nv s') n now' (Some l) (Some r) /\
    let q := sn_pos (ns s2 n) in let d := Rabs (det (wf_line (wfs s' l)) (wf_line (wfs s' r))) in
    forall p1 p2, position_at s' v1 now' = Ok p1 -> position_at s' v2 now' = Ok p2 ->
      (d > / 10^10 -> at_front s' (Some l) now' q /\ at_front s' (Some r) now' q /\
         dist p1 q * d <= dist p1 p2 /\ dist p2 q * d <= dist p1 p2)%R /\
      (d <= / 10^10 -> dist p1 q = dist p1 p2 / 2 /\ dist p2 q = dist p1 p2 / 2)%R /\
      (tri_type (ts s' t) <> 2%nat -> dist p1 p2 <= 2 / 10^5)%R /\
      (forall j, len2 s' t j now' = 0 -> tri_type (ts s' t) = 2%nat -> dist p1 p2 <= / 10^10)%R.
Proof.
  intros E addr_inj s now s' e now' s1 step s2 i RUN OWN IM TN H t v1 v2 (AC & OR & CR & NL & SP) TP SE A1 A2 NF.
  destruct (C79_happens E addr_inj s now s' e now' s1 RUN IM TN AC OR CR NL SP) as [NW HP].
  destruct (firm_facts E addr_inj _ _ _ RUN) as (_ & _ & U & T & SH & _).
  destruct (firm_own E addr_inj _ _ _ RUN OWN) as (OW & RG & DI).
  destruct (taken_state E s' now e now' s1 IM TN) as [_ [rq ES1]].
  assert (RG1 : registered s1) by (subst s1; destruct RG; constructor; auto).
  assert (DT : v1 <> v2) by (intros Q; apply (DI t AC) in Q; destruct i; discriminate).
  assert (T3 : tri_type (ts s' t) <> 3).
  { intros Q. unfold happens in HP. fold t in HP. rewrite Q in HP. destruct HP as (_ & K & _). rewrite SE in K. discriminate. }
  assert (L1 : v1 < nv s') by apply (sh_v _ SH). assert (L2 : v2 < nv s') by apply (sh_v _ SH).
  assert (NN : t_n (ts s' t) <> mk3 None None None).
  { intros Q. apply T3. unfold tri_type. rewrite Q. reflexivity. }
  assert (ES : es s1 = es s' /\ ts s1 = ts s' /\ vs s1 = vs s' /\ nv s1 = nv s' /\ nn s1 = nn s' /\ wfs s1 = wfs s') by (subst s1; repeat split).
  destruct ES as (EE & ET & EV & EN & EM & EW).
  destruct (C65_edge s1 e i step s2 RG1) as (n & B1 & B2 & B3 & _ & _ & _ & _ & B4); auto.
  { congruence. } { congruence. } { rewrite ET, EE. exact NN. } { rewrite ET, EE. apply AC. }
  { rewrite EN, ET, EE. exact L1. } { rewrite EN, ET, EE. exact L2. } { rewrite EN. exact NF. }
  rewrite EE, ET, EV, EN in B3. rewrite EE, ET in B1, B2. fold t in B1, B2, B3. rewrite <- NW in B1, B2, B3.
  change (get3 (t_v (ts s' t)) (ccw i)) with v1 in *. change (get3 (t_v (ts s' t)) (cw i)) with v2 in *.
  (* the handler *)
  assert (HE : handle_edge_event (es s1 e) step s1 = Ok (tt, s2)).
  { unfold handle_event in H. apply bind_ok in H. destruct H as (evt & s9 & H1 & H). apply gets_ok in H1. destruct H1 as [-> ->].
    apply bind_ok in H. destruct H as (x & s9 & H1 & H). apply gets_ok in H1. destruct H1 as [-> ->].
    rewrite EE, ET in H. fold t in H. rewrite (proj2 AC), TP, SE in H. cbn [is_some length Nat.eqb andb] in H.
    rewrite (proj2 (Nat.eqb_neq _ _) T3) in H. rewrite EE. exact H. }
  destruct (edge_place E (es s1 e) step s1 tt s2 i) as (l & r & W1 & W2 & PL); auto.
  { congruence. } { intros w. rewrite EW. apply U. } { rewrite EE, ET. exact DT. }
  { unfold running. rewrite EE, ET, EV. fold t. rewrite <- NW. exact A1. } { unfold running. rewrite EE, ET, EV. fold t. rewrite <- NW. exact A2. }
  rewrite EE, ET, EV in W1, W2. fold t in W1, W2.
  change (get3 (t_v (ts s' t)) (ccw i)) with v1 in W1. change (get3 (t_v (ts s' t)) (cw i)) with v2 in W2.
  assert (U1 : k_ul (vs s' v1) = Some l).
  { destruct (OW v1 L1 (proj1 (OR (ccw i)))) as [[K _]|[K _]]; congruence. }
  assert (U2 : k_ur (vs s' v2) = Some r).
  { destruct (OW v2 L2 (proj1 (OR (cw i)))) as [[_ K]|[_ K]]; congruence. }
  destruct PL as [SN PL]. rewrite EN, EM in SN. assert (n = nn s') as -> by (destruct B3; congruence).
  rewrite EE, EM, EW in PL. rewrite <- NW in PL. rewrite U1, U2 in B3.
  exists (nn s'), l, r. do 2 (split; [assumption|]). do 3 (split; [assumption|]). cbv zeta. intros p1 p2 P1 P2.
  assert (D2 : dist p1 p2 = sqrt (len2 s' t i now')).
  { pose proof (place_position s' t (ccw i) now' OR) as Q1. pose proof (place_position s' t (cw i) now' OR) as Q2.
    change (corner s' t (ccw i)) with v1 in Q1. change (corner s' t (cw i)) with v2 in Q2.
    rewrite P1 in Q1. rewrite P2 in Q2. injection Q1 as ->. injection Q2 as ->. unfold dist, len2, sqdist. f_equal; try ring. }
  assert (F1 : eval (wf_line (wfs s' l)) p1 = now').
  { destruct (CR (ccw i)) as (a & b & C1 & C2 & C3). change (corner s' t (ccw i)) with v1 in C1, C2.
    assert (a = l) as -> by congruence.
    destruct (T v1 L1 (proj1 (OR (ccw i))) (proj2 (OR (ccw i))) l b C1 C2 C3 now' p1 P1) as [K _]. exact K. }
  assert (F2 : eval (wf_line (wfs s' r)) p2 = now').
  { destruct (CR (cw i)) as (a & b & C1 & C2 & C3). change (corner s' t (cw i)) with v2 in C1, C2.
    assert (b = r) as -> by congruence.
    destruct (T v2 L2 (proj1 (OR (cw i))) (proj2 (OR (cw i))) a r C1 C2 C3 now' p2 P2) as [_ K]. exact K. }
  split; [|split; [|split]].
  - intros D. destruct PL as [[_ [O1 O2]]|[PL _]]; [|lra].
    split; [exists l; split; [reflexivity|apply eval_front, O1]|]. split; [exists r; split; [reflexivity|apply eval_front, O2]|].
    split; (unfold dist at 2; apply dist_scaled).
    + rewrite (meeting_near (wf_line (wfs s' l)) (wf_line (wfs s' r))); [|apply U|rewrite F1; symmetry; exact O1].
      replace (eval (wf_line (wfs s' r)) (sn_pos (ns s2 (nn s')))) with (eval (wf_line (wfs s' r)) p2) by (rewrite F2; symmetry; exact O2).
      apply eval_near, U.
    + rewrite (det_flip (wf_line (wfs s' l))), (meeting_near (wf_line (wfs s' r)) (wf_line (wfs s' l))); [|apply U|rewrite F2; symmetry; exact O2].
      replace (eval (wf_line (wfs s' l)) (sn_pos (ns s2 (nn s')))) with (eval (wf_line (wfs s' l)) p1) by (rewrite F1; symmetry; exact O1).
      rewrite sqsub_sym. apply eval_near, U.
  - intros D. destruct PL as [[PL _]|[_ PL]]; [lra|].
    rewrite (PL p1 p2); [apply dist_half| |]; rewrite <- ?P1, <- ?P2; rewrite ES1; reflexivity.
  - intros N2. rewrite D2. unfold happens in HP. fold t in HP.
    assert (K : (len2 s' t i now' <= 2 / 10^10)%R).
    { assert (P20 : (/ 10^20 <= 2 / 10^10)%R) by lra.
      destruct (tri_type (ts s' t)) as [|[|[|[|]]]] eqn:TY; try congruence.
      - destruct HP as [[_ K]|[K _]]; [|congruence]. rewrite NW. apply K. rewrite SE. left. reflexivity.
      - destruct HP as (w & f & _ & [[_ K]|[(K & _)|(K & _)]]); [|congruence|congruence].
        assert (Q : (len2 s' t i now' <= / 10^20)%R); [|lra]. rewrite NW. apply K. rewrite SE. left. reflexivity.
      - destruct HP as (_ & K & _). rewrite SE in K. discriminate. }
    apply Rle_trans with (sqrt ((2 / 10^5)^2)%R); [|rewrite sqrt_pow2 by lra; lra].
    apply sqrt_le_1_alt. lra.
  - intros j J N2. rewrite D2. unfold happens in HP. fold t in HP. rewrite N2 in HP. destruct HP as (_ & _ & K).
    specialize (K i j). rewrite SE in K. specialize (K (or_introl eq_refl)). fold t in K. rewrite <- NW in K. rewrite J, sqrt_0 in K. lra.
Qed.
Print Assumptions C87_edge.

Lemma approach_eval (L : line2 (A:=RA)) s t i (x y : R) : ordinary s t ->
  (eval L (place s t i x) - x - (eval L (place s t i y) - y) = (x - y) * - approach s t i L)%R.
Proof. intros _. unfold eval, place, path, moving, approach. cbn [fst snd]. ra_simp. qlit. ring. Qed.

(** A split event taken from the queue: the vertex ends in a node which lies exactly where the vertex is, at the distance
    that its fronts have come; so near to the wavefront it runs into as the tolerance of the roots allows.  The two new
    vertices leave from there, each following one of the vertex' fronts and the one reached. *)
Theorem C87_split :
  forall (E : Env RA), (forall t u : nat, addr (A:=RA) t = addr (A:=RA) u -> t = u) ->
  forall (s : state (A:=RA)) (now : R) s' e (now' : R) s1 step s2 i, firm_run s now s' -> immediate s' = [] ->
  take_next now s' = Ok ((e, now'), s1) -> handle_event e step s1 = Ok (tt, s2) ->
  let t := ev_tri (es s' e) in let v := corner s' t i in
  good_event s' t -> ev_tp (es s' e) = Split -> ev_side (es s' e) = [i] ->
  running s' now' v -> k_inf_fast (vs s2 (nv s')) = false -> k_inf_fast (vs s2 (S (nv s'))) = false ->
  exists n l r f, k_ul (vs s' v) = Some l /\ k_ur (vs s' v) = Some r /\ link s' t i = None /\
    k_ur (vs s' (corner s' t (ccw i))) = Some f /\ k_ul (vs s' (corner s' t (cw i))) = Some f /\
    ended_at s2 v n now' /\ begun_at s2 (nv s') n now' (Some l) (Some f) /\ begun_at s2 (S (nv s')) n now' (Some f) (Some r) /\
    let q := sn_pos (ns s2 n) in position_at s' v now' = Ok q /\ at_front s' (Some l) now' q /\ at_front s' (Some r) now' q /\
    (Rabs (signed_distance (A:=RA) (wf_line (wfs s' f)) q - now') <= Rabs (approach s' t i (wf_line (wfs s' f))) / 10^5)%R.
Proof.
  intros E addr_inj s now s' e now' s1 step s2 i RUN IM TN H t v (AC & OR & CR & NL & SP) TP SE A1 NF1 NF2.
  pose proof (firm_registered E addr_inj _ _ _ RUN) as RG.
  destruct (C79_happens E addr_inj s now s' e now' s1 RUN IM TN AC OR CR NL SP) as [NW HP].
  destruct (firm_facts E addr_inj _ _ _ RUN) as (_ & _ & U & T & SH & _).
  destruct (taken_state E s' now e now' s1 IM TN) as [_ [rq ES1]].
  assert (RG1 : registered s1) by (subst s1; destruct RG; constructor; auto).
  assert (L0 : forall j, corner s' t j < nv s') by (intros j; apply (sh_v _ SH)).
  assert (ES : es s1 = es s' /\ ts s1 = ts s' /\ vs s1 = vs s' /\ nv s1 = nv s' /\ nn s1 = nn s' /\ wfs s1 = wfs s') by (subst s1; repeat split).
  destruct ES as (EE & ET & EV & EN & EM & EW).
  destruct (C65_split s1 e i step s2 RG1) as (n & B1 & B2 & B3 & _); auto.
  { congruence. } { congruence. } { rewrite ET, EE. apply AC. } { rewrite EN, ET, EE. apply L0. } { rewrite EN, ET, EE. apply L0. }
  { rewrite EN, ET, EE. apply L0. } { rewrite EN. exact NF1. } { rewrite EN. exact NF2. }
  rewrite EE, ET, EV, EN in B2, B3. rewrite EE, ET in B1. fold t in B1, B2, B3. rewrite <- NW in B1, B2, B3.
  change (get3 (t_v (ts s' t)) i) with v in B1, B2, B3.
  change (get3 (t_v (ts s' t)) (ccw i)) with (corner s' t (ccw i)) in B3. change (get3 (t_v (ts s' t)) (cw i)) with (corner s' t (cw i)) in B2.
  assert (HE : handle_split_event (es s1 e) step s1 = Ok (tt, s2)).
  { unfold handle_event in H. apply bind_ok in H. destruct H as (evt & s9 & H1 & H). apply gets_ok in H1. destruct H1 as [-> ->].
    apply bind_ok in H. destruct H as (x & s9 & H1 & H). apply gets_ok in H1. destruct H1 as [-> ->].
    rewrite EE, ET in H. fold t in H. rewrite (proj2 AC), TP in H. rewrite EE. exact H. }
  pose proof (place_position s' t i now' OR) as PP. change (corner s' t i) with v in PP.
  destruct (split_place E (es s1 e) step s1 tt s2 i (place s' t i now')) as [SN PL]; auto.
  { congruence. } { unfold running. rewrite EE, ET, EV. fold t. rewrite <- NW. exact A1. }
  { rewrite EE. rewrite <- NW. rewrite ES1. exact PP. }
  rewrite EN, EM in SN. assert (n = nn s') as -> by (destruct B2; congruence). rewrite EM in PL.
  destruct (CR i) as (l & r & C1 & C2 & C3). change (corner s' t i) with v in C1, C2.
  assert (O : Bisect.on_both (wf_line (wfs s' l)) (wf_line (wfs s' r)) now' (place s' t i now')).
  { apply (T v (L0 i) (proj1 (OR i)) (proj2 (OR i)) l r C1 C2 C3 now'). exact PP. }
  destruct O as [O1 O2].
  unfold happens in HP. fold t in HP. unfold happens0, happens1, happens2, happens3 in HP.
  destruct (tri_type (ts s' t)) as [|[|[|]]] eqn:TY; [destruct HP as [[K _]|[K _]]; congruence| |destruct HP as [K _]; congruence|destruct HP as [K _]; congruence].
  destruct HP as (w & f & W & [[K _]|[(_ & K & (y & Y1 & Y2) & _)|(K & _)]]); [congruence| |congruence].
  rewrite SE in K. injection K as <-. destruct W as (W1 & W2 & W3). change (ev_tri (es s' e)) with t in W1, W2, W3, Y2.
  exists (nn s'), l, r, f. do 5 (split; [assumption|]). split; [exact B1|].
  split; [rewrite <- C1, <- W3; exact B2|]. split; [rewrite <- C2, <- W2; exact B3|].
  cbv zeta. rewrite PL. split; [exact PP|]. split; [exists l; split; [reflexivity|apply eval_front, O1]|].
  split; [exists r; split; [reflexivity|apply eval_front, O2]|].
  specialize (Y2 _ (place_position s' t i y OR)). rewrite signed_distance_R in Y2. rewrite signed_distance_R.
  change (eval (wf_line (wfs s' f)) (place s' t i y) = y) in Y2. rewrite <- NW in Y1.
  pose proof (approach_eval (wf_line (wfs s' f)) s' t i now' y OR) as AP.
  change (Rabs (eval (wf_line (wfs s' f)) (place s' t i now') - now') <= Rabs (approach s' t i (wf_line (wfs s' f))) / 10 ^ 5)%R.
  rewrite Y2 in AP. replace (eval (wf_line (wfs s' f)) (place s' t i now') - now')%R with ((now' - y) * - approach s' t i (wf_line (wfs s' f)))%R by lra.
  rewrite Rabs_mult, Rabs_Ropp, (Rabs_minus_sym now' y). rewrite Rmult_comm. unfold Rdiv. apply Rmult_le_compat_l; [apply Rabs_pos|exact Y1].
Qed.
Print Assumptions C87_split.

(** A triangle whose three sides are wavefronts, taken from the queue: its three vertices end in one node, which lies
    exactly where they all are, and at the distance that the fronts have come from each of them. *)
Theorem C87_three :
  forall (E : Env RA), (forall t u : nat, addr (A:=RA) t = addr (A:=RA) u -> t = u) ->
  forall (s : state (A:=RA)) (now : R) s' e (now' : R) s1 step s2, firm_run s now s' -> own_fronts s -> immediate s' = [] ->
  take_next now s' = Ok ((e, now'), s1) -> handle_event e step s1 = Ok (tt, s2) ->
  let t := ev_tri (es s' e) in
  good_event s' t -> tri_type (ts s' t) = 3%nat -> (forall i, running s' now' (corner s' t i)) ->
  exists n, forall i, let v := corner s' t i in let q := sn_pos (ns s2 n) in
    ended_at s2 v n now' /\ position_at s' v now' = Ok q /\ at_front s' (k_ul (vs s' v)) now' q /\ at_front s' (k_ur (vs s' v)) now' q.
Proof.
  intros E addr_inj s now s' e now' s1 step s2 RUN OWN IM TN H t (AC & OR & CR & NL & SP) TY RU.
  destruct (C79_happens E addr_inj s now s' e now' s1 RUN IM TN AC OR CR NL SP) as [NW HP].
  destruct (firm_facts E addr_inj _ _ _ RUN) as (_ & _ & U & T & SH & _).
  destruct (firm_own E addr_inj _ _ _ RUN OWN) as (_ & RG & DI).
  destruct (taken_state E s' now e now' s1 IM TN) as [_ [rq ES1]].
  assert (RG1 : registered s1) by (subst s1; destruct RG; constructor; auto).
  assert (ES : es s1 = es s' /\ ts s1 = ts s' /\ vs s1 = vs s' /\ nn s1 = nn s') by (subst s1; repeat split).
  destruct ES as (EE & ET & EV & EM).
  unfold happens in HP. fold t in HP. rewrite TY in HP. destruct HP as (TP & SE & p & P). fold t in P. rewrite <- NW in P.
  assert (HE : handle_edge_event_3sides (es s1 e) step s1 = Ok (tt, s2)).
  { unfold handle_event in H. apply bind_ok in H. destruct H as (evt & s9 & H1 & H). apply gets_ok in H1. destruct H1 as [-> ->].
    apply bind_ok in H. destruct H as (x & s9 & H1 & H). apply gets_ok in H1. destruct H1 as [-> ->].
    rewrite EE, ET in H. fold t in H. rewrite (proj2 AC), TP, SE in H. rewrite EE. exact H. }
  destruct (three_place E (es s1 e) step s1 tt s2 p RG1 HE) as [B1 B2].
  { rewrite EE, ET. exact (DI t AC). } { intros i. unfold running. rewrite EE, ET, EV. rewrite <- NW. apply RU. }
  { intros i. rewrite EE, ET, <- NW, ES1. apply P. }
  rewrite EE, ET, EM, <- NW in B1. rewrite EM in B2. fold t in B1. exists (nn s'). intros i. cbv zeta. rewrite B2. split; [apply B1|].
  split; [apply P|]. destruct (CR i) as (l & r & C1 & C2 & C3).
  destruct (T _ (sh_v _ SH t i) (proj1 (OR i)) (proj2 (OR i)) l r C1 C2 C3 now' p (P i)) as [O1 O2].
  split; [exists l|exists r]; (split; [assumption|apply eval_front; assumption]).
Qed.
Print Assumptions C87_three.

(** At the start the wavefronts of every vertex are its fronts. *)
Theorem C87_start :
  forall (A : Arith) (E : Env A) (d : dtriang (A:=A)) s0 io, init_skeleton d = Ok s0 -> own_fronts (start_of io s0).
Proof.
  intros A E d s0 io HI. destruct (start_heap io s0) as (P1 & P2 & _). unfold own_fronts. rewrite P1. intros v Hv KI. right.
  destruct (init_skeleton_parts d s0 HI) as (cp & ti & b & kvs & ls & un & P).
  apply (finite_lt d s0 cp ti b kvs ls un P) in KI. rewrite (c_len d s0 cp ti b kvs ls un P) in KI.
  destruct (nth_error (all_groups d) v) as [[w g]|] eqn:N; [|apply nth_error_None in N; lia].
  destruct (group_vertex d s0 cp ti b kvs ls un P v w g N) as (_ & _ & _ & _ & W1 & W2 & W3 & W4 & _). split; congruence.
Qed.
Print Assumptions C87_start.

(** ** Cases *)
Lemma three_done {A : Arith} {E : Env A} V cv TS ct NS cn ES ce W N SV TR Q I (T0 T : @num A) (a b c : nat) d :
  let s := mkSt (A:=A) V cv TS ct NS cn ES ce W N SV TR Q I in
  ES 0 = mkEv (A:=A) T 0 [S0; S1; S2] Edge 3 -> t_stops (TS 0) = None -> t_v (TS 0) = mk3 a b c -> t_n (TS 0) = mk3 None None None ->
  a <> b -> b <> c -> a <> c -> near_zero (nsub T0 T) = false -> neqb T T = true ->
  (forall v, In v [a; b; c] -> k_inf (V v) = false /\ k_inf_fast (V v) = false /\ k_stops (V v) = None /\ k_starts (V v) = Some T0) ->
  mean_position s [a; b; c] T = Ok d -> exists s2, handle_event 0 1 s = Ok (tt, s2).
Proof.
  intros s EV TS0 TV TN Nab Nbc Nac NZ TT HV D. subst s.
  destruct (HV a ltac:(cbn; auto)) as (A1 & A2 & A3 & A4). destruct (HV b ltac:(cbn; auto)) as (B1 & B2 & B3 & B4).
  destruct (HV c ltac:(cbn; auto)) as (C1 & C2 & C3 & C4). clear HV.
  assert (Eab : Nat.eqb a b = false) by (apply Nat.eqb_neq; auto). assert (Ebc : Nat.eqb b c = false) by (apply Nat.eqb_neq; auto).
  assert (Eac : Nat.eqb a c = false) by (apply Nat.eqb_neq; auto). assert (Eba : Nat.eqb b a = false) by (apply Nat.eqb_neq; auto).
  assert (Eca : Nat.eqb c a = false) by (apply Nat.eqb_neq; auto). assert (Ecb : Nat.eqb c b = false) by (apply Nat.eqb_neq; auto).
  unfold handle_event, bind, eget, tget, gets. cbn [es ts]. rewrite EV. cbn [ev_tri ev_tp ev_side]. rewrite TS0. cbn [is_some length].
  unfold handle_edge_event_3sides. cbn [ev_tri ev_side ev_time length Nat.eqb assertM].
  unfold bind, tget, gets, ret. cbn [ts]. rewrite TV. change (list3 _) with [a; b; c].
  unfold stop_and_register, stop_kvertices.
  repeat (progress (unfold bind, vattr, rd, kattr, ret, set_stops, set_stop_node, modv, setv, gets, alloc_n, assertM, raise, upd;
    cbn [forM stop_scan vs nv ts nt ns nn es ne wfs sk_nodes sk_vertices sk_triangles queue immediate
      k_inf k_stops k_starts k_inf_fast k_stop_node k_start_node is_some kv_stops kv_stop_node fst snd];
    rewrite ?A1, ?A2, ?A3, ?A4, ?B1, ?B2, ?B3, ?B4, ?C1, ?C2, ?C3, ?C4, ?NZ, ?TT, ?Nat.eqb_refl, ?Eab, ?Ebc, ?Eac, ?Eba, ?Eca, ?Ecb)).

  match goal with |- context [mean_position ?s ?l ?x] => assert (D' : mean_position s l x = Ok d) end.
  { rewrite <- D. unfold mean_position. cbn [rmapl]. unfold position_at. cbn [vs ns].
    rewrite ?Nat.eqb_refl, ?Eab, ?Ebc, ?Eac, ?Eba, ?Eca, ?Ecb. cbn. reflexivity. }
  rewrite D'.
  repeat (progress (unfold bind, vattr, rd, kattr, ret, set_stops, set_stop_node, modv, setv, gets, alloc_n, assertM, raise, upd;
    cbn [forM stop_scan vs nv ts nt ns nn es ne wfs sk_nodes sk_vertices sk_triangles queue immediate
      k_inf k_stops k_starts k_inf_fast k_stop_node k_start_node is_some kv_stops kv_stop_node fst snd whenM add_node];
    rewrite ?A1, ?A2, ?A3, ?A4, ?B1, ?B2, ?B3, ?B4, ?C1, ?C2, ?C3, ?C4, ?NZ, ?TT, ?Nat.eqb_refl, ?Eab, ?Ebc, ?Eac, ?Eba, ?Eca, ?Ecb)).
  unfold sides. cbn [forM]. unfold schedule_neighbour, bind, tget, gets, add_node. cbn [ts]. rewrite TN. cbn [get3 x0 x1 x2].
  unfold ret. do 2 (cbn [ts]; rewrite ?TN; cbn [get3 x0 x1 x2]). unfold set_tstops, modt, sett, bind, tget, gets. eauto.
Qed.
Lemma trio_done (E : Env RA) : exists s2, handle_event (A:=RA) 0 1 (with_qi trio_started [] []) = Ok (tt, s2).
Proof.
  assert (D : exists d, mean_position (with_qi trio_started [] []) [0; 1; 2] 1%R = Ok d).
  { unfold mean_position. cbn [rmapl]. unfold position_at. cbn [trio_started trio alone with_qi with_event vs ringed k_inf k_inf_fast rbind map length fold_left].
    assert (N : @nofnat RA 3 = 3%R) by (change (Q2R 3 = 3)%R; unfold Q2R; cbn; lra).
    rewrite N. rewrite !pdiv_R by lra. cbn [rbind]. eauto. }
  destruct D as [d D].
  apply (three_done (vs trio) 3 (ts (with_qi trio_started [] [])) 1 (ns trio) 0 (es trio_started) 1 (wfs trio) [] [] [0] [] [] 0%R 1%R 0 1 2 d);
    try reflexivity; try discriminate; [| |intros v [<-|[<-|[<-|[]]]]; repeat split|exact D].
  - apply near_zero_false_R. ra_simp. rewrite Rabs_left by lra. pose proof small_one. lra.
  - apply Reqb_true. reflexivity.
Qed.

(** the triangle (0,0) (4,0) (0,3), over the reals: its corners end in the node (1,1) at time 1 *)
Example C87_three_case : forall (E : Env RA), (forall t u : nat, addr (A:=RA) t = addr (A:=RA) u -> t = u) ->
  own_fronts trio /\ good_event trio_started 0 /\ tri_type (ts trio_started 0) = 3 /\
  exists s1 s2 n, firm_run trio 0%R trio_started /\ immediate trio_started = [] /\ take_next (A:=RA) 0%R trio_started = Ok ((0, 1%R), s1) /\
    handle_event 0 1 s1 = Ok (tt, s2) /\ (forall i, running trio_started 1%R (corner trio_started 0 i)) /\
    (forall i, ended_at s2 (corner trio_started 0 i) n 1%R) /\ sn_pos (ns s2 n) = (1, 1)%R.
Proof.
  intros E addr_inj. destruct (C76_case E addr_inj) as (R & (s1 & TN) & AC & OR & CR & L & SP & _).
  assert (OW : own_fronts trio).
  { intros v Hv _. right. change (nv trio) with 3 in Hv. destruct v as [|[|[|]]]; [split; reflexivity..|lia]. }
  assert (GE : good_event trio_started 0) by (split; [exact AC|split; [exact OR|split; [exact CR|split; [apply L|exact SP]]]]).
  split; [exact OW|]. split; [exact GE|]. split; [reflexivity|].
  assert (ES1 : s1 = with_qi trio_started [] []).
  { pose proof TN as Q. apply take_next_ok in Q. destruct Q as [(r & I & _)|(r & _ & Q & _ & ES1)]; [discriminate|].
    change (queue trio_started) with [0] in Q. injection Q as <-. exact ES1. }
  destruct (trio_done E) as [s2 H]. rewrite <- ES1 in H.
  assert (RU : forall i, running trio_started 1%R (corner trio_started 0 i)).
  { intros []; (split; [reflexivity|]; intros a K; injection K as <-; rewrite Rabs_left by lra; pose proof small_one; lra). }
  destruct (C87_three E addr_inj trio 0%R trio_started 0 1%R s1 1 s2 R OW eq_refl TN H GE eq_refl RU) as [n K].
  exists s1, s2, n. repeat (split; [first [assumption|reflexivity]|]). split; [intros i; apply K|].
  destruct (K S0) as (_ & P & _). destruct (C79_case E addr_inj) as (_ & _ & P2).
  assert (Q : Ok (sn_pos (ns s2 n)) = Ok (1, 1)%R) by (rewrite <- P; apply P2). injection Q as Q. exact Q.
Qed.
(** the fronts of the vertices after [k] events, and where the node of an event lies: [d] is its distance from the fronts *)
Definition ownb (s : state (A:=QA)) : bool :=
  forallb (fun v => k_inf (vs s v) || (onat_eqb (k_wfl (vs s v)) (k_ul (vs s v)) && onat_eqb (k_wfr (vs s v)) (k_ur (vs s v)))) (seq 0 (nv s)).
Definition liesb (s : state (A:=QA)) (n : nat) (fs : list nat) (x y d : Q) : bool :=
  Qeq_bool (fst (sn_pos (ns s n))) x && Qeq_bool (snd (sn_pos (ns s n))) y &&
  forallb (fun f => Qeq_bool (signed_distance (A:=QA) (wf_line (wfs s f)) (sn_pos (ns s n))) d) fs.
(** the quadrilateral: the vertices 0 and 3 end in node 4 = (3/2, 3/2) at time 3/2, on the fronts 0, 2 and 3 *)
Example C87_edge_case : next_k 0 quad (fun s e s' => kindb s e Edge [S1] (3#2)%Q 2 && ownb s && ownb s' &&
  endsb s' 0 4 (3#2)%Q && endsb s' 3 4 (3#2)%Q && beginsb s' 4 4 (3#2)%Q && liesb s' 4 [0; 2; 3] (3#2)%Q (3#2)%Q (3#2)%Q) = true.
Proof. vm_compute. reflexivity. Qed.
(** the notch: vertex 3 ends in node 5 = (4, 4/3) at time 4/3, on its own fronts 2 and 3 and on front 0, which it splits *)
Example C87_split_case : next_k 0 notch (fun s e s' => kindb s e Split [S2] (4#3)%Q 1 && ownb s && ownb s' &&
  endsb s' 3 5 (4#3)%Q && beginsb s' 5 5 (4#3)%Q && beginsb s' 6 5 (4#3)%Q && liesb s' 5 [0; 2; 3] 4%Q (4#3)%Q (4#3)%Q) = true.
Proof. vm_compute. reflexivity. Qed.
