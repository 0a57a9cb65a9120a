(** Every side without neighbour is carried by one wavefront for as long as it lasts, and between two events no triangle
    turns over (C76, exact reals) *)
From Coq Require Import Reals Lra.
From Verif Require Import Base Arith ArithR ArithQ Calc CalcProofs VectorOps Line2d Line2dProofs Primitives Collapse CollapseProofs CollapseR
  EventsLib FlipEvent ParallelEvent EdgeEvent SplitEvent EventLoop Pass OpSpec Order StopSpec RunBase RunTimed RunLoop Bisect
  Decent Total FanProofs TotalRun Scenario ScenarioRun Properties_total
  Properties_collapse EventGeom EventFirst Properties_effects Properties_geometry Mesh MeshEvents MeshEdge MeshRun Properties_mesh
  Current Properties_current Rings RingEdge RingSplit RingFlip EdgeHead RingSpec RingGone RingRun RingLeft
  Initialize StarProofs InitProofs InitState InitCirc InitBisect InitMesh Main TriExample Properties_init
  Properties_main Properties_start Properties_rings InitRing Properties_ringstart.
Local Close Scope Q_scope.
Local Open Scope nat_scope.

(** ** Specification *)
(** the two wavefronts of vertex [v] are clearly not parallel *)
Definition crossing (s : state (A:=RA)) (v : nat) : Prop :=
  exists l r, k_ul (vs s v) = Some l /\ k_ur (vs s v) = Some r /\
    (Rabs (det (wf_line (wfs s l)) (wf_line (wfs s r))) > / 10^10)%R.
(** at every time the vertex is on front [f] *)
Definition rides (s : state (A:=RA)) (v f : nat) : Prop :=
  forall (x : R) p, position_at s v x = Ok p -> signed_distance (A:=RA) (wf_line (wfs s f)) p = x.

(** a start as init_skeleton makes it *)
Definition set_out (s : state (A:=RA)) : Prop :=
  fresh s /\ shaped s /\ fitting s /\ units s /\ forall v, tracks s v.
(** from [s] the loop has come to [s'] at time [now], through events as in [C69_run] and [C71_run] *)
Definition firm_run {E : Env RA} (s : state (A:=RA)) (now : R) (s' : state (A:=RA)) : Prop :=
  set_out s /\ exists s0 tr, started s s0 /\ reach s0 now tr s' /\ orderly s0 (length tr) /\
  (forall now1 tr1 s1 e now2 s2, reach s0 now1 tr1 s1 -> length tr1 < length tr ->
     take_next now1 s1 = Ok ((e, now2), s2) -> t_stops (ts s2 (ev_tri (es s2 e))) = None -> tidy s2 e) /\
  (forall now1 tr1 s1, reach s0 now1 tr1 s1 -> length tr1 <= length tr -> forall u, active s1 u -> distinct s1 u) /\
  (forall v, nv s0 <= v < nv s' -> k_inf_fast (vs s' v) = false).

(** the computed times of triangle [t] are not blurred by the tolerances of collapse.py *)
Definition sharp (s : state (A:=RA)) (t : nat) : Prop :=
  opens s t /\ clear (growth s t) /\ (growth s t = 0%R -> clear (drift s t)) /\
  (forall i, link s t i = None -> clear (spread s t i)) /\
  (tri_type (ts s t) = 1 -> forall i f, link s t i = None -> k_ur (vs s (corner s t (ccw i))) = Some f ->
     clear (approach s t i (wf_line (wfs s f)))) /\
  (tri_type (ts s t) = 3 -> forall i, spread s t i <> 0%R).

(** ** What a run keeps *)
Lemma firm_facts (E : Env RA) (addr_inj : forall t u : nat, addr (A:=RA) t = addr (A:=RA) u -> t = u) s now s' :
  firm_run s now s' ->
  the_run s now s' /\ fitting s' /\ units s' /\ (forall v, v < nv s' -> tracks s' v) /\ shaped s' /\ sk_triangles s' = sk_triangles s.
Proof.
  intros ((FR & SH & F & U & T) & s0 & tr & ST & RE & OR & TI & DD & NF).
  destruct (init_timed RA_ord addr_inj _ _ FR ST) as ((RG1 & _) & FO & _ & M & VS & NV & _).
  destruct (mesh_same_fitting s s0 M VS (fo_tris _ _ FO)) as (F1 & _ & _). specialize (F1 F).
  pose proof (started_shaped RA_ord addr_inj _ _ FR SH ST) as SH1.
  assert (U0 : units s0) by (intros w; rewrite (fo_wfs _ _ FO); apply U).
  assert (T0 : forall v, v < nv s0 -> tracks s0 v).
  { intros v _. specialize (T v). unfold tracks, position_at in *. rewrite VS, (fo_wfs _ _ FO). intros I' F'. rewrite I', F' in *.
    apply T; reflexivity. }
  destruct (run_tracks E _ _ _ _ _ _ RG1 U0 T0 RE) as [U' T'].
  destruct (steps_base _ _ _ _ _ _ RG1 RE) as [_ FO'].
  split; [|split; [|split; [exact U'|split; [exact T'|split]]]].
  - split; [exact FR|]. split; [exact SH|]. exists s0, tr. split; [exact ST|]. split; [apply F1|]. auto.
  - apply (C71_run RA E s0 now tr s' RG1 SH1 F1 RE); [|exact DD|exact NF].
    intros now1 tr1 s1 e now2 s2 Q1 Q2 Q3. split; [apply (OR _ _ _ _ _ _ Q1 Q2 Q3)|]. eapply TI; eauto.
  - apply (steps_shaped _ _ _ _ _ _ RG1 SH1 RE).
  - rewrite (fo_tris _ _ FO'). apply (fo_tris _ _ FO).
Qed.

Lemma on_gap (L : line2 (A:=RA)) s v x : k_inf (vs s v) = false -> k_inf_fast (vs s v) = false ->
  (forall p, position_at s v x = Ok p -> eval L p = x) -> gap L (vs s v) x = 0%R.
Proof.
  intros I F H. unfold position_at in H. rewrite I, F in H. specialize (H _ eq_refl).
  unfold gap, path, moving. unfold eval in H. ra_simp. cbn [fst snd] in *. ra_simp. lra.
Qed.

Lemma side_front (s : state (A:=RA)) t i : fitting s -> units s -> (forall v, v < nv s -> tracks s v) -> shaped s ->
  active s t -> link s t i = None -> ~ left_over s t i ->
  (forall j, j <> i -> k_inf (vs s (corner s t j)) = false /\ k_inf_fast (vs s (corner s t j)) = false) ->
  crossing s (corner s t (ccw i)) -> crossing s (corner s t (cw i)) ->
  exists f, k_ur (vs s (corner s t (ccw i))) = Some f /\ k_ul (vs s (corner s t (cw i))) = Some f /\
    (forall x p, position_at s (corner s t (ccw i)) x = Ok p -> eval (wf_line (wfs s f)) p = x) /\
    (forall x p, position_at s (corner s t (cw i)) x = Ok p -> eval (wf_line (wfs s f)) p = x).
Proof.
  intros F U T SH AC LN NL OR (l1 & r1 & C1 & C2 & C3) (l2 & r2 & D1 & D2 & D3).
  destruct (fi_ring _ F t i AC LN) as [K|(_ & _ & _ & J)]; [destruct (NL K)|].
  rewrite C2, D1 in J. injection J as <-.
  destruct (OR (ccw i)) as [I1 Q1]; [destruct i; discriminate|]. destruct (OR (cw i)) as [I2 Q2]; [destruct i; discriminate|].
  exists r1. split; [exact C2|]. split; [exact D1|]. split; intros x p P.
  - exact (proj2 (T _ (sh_v _ SH t (ccw i)) I1 Q1 _ _ C1 C2 C3 x p P)).
  - exact (proj1 (T _ (sh_v _ SH t (cw i)) I2 Q2 _ _ D1 D2 D3 x p P)).
Qed.

(** ** C76 *)
(** A side without neighbour, unless it is left over from a collapse: its two ends move along one and the same front, for
    as long as they exist. *)
Theorem C76_side :
  forall (E : Env RA), (forall t u : nat, addr (A:=RA) t = addr (A:=RA) u -> t = u) ->
  forall (s : state (A:=RA)) (now : R) s' t i, firm_run s now s' -> active s' t -> link s' t i = None -> ~ left_over s' t i ->
  (forall j, j <> i -> k_inf (vs s' (corner s' t j)) = false /\ k_inf_fast (vs s' (corner s' t j)) = false /\
     crossing s' (corner s' t j)) ->
  exists f, k_ur (vs s' (corner s' t (ccw i))) = Some f /\ k_ul (vs s' (corner s' t (cw i))) = Some f /\
    rides s' (corner s' t (ccw i)) f /\ rides s' (corner s' t (cw i)) f.
Proof.
  intros E addr_inj s now s' t i RUN AC LN NL OR. destruct (firm_facts E addr_inj _ _ _ RUN) as (_ & F & U & T & SH & _).
  destruct (side_front s' t i F U T SH AC LN NL) as (f & H1 & H2 & H3 & H4).
  - intros j Nj. destruct (OR j Nj) as (K1 & K2 & _). auto.
  - apply OR. destruct i; discriminate.
  - apply OR. destruct i; discriminate.
  - exists f. split; [exact H1|]. split; [exact H2|]. split; intros x p P; rewrite signed_distance_R; eauto.
Qed.
Print Assumptions C76_side.

Lemma side_on (s : state (A:=RA)) t i : fitting s -> units s -> (forall v, v < nv s -> tracks s v) -> shaped s ->
  active s t -> link s t i = None -> ~ left_over s t i -> ordinary s t -> (forall j, crossing s (corner s t j)) ->
  exists f, k_ur (vs s (corner s t (ccw i))) = Some f /\ k_ul (vs s (corner s t (cw i))) = Some f /\ on_front s t i (wf_line (wfs s f)).
Proof.
  intros F U T SH AC LN NL OR CR. destruct (side_front s t i F U T SH AC LN NL) as (f & H1 & H2 & H3 & H4); auto.
  { intros j _. apply OR. }
  exists f. split; [exact H1|]. split; [exact H2|]. split; [apply U|]. split.
  { exists f, f. auto. }
  split; intros x; (apply on_gap; [apply OR|apply OR|]); [apply H3|apply H4].
Qed.

(** A triangle that will have no area: the next event comes before. *)
Theorem C76_next :
  forall (E : Env RA), (forall t u : nat, addr (A:=RA) t = addr (A:=RA) u -> t = u) ->
  forall (s : state (A:=RA)) (now : R) s' t (x : R), firm_run s now s' -> active s' t -> ordinary s' t ->
  (forall i, crossing s' (corner s' t i)) -> (forall i, ~ left_over s' t i) -> sharp s' t ->
  (x > now + 2 / 10^5 -> area s' t x = 0 -> next_by now s' (x + 2 / 10^5)%R)%R.
Proof.
  intros E addr_inj s now s' t x RUN AC OR CR NL (OP & CG & CD & CS & CA & C3) X FLAT.
  destruct (firm_facts E addr_inj _ _ _ RUN) as (RUN' & F & U & T & SH & TR).
  assert (IN : In t (sk_triangles s)) by (rewrite <- TR; apply AC).
  assert (NS : t_stops (ts s' t) = None) by apply AC.
  assert (ON : forall i, link s' t i = None -> exists f, k_ur (vs s' (corner s' t (ccw i))) = Some f /\
    k_ul (vs s' (corner s' t (cw i))) = Some f /\ on_front s' t i (wf_line (wfs s' f))).
  { intros i Hi. apply side_on; auto. }
  assert (LATE : forall y : R, (y <= x + 2 / 10^5)%R -> next_by now s' y -> next_by now s' (x + 2 / 10^5)%R).
  { intros y Hy (e & now' & s1 & K1 & K2). exists e, now', s1. split; [exact K1|]. apply le_R in K2. apply le_R. lra. }
  assert (P10 : (0 < / 10^10 < 2 / 10^5)%R).
  { split; [apply Rinv_0_lt_compat, pow_lt; lra|]. cbn. lra. }
  destruct (Nat.lt_ge_cases 3 (tri_type (ts s' t))) as [BIG|SMALL].
  { unfold tri_type, count3 in BIG. destruct (t_n (ts s' t)) as [[|] [|] [|]]; cbn in BIG; lia. }
  destruct (tri_type (ts s' t)) as [|[|[|[|m]]]] eqn:TY; [| | | |lia].
  - apply (C70_no_front E addr_inj s now s' t x); auto. split; auto.
  - assert (exists w, link s' t w = None) as (w & W).
    { unfold tri_type, count3 in TY. unfold link. destruct (t_n (ts s' t)) as [[|] [|] [|]]; cbn in TY; try discriminate;
        [exists S2|exists S1|exists S0]; reflexivity. }
    destruct (ON w W) as (f & K1 & K2 & K3). apply (LATE x); [lra|].
    apply (C70_one_front E addr_inj s now s' t w (wf_line (wfs s' f)) x); auto; [|lra].
    split; [apply CS, W|]. split; [apply (CA eq_refl w f W K1)|]. auto.
  - assert (exists i j, i <> j /\ link s' t i = None /\ link s' t j = None) as (i & j & IJ & Wi & Wj).
    { unfold tri_type, count3 in TY. unfold link. destruct (t_n (ts s' t)) as [[|] [|] [|]]; cbn in TY; try discriminate;
        [exists S1, S2|exists S0, S2|exists S0, S1]; repeat split; discriminate. }
    destruct (ON i Wi) as (f & _ & _ & Ki). destruct (ON j Wj) as (g & _ & _ & Kj).
    apply (C70_two_fronts E addr_inj s now s' t i j (wf_line (wfs s' f)) (wf_line (wfs s' g)) x); auto.
    repeat (split; auto).
  - assert (W : forall w, link s' t w = None).
    { unfold tri_type, count3 in TY. unfold link. destruct (t_n (ts s' t)) as [[|] [|] [|]]; cbn in TY; try discriminate. intros []; reflexivity. }
    destruct (ON S0 (W S0)) as (f0 & A0 & B0 & K0). destruct (ON S1 (W S1)) as (f1 & A1 & B1 & K1). destruct (ON S2 (W S2)) as (f2 & A2 & B2 & K2).
    apply (LATE x); [lra|].
    apply (C70_three_fronts E addr_inj s now s' t
      (fun i => match i with S0 => wf_line (wfs s' f0) | S1 => wf_line (wfs s' f1) | S2 => wf_line (wfs s' f2) end) x); auto.
    + intros []; assumption.
    + assert (DT : forall (a b : line2 (A:=RA)), (Rabs (det a b) > / 10^10)%R -> lw a <> lw b /\ lw b <> lw a).
      { intros a b H. assert (Q : lw a <> lw b); [|split; congruence]. intros Q. unfold det in H. rewrite Q in H.
        match type of H with (Rabs ?d > _)%R => assert (Z : d = 0%R) by (ra_simp; ring); rewrite Z, Rabs_R0 in H end. lra. }
      destruct (CR S0) as (a & b & Q1 & Q2 & Q3). destruct (CR S1) as (a' & b' & Q1' & Q2' & Q3').
      destruct (CR S2) as (a'' & b'' & Q1'' & Q2'' & Q3''). cbn [ccw cw] in *.
      assert (a = f1) by congruence. assert (b = f2) by congruence. assert (a' = f2) by congruence. assert (b' = f0) by congruence.
      assert (a'' = f0) by congruence. assert (b'' = f1) by congruence. subst.
      apply DT in Q3, Q3', Q3''. intros [] [] N; try (destruct (N eq_refl)); tauto.
    + intros w. specialize (CS w (W w)). destruct CS as [CS|CS]; [destruct (C3 eq_refl w CS)|].
      rewrite Rabs_right in CS; [exact CS|]. apply Rle_ge. unfold spread, dv2, sqdist. apply Rplus_le_le_0_compat; apply Rle_0_sqr || apply pow2_ge_0.
    + lra.
Qed.
Print Assumptions C76_next.

Lemma area_continuous (s : state (A:=RA)) t : continuity (area s t).
Proof.
  unfold area, CollapseR.area2, place, path, moving. ra_simp. cbn [fst snd]. reg.
Qed.

(** Between the present and the next event no triangle turns over: its area keeps its sign. *)
Theorem C76_upright :
  forall (E : Env RA), (forall t u : nat, addr (A:=RA) t = addr (A:=RA) u -> t = u) ->
  forall (s : state (A:=RA)) (now : R) s' e (now' : R) s1 t (x y : R), firm_run s now s' ->
  take_next now s' = Ok ((e, now'), s1) -> active s' t -> ordinary s' t ->
  (forall i, crossing s' (corner s' t i)) -> (forall i, ~ left_over s' t i) -> sharp s' t ->
  (now + 2 / 10^5 < x -> x <= y -> y < now' - 2 / 10^5 -> area s' t x * area s' t y > 0)%R.
Proof.
  intros E addr_inj s now s' e now' s1 t x y RUN TN AC OR CR NL SP X XY Y.
  destruct (Rlt_or_le 0 (area s' t x * area s' t y)) as [P|P]; [exact P|exfalso].
  destruct (IVT_cor (area s' t) x y (area_continuous s' t) XY P) as (z & Z & FLAT).
  destruct (C76_next E addr_inj s now s' t z RUN AC OR CR NL SP) as (e' & n' & s2 & K1 & K2); [lra|exact FLAT|].
  rewrite TN in K1. injection K1 as <- <- <-. apply le_R in K2. lra.
Qed.
Print Assumptions C76_upright.

(** When nothing is left to do, no triangle that is still there will ever collapse. *)
Theorem C76_end :
  forall (E : Env RA), (forall t u : nat, addr (A:=RA) t = addr (A:=RA) u -> t = u) ->
  forall (s : state (A:=RA)) (now : R) s' t (x : R), firm_run s now s' -> queue s' = [] -> immediate s' = [] ->
  active s' t -> ordinary s' t ->
  (forall i, crossing s' (corner s' t i)) -> (forall i, ~ left_over s' t i) -> sharp s' t ->
  (x > now + 2 / 10^5 -> area s' t x <> 0)%R.
Proof.
  intros E addr_inj s now s' t x RUN Q I AC OR CR NL SP X FLAT.
  destruct (C76_next E addr_inj s now s' t x RUN AC OR CR NL SP X FLAT) as (e' & n' & s2 & K1 & _).
  unfold take_next, bind, gets in K1. rewrite I, Q in K1. discriminate.
Qed.
Print Assumptions C76_end.

(** The initial skeleton of a triangulation is such a start. *)
Theorem C76_start :
  forall (E : Env RA) (d : dtriang (A:=RA)) s0 io,
  triangulation d -> (io = true -> regions d) -> init_skeleton d = Ok s0 -> set_out (start_of io s0).
Proof.
  intros E d s0 io TG RG HI. destruct (C73_start RA E d s0 io TG RG HI) as (F & _ & _).
  destruct (start_heap io s0) as (P1 & P2 & P3 & P4 & P5).
  split; [apply start_fresh, (init_fresh d s0 HI), (nleb_refl RA_ord)|]. split; [apply start_shaped, (init_shaped d s0 HI)|].
  split; [exact F|]. split; [intros w; rewrite P5; apply (init_units d s0 HI)|].
  intros v. pose proof (init_tracks d s0 HI (tg_stars_right d TG) v) as K. unfold tracks, position_at in *. rewrite P1, P5.
  intros I' F'. rewrite I', F' in *. apply K; reflexivity.
Qed.
Print Assumptions C76_start.

(** *** A case: the right triangle (0,0) (4,0) (0,3) with its ring of vertices *)
Definition ringed (o v : R * R) (a b l r : nat) : kvertex (A:=RA) :=
  mkKV (A:=RA) false o v [(0%R, None, Some a)] [(0%R, None, Some b)] (Some 0%R) None None None
    (Some l) (Some r) (Some l) (Some r) 0 false true.
Definition trio : state (A:=RA) :=
  let s := alone (ringed (0, 0) (1, 1) 2 1 1 2)%R (ringed (4, 0) (-3, 1) 0 2 2 0)%R (ringed (0, 3) (1, -2) 1 0 0 1)%R
    (ln (-3/5) (-4/5) (12/5)) (ln 1 0 0) (ln 0 1 0) (mk3 None None None) in
  mkSt (A:=RA) (vs s) 3 (ts s) 1 (ns s) 0 (es s) 0 (wfs s) [] [] [0] [] [].
Definition trio_started : state (A:=RA) :=
  with_qi (with_event trio 0 (mkEv (A:=RA) 1%R 0 [S0; S1; S2] Edge 3)) [0] [].
Ltac in_R3 := unfold trio_started, trio, ringed, CollapseR.area2 in *; in_R; cbn [ringed alone vs ts wfs t_v t_n get3 x0 x1 x2 ccw cw k_origin k_velocity lw lb fst snd wf_line with_event with_qi] in *.

Lemma trio_set_out : set_out trio.
Proof.
  split; [|split; [|split; [|split]]].
  - constructor; try reflexivity.
    + repeat constructor; auto.
    + intros [|[|v]]; reflexivity.
    + intros [|[|v]]; reflexivity.
    + intros [|[|v]] a H; cbn in H; injection H as <-; apply le_R; rewrite zero_R; lra.
    + constructor; cbn; try tauto; intros [|[|v]] n H; discriminate.
  - constructor; [intros t []; cbn; lia|intros t [] n H; discriminate].
  - apply fittingb_ok. reflexivity.
  - intros [|[|w]]; unfold unit_line; in_R3; lra.
  - intros [|[|v]] _ _ l r Hl Hr D t p P; cbn in Hl, Hr, P; injection Hl as <-; injection Hr as <-; injection P as <-;
      unfold Bisect.on_both, eval; in_R3; split; lra.
Qed.
Lemma trio_on w : on_front trio 0 w (three_lines w).
Proof.
  destruct w; cbn [three_lines];
    (split; [in_R3; lra|]; split; [eexists _, _; repeat split|split; intros x; in_R3; lra]).
Qed.
Lemma trio_ordinary : ordinary trio 0.
Proof. intros []; split; reflexivity. Qed.
Lemma trio_spread w : (spread trio 0 w > 1)%R.
Proof. destruct w; in_R3; lra. Qed.
Lemma trio_area x : (area trio 0 x = 12 * (1 - x)^2)%R.
Proof. in_R3. ring. Qed.
Lemma small_one : (/ 10^10 < 1/2)%R.
Proof. cbn. lra. Qed.
Lemma trio_event : collapse_event trio 0 (n0 (A:=RA)) FindGt = Ok (Some (mkEv (A:=RA) 1%R 0 [S0; S1; S2] Edge 3)).
Proof.
  destruct (C67_three_fronts trio 0 three_lines trio_ordinary trio_on) as (T & q & M & H); try reflexivity.
  - intros [] [] N; try (destruct (N eq_refl)); cbn; intros E; injection E; intros; lra.
  - intros w. pose proof (trio_spread w). pose proof small_one. lra.
  - assert (T = 1)%R as ->.
    { pose proof (M S0) as M0. rewrite <- (M S1) in M0. in_R3. cbn in M0. injection M0 as Q1. ra_simp. lra. }
    destruct (H (n0 (A:=RA)) FindGt) as [K _]; [rewrite zero_R; lra|]. pose proof small_one.
    apply K; [unfold adm; rewrite zero_R; lra|lra].
Qed.
Lemma trio_starts (E : Env RA) : started trio trio_started.
Proof.
  exists trio_started. split; [|reflexivity]. unfold init_event_list, compute_collapse_time, rd, bind, gets.
  cbn [setq sk_triangles trio forM]. unfold bind.
  match goal with |- context [collapse_event ?a 0 ?w FindGt] =>
    change (collapse_event a 0 w FindGt) with (collapse_event trio 0 (n0 (A:=RA)) FindGt) end.
  rewrite trio_event. reflexivity.
Qed.
Example C76_case : forall (E : Env RA), (forall t u : nat, addr (A:=RA) t = addr (A:=RA) u -> t = u) ->
  firm_run trio 0%R trio_started /\ (exists s1, take_next (A:=RA) 0%R trio_started = Ok ((0, 1%R), s1)) /\
  active trio_started 0 /\ ordinary trio_started 0 /\ (forall i, crossing trio_started (corner trio_started 0 i)) /\
  (forall i, link trio_started 0 i = None /\ ~ left_over trio_started 0 i) /\ sharp trio_started 0 /\
  (area trio_started 0 (1/4) * area trio_started 0 (3/4) > 0 /\ area trio_started 0 1 = 0)%R.
Proof.
  intros E addr_inj.
  assert (R : firm_run trio 0%R trio_started).
  { split; [exact trio_set_out|]. exists trio_started, []. split; [apply trio_starts|]. rewrite <- zero_R.
    split; [constructor|]. split; [intros ? ? ? ? ? ? _ H; inversion H|]. split; [intros ? ? ? ? ? ? _ H; inversion H|].
    split; [|intros v H; change (nv trio_started) with 3 in H; lia].
    intros now1 tr1 s1 RE L u AC. destruct tr1; [|inversion L]. inversion RE as [|]; subst.
    - destruct AC as [[<-|[]] _]. intros [] []; cbn; congruence.
    - destruct tr; discriminate. }
  assert (O : ordinary trio_started 0) by (intros []; split; reflexivity).
  assert (C : forall i, crossing trio_started (corner trio_started 0 i)).
  { pose proof small_one as Q. intros [].
    - exists 1, 2. split; [reflexivity|]. split; [reflexivity|]. unfold det; in_R3; unfold ln; cbn [lw fst snd].
      match goal with |- (Rabs ?x > _)%R => replace x with 1%R by lra end. rewrite Rabs_R1. lra.
    - exists 2, 0. split; [reflexivity|]. split; [reflexivity|]. unfold det; in_R3; unfold ln; cbn [lw fst snd].
      match goal with |- (Rabs ?x > _)%R => replace x with (3/5)%R by lra end. rewrite Rabs_right by lra. lra.
    - exists 0, 1. split; [reflexivity|]. split; [reflexivity|]. unfold det; in_R3; unfold ln; cbn [lw fst snd].
      match goal with |- (Rabs ?x > _)%R => replace x with (4/5)%R by lra end. rewrite Rabs_right by lra. lra. }
  assert (L : forall i, link trio_started 0 i = None /\ ~ left_over trio_started 0 i).
  { intros i. split; [destruct i; reflexivity|]. intros (_ & _ & K & _). apply K. destruct i; reflexivity. }
  assert (A : active trio_started 0) by (split; [left; reflexivity|reflexivity]).
  split; [exact R|]. split; [eexists; reflexivity|]. split; [exact A|]. split; [exact O|]. split; [exact C|]. split; [exact L|].
  change (area trio_started 0) with (area trio 0). rewrite !trio_area. split; [|split; lra].
  assert (G : growth trio 0 = 12%R) by (clear; in_R3; lra).
  split; [exists 0%R; change (area trio_started 0) with (area trio 0); rewrite trio_area; lra|].
  change (growth trio_started 0) with (growth trio 0). rewrite G. split; [right; rewrite Rabs_right; pose proof small_one; lra|].
  split; [intros Q; exfalso; lra|]. split; [|split; [discriminate|]].
  - intros i _. pose proof (trio_spread i) as Q. right. pose proof small_one. change (spread trio_started 0 i) with (spread trio 0 i).
    rewrite Rabs_right by lra. lra.
  - intros _ i Q. pose proof (trio_spread i) as K. change (spread trio_started 0 i) with (spread trio 0 i) in Q. lra.
Qed.
