(** C89: the diagnostic functions of the event loop *)
From Coq Require Import Reals Lra QArith.Qround.
From Verif Require Import Base Arith ArithR ArithQ Calc CalcProofs VectorOps Line2d Line2dProofs Primitives Collapse CollapseProofs CollapseR
  EventsLib FlipEvent ParallelEvent EdgeEvent SplitEvent EventLoop Initialize StarProofs Main Output Mesh Scenario ScenarioRun
  RSquared Diagnostics Properties_output.
Local Close Scope Q_scope.
Local Open Scope nat_scope.

(** ** is_infinitely_fast *)
(** True exactly if the fan has triangles and each of them has an event within 1e-10 of now; a triangle without event counts
    as one with an event at time -1. *)
Definition due (s : state (A:=RA)) (now : R) (t : nat) : Prop :=
  match t_event (ts s t) with
  | Some e => (Rabs (ev_time (es s e) - now) <= / 10^10)%R
  | None => (Rabs (-1 - now) <= / 10^10)%R
  end.
Lemma nz (x : R) : near_zero (A:=RA) x = true <-> (Rabs x <= / 10^10)%R.
Proof.
  rewrite near_zero_R. split; [intros H; apply Rabs_le, H|]. intros H. unfold Rabs in H. destruct (Rcase_abs x); lra.
Qed.
Theorem C89_fast :
  forall (s : state (A:=RA)) fan (now : R),
  (is_infinitely_fast s fan now = true <-> fan <> [] /\ forall t, In t fan -> due s now t) /\
  ((0 <= now)%R -> is_infinitely_fast s fan now = true -> forall t, In t fan -> exists e, t_event (ts s t) = Some e /\
     (Rabs (ev_time (es s e) - now) <= / 10^10)%R).
Proof.
  intros s fan now.
  assert (M : is_infinitely_fast s fan now = true <-> fan <> [] /\ forall t, In t fan -> due s now t).
  { assert (K : forallb (fun time => near_zero (A:=RA) (nsub time now)) (map (fun t => match t_event (ts s t) with Some e => ev_time (es s e) | None => lit (-1) end) fan) = true <->
      forall t, In t fan -> due s now t).
    { rewrite forallb_forall. split.
      - intros H t Ht. specialize (H _ (in_map _ _ _ Ht)). apply nz in H. unfold due.
        destruct (t_event (ts s t)); [exact H|]. revert H. ra_simp. qlit. auto.
      - intros H x Hx. apply in_map_iff in Hx. destruct Hx as (t & <- & Ht). specialize (H t Ht). apply nz. unfold due in H.
        destruct (t_event (ts s t)); [exact H|]. revert H. ra_simp. qlit. auto. }
    unfold is_infinitely_fast. destruct fan as [|t fan]; [split; [discriminate|intros [Q _]; congruence]|].
    rewrite K. split; [intros H; split; [discriminate|exact H]|intros [_ H]; exact H]. }
  split; [exact M|]. intros P H t Ht. apply M in H. destruct H as [_ H]. specialize (H t Ht). unfold due in H.
  destruct (t_event (ts s t)) as [e|]; [eauto|]. exfalso. rewrite Rabs_left in H by lra. lra.
Qed.
Print Assumptions C89_fast.

(** ** log_queue_content *)
(** All immediate events are listed, and the first 21 of the queue. *)
Theorem C89_log :
  forall (X : Type) (imm queue : list X),
  log_queue_content imm queue =
    (combine (seq 0 (length imm)) imm, combine (seq 0 (length queue)) (firstn 21 queue),
     if Nat.leb 20 (length queue) then Some (length queue - 20) else None).
Proof.
  intros X imm queue. unfold log_queue_content.
  assert (N : forall l i, @numbered X i l = combine (seq i (length l)) l) by (induction l as [|x l IH]; intros i; cbn; [|rewrite IH]; reflexivity).
  assert (Q : forall (l : list X) i, i <= 20 -> queue_lines i l = combine (seq i (length l)) (firstn (21 - i) l)).
  { induction l as [|x l IH]; intros i L; [destruct (21 - i); reflexivity|]. cbn [queue_lines length seq].
    replace (21 - i) with (S (20 - i)) by lia. cbn [firstn combine]. f_equal.
    destruct (Nat.leb_spec 20 i).
    - replace (20 - i) with 0 by lia. rewrite firstn_O. destruct (seq (S i) (length l)); reflexivity.
    - rewrite IH by lia. f_equal. }
  rewrite N, Q by lia. reflexivity.
Qed.
Print Assumptions C89_log.
(** The line about events that are not shown is off by one: as soon as events are left out, it counts one too many. *)
Theorem C89_log_refuted :
  forall (X : Type) (imm queue : list X), 20 < length queue ->
  exists shown skipped, snd (fst (log_queue_content imm queue)) = shown /\ snd (log_queue_content imm queue) = Some skipped /\
  length shown + skipped = length queue + 1.
Proof.
  intros X imm queue L. rewrite C89_log. cbn [fst snd].
  eexists. rewrite (proj2 (Nat.leb_le _ _)) by lia. eexists. split; [reflexivity|]. split; [reflexivity|].
  rewrite combine_length, seq_length, firstn_length. lia.
Qed.
Print Assumptions C89_log_refuted.
Example C89_log_case : length (snd (fst (log_queue_content [7] (seq 0 30)))) = 21 /\ snd (log_queue_content [7] (seq 0 30)) = Some 10.
Proof. vm_compute. auto. Qed.

(** ** make_frames *)
(** [rnd] rounds to multiples of 1/scale, [trunc] cuts off decimals *)
Definition rounds (digits : nat) (rnd : R -> R) : Prop :=
  forall x, exists k : Z, (rnd x = IZR k / INR (10 ^ digits))%R.
Definition truncates (trunc : R -> Z) : Prop :=
  forall x k, (IZR k <= x < IZR k + 1)%R -> (0 <= k)%Z -> trunc x = k.
Definition truncates_below (trunc : R -> Z) : Prop := forall x, (x < 0)%R -> (trunc x <= 0)%Z.

Lemma frac (a k sc : R) : (a / sc + (k - a) / sc = k / sc)%R.
Proof. unfold Rdiv. ring. Qed.

(** With digits after the decimal point, frames are drawn at exactly the multiples of 10^-digits between the rounded time now
    and the rounded time of the next event (0.2 later if the queue is empty), none if immediate events wait. *)
Theorem C89_frames :
  forall (E : Env RA) rnd trunc digits (now : R) (s : state (A:=RA)), 1 <= digits ->
  rounds digits rnd -> truncates trunc -> truncates_below trunc ->
  exists l, frame_times rnd trunc digits now s = Ok l /\
  make_frames rnd trunc digits now s = rmapl (visualize (queue s) s) l /\
  (immediate s <> [] -> l = []) /\
  (immediate s = [] ->
     let next := match queue s with e :: _ => rnd (ev_time (es s e)) | [] => (rnd now + / 5)%R end in
     forall c, In c l <-> exists k : Z, (c = IZR k / INR (10 ^ digits) /\ rnd now < c < next)%R).
Proof.
  intros E rnd trunc digits now s D RN TR TB. unfold make_frames, frame_times.
  destruct (immediate s) as [|i0 im].
  2:{ exists []. split; [reflexivity|]. split; [reflexivity|]. split; [reflexivity|discriminate]. }
  cbv zeta. set (next := match queue s with e :: _ => rnd (ev_time (es s e)) | [] => (rnd now + / 5)%R end).
  set (sc := INR (10 ^ digits)).
  assert (SP : (0 < sc)%R). { apply lt_0_INR. pose proof (Nat.pow_nonzero 10 digits). lia. }
  destruct (RN now) as [a Ha]. fold sc in Ha.
  assert (NX : exists b : Z, next = (IZR b / sc)%R).
  { unfold next. destruct (queue s) as [|e q]; [|apply RN].
    destruct digits as [|dg]; [lia|]. exists (a + 2 * Z.of_nat (10 ^ dg))%Z. rewrite Ha, plus_IZR, mult_IZR, <- INR_IZR_INZ.
    assert (Q : sc = (10 * INR (10 ^ dg))%R).
    { unfold sc. rewrite Nat.pow_succ_r', mult_INR. f_equal. cbn. lra. }
    assert (INR (10 ^ dg) <> 0)%R by (intros Z; rewrite Z in Q; lra). rewrite Q. field. assumption. }
  destruct NX as [b Hb].
  assert (TM : trunc ((next - rnd now) * sc)%R = (b - a)%Z \/ (b - a <= 0)%Z /\ (trunc ((next - rnd now) * sc)%R <= 0)%Z).
  { assert (V : ((next - rnd now) * sc = IZR (b - a))%R) by (rewrite Hb, Ha, minus_IZR; field; lra).
    rewrite V. destruct (Z_lt_le_dec (b - a) 0) as [N|P].
    - right. split; [lia|]. apply TB, (IZR_lt _ 0), N.
    - left. apply TR; [lra|lia]. }
  match goal with |- context [rmapl ?f (seq 1 (Z.to_nat ?t - 1))] => set (F := f); set (tt0 := t) end.
  assert (TT : tt0 = trunc ((next - rnd now) * sc)%R).
  { unfold tt0, next, sc. f_equal. rewrite nofnat_INR. destruct (queue s); ra_simp; qlit; try reflexivity. f_equal. f_equal. f_equal. lra. }
  assert (FV : forall k, F k = Ok (rnd now + INR k / sc)%R).
  { intros k. unfold F. rewrite pdiv_R; [|rewrite nofnat_INR; fold sc; lra]. cbn [rbind]. rewrite !nofnat_INR. reflexivity. }
  assert (RM : rmapl F (seq 1 (Z.to_nat tt0 - 1)) = Ok (map (fun k => (rnd now + INR k / sc)%R) (seq 1 (Z.to_nat tt0 - 1)))).
  { apply rmapl_all. induction (seq 1 (Z.to_nat tt0 - 1)); cbn; constructor; auto. }
  eexists. split; [exact RM|]. rewrite RM. split; [reflexivity|]. split; [congruence|]. intros _ c.
  rewrite in_map_iff. split.
  - intros (k & <- & Hk). apply in_seq in Hk. exists (a + Z.of_nat k)%Z. rewrite plus_IZR, <- INR_IZR_INZ, Ha, Hb. fold sc.
    rewrite TT in Hk. destruct TM as [TM|[_ TM]]; [rewrite TM in Hk|lia].
    assert (B : (INR k < IZR (b - a))%R) by (rewrite INR_IZR_INZ; apply IZR_lt; lia). rewrite minus_IZR in B.
    assert (B1 : (0 < INR k)%R) by (apply lt_0_INR; lia).
    split; [symmetry; exact (Rmult_plus_distr_r _ _ _)|]. unfold Rdiv. split.
    + assert (0 < INR k * / sc)%R by (apply Rmult_lt_0_compat; [|apply Rinv_0_lt_compat]; assumption). lra.
    + rewrite <- Rmult_plus_distr_r. apply Rmult_lt_compat_r; [apply Rinv_0_lt_compat, SP|lra].
  - intros (k & Hc & L1 & L2). rewrite Hc in L1, L2. fold sc in L1, L2. rewrite Ha in L1. rewrite Hb in L2. fold sc in L1.
    unfold Rdiv in L1, L2. apply Rmult_lt_reg_r in L1; [|apply Rinv_0_lt_compat, SP]. apply Rmult_lt_reg_r in L2; [|apply Rinv_0_lt_compat, SP].
    apply lt_IZR in L1, L2. exists (Z.to_nat (k - a)). split.
    + rewrite INR_IZR_INZ, Z2Nat.id by lia. rewrite minus_IZR, Ha, Hc. exact (frac _ _ _).
    + apply in_seq. rewrite TT. destruct TM as [->|[TM _]]; lia.
Qed.
Print Assumptions C89_frames.

(** ** visualize_collapse *)
(** what the five files say about triangle [t] at time [x] *)
Definition last_link (h : list (hitem (A:=RA))) (r : option nat) : Prop :=
  match r with
  | Some v => exists h' a b, h = h' ++ [(a, b, Some v)]
  | None => h = [] \/ exists h' a b, h = h' ++ [(a, b, None)]
  end.
Definition collapse_pictures (s : state (A:=RA)) (t : nat) (x : R) (p : collapse_picture (A:=RA)) : Prop :=
  (exists a b c, cp_bis p = [a; b; c] /\ forall i,
     let '(from, to) := get3 (mk3 a b c) i in
     position_at s (corner s t i) x = Ok from /\
     (fst to = fst from + fst (k_velocity (vs s (corner s t i))) /\ snd to = snd from + snd (k_velocity (vs s (corner s t i))))%R) /\
  (match t_stops (ts s t) with
   | None => exists r, cp_tris p = [r] /\ tri_line_of s x t r
   | Some _ => cp_tris p = []
   end) /\
  (exists a b c, cp_verts p = [a; b; c] /\ forall i,
     let '(r, inf) := get3 (mk3 a b c) i in
     let kv := vs s (corner s t i) in
     v_v r = corner s t i /\ position_at s (corner s t i) x = Ok (v_pos r) /\ inf = k_info kv /\
     (k_inf kv = true -> v_left r = None /\ v_right r = None) /\
     (k_inf kv = false -> last_link (k_left kv) (v_left r) /\ last_link (k_right kv) (v_right r))) /\
  (forall u i a b, In (mkER u i a b) (cp_edges p) <-> u = t /\ link s t i = None /\
     position_at s (corner s t (ccw i)) x = Ok a /\ position_at s (corner s t (cw i)) x = Ok b) /\
  (exists a b c, cp_rays p = [a; b; c] /\ forall i,
     let '((ax, ay), (bx, by_)) := (get3 (mk3 a b c) i : (R * R) * (R * R)) in
     let '(px, py) := (k_origin (vs s (corner s t i)) : R * R) in
     let '(dx, dy) := (k_velocity (vs s (corner s t i)) : R * R) in
     (ax = px + 10000 * dx /\ ay = py + 10000 * dy /\ bx = px - 10000 * dx /\ by_ = py - 10000 * dy)%R).

Lemma hist_last_link h : last_link h (hist_last h).
Proof.
  unfold hist_last. destruct (rev h) as [|[[a b] r] l] eqn:Q.
  - left. rewrite <- (rev_involutive h), Q. reflexivity.
  - assert (H : h = rev l ++ [(a, b, r)]) by (rewrite <- (rev_involutive h), Q; reflexivity).
    unfold last_link. destruct r; eauto 6.
Qed.
Lemma no_place (s : state (A:=RA)) v x : 
  (exists p, position_at s v x = Ok p) \/
  (position_at s v x = Err AttributeError /\ k_inf (vs s v) = false /\ k_inf_fast (vs s v) = true /\ k_start_node (vs s v) = None).
Proof.
  unfold position_at. destruct (k_inf (vs s v)); [eauto|]. destruct (k_inf_fast (vs s v)); [|eauto].
  destruct (k_start_node (vs s v)); eauto.
Qed.
Definition unplaced (s : state (A:=RA)) (v : nat) : Prop :=
  k_inf (vs s v) = false /\ k_inf_fast (vs s v) = true /\ k_start_node (vs s v) = None.
Lemma unplaced_not s v x p : unplaced s v -> position_at s v x = Ok p -> False.
Proof. intros (H1 & H2 & H3). unfold position_at. rewrite H1, H2, H3. discriminate. Qed.

Theorem C89_collapse :
  forall (E : Env RA) (s : state (A:=RA)) t (x : R),
  ((forall i, ~ unplaced s (corner s t i)) -> exists p, visualize_collapse s t x = Ok p /\ collapse_pictures s t x p) /\
  ((exists i, unplaced s (corner s t i)) -> visualize_collapse s t x = Err AttributeError).
Proof.
  intros E s t x. split.
  - intros NU.
    assert (PL : forall i, exists p, position_at s (corner s t i) x = Ok p).
    { intros i. destruct (no_place s (corner s t i) x) as [H|(_ & H)]; [exact H|]. destruct (NU i H). }
    destruct (PL S0) as [p0 P0]. destruct (PL S1) as [p1 P1]. destruct (PL S2) as [p2 P2].
    unfold visualize_collapse.
    assert (PO : polygon s t x = Ok (mk3 p0 p1 p2)).
    { unfold polygon. unfold corner in P0, P1, P2. cbn [get3] in P0, P1, P2. rewrite P0, P1, P2. reflexivity. }
    assert (DR : drawn s x t (mk3 p0 p1 p2)) by (intros []; assumption).
    cbv zeta. change (list3 (t_v (ts s t))) with [corner s t S0; corner s t S1; corner s t S2].
    cbn [rmapl]. rewrite P0, P1, P2. cbn [rbind].
    unfold output_vertices_at_T. cbn [rmapl]. unfold vertex_at_T at 1 2 3. rewrite P0, P1, P2. cbn [rbind].
    unfold output_triangles_at_T. cbn [rmapl]. unfold tri_line at 1. rewrite PO.
    destruct (rows_all (edge_line s x) (fun e r => e_t r = fst e /\ e_side r = snd e /\
      position_at s (corner s (fst e) (ccw (snd e))) x = Ok (e_from r) /\ position_at s (corner s (fst e) (cw (snd e))) x = Ok (e_to r))
      (map (fun i => (t, i)) (where3 is_none (t_n (ts s t))))) as (el & H & F).
    { intros [u i] Hi. apply in_map_iff in Hi. destruct Hi as (j & Hi & _). injection Hi as <- <-.
      destruct (PL (ccw j)) as [p P]. destruct (PL (cw j)) as [q Q].
      exists (mkER t j p q). cbn [fst snd e_t e_side e_from e_to]. unfold edge_line. cbn [fst snd]. unfold corner in *. rewrite P, Q. cbn. auto. }
    unfold output_edges_at_T. rewrite H.
    assert (TL : exists tl, rbind (rmapl (tri_line s x) [t]) (fun l => Ok (somes l)) = Ok tl /\ 
      match t_stops (ts s t) with None => exists r, tl = [r] /\ tri_line_of s x t r | Some _ => tl = [] end).
    { cbn [rmapl]. unfold tri_line. rewrite PO. destruct (t_stops (ts s t)); cbn [is_none rbind somes]; [eauto|].
      eexists. split; [reflexivity|]. eexists. split; [reflexivity|].
      unfold tri_line_of. cbn. split; [reflexivity|]. split; [exact DR|]. split; [reflexivity|]. split; [reflexivity|]. split; [apply finite_iff|].
      intros y. destruct (t_event (ts s t)) as [e|]; cbn.
      - split; [intros K; injection K as <-; exists e; auto|intros (e' & K & ->); congruence].
      - split; [discriminate|intros (e' & K & _); discriminate]. }
    destruct TL as (tl & TL1 & TL2). cbn [rmapl] in TL1. unfold tri_line at 1 in TL1. rewrite PO in TL1. rewrite TL1. cbn [rbind].
    eexists. split; [reflexivity|]. unfold collapse_pictures. cbn [cp_bis cp_tris cp_verts cp_edges cp_rays].
    split; [|split; [exact TL2|split; [|split]]].
    + do 3 eexists. split; [reflexivity|]. intros []; cbn [get3 x0 x1 x2]; (split; [assumption|split; reflexivity]).
    + do 3 eexists. split; [reflexivity|]. intros []; cbn [get3 x0 x1 x2 v_v v_pos v_left v_right];
        (split; [reflexivity|]; split; [assumption|]; split; [reflexivity|]; split; intros ->; split; try reflexivity; apply hist_last_link).
    + intros u i a b. split.
      * intros I. destruct (Forall2_in_r _ _ _ _ F I) as ([w j] & J1 & J2 & J3 & J4 & J5). cbn in J2, J3, J4, J5. subst.
        apply in_map_iff in J1. destruct J1 as (k & K1 & K2). injection K1 as <- <-. apply where3_In in K2. split; [reflexivity|].
        split; [|auto]. unfold link. destruct (get3 (t_n (ts s t)) k); [discriminate|reflexivity].
      * intros (-> & L & Pa & Pb). destruct (Forall2_in_l _ _ _ (t, i) F) as ([w j p q] & J1 & J2 & J3 & J4 & J5).
        { apply in_map. apply where3_In. unfold link in L. rewrite L. reflexivity. }
        cbn in J2, J3, J4, J5. subst. congruence.
    + do 3 eexists. split; [reflexivity|]. intros []; cbn [get3 x0 x1 x2];
        match goal with |- context [k_origin ?v] => destruct (k_origin v) as [px py] eqn:KO, (k_velocity v) as [dx dy] eqn:KV end;
        unfold add2, mul2s; cbn [fst snd]; ra_simp; qlit; repeat split; lra.
  - intros (i & U). unfold visualize_collapse. cbv zeta. change (list3 (t_v (ts s t))) with [corner s t S0; corner s t S1; corner s t S2].
    cbn [rmapl].
    destruct (no_place s (corner s t S0) x) as [[p0 P0]|(H0 & _)]; [rewrite P0|rewrite H0; reflexivity].
    destruct (no_place s (corner s t S1) x) as [[p1 P1]|(H1 & _)]; [rewrite P1|rewrite H1; reflexivity].
    destruct (no_place s (corner s t S2) x) as [[p2 P2]|(H2 & _)]; [|rewrite H2; reflexivity].
    exfalso. destruct i; eapply unplaced_not; eauto.
Qed.
Print Assumptions C89_collapse.
(** in a run, none of the triangles makes it raise *)
Theorem C89_collapse_run :
  forall (E : Env RA) (s0 : state (A:=RA)) (now : R) s t (x : R), run_state s0 now s ->
  exists p, visualize_collapse s t x = Ok p /\ collapse_pictures s t x p.
Proof.
  intros E s0 now s t x RUN. apply (proj1 (C89_collapse E s t x)). intros i U. destruct (run_placed s0 now s RUN t i x) as [p P].
  exact (unplaced_not s _ x p U P).
Qed.
Print Assumptions C89_collapse_run.

(** ** Cases *)
(** rounding to the nearest multiple of 10^-digits and cutting off decimals are such functions *)
Definition round_to (digits : nat) (x : R) : R := (IZR (Int_part (x * INR (10 ^ digits) + / 2)) / INR (10 ^ digits))%R.
Definition cut (x : R) : Z := if Rle_dec 0 x then Int_part x else (- Int_part (- x))%Z.
Lemma int_part_of (x : R) (k : Z) : (IZR k <= x < IZR k + 1)%R -> Int_part x = k.
Proof.
  intros H. unfold Int_part. assert (U : (k + 1)%Z = up x) by (apply tech_up; rewrite plus_IZR; lra). lia.
Qed.
Lemma round_rounds digits : rounds digits (round_to digits).
Proof. intros x. eexists. reflexivity. Qed.
Lemma cut_cuts : truncates cut /\ truncates_below cut.
Proof.
  split.
  - intros x k H P. unfold cut. destruct (Rle_dec 0 x) as [L|L]; [apply int_part_of, H|]. apply IZR_le in P. lra.
  - intros x H. unfold cut. destruct (Rle_dec 0 x) as [L|L]; [lra|].
    destruct (base_Int_part (- x)) as [H1 H2]. assert (-1 < IZR (Int_part (- x)))%R by lra.
    apply (lt_IZR (-1)) in H0. lia.
Qed.
(** one triangle whose event is due at time 1: drawn at 0.997, 0.998 and 0.999 if it is 0.996 now *)
Example C89_frames_case : forall (E : Env RA),
  exists l, frame_times (round_to 3) cut 3 (996/1000)%R noded_started = Ok l /\
  In (997/1000)%R l /\ In (998/1000)%R l /\ In (999/1000)%R l /\ ~ In 1%R l /\ ~ In (996/1000)%R l.
Proof.
  intros E. destruct (C89_frames E (round_to 3) cut 3 (996/1000)%R noded_started ltac:(lia) (round_rounds 3) (proj1 cut_cuts) (proj2 cut_cuts))
    as (l & H & _ & _ & K). exists l. split; [exact H|].
  specialize (K eq_refl). cbv zeta in K.
  assert (N : INR (10 ^ 3) = 1000%R) by (change (10 ^ 3) with 1000; rewrite INR_IZR_INZ; reflexivity).
  assert (R1 : round_to 3 (996 / 1000) = (996 / 1000)%R).
  { unfold round_to. rewrite N. rewrite (int_part_of _ 996); lra. }
  assert (R2 : round_to 3 (ev_time (es noded_started 0)) = 1%R).
  { change (ev_time (es noded_started 0)) with 1%R. unfold round_to. rewrite N. rewrite (int_part_of _ 1000); lra. }
  assert (K' : forall c, In c l <-> exists k : Z, (c = IZR k / 1000 /\ 996 / 1000 < c < 1)%R).
  { intros c. rewrite (K c), N. rewrite R1. change (queue noded_started) with [0]. cbn match. rewrite R2. reflexivity. }
  split; [apply K'; exists 997%Z; lra|]. split; [apply K'; exists 998%Z; lra|]. split; [apply K'; exists 999%Z; lra|].
  split; intros I; apply K' in I; destruct I as (k & H1 & H2); lra.
Qed.
(** the same with the rational numbers of the other examples: the rectangle, whose first event is due at time 1 *)
Definition Qround_to (x : Q) : Q := (inject_Z (Qfloor (x * 1000 + (1#2))) / 1000)%Q.
Example C89_frames_run : holds_k 0 rect (fun _ _ s =>
  match frame_times (A:=QA) Qround_to Qfloor 3 (9962#10000)%Q s with
  | Ok [a; b; c] => Qeq_bool a (997#1000) && Qeq_bool b (998#1000) && Qeq_bool c (999#1000)
  | _ => false
  end && is_infinitely_fast s [0; 1] 1%Q && negb (is_infinitely_fast s [0; 1] (1#2)%Q) && negb (is_infinitely_fast s [] 1%Q)) = true.
Proof. vm_compute. reflexivity. Qed.
Example C89_fast_case : forall (E : Env RA), is_infinitely_fast noded_started [0] 1%R = true /\ is_infinitely_fast noded_started [0] (1/2)%R = false.
Proof.
  intros E. split.
  - apply C89_fast. split; [discriminate|]. intros t [<-|[]]. unfold due. cbn. rewrite Rabs_pos_eq; lra.
  - destruct (is_infinitely_fast noded_started [0] (1 / 2)%R) eqn:K; [|reflexivity]. exfalso.
    apply C89_fast in K. destruct K as (_ & K). specialize (K 0 (or_introl eq_refl)). unfold due in K. cbn in K. rewrite Rabs_pos_eq in K; lra.
Qed.
Example C89_collapse_case : forall (E : Env RA),
  run_state noded_trio (n0 (A:=RA)) noded_started /\
  exists p, visualize_collapse noded_started 0 (1/2)%R = Ok p /\ collapse_pictures noded_started 0 (1/2)%R p /\
  length (cp_bis p) = 3 /\ length (cp_tris p) = 1 /\ length (cp_verts p) = 3 /\ length (cp_edges p) = 3 /\ length (cp_rays p) = 3.
Proof.
  intros E. split; [apply noded_run|].
  destruct (C89_collapse_run E _ _ _ 0 (1/2)%R (noded_run E)) as (p & H & P). exists p. split; [exact H|]. split; [exact P|].
  unfold visualize_collapse in H. injection H as <-. auto.
Qed.
