(** C98: the check of the tests that every vertex begins in its start node (exact reals) *)
From Coq Require Import Reals Lra.
From Verif Require Import Base Arith ArithR ArithQ Calc CalcProofs VectorOps Line2d Line2dProofs Primitives Collapse
  EventsLib EventLoop Check Pass OpSpec RunBase RunTimed RunLoop Bisect Location Total Scenario ScenarioRun Properties_loop
  Initialize StarProofs InitProofs InitState InitCirc InitBisect Main Properties_init TriExample
  Properties_triangle QuadExample Properties_rect Properties_square Properties_main.
Local Close Scope Q_scope.
Local Open Scope R_scope.

(** ** Specification *)

(** equal up to the tolerance, in each coordinate *)
Definition close (p q : R * R) : Prop := Rabs (fst p - fst q) <= / 10^10 /\ Rabs (snd p - snd q) <= / 10^10.
(** the two lines of the vertex, not nearly parallel, both at [p] at time [t] *)
Definition crossing_at (s : state (A:=RA)) (v : nat) (t : R) (p : R * R) : Prop :=
  exists l r, k_ul (vs s v) = Some l /\ k_ur (vs s v) = Some r /\
    Rabs (det (wf_line (wfs s l)) (wf_line (wfs s r))) > / 10^10 /\
    signed_distance (A:=RA) (wf_line (wfs s l)) p = t /\ signed_distance (A:=RA) (wf_line (wfs s r)) p = t.

Lemma near_close (x : R) : near_zero (A:=RA) x = true <-> Rabs x <= / 10^10.
Proof. rewrite near_zero_R. unfold Rabs. destruct (Rcase_abs x); lra. Qed.

(** ** What the check says *)
(** The check fails with an IndexError for no items at all, and with the error of the
    first item that has no position; otherwise it says whether all others are close to
    the first. *)
Theorem C98_meaning :
  forall (s : state (A:=RA)) (V : list Check.item) (now : R),
  (V = [] -> at_same_location s V now = Err IndexError) /\
  (forall e, at_same_location s V now = Err e -> V = [] \/ exists v, In (AVertex v) V /\ position_at s v now = Err e) /\
  (forall p P, Forall2 (fun i q => match i with
                                   | AVertex v => position_at s v now = Ok q
                                   | ANode n => q = sn_pos (ns s n)
                                   end) V (p :: P) ->
   exists b, at_same_location s V now = Ok b /\ (b = true <-> forall q, In q P -> close p q)).
Proof.
  intros s V now. split; [intros ->; reflexivity|]. split.
  - intros e H. unfold at_same_location in H. destruct (rmapl _ V) as [P|e'] eqn:EP; cbn [rbind] in H.
    + destruct P; [|discriminate]. left. destruct V as [|i V]; [reflexivity|]. cbn [rmapl] in EP.
      destruct (item_at s i now); [|discriminate]. cbn [rbind] in EP. destruct (rmapl _ V); discriminate.
    + injection H as ->. right. clear -EP. revert EP. induction V as [|i V IH]; cbn [rmapl]; [discriminate|]. intros EP.
      destruct (item_at s i now) as [q|e'] eqn:EI; cbn [rbind] in EP.
      * destruct (rmapl _ V) as [Q|e'']; [discriminate|]. cbn in EP. destruct IH as (v & Hv & K); [exact EP|].
        exists v. split; [right; exact Hv|exact K].
      * injection EP as ->. destruct i as [v|n]; [|discriminate EI]. exists v. split; [left; reflexivity|exact EI].
  - intros p P F. unfold at_same_location.
    assert (EP : rmapl (fun i => item_at s i now) V = Ok (p :: P)).
    { remember (p :: P) as Q eqn:EQ. clear EQ. induction F as [|i q V' Q' Hq F IH]; [reflexivity|]. cbn [rmapl].
      assert (EI : item_at s i now = Ok q) by (destruct i; cbn in *; congruence). rewrite EI. cbn [rbind]. rewrite IH. reflexivity. }
    rewrite EP. cbn [rbind]. eexists. split; [reflexivity|]. rewrite forallb_forall. unfold close. split.
    + intros K q Hq. specialize (K q Hq). apply andb_true_iff in K. rewrite !near_close in K. exact K.
    + intros K q Hq. apply andb_true_iff. rewrite !near_close. apply K, Hq.
Qed.
Print Assumptions C98_meaning.

(** two of the items may be further apart than the tolerance: only the first is compared *)
Definition three_nodes : state (A:=RA) :=
  mkSt (fun _ => mkKV (A:=RA) true (0, 0) (0, 0) [] [] None None None None None None None None 0 false true) 0
    (fun _ => mkTri (A:=RA) (mk3 0 1 2)%nat (mk3 None None None) None 0 None true) 0
    (fun i => mkNode (A:=RA) (match i with 0%nat => 0 | 1%nat => / 10^10 | _ => - / 10^10 end, 0) 0 None) 3
    (fun _ => mkEv (A:=RA) 0 0%nat [] Edge 0) 0 (fun _ => mkWF (A:=RA) (mkLine (A:=RA) (1, 0) 0) (0, 0) (0, 0)) [] [] [] [] [].
Theorem C98_pairwise_refuted : exists (s : state (A:=RA)) i j k (now : R),
  at_same_location s [i; j; k] now = Ok true /\ at_same_location s [j; k] now = Ok false /\
  at_same_location s [j; i; k] now = Ok false.
Proof.
  assert (E10 : 0 < / 10^10) by (apply Rinv_0_lt_compat, pow_lt; lra).
  assert (Z0 : near_zero (A:=RA) (0 - 0)%R = true) by (apply near_close; rewrite Rminus_0_r, Rabs_R0; lra).
  assert (Z1 : near_zero (A:=RA) (0 - / 10^10)%R = true) by (apply near_zero_R; lra).
  assert (Z2 : near_zero (A:=RA) (0 - - / 10^10)%R = true) by (apply near_zero_R; lra).
  assert (Z3 : near_zero (A:=RA) (/ 10^10 - 0)%R = true) by (apply near_zero_R; lra).
  assert (Z4 : near_zero (A:=RA) (/ 10^10 - - / 10^10)%R = false) by (apply near_zero_false_R; rewrite Rabs_right; lra).
  exists three_nodes, (ANode 0), (ANode 1), (ANode 2), 0. unfold at_same_location, item_at, three_nodes. cbn [rmapl rbind rmap ns sn_pos fst snd forallb].
  ra_simp. rewrite Z0, Z1, Z2, Z3, Z4. auto.
Qed.
Print Assumptions C98_pairwise_refuted.

(** ** Runs *)
(** In every run in which at first every vertex begins in its start node, the check can
    be made for every vertex later on, and it says whether the vertex begins close to
    its start node.  An infinitely fast vertex and a vertex between nearly parallel
    lines begin in the node exactly; every other vertex begins in the node or where its
    two lines cross at that time. *)
Theorem C98_run :
  forall (E : Env RA) s0 now tr s, registered s0 -> units s0 ->
  (forall v, (v < nv s0)%nat -> k_inf (vs s0 v) = false -> exists n (t : R), k_start_node (vs s0 v) = Some n /\
     k_starts (vs s0 v) = Some t /\ position_at s0 v t = Ok (sn_pos (ns s0 n))) ->
  reach s0 now tr s ->
  forall v, (v < nv s)%nat -> k_inf (vs s v) = false ->
  exists n (t : R) p b, k_start_node (vs s v) = Some n /\ k_starts (vs s v) = Some t /\ position_at s v t = Ok p /\
    at_same_location s [ANode n; AVertex v] t = Ok b /\ (b = true <-> close (sn_pos (ns s n)) p) /\
    (k_inf_fast (vs s v) = true -> p = sn_pos (ns s n)) /\
    (p = sn_pos (ns s n) \/ crossing_at s v t p).
Proof.
  intros E s0 now tr s R0 U0 B0 RE v Hv I.
  assert (B : begun s v).
  { apply (run_begun _ _ s0 _ _ s R0 U0) with (v := v) in RE; auto. intros w Hw Iw.
    destruct (B0 w Hw Iw) as (n & t & K1 & K2 & K3). exists n, t, (sn_pos (ns s0 n)).
    pose proof (rg_nodes _ R0 n (rg_start _ R0 _ _ K1)). auto 10. }
  destruct (B I) as (n & t & p & K1 & _ & K2 & K3 & K4). exists n, t, p.
  destruct (C98_meaning s [ANode n; AVertex v] t) as (_ & _ & M).
  destruct (M (sn_pos (ns s n)) [p]) as (b & Hb & Eb).
  { constructor; [reflexivity|]. constructor; [exact K3|constructor]. }
  exists b. split; [exact K1|]. split; [exact K2|]. split; [exact K3|]. split; [exact Hb|]. split.
  { rewrite Eb. split; [intros C; apply C; left; reflexivity|intros C q [<-|[]]; exact C]. }
  split.
  - intros F. unfold position_at in K3. rewrite I, F, K1 in K3. injection K3 as <-. reflexivity.
  - destruct K4 as [K4|(_ & l & r & L1 & L2 & L3 & L4 & L5)]; [left; exact K4|]. right.
    exists l, r. rewrite !signed_distance_R. auto 10.
Qed.
Print Assumptions C98_run.

(** so the check succeeds for every vertex whose start node is where its lines are *)
Theorem C98_on_lines :
  forall (E : Env RA) s0 now tr s, registered s0 -> units s0 ->
  (forall v, (v < nv s0)%nat -> k_inf (vs s0 v) = false -> exists n (t : R), k_start_node (vs s0 v) = Some n /\
     k_starts (vs s0 v) = Some t /\ position_at s0 v t = Ok (sn_pos (ns s0 n))) ->
  reach s0 now tr s ->
  forall v n (t : R), (v < nv s)%nat -> k_inf (vs s v) = false -> k_start_node (vs s v) = Some n -> k_starts (vs s v) = Some t ->
  (forall l r, k_ul (vs s v) = Some l -> k_ur (vs s v) = Some r -> k_inf_fast (vs s v) = false ->
     Rabs (det (wf_line (wfs s l)) (wf_line (wfs s r))) > / 10^10 -> crossing_at s v t (sn_pos (ns s n))) ->
  at_same_location s [ANode n; AVertex v] t = Ok true.
Proof.
  intros E s0 now tr s R0 U0 B0 RE v n t Hv I N T C.
  assert (E10 : 0 < / 10^10) by (apply Rinv_0_lt_compat, pow_lt; lra).
  destruct (C98_run E s0 now tr s R0 U0 B0 RE v Hv I) as (n' & t' & p & b & K1 & K2 & K3 & K4 & K5 & K6 & K7).
  rewrite N in K1. injection K1 as <-. rewrite T in K2. injection K2 as <-. rewrite K4. f_equal. apply K5.
  cut (p = sn_pos (ns s n)). { intros ->. unfold close. rewrite !Rminus_diag_eq by reflexivity. rewrite Rabs_R0. lra. }
  destruct K7 as [K7|K7]; [exact K7|]. destruct (k_inf_fast (vs s v)) eqn:F; [auto|].
  destruct K7 as (l & r & L1 & L2 & L3 & L4 & L5). destruct (C l r L1 L2 eq_refl L3) as (l' & r' & M1 & M2 & _ & M4 & M5).
  rewrite L1 in M1. injection M1 as <-. rewrite L2 in M2. injection M2 as <-. rewrite signed_distance_R in *.
  apply (on_both_unique (wf_line (wfs s l)) (wf_line (wfs s r)) t).
  - intros K. rewrite K, Rabs_R0 in L3. lra.
  - split; assumption.
  - split; assumption.
Qed.
Print Assumptions C98_on_lines.

(** ** calc_skel *)
(** The vertices of the initial skeleton begin in their nodes; so what calc_skel returns
    can be checked, with the same outcome. *)
Lemma init_begins (d : dtriang (A:=RA)) s : init_skeleton d = Ok s -> forall v, k_inf (vs s v) = false ->
  exists n, k_start_node (vs s v) = Some n /\ k_starts (vs s v) = Some 0 /\ position_at s v 0 = Ok (sn_pos (ns s n)).
Proof.
  intros HI v I.
  assert (Hv : In v (sk_vertices s) /\ k_inf_fast (vs s v) = false).
  { destruct (init_vertices_cases d s HI) as (cpos & ti & b & _ & _ & _ & C1 & C2 & C3 & C4).
    destruct (nth_error (all_groups d) v) as [[w g]|] eqn:N.
    - split.
      + rewrite C2. apply in_seq. assert (nth_error (all_groups d) v <> None) as K by congruence. apply nth_error_Some in K. lia.
      + destruct (C4 v w g N) as (k' & (lw' & rw & bi & node & info & _ & _ & _ & _ & _ & _ & _ & EK) & _ & ->). rewrite EK. reflexivity.
    - apply nth_error_None in N. rewrite (C3 _ N) in I. discriminate I. }
  destruct Hv as [Hv F]. destruct (init_starts d s HI v Hv) as (w & n & _ & K1 & K2 & K3 & _ & K5).
  exists n. split; [exact K1|]. split. { rewrite K5. ra_simp. qlit. reflexivity. }
  unfold position_at. rewrite I, F, K2, K3. destruct (dv_pos (dt_v d w)) as [x y]. cbn [fst snd]. ra_simp. do 2 f_equal; lra.
Qed.
Theorem C98_calc_skel :
  forall (E : Env RA), (forall t u : nat, addr (A:=RA) t = addr (A:=RA) u -> t = u) ->
  forall triangulate points shrink io s' tr, calc_skel triangulate points shrink io = Ok (s', tr) ->
  forall v, (v < nv s')%nat -> k_inf (vs s' v) = false ->
  exists n (t : R) p b, k_start_node (vs s' v) = Some n /\ k_starts (vs s' v) = Some t /\ position_at s' v t = Ok p /\
    at_same_location s' [ANode n; AVertex v] t = Ok b /\ (b = true <-> close (sn_pos (ns s' n)) p) /\
    (k_inf_fast (vs s' v) = true -> p = sn_pos (ns s' n)) /\
    (p = sn_pos (ns s' n) \/ crossing_at s' v t p).
Proof.
  intros E inj tri points shrink io s' tr H. unfold calc_skel in H. apply calc_skel_ok in H.
  destruct H as (pts & d & s0 & now & _ & _ & H3 & _ & H4).
  pose proof (init_fresh d s0 H3 (nleb_refl RA_ord _)) as FR. apply (start_fresh io) in FR.
  destruct (C33_normal_return RA E _ _ _ H4) as (_ & _ & _ & s1 & trc & S & R & _).
  destruct (init_timed RA_ord inj _ _ FR S) as ((R1 & _) & FO & _ & _ & V1 & V2 & _ & _).
  destruct (start_heap io s0) as (P1 & P2 & P3 & P4 & P5).
  apply (C98_run E s1 now trc s' R1); [|intros v Hv I|exact R].
  - intros w. rewrite (fo_wfs _ _ FO), P5. apply (init_units d s0 H3).
  - rewrite V1, P1 in I |- *. destruct (init_begins d s0 H3 v I) as (n & K1 & K2 & K3). exists n, 0.
    split; [exact K1|]. split; [exact K2|].
    assert (L : (n < nn (start_of io s0))%nat).
    { apply (fr_reg _ FR). apply (rg_start _ (fr_reg _ FR) v). rewrite P1. exact K1. }
    rewrite (fo_ns _ _ FO n L), P2. unfold position_at in *. rewrite V1, P1. rewrite I in *. rewrite K1 in *.
    rewrite (fo_ns _ _ FO n L), P2. exact K3.
Qed.
Print Assumptions C98_calc_skel.

(** *** cases *)
(** the square of side 2 over the reals: calc_skel returns, and the vertices of its skeleton are as said *)
Example C98_square : let E := exact_orientation in exists s', calc_skel (quad_of (A:=RA)) [(0, 0); (2, 0); (2, 2); (0, 2)] false true = Ok (s', None) /\
  (forall t u : nat, addr (A:=RA) t = addr (A:=RA) u -> t = u) /\ length (sk_nodes s') = 5%nat.
Proof.
  destruct C97_case as (SQ & I0 & I1 & I2 & I3 & L & _ & TE & AD & RL).
  destruct (C97_square exact_orientation TE AD RL _ _ _ _ SQ I0 I1 I2 I3 L) as (s' & c & r & H & _ & _ & _ & N & _).
  exists s'. split; [exact H|]. split; [|exact N]. cbn. intros t u K. lia.
Qed.
(** the check of the tests succeeds for all vertices of the skeleton of a triangle, made before and during the run *)
Example C98_triangle :
  match calc_skel (A:=QA) tri_of right_triangle true false with
  | Ok (s, _) => Nat.eqb (length (sk_vertices s)) 6 && forallb (fun v =>
      match k_start_node (vs s v), k_starts (vs s v) with
      | Some n, Some t => match at_same_location s [ANode n; AVertex v] t with Ok b => b | Err _ => false end
      | _, _ => false end) (sk_vertices s)
  | Err _ => false end = true.
Proof. vm_compute. reflexivity. Qed.
(** it fails for another vertex or another time *)
Example C98_fails :
  match calc_skel (A:=QA) tri_of right_triangle true false with
  | Ok (s, _) => match at_same_location s [ANode 0; AVertex 2] 0%Q, at_same_location s [ANode 0; AVertex 0] 1%Q, at_same_location s [] 0%Q with
      | Ok a, Ok b, Err IndexError => negb a && negb b | _, _, _ => false end
  | Err _ => false end = true.
Proof. vm_compute. reflexivity. Qed.
