(** Where vertices and nodes are: properties C39, C40 (exact real arithmetic) *)
From Coq Require Import Reals Lra Psatz.
From Verif Require Import Base Arith ArithR ArithQ Calc CalcProofs VectorOps Line2d Line2dProofs Primitives Collapse
  EventsLib EdgeEvent EventLoop OpSpec StopSpec VectorOpsProofs RunBase RunTimed RunLoop EdgeHead Bisect Scenario ScenarioRun.
Local Open Scope R_scope.
Local Existing Instance RA.

(** ** C39 *)
(** If it is so at the start of the run (that is what init_skeleton computes),
    then in every reachable state every vertex of finite speed whose support
    lines are not nearly parallel is, at every time [t], on both lines moved by
    [t], at signed distance [t] from the lines where they started. *)
Theorem C39_tracks :
  forall (E : Env RA) s0 now tr s,
  registered s0 -> units s0 -> (forall v, (v < nv s0)%nat -> tracks s0 v) -> reach s0 now tr s ->
  forall v l r, (v < nv s)%nat -> k_inf (vs s v) = false -> k_inf_fast (vs s v) = false ->
  k_ul (vs s v) = Some l -> k_ur (vs s v) = Some r ->
  Rabs (det (wf_line (wfs s l)) (wf_line (wfs s r))) > / 10^10 ->
  forall (t : R) p L K, position_at s v t = Ok p ->
  at_time (wf_line (wfs s l)) t = Ok L -> at_time (wf_line (wfs s r)) t = Ok K ->
  on L p /\ on K p /\
  signed_distance (wf_line (wfs s l)) p = t /\ signed_distance (wf_line (wfs s r)) p = t.
Proof.
  intros E s0 now tr s R0 U T H v l r Hv I F Hl Hr D t p L K P HL HK.
  destruct (run_tracks E _ _ _ _ _ _ R0 U T H) as [U' T'].
  destruct (T' v Hv I F l r Hl Hr D t p P) as [A1 A2].
  rewrite at_time_unit in HL, HK by apply U'. injection HL as <-. injection HK as <-.
  rewrite !signed_distance_R. unfold on, eval in *. cbn [lw lb]. ra_simp. repeat split; lra.
Qed.
Print Assumptions C39_tracks.

(** every vertex made during a run is made by compute_new_kvertex, and has
    this property from the start, whatever the state *)
Theorem C39_new_vertex :
  forall s ul ur (now : R) n info int v s' l r,
  compute_new_kvertex ul ur now n info int s = Ok (v, s') -> ul = Some l -> ur = Some r ->
  unit_line (wf_line (wfs s l)) -> unit_line (wf_line (wfs s r)) ->
  Rabs (det (wf_line (wfs s l)) (wf_line (wfs s r))) > / 10^10 -> k_inf_fast (vs s' v) = false ->
  forall (t : R) p, position_at s' v t = Ok p ->
    signed_distance (wf_line (wfs s l)) p = t /\ signed_distance (wf_line (wfs s r)) p = t.
Proof.
  intros s ul ur now n info int v s' l r H Hl Hr UL UR D F t p P.
  apply newv_spec in H. destruct H as (kv & H & -> & ->). cbn in F. rewrite upd_same in F.
  pose proof (new_kvertex_fields _ _ _ _ _ _ _ _ H) as (I & _).
  unfold position_at in P. cbn in P. rewrite upd_same, I, F in P. injection P as <-.
  rewrite !signed_distance_R. eapply new_tracks; eauto.
Qed.
Print Assumptions C39_new_vertex.

(** *** a case over the reals: the square of side 2 *)
Definition wfR (a b c : R) : wavefront := mkWF (mkLine (a, b) c) (0, 0) (0, 0).
Definition mvR (x y dx dy : R) (n l r : nat) : kvertex :=
  mkKV false (x, y) (dx, dy) [] [] (Some 0) None (Some n) None (Some l) (Some r) (Some l) (Some r) 0 false true.
Definition ndR (x y : R) : sknode := mkNode (x, y) 0 None.
Definition squareR : state :=
  mkSt (fun i => nth i [mvR 0 0 1 1 0 3 0; mvR 2 0 (-1) 1 1 0 1; mvR 2 2 (-1) (-1) 2 1 2; mvR 0 2 1 (-1) 3 2 3]
                   (mvR 0 0 1 1 0 3 0)) 4
    (fun _ => mkTri (mk3 0 1 2)%nat (mk3 None None None) None 0 None true) 0
    (fun i => nth i [ndR 0 0; ndR 2 0; ndR 2 2; ndR 0 2] (ndR 0 0)) 4
    (fun _ => mkEv 0 0%nat [] Edge 0) 0
    (fun i => nth i [wfR 0 1 0; wfR (-1) 0 2; wfR 0 (-1) 2; wfR 1 0 0] (wfR 0 1 0))
    [0; 1; 2; 3]%nat [0; 1; 2; 3]%nat [] [] [].
Example C39_square :
  registered squareR /\ units squareR /\ (forall v, (v < nv squareR)%nat -> tracks squareR v) /\
  (forall (E : Env RA), reach squareR (n0 : num) [] squareR) /\
  (exists v l r, (v < nv squareR)%nat /\ k_inf (vs squareR v) = false /\ k_inf_fast (vs squareR v) = false /\
    k_ul (vs squareR v) = Some l /\ k_ur (vs squareR v) = Some r /\
    Rabs (det (wf_line (wfs squareR l)) (wf_line (wfs squareR r))) > / 10^10).
Proof.
  split; [|split; [|split; [|split]]].
  - constructor.
    + intros v n H. unfold squareR in H. cbn in H.
      destruct v as [|[|[|[|v]]]]; cbn in H; [| | | |destruct v; cbn in H]; injection H as <-; cbn; auto 6.
    + intros v n H. unfold squareR in H. cbn in H.
      destruct v as [|[|[|[|v]]]]; cbn in H; [| | | |destruct v; cbn in H]; discriminate H.
    + intros n H. cbn in *. destruct H as [<-|[<-|[<-|[<-|[]]]]]; lia.
    + intros n H. cbn in *. destruct H as [<-|[<-|[<-|[<-|[]]]]]; lia.
  - intros w. unfold unit_line. destruct w as [|[|[|[|w]]]]; cbn; [| | | |destruct w; cbn]; lra.
  - intros v Hv I F l r Hl Hr D t p P. cbn in Hv.
    unfold on_both, eval.
    destruct v as [|[|[|[|v]]]]; [| | | |lia];
      cbn in Hl, Hr; injection Hl as <-; injection Hr as <-; cbn in P; injection P as <-; cbn; lra.
  - intros E. constructor.
  - exists 0%nat, 3%nat, 0%nat. repeat split; cbn; try lia.
    unfold det. cbn. replace (1 * 1 - 0 * 0) with 1 by lra. rewrite Rabs_R1. lra.
Qed.

(** the same in a run over the rationals in which new vertices are made: after two
    events of [quad] all five vertices are on both lines at times 0, 1, 5/2 *)
Definition trackb (s : state (A:=QA)) (v : nat) (t : Q) : bool :=
  match k_ul (vs s v), k_ur (vs s v), position_at s v t with
  | Some l, Some r, Ok p =>
      negb (k_inf_fast (vs s v)) &&
      Qeq_bool (signed_distance (A:=QA) (wf_line (wfs s l)) p) t &&
      Qeq_bool (signed_distance (A:=QA) (wf_line (wfs s r)) p) t
  | _, _, _ => false
  end.
Example C39_quad : exists s0 now tr s', started quad s0 /\ reach s0 now tr s' /\ length tr = 2%nat /\
  (Nat.eqb (nv s') 5 && forallb (fun v => trackb s' v 0%Q && trackb s' v 1%Q && trackb s' v (5#2)%Q) (seq 0 5))%bool = true.
Proof.
  apply (example_k 2 quad (fun _ _ s' =>
    (Nat.eqb (nv s') 5 && forallb (fun v => trackb s' v 0%Q && trackb s' v 1%Q && trackb s' v (5#2)%Q) (seq 0 5))%bool)).
  vm_compute. reflexivity.
Qed.

(** ** C40 *)
(** A successful edge event on two running vertices of which the left one's left
    wavefront (the right one's right wavefront) is its support line makes the node
    [nn s] and the vertex [nv s]; that vertex starts at the node, and the two
    vertices end there.  This is so even for nearly parallel outer wavefronts. *)
Theorem C40_node :
  forall (E : Env RA) evt step s u s' e,
  ev_side evt = [e] -> registered s -> units s ->
  handle_edge_event evt step s = Ok (u, s') ->
  let now := ev_time evt in
  let v1 := get3 (t_v (ts s (ev_tri evt))) (ccw e) in
  let v2 := get3 (t_v (ts s (ev_tri evt))) (cw e) in
  v1 <> v2 -> (v1 < nv s)%nat -> (v2 < nv s)%nat -> running s now v1 -> running s now v2 ->
  k_wfl (vs s v1) = k_ul (vs s v1) -> k_wfr (vs s v2) = k_ur (vs s v2) ->
  let node := ns s' (nn s) in
  In (nn s) (sk_nodes s') /\ k_start_node (vs s' (nv s)) = Some (nn s) /\
  position_at s' (nv s) now = Ok (sn_pos node) /\
  (k_inf_fast (vs s' (nv s)) = false ->
     k_stop_node (vs s' v1) = Some (nn s) /\ k_stop_node (vs s' v2) = Some (nn s)).
Proof.
  intros E evt step s u s' e He R U H now v1 v2 Ne L1 L2 A1 A2 W1 W2 node.
  destruct (edge_node E evt step s u s' e He R U H Ne L1 L2 A1 A2 W1 W2) as (n & -> & C1 & C2 & C3 & C4 & _).
  unfold node. auto.
Qed.
Print Assumptions C40_node.

(** In a reachable state of a run that starts well: if moreover each of the two
    vertices has finite speed and support lines that are not nearly parallel, and
    both are at the same place [p] at the time of the event, then [p] is where the
    node is: the two edges of the skeleton that end in the node reach it, and the
    new one leaves from it. *)
Theorem C40_joined :
  forall (E : Env RA) s0 now0 tr s evt step u s' e,
  registered s0 -> units s0 -> (forall v, (v < nv s0)%nat -> tracks s0 v) -> reach s0 now0 tr s ->
  ev_side evt = [e] -> handle_edge_event evt step s = Ok (u, s') ->
  let now := ev_time evt in
  let v1 := get3 (t_v (ts s (ev_tri evt))) (ccw e) in
  let v2 := get3 (t_v (ts s (ev_tri evt))) (cw e) in
  v1 <> v2 -> (v1 < nv s)%nat -> (v2 < nv s)%nat -> running s now v1 -> running s now v2 ->
  k_wfl (vs s v1) = k_ul (vs s v1) -> k_wfr (vs s v2) = k_ur (vs s v2) ->
  (forall v, v = v1 \/ v = v2 -> k_inf (vs s v) = false /\ k_inf_fast (vs s v) = false /\
     exists l r, k_ul (vs s v) = Some l /\ k_ur (vs s v) = Some r /\
       Rabs (det (wf_line (wfs s l)) (wf_line (wfs s r))) > / 10^10) ->
  forall p, position_at s v1 now = Ok p -> position_at s v2 now = Ok p ->
  sn_pos (ns s' (nn s)) = p /\ position_at s' (nv s) now = Ok p /\
  position_at s' v1 now = Ok p /\ position_at s' v2 now = Ok p.
Proof.
  intros E s0 now0 tr s evt step u s' e R0 U0 T0 RE He H now v1 v2 Ne L1 L2 A1 A2 W1 W2 F p P1 P2.
  destruct (run_tracks E _ _ _ _ _ _ R0 U0 T0 RE) as [U T].
  destruct (steps_base _ _ _ _ _ _ R0 RE) as [R _].
  destruct (edge_node E evt step s u s' e He R U H Ne L1 L2 A1 A2 W1 W2) as (n & -> & _ & _ & C3 & _ & C5).
  destruct (F v1 (or_introl eq_refl)) as (I1 & F1 & D1). destruct (F v2 (or_intror eq_refl)) as (I2 & F2 & D2).
  assert (C : sn_pos (ns s' (nn s)) = p).
  { apply C5; auto.
    - apply tracks_left; auto.
    - apply tracks_right; auto. }
  split; [exact C|]. split. { unfold now. rewrite C3, C. reflexivity. }
  destruct (edge_head _ _ _ _ _ _ He R H) as (pos & n & s1 & info & int & s2 & Hp & Hs & Hk & F' & _).
  clear H. destruct (stop_follows _ _ _ _ _ _ _ Hs) as (G1 & _).
  apply newv_spec in Hk. destruct Hk as (kv & Hk & _ & ->).
  assert (K : forall v, (v < nv s)%nat -> k_inf (vs s v) = false -> k_inf_fast (vs s v) = false ->
    position_at s' v now = position_at s v now).
  { intros v Lv I Fa. pose proof (fo_motion _ _ G1 v Lv) as M1. pose proof (fo_nv _ _ G1) as N1.
    assert (M2 : same_motion (vs s1 v) (vs s' v)).
    { assert (Lv' : (v < nv s1)%nat) by lia. pose proof (fo_motion _ _ F' v) as M. cbn [nv vs] in M.
      rewrite upd_other in M by lia. apply M. cbn. lia. }
    destruct M1, M2. unfold position_at.
    rewrite sm_inf0, sm_inf, sm_fast0, sm_fast, sm_origin0, sm_origin, sm_velocity0, sm_velocity, I, Fa. reflexivity. }
  rewrite !K; auto.
Qed.
Print Assumptions C40_joined.

(** *** a case over the reals: the corner (3/4,0) (0,1) cut off the lines x = 0, y = 0;
    the side between the two collapses at time 3/2 at (3/2,3/2) *)
Definition cutR : state :=
  mkSt (fun i => match i with
                 | 0%nat => mkKV false (3/4, 0) (1/2, 1) [(0, None, Some 1%nat)] [(0, None, Some 2%nat)]
                              (Some 0) None (Some 0%nat) None (Some 1%nat) (Some 2%nat) (Some 1%nat) (Some 2%nat) 0 false true
                 | 1%nat => mkKV false (0, 1) (1, 1/3) [(0, None, Some 2%nat)] [(0, None, Some 0%nat)]
                              (Some 0) None (Some 1%nat) None (Some 0%nat) (Some 1%nat) (Some 0%nat) (Some 1%nat) 0 false true
                 | _ => mkKV false (9, 9) (-1, -1) [(0, None, Some 0%nat)] [(0, None, Some 1%nat)]
                              (Some 0) None (Some 0%nat) None (Some 3%nat) (Some 4%nat) (Some 2%nat) (Some 0%nat) 0 false true
                 end) 3
    (fun _ => mkTri (mk3 2 1 0)%nat (mk3 None None None) None 0 None true) 1
    (fun i => match i with 0%nat => ndR (3/4) 0 | _ => ndR 0 1 end) 2
    (fun _ => mkEv (3/2) 0%nat [S0] Edge 1) 1
    (fun i => match i with
              | 0%nat => wfR 1 0 0 | 1%nat => wfR (4/5) (3/5) (-(3/5)) | 2%nat => wfR 0 1 0
              | 3%nat => wfR (-1) 0 9 | _ => wfR 0 (-1) 9 end)
    [0; 1]%nat [0; 1; 2]%nat [0]%nat [] [].
Definition cut_evt : event := mkEv (3/2 : R) 0%nat [S0] Edge 1.

Lemma bind_step {X Y} (m : M X) (f : X -> M Y) s x s1 : m s = Ok (x, s1) -> bind m f s = f x s1.
Proof. intros H. unfold bind. rewrite H. reflexivity. Qed.
Lemma not_nz (x : R) : 1 <= x * x -> near_zero x = false.
Proof.
  intros H. apply near_zero_false_R. destruct (Rcase_abs x); [rewrite Rabs_left|rewrite Rabs_right]; nra.
Qed.
Lemma cut_intersection (b c : R) : intersection (mkLine (1, 0) b) (mkLine (0, 1) c) = Ok (POINT (-b, -c)).
Proof.
  apply intersection_point. unfold det, on, eval. cbn [lw lb fst snd].
  replace (1 * 1 - 0 * 0) with 1 by lra. rewrite Rabs_R1. cbn; repeat split; lra.
Qed.
Lemma cut_velocity (now : R) node :
  new_velocity (mkLine (1, 0) 0) (mkLine (0, 1) 0) now node = Ok ((1, 1), Some (0, 0)).
Proof.
  unfold new_velocity. cbn [lw].
  rewrite angle_unit_R by (unfold is_unit, dotp; cbn [fst snd]; lra). cbn [rbind].
  unfold dotp. cbn [fst snd]. replace (1 * 0 + 0 * 1) with 0 by lra. rewrite acos_0.
  assert (Z1 : near_zero2 (A:=RA) (add2 (1, 0) (0, 1)) = false).
  { unfold near_zero2, add2. cbn [fst snd]. ra_simp. rewrite (not_nz (1 + 0)) by lra. reflexivity. }
  pose proof PI_RGT_0 as P. pose proof PI2_3_2 as P'.
  assert (Z2 : near_zero (A:=RA) (PI / 2 - PI)%R = false).
  { apply not_nz. replace (PI / 2 - PI) with (- (PI / 2)) by lra. nra. }
  assert (Z3 : nltb (Arith:=RA) 0 (ncos (nradians (lit (179999999 # 1000000)))) = false).
  { unfold nradians. ra_simp. apply Rltb_false. apply cos_le_0; unfold Q2R; cbn [Qnum Qden]; lra. }
  ra_simp. rewrite Z1, Z2, Z3. cbn [orb].
  rewrite cut_intersection. cbn [rbind]. rewrite !translated_unit by (unfold unit_line; cbn; lra). cbn [rbind lw lb].
  rewrite cut_intersection. cbn [rbind]. unfold sub2. cbn [fst snd]. ra_simp. qlit. 
  f_equal. f_equal; [apply f_equal2; lra|]. f_equal. apply f_equal2; lra.
Qed.
Lemma cut_new s (now : R) n info int : wf_line (wfs s 0%nat) = mkLine (1, 0) 0 -> wf_line (wfs s 2%nat) = mkLine (0, 1) 0 ->
  compute_new_kvertex (Some 0%nat) (Some 2%nat) now n info int s =
  alloc_v (mkKV false (0, 0) (1, 1) [] [] (Some now) None (Some n) None
              (Some 0%nat) (Some 2%nat) None None info false int) s.
Proof.
  intros E1 E2. unfold compute_new_kvertex, bind, rd, new_kvertex. rewrite E1, E2, cut_velocity. cbn [rbind].
  rewrite norm_2_R. cbn [rbind].
  replace (pt_eqb (A:=RA) (1, 1) _) with false; [reflexivity|].
  symmetry. unfold pt_eqb. ra_simp. qlit. cbn [fst snd].
  replace (Reqb 1 0) with false by (symmetry; apply Reqb_false; lra). reflexivity.
Qed.

Lemma cut_runs (E : Env RA) : exists s', handle_edge_event cut_evt 0 cutR = Ok (tt, s').
Proof.
  assert (Z : near_zero (A:=RA) (nsub (Arith:=RA) 0 (3/2)) = false) by (apply not_nz; ra_simp; nra).
  assert (Q : neqb (Arith:=RA) (3/2) (3/2) = true) by (apply Reqb_true; reflexivity).
  assert (Pos : get_intersection_at_t (mkLine (1, 0) 0) (mkLine (0, 1) 0) (3/2) = Ok (3/2, 3/2)).
  { apply get_intersection_at_t_R; [unfold unit_line; cbn; lra|unfold unit_line; cbn; lra|].
    rewrite !signed_distance_R. unfold det, eval. cbn [lw lb fst snd].
    replace (1 * 1 - 0 * 0) with 1 by lra. rewrite Rabs_R1. repeat split; lra. }
  destruct (get_bisector_R (mkLine (1, 0) 0) (mkLine (0, 1) 0)) as (b & B & _).
  { unfold unit_line; cbn; lra. } { unfold unit_line; cbn; lra. }
  { unfold det. cbn [lw lb fst snd]. replace (1 * 1 - 0 * 0) with 1 by lra. rewrite Rabs_R1. lra. }
  unfold handle_edge_event, handle_edge_event_with. cbn [ev_side ev_tri ev_time cut_evt].
  erewrite bind_step; [|reflexivity].
  erewrite bind_step; [|reflexivity].
  erewrite bind_step; [|reflexivity].
  erewrite bind_step; [|reflexivity].
  erewrite bind_step.
  2:{ unfold wf_bisector. erewrite bind_step; [|reflexivity]. erewrite bind_step; [|reflexivity].
      unfold rdr, rd. cbn -[get_bisector Rdiv]. rewrite B. reflexivity. }
  erewrite bind_step.
  2:{ unfold wf_intersection_at. erewrite bind_step; [|reflexivity]. erewrite bind_step; [|reflexivity].
      cbn -[get_intersection_at_t Rdiv]. rewrite Pos. reflexivity. }
  erewrite bind_step.
  2:{ do 4 (cbv -[near_zero Rdiv RA nsub neqb IZR]; rewrite ?Z, ?Q).
      cbv -[near_zero Rdiv RA nsub neqb IZR]. reflexivity. }
  erewrite bind_step; [|reflexivity].
  erewrite bind_step; [|reflexivity].
  erewrite bind_step; [|reflexivity].
  erewrite bind_step.
  2:{ cbn -[compute_new_kvertex Rdiv]. rewrite cut_new by reflexivity. reflexivity. }
  eexists. cbv -[Rdiv Rinv Rplus Rminus Rmult Reqb IZR]. reflexivity.
Qed.
Example C40_cut : forall (E : Env RA),
  registered cutR /\ units cutR /\ (forall v, (v < nv cutR)%nat -> tracks cutR v) /\
  exists s', handle_edge_event cut_evt 0 cutR = Ok (tt, s') /\
    sn_pos (ns s' 2%nat) = (3/2, 3/2) /\ position_at s' 3 (3/2) = Ok (3/2, 3/2) /\
    position_at s' 1 (3/2) = Ok (3/2, 3/2) /\ position_at s' 0 (3/2) = Ok (3/2, 3/2).
Proof.
  intros E.
  assert (R0 : registered cutR).
  { constructor.
    - intros v n H. destruct v as [|[|v]]; cbn in H; injection H as <-; cbn; auto.
    - intros v n H. destruct v as [|[|v]]; cbn in H; discriminate H.
    - intros n H. cbn in *. destruct H as [<-|[<-|[]]]; lia.
    - intros n H. cbn in *. destruct H as [<-|[<-|[<-|[]]]]; lia. }
  assert (U : units cutR).
  { intros w. unfold unit_line. destruct w as [|[|[|[|w]]]]; cbn; lra. }
  assert (T : forall v, (v < nv cutR)%nat -> tracks cutR v).
  { intros v Hv I F l r Hl Hr D t p P. cbn in Hv. unfold on_both, eval.
    destruct v as [|[|[|v]]]; [| | |lia]; cbn in Hl, Hr; injection Hl as <-; injection Hr as <-;
      cbn in P; injection P as <-; cbn; lra. }
  split; [exact R0|]. split; [exact U|]. split; [exact T|].
  destruct (cut_runs E) as [s' H]. exists s'. split; [exact H|].
  assert (A : forall v, (v < 3)%nat -> running cutR (3/2) v).
  { intros v Hv. split.
    - destruct v as [|[|v]]; reflexivity.
    - intros a Ha. assert (a = 0) as -> by (destruct v as [|[|v]]; cbn in Ha; injection Ha as <-; reflexivity).
      rewrite Rabs_left; lra. }
  apply (C40_joined E cutR n0 [] cutR cut_evt 0 tt s' S0 R0 U T).
  - constructor.
  - reflexivity.
  - exact H.
  - cbn. lia.
  - cbn. lia.
  - cbn. lia.
  - apply A. cbn. lia.
  - apply A. cbn. lia.
  - reflexivity.
  - reflexivity.
  - intros v [-> | ->]; cbn; (split; [reflexivity|]; split; [reflexivity|]).
    + exists 0%nat, 1%nat. split; [reflexivity|]. split; [reflexivity|]. unfold det. cbn. rewrite Rabs_right; lra.
    + exists 1%nat, 2%nat. split; [reflexivity|]. split; [reflexivity|]. unfold det. cbn. rewrite Rabs_right; lra.
  - cbn. f_equal. apply f_equal2; lra.
  - cbn. f_equal. apply f_equal2; lra.
Qed.

(** and in a run over the rationals: the edge event of [quad] at time 3/2 makes node 4
    and vertex 4, where vertices 0 and 3 end *)
Definition at_node (s : state (A:=QA)) (v n : nat) (t : Q) : bool :=
  match position_at s v t with
  | Ok p => Qeq_bool (fst p) (fst (sn_pos (ns s n))) && Qeq_bool (snd p) (snd (sn_pos (ns s n)))
  | Err _ => false
  end.
Definition quad_joined (now : Q) (tr : list (handled (A:=QA))) (s : state (A:=QA)) : bool :=
  Qeq_bool now (3#2) && Nat.eqb (nn s) 5 && Nat.eqb (nv s) 5 &&
  forallb (fun v => at_node s v 4 now) [0; 3; 4]%nat &&
  forallb (fun v => match k_stop_node (vs s v) with Some n => Nat.eqb n 4 | None => false end) [0; 3]%nat.
Example C40_quad : exists s0 now tr s', started quad s0 /\ reach s0 now tr s' /\ length tr = 1%nat /\
  quad_joined now tr s' = true.
Proof. apply (example_k 1 quad quad_joined). vm_compute. reflexivity. Qed.
