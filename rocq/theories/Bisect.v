(** Vertices move on the bisector of their support lines; where nodes are put
    (exact real arithmetic) *)
From Coq Require Import Reals Lra Psatz.
From Verif Require Import Base Arith ArithR Calc CalcProofs VectorOps Line2d Line2dProofs Primitives Collapse
  EventsLib FlipEvent ParallelEvent EdgeEvent SplitEvent EventLoop Pass OpSpec StopSpec RunBase RunTimed RunLoop EdgeHead.
Local Open Scope R_scope.
Local Existing Instance RA.

(** ** Specification *)

(** every wavefront line has a unit normal *)
Definition units (s : state) : Prop := forall w, unit_line (wf_line (wfs s w)).

(** [p] is where the two lines have arrived at time [t] *)
Definition on_both (L K : line2) (t : R) (p : R * R) : Prop := eval L p = t /\ eval K p = t.

(** a vertex of finite speed with not nearly parallel support lines is at every
    time on both of them *)
Definition tracks (s : state) (v : nat) : Prop :=
  k_inf (vs s v) = false -> k_inf_fast (vs s v) = false ->
  forall l r, k_ul (vs s v) = Some l -> k_ur (vs s v) = Some r ->
  Rabs (det (wf_line (wfs s l)) (wf_line (wfs s r))) > / 10^10 ->
  forall (t : R) p, position_at s v t = Ok p -> on_both (wf_line (wfs s l)) (wf_line (wfs s r)) t p.

(** ** The new vertex *)
Lemma on_both_move L K (o v : R * R) :
  on L o -> on K o -> fst (lw L) * fst v + snd (lw L) * snd v = 1 -> fst (lw K) * fst v + snd (lw K) * snd v = 1 ->
  forall t : R, on_both L K t (fst o + t * fst v, snd o + t * snd v).
Proof.
  unfold on_both, on, eval. cbn [fst snd]. intros H1 H2 H3 H4 t.
  assert (J1 := f_equal (fun z => t * z) H3). assert (J2 := f_equal (fun z => t * z) H4). cbv beta in *.
  ra_simp. split; lra.
Qed.

Lemma on_both_unique L K t p q : det L K <> 0 -> on_both L K t p -> on_both L K t q -> p = q.
Proof.
  intros D [H1 H2] [H3 H4].
  apply (intersection_unique (mkLine (lw L) (lb L - t)) (mkLine (lw K) (lb K - t))); [exact D| | | |];
    unfold on, eval in *; cbn [lw lb] in *; ra_simp; lra.
Qed.

(** not nearly parallel lines: the point case *)
Lemma new_velocity_point L K (now : R) node vel o :
  unit_line L -> unit_line K -> Rabs (det L K) > / 10^10 ->
  new_velocity L K now node = Ok (vel, o) ->
  (vel = (0, 0) /\ o = None) \/
  exists p, o = Some p /\ on L p /\ on K p /\
    fst (lw L) * fst vel + snd (lw L) * snd vel = 1 /\ fst (lw K) * fst vel + snd (lw K) * snd vel = 1.
Proof.
  intros UL UK D H. unfold new_velocity in H. apply rbind_ok in H. destruct H as ([d a] & _ & H).
  cbv beta iota in H. destruct (_ || _).
  { injection H as <- <-. left. ra_simp. qlit. auto. }
  apply rbind_ok in H. destruct H as (i & Hi & H). rewrite intersection_R in Hi.
  destruct (Rltb _ _) eqn:C; [|rb2p; lra]. rewrite translated_unit in H by exact UL.
  rewrite translated_unit in H by exact UK.
  rewrite <- (intersection_R L K) in Hi || idtac.
  right. injection Hi as <-. cbn [rbind] in H.
  set (p := (_, _)) in H. 
  assert (P : intersection L K = Ok (POINT p)) by (rewrite intersection_R, C; reflexivity).
  apply intersection_point in P. destruct P as (_ & P1 & P2).
  apply rbind_ok in H. destruct H as (j & Hj & H). destruct j as [|q|]; [discriminate| |discriminate].
  apply intersection_point in Hj. destruct Hj as (_ & Q1 & Q2).
  injection H as <- <-. exists p. split; [reflexivity|]. split; [exact P1|]. split; [exact P2|].
  unfold unit_line, on, eval in *. cbn [lw lb fst snd] in *. unfold sub2. cbn [fst snd]. ra_simp.
  destruct p as [px py], q as [qx qy]. cbn [fst snd] in *. split; nra.
Qed.

Lemma new_tracks s ul ur (now : R) n info int kv l r :
  new_kvertex s ul ur now n info int = Ok kv -> ul = Some l -> ur = Some r ->
  unit_line (wf_line (wfs s l)) -> unit_line (wf_line (wfs s r)) ->
  Rabs (det (wf_line (wfs s l)) (wf_line (wfs s r))) > / 10^10 ->
  k_inf_fast kv = false ->
  forall t : R, on_both (wf_line (wfs s l)) (wf_line (wfs s r)) t
    (fst (k_origin kv) + t * fst (k_velocity kv), snd (k_origin kv) + t * snd (k_velocity kv)).
Proof.
  intros H -> -> UL UR D F. unfold new_kvertex in H.
  apply rbind_ok in H. destruct H as ([vel o] & Hv & H). cbv beta iota in H.
  apply rbind_ok in H. destruct H as (_ & _ & H). apply rbind_ok in H. destruct H as ([f og] & Hf & H).
  injection H as <-. cbn in F |- *. subst f.
  destruct (pt_eqb vel _) eqn:Z; [discriminate|].
  apply new_velocity_point in Hv; auto. destruct Hv as [[-> ->]|(p & -> & P1 & P2 & P3 & P4)].
  - unfold pt_eqb in Z. ra_simp. qlit. cbn in Z. unfold Reqb in Z. destruct (Req_EM_T 0 0); [discriminate|lra].
  - injection Hf as <-. apply on_both_move; auto.
Qed.

(** the case of (nearly) coinciding lines: the new vertex starts at the node *)
Lemma new_velocity_line L K (now : R) node vel o :
  intersection L K = Ok (LINE L) -> new_velocity L K now node = Ok (vel, o) ->
  (vel = (0, 0) /\ o = None) \/
  exists p, o = Some p /\ vel = lw L /\ (fst p + now * fst vel, snd p + now * snd vel) = node.
Proof.
  intros D H. unfold new_velocity in H. apply rbind_ok in H. destruct H as ([d a] & _ & H).
  cbv beta iota in H. destruct (_ || _).
  { injection H as <- <-. left. ra_simp. qlit. auto. }
  rewrite D in H. cbn [rbind] in H. injection H as <- <-. right. eexists. split; [reflexivity|]. split; [reflexivity|].
  unfold add2, mul2s. cbn [fst snd]. ra_simp. qlit. destruct node as [x y]. cbn [fst snd]. apply f_equal2; lra.
Qed.

(** ** C39: the invariant *)
Theorem run_tracks (E : Env RA) now0 tr0 s0 now tr s :
  registered s0 -> units s0 -> (forall v, (v < nv s0)%nat -> tracks s0 v) ->
  steps now0 tr0 s0 now tr s -> units s /\ forall v, (v < nv s)%nat -> tracks s v.
Proof.
  intros R0 U T H. destruct (steps_base _ _ _ _ _ _ R0 H) as [_ F]. pose proof (fo_wfs _ _ F) as W.
  split. { intros w. rewrite W. apply U. }
  intros v Hv. unfold tracks. rewrite W.
  destruct (Nat.lt_ge_cases v (nv s0)) as [L|L].
  - specialize (T v L). unfold tracks in T. pose proof (fo_motion _ _ F v L) as M. destruct M.
    rewrite sm_inf, sm_fast, sm_ul, sm_ur. intros I F' l r Hl Hr D t p P.
    apply (T I F' l r Hl Hr D t p). unfold position_at in *. rewrite sm_inf, sm_fast, sm_origin, sm_velocity, I, F' in P.
    rewrite I, F'. exact P.
  - destruct (fo_born _ _ F v) as (s1 & ul & ur & b & n & info & int & kv & K & W1 & M); [lia|]. destruct M.
    pose proof (new_kvertex_fields _ _ _ _ _ _ _ _ K) as (_ & _ & _ & _ & _ & Fl & Fr & _).
    intros I F' l r Hl Hr D t p P.
    assert (P' : p = (fst (k_origin kv) + t * fst (k_velocity kv), snd (k_origin kv) + t * snd (k_velocity kv))).
    { unfold position_at in P. rewrite I, F', sm_origin, sm_velocity in P. injection P as <-. reflexivity. }
    rewrite P', <- W1. eapply new_tracks; [exact K| | | | | |].
    + congruence.
    + congruence.
    + rewrite W1. apply U.
    + rewrite W1. apply U.
    + rewrite W1. exact D.
    + congruence.
Qed.

(** ** C40: the node made by an edge event *)

(** a vertex that is running and not just born at time [now]: stopping it makes
    a new node *)
Definition running (s : state) (now : R) (v : nat) : Prop :=
  k_stops (vs s v) = None /\ forall a : R, k_starts (vs s v) = Some a -> Rabs (a - now) > / 10^10.

(** at time [now] the vertex is on the line of its left (right) wavefront *)
Definition on_left (s : state) (now : R) (v : nat) (p : R * R) : Prop :=
  forall w, k_wfl (vs s v) = Some w -> eval (wf_line (wfs s w)) p = now.
Definition on_right (s : state) (now : R) (v : nat) (p : R * R) : Prop :=
  forall w, k_wfr (vs s v) = Some w -> eval (wf_line (wfs s w)) p = now.

Lemma running_anchored s (now : R) v : running s now v -> anchored now (vs s v) = false.
Proof.
  intros [H K]. unfold anchored. rewrite H. cbn [is_some orb]. destruct (k_starts (vs s v)) as [a|]; [|reflexivity].
  apply near_zero_false_R. ra_simp. specialize (K a eq_refl). lra.
Qed.

Section Edge.
  Context (E : Env RA).

  Lemma wf_intersection_ok (s : state) a b (now : R) o s' l r : units s -> a = Some l -> b = Some r ->
    wf_intersection_at a b now s = Ok (o, s') ->
    match o with
    | Some q => Rabs (det (wf_line (wfs s l)) (wf_line (wfs s r))) > / 10^10 /\
                on_both (wf_line (wfs s l)) (wf_line (wfs s r)) now q
    | None => Rabs (det (wf_line (wfs s l)) (wf_line (wfs s r))) <= / 10^10
    end.
  Proof.
    intros U -> -> H. unfold wf_intersection_at in H.
    apply bind_ok in H. destruct H as (L & s1 & H1 & H). injection H1 as <- <-.
    apply bind_ok in H. destruct H as (K & s1 & H1 & H). injection H1 as <- <-.
    destruct (get_intersection_at_t _ _ _) as [p|x] eqn:G.
    - injection H as <- <-. apply get_intersection_at_t_R in G; try apply U. rewrite !signed_distance_R in G. exact G.
    - destruct x; try discriminate H. injection H as <- <-. apply get_intersection_at_t_err in G; try apply U. exact G.
  Qed.

  Lemma wf_intersection_some (s : state) a b (now : R) o s' :
    wf_intersection_at a b now s = Ok (o, s') -> exists l r, a = Some l /\ b = Some r.
  Proof.
    intros H. unfold wf_intersection_at in H. destruct a as [l|], b as [r|]; try discriminate H. eauto.
  Qed.

  Lemma mean_two s v1 v2 (now : R) p q : mean_position s [v1; v2] now = Ok q ->
    position_at s v1 now = Ok p -> position_at s v2 now = Ok p -> q = p.
  Proof.
    unfold mean_position. intros H H1 H2. cbn [rmapl] in H. rewrite H1, H2 in H. cbn [rbind rmap map length fold_left] in H.
    assert (N : @nofnat RA 2 = 2) by exact q2.
    rewrite N in H. rewrite !pdiv_R in H by lra. cbn [rbind] in H. injection H as <-.
    destruct p as [x y]. cbn [fst snd]. ra_simp. qlit. apply f_equal2; field.
  Qed.
  (** where the new vertex is at its birth: at the node, if the node is where the
      two lines have arrived (when they are not nearly parallel) *)
  Lemma new_at_node s l r (now : R) n info int kv :
    new_kvertex s (Some l) (Some r) now n info int = Ok kv -> units s ->
    (Rabs (det (wf_line (wfs s l)) (wf_line (wfs s r))) > / 10^10 ->
       on_both (wf_line (wfs s l)) (wf_line (wfs s r)) now (sn_pos (ns s n))) ->
    k_inf_fast kv = false ->
    (fst (k_origin kv) + now * fst (k_velocity kv), snd (k_origin kv) + now * snd (k_velocity kv)) = sn_pos (ns s n).
  Proof.
    intros H U N F.
    destruct (Rlt_dec (/ 10^10) (Rabs (det (wf_line (wfs s l)) (wf_line (wfs s r))))) as [D|D].
    - specialize (N D). eapply on_both_unique; [|eapply new_tracks; eauto|exact N].
      intros K. rewrite K, Rabs_R0 in D. lra.
    - clear N. unfold new_kvertex in H.
      apply rbind_ok in H. destruct H as ([vel o] & Hv & H). cbv beta iota in H.
      apply rbind_ok in H. destruct H as (_ & _ & H). apply rbind_ok in H. destruct H as ([f og] & Hf & H).
      injection H as <-. cbn in F |- *. subst f.
      destruct (pt_eqb vel _) eqn:Z; [discriminate|].
      assert (NZ : vel = (0, 0) -> False).
      { intros ->. unfold pt_eqb in Z. ra_simp. qlit. cbn in Z. unfold Reqb in Z. destruct (Req_EM_T 0 0); [discriminate|lra]. }
      destruct (intersection_total (wf_line (wfs s l)) (wf_line (wfs s r))) as [i Hi].
      assert (C : i = LINE (wf_line (wfs s l)) \/ i = NO_INTERSECTION).
      { rewrite intersection_R in Hi. destruct (Rltb _ _) eqn:B; rb2p; [lra|].
        destruct (near_zero _ && near_zero _); injection Hi as <-; auto. }
      destruct C as [-> | ->].
      + destruct (new_velocity_line _ _ _ _ _ _ Hi Hv) as [[K _]|(p & -> & _ & K)]; [contradiction NZ|].
        injection Hf as <-. exact K.
      + exfalso. unfold new_velocity in Hv. apply rbind_ok in Hv. destruct Hv as ([d a] & _ & Hv).
        cbv beta iota in Hv. destruct (_ || _).
        * injection Hv as <- <-. apply NZ. ra_simp. qlit. reflexivity.
        * rewrite Hi in Hv. cbn [rbind] in Hv. injection Hv as <- <-. apply NZ. ra_simp. qlit. reflexivity.
  Qed.

  Theorem edge_node evt step s u s' e : ev_side evt = [e] -> registered s -> units s ->
    handle_edge_event evt step s = Ok (u, s') ->
    let now := ev_time evt in
    let v1 := get3 (t_v (ts s (ev_tri evt))) (ccw e) in
    let v2 := get3 (t_v (ts s (ev_tri evt))) (cw e) in
    v1 <> v2 -> (v1 < nv s)%nat -> (v2 < nv s)%nat -> running s now v1 -> running s now v2 ->
    k_wfl (vs s v1) = k_ul (vs s v1) -> k_wfr (vs s v2) = k_ur (vs s v2) ->
    exists n, n = nn s /\ In n (sk_nodes s') /\ k_start_node (vs s' (nv s)) = Some n /\
      position_at s' (nv s) now = Ok (sn_pos (ns s' n)) /\
      (k_inf_fast (vs s' (nv s)) = false ->
         k_stop_node (vs s' v1) = Some n /\ k_stop_node (vs s' v2) = Some n) /\
      (forall p, position_at s v1 now = Ok p -> position_at s v2 now = Ok p ->
         on_left s now v1 p -> on_right s now v2 p -> sn_pos (ns s' n) = p).
  Proof.
    intros He R U H now v1 v2 Ne Lv1 Lv2 A1 A2 W1 W2.
    destruct (edge_head _ _ _ _ _ _ He R H) as (pos & n & s1 & info & int & s2 & Hp & Hs & Hk & F & St).
    fold now v1 v2 in Hp, Hs, Hk. clear H.
    pose proof (stop_follows _ _ _ _ _ _ _ Hs) as (F1 & R1). destruct (R1 R) as [R1' In1].
    destruct (wf_intersection_some _ _ _ _ _ _ Hp) as (l & r & El & Er).
    pose proof (wf_intersection_ok _ _ _ _ _ _ l r U El Er Hp) as Hq.
    apply stop_and_register_spec in Hs. destruct Hs as (new & s0 & Hs & Es1).
    apply stop_kvertices_spec in Hs. destruct Hs as (_ & An & Hs).
    assert (Nd : NoDup [v1; v2]).
    { constructor; [intros [K|[]]; auto|]. constructor; [intros []|constructor]. }
    specialize (An Nd). unfold last_anchor in An. cbn [fold_left] in An.
    rewrite (running_anchored _ _ _ A1), (running_anchored _ _ _ A2) in An.
    destruct new; [|discriminate]. destruct Hs as (-> & q & f & -> & Ff & _ & Hpos).
    assert (Sn : sn_pos (ns s1 (nn s)) = q) by (subst s1; cbn; rewrite upd_same; reflexivity).
    assert (Wf : wfs s1 = wfs s) by (subst s1; reflexivity).
    assert (In1v : In v1 [v1; v2]) by (simpl; auto). assert (In2v : In v2 [v1; v2]) by (simpl; auto).
    assert (V1 : vs s1 v1 = kv_stop_node (kv_stops (vs s v1) (Some now)) (Some (nn s))).
    { subst s1. cbn [vs with_vn]. rewrite Ff, (proj2 (mem_In _ _) In1v). unfold scanned.
      rewrite (proj2 (mem_In _ _) In1v), (running_anchored _ _ _ A1). reflexivity. }
    assert (V2 : vs s1 v2 = kv_stop_node (kv_stops (vs s v2) (Some now)) (Some (nn s))).
    { subst s1. cbn [vs with_vn]. rewrite Ff, (proj2 (mem_In _ _) In2v). unfold scanned.
      rewrite (proj2 (mem_In _ _) In2v), (running_anchored _ _ _ A2). reflexivity. }
    assert (Nv : nv s1 = nv s) by (subst s1; reflexivity).
    assert (Nn : nn s1 = S (nn s)) by (subst s1; reflexivity).
    clear Es1.
    apply newv_spec in Hk. destruct Hk as (kv & Hk & Ekv & Es2).
    rewrite V1, V2 in Hk. cbn [k_ul k_ur kv_stop_node kv_stops] in Hk. rewrite <- W1, <- W2, El, Er in Hk.
    assert (Ns2 : ns s2 (nn s) = ns s1 (nn s)) by (subst s2; reflexivity).
    assert (Kv2 : vs s2 (nv s) = kv) by (subst s2; cbn; rewrite <- Ekv, upd_same; reflexivity).
    assert (Lv : (nv s < nv s2)%nat) by (subst s2; cbn; lia).
    assert (Ln : (nn s < nn s2)%nat) by (subst s2; cbn; lia).
    pose proof (fo_motion _ _ F _ Lv) as M. rewrite Kv2 in M. pose proof (fo_ns _ _ F _ Ln) as Ns'.
    rewrite Ns2 in Ns'. 
    assert (Ns'' : ns s' (nn s) = ns s1 (nn s)) by exact Ns'.
    pose proof (new_kvertex_fields _ _ _ _ _ _ _ _ Hk) as (Ki & _ & _ & Kn & _).
    exists (nn s). split; [reflexivity|]. split.
    { destruct (fo_nodes _ _ F) as [l' ->]. apply in_or_app. left. subst s2. cbn. exact In1. }
    split. { rewrite (sm_start_node _ _ M). exact Kn. }
    assert (Bo : Rabs (det (wf_line (wfs s l)) (wf_line (wfs s r))) > / 10^10 ->
                 on_both (wf_line (wfs s l)) (wf_line (wfs s r)) now q).
    { intros D. destruct pos as [q'|]; [subst q'; apply Hq|]. lra. }
    split.
    { unfold position_at. rewrite (sm_inf _ _ M), (sm_fast _ _ M), (sm_origin _ _ M), (sm_velocity _ _ M), (sm_start_node _ _ M), Ki, Kn.
      destruct (k_inf_fast kv) eqn:Fk; [reflexivity|]. f_equal. rewrite Ns''.
      eapply new_at_node; [exact Hk| | |exact Fk].
      - intros w. rewrite Wf. apply U.
      - rewrite Wf, Sn. exact Bo. }
    split.
    { intros NF. rewrite !(St NF). subst s2. cbn [vs].
      assert (L1 : forall v, v = v1 \/ v = v2 -> k_stop_node (upd (vs s1) (nv s1) kv v) = Some (nn s)).
      { intros v Hv. destruct (upd_case (vs s1) (nv s1) kv v) as [[Ev Eu]|[_ Eu]]; rewrite Eu.
        - exfalso. rewrite Nv in Ev. destruct Hv; subst v; lia.
        - destruct Hv; subst v; [rewrite V1|rewrite V2]; reflexivity. }
      split; apply L1; auto. }
    intros p P1 P2 O1 O2. rewrite Ns'', Sn.
    destruct pos as [q'|].
    - subst q'. destruct Hq as [D B]. eapply on_both_unique; [|exact B|].
      + intros K. rewrite K, Rabs_R0 in D. lra.
      + split; [apply O1, El|apply O2, Er].
    - destruct Hpos as (f' & Hf' & Hm). eapply mean_two; [exact Hm| |].
      + unfold position_at in *. cbn [vs with_vs]. rewrite Hf'. unfold scanned.
        rewrite (proj2 (mem_In _ _) In1v), (running_anchored _ _ _ A1). exact P1.
      + unfold position_at in *. cbn [vs with_vs]. rewrite Hf'. unfold scanned.
        rewrite (proj2 (mem_In _ _) In2v), (running_anchored _ _ _ A2). exact P2.
  Qed.
End Edge.

(** a tracking vertex is on the lines of its wavefronts if these are its support lines *)
Lemma tracks_left s v (now : R) p : tracks s v -> k_inf (vs s v) = false -> k_inf_fast (vs s v) = false ->
  k_wfl (vs s v) = k_ul (vs s v) ->
  (exists l r, k_ul (vs s v) = Some l /\ k_ur (vs s v) = Some r /\
     Rabs (det (wf_line (wfs s l)) (wf_line (wfs s r))) > / 10^10) ->
  position_at s v now = Ok p -> on_left s now v p.
Proof.
  intros T I F W (l & r & Hl & Hr & D) P w Hw. rewrite W, Hl in Hw. injection Hw as <-.
  apply (T I F l r Hl Hr D now p P).
Qed.
Lemma tracks_right s v (now : R) p : tracks s v -> k_inf (vs s v) = false -> k_inf_fast (vs s v) = false ->
  k_wfr (vs s v) = k_ur (vs s v) ->
  (exists l r, k_ul (vs s v) = Some l /\ k_ur (vs s v) = Some r /\
     Rabs (det (wf_line (wfs s l)) (wf_line (wfs s r))) > / 10^10) ->
  position_at s v now = Ok p -> on_right s now v p.
Proof.
  intros T I F W (l & r & Hl & Hr & D) P w Hw. rewrite W, Hr in Hw. injection Hw as <-.
  apply (T I F l r Hl Hr D now p P).
Qed.
