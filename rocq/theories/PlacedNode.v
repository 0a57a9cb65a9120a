(** Where the node is in which an event ends vertices (exact reals) *)
From Coq Require Import Reals Lra.
From Verif Require Import Base Arith ArithR Calc CalcProofs VectorOps Line2d Line2dProofs Primitives Collapse CollapseProofs CollapseR
  EventsLib FlipEvent ParallelEvent EdgeEvent SplitEvent EventLoop Pass OpSpec StopSpec VectorOpsProofs RunBase RunTimed RunLoop
  EdgeHead Bisect EventGeom Mesh MeshEvents Decent Total FanProofs TotalRun Rings RingSpec RingGone Effects.
Local Close Scope Q_scope.
Local Open Scope nat_scope.

Section Heads.
  Context {A : Arith} {E : Env A}.
  Local Open Scope M_scope.
  Ltac peel H n s1 H1 := apply bind_ok in H; destruct H as (n & s1 & H1 & H).
  Ltac lift := match goal with
    | K : follows ?s ?s' |- _ =>
        repeat match goal with
        | R : In ?n (sk_nodes s) |- _ =>
            lazymatch goal with
            | _ : In n (sk_nodes s') |- _ => fail
            | _ => pose proof (G_reg base_sound _ _ _ K R)
            end
        | R : ?v < nv s |- _ =>
            lazymatch goal with
            | _ : v < nv s' |- _ => fail
            | _ => pose proof (Nat.lt_le_trans _ _ _ R (G_nv base_sound _ _ K))
            end
        end; clear K
    end.
  Ltac kstep := lazymatch goal with
    | |- kp _ _ (bind _ _) _ => first
      [ apply kp_bind_ro; [solve [auto with ro]|let x := fresh "x" in let K := fresh "K" in intros x K; clear K]
      | apply (kp_bind_newv base_sound); [assumption|assumption|assumption|intros; lift]
      | apply (kp_bind_addv base_sound); [assumption|assumption|assumption|intros; lift]
      | apply (kp_bind base_sound); [assumption|assumption|
          first [apply (keeps_wf base_sound)|apply (keeps_circ base_sound)|apply (keeps_tstops base_sound)
                |apply (keeps_relink base_sound)|apply (keeps_replace_kvertex base_sound)]
          |intros; lift] ]
    end.

  Lemma split_stop evt step s u s' e : ev_side evt = [e] -> registered s -> handle_split_event evt step s = Ok (u, s') ->
    exists n s1 ul ur info int s2, stop_and_register [get3 (t_v (ts s (ev_tri evt))) e] step (ev_time evt) None s = Ok (n, s1) /\
      compute_new_kvertex ul ur (ev_time evt) n info int s1 = Ok (nv s, s2) /\ follows s2 s'.
  Proof.
    intros He R H. unfold handle_split_event, handle_split_event_with in H. rewrite He in H. cbv zeta in H.
    set (now := ev_time evt) in *.
    peel H x s0 H0. injection H0 as <- <-.
    peel H y0 s0 H0. apply ro_assertM in H0. subst s0.
    peel H y1 s0 H0. assert (s0 = s) as -> by (revert H0; apply ro_split_precheck). clear H0.
    peel H n s1 Hstop.
    pose proof (stop_follows _ _ _ _ _ _ _ Hstop) as (F1 & R1). destruct (R1 R) as [R1' In1].
    peel H k s0 H0. injection H0 as <- <-.
    peel H k1 s0 H0. injection H0 as <- <-.
    peel H k2 s0 H0. injection H0 as <- <-.
    peel H y2 s0 H0. apply ro_assertM in H0. subst s0.
    peel H lenx s0 H0. injection H0 as <- <-.
    peel H vb s2 Hnew.
    pose proof (newv_follows _ _ _ _ _ _ _ _ _ Hnew In1) as (F2 & R2 & Kv). specialize (R2 R1').
    assert (In2 : In n (sk_nodes s2)) by (apply (G_reg base_sound _ _ _ F2 In1)).
    exists n, s1. do 4 eexists. exists s2. split; [exact Hstop|].
    assert (EV : vb = nv s).
    { apply new_starts in Hnew. apply stop_ends in Hstop. destruct Hnew as (-> & _). apply Hstop. }
    split; [rewrite EV in Hnew; exact Hnew|].
    pose proof (follows_refl s2) as F0. clear Hstop Hnew F1 R1 F2 In1.
    refine (proj2 (_ : registered s' /\ follows s2 s')).
    revert u s' H.
    match goal with |- forall u s', ?m s2 = Ok (u, s') -> _ => change (kp (I := fun _ => registered) (G := follows) now s2 m s2) end.
    repeat kstep.
    destruct (get3 (t_n _) (ccw e)) as [b|]; [|apply (kp_ro); auto with ro]. repeat kstep.
    destruct (get3 (t_n _) (cw e)) as [a|]; [|apply kp_ro; auto with ro]. repeat kstep.
    apply (kp_bind base_sound); auto; [apply (keeps_whenM base_sound), (keeps_parallel_fan base_sound)|intros]. repeat kstep.
    apply (kp_intro base_sound); auto; apply (keeps_whenM base_sound), (keeps_parallel_fan base_sound).
  Qed.

  Lemma three_stop evt step s u s' : registered s -> handle_edge_event_3sides evt step s = Ok (u, s') ->
    exists n s1, stop_and_register (list3 (t_v (ts s (ev_tri evt)))) step (ev_time evt) None s = Ok (n, s1) /\ follows s1 s' /\
      vs s' = vs s1.
  Proof.
    intros R H. unfold handle_edge_event_3sides in H. cbv zeta in H.
    peel H y0 s0 H0. apply ro_assertM in H0. subst s0.
    peel H x s0 H0. injection H0 as <- <-.
    peel H n s1 Hstop. exists n, s1. split; [exact Hstop|].
    pose proof (stop_follows _ _ _ _ _ _ _ Hstop) as (F1 & R1). destruct (R1 R) as [R1' In1].
    peel H y s2 H1.
    destruct (keeps_forM base_sound (ev_time evt) sides (schedule_neighbour (ev_tri evt) (ev_time evt))
                (fun sd => keeps_schedule_neighbour base_sound _ _ sd) s1 R1' _ _ H1) as [R2 F2].
    destruct (keeps_tstops base_sound (ev_time evt) (ev_tri evt) s2 R2 _ _ H) as [_ F3].
    split; [eapply follows_trans; eauto|].
    apply keepv_tstops in H. unfold sides in H1. cbn [forM] in H1.
    peel H1 z0 s3 H3. peel H1 z1 s4 H4. peel H1 z2 s5 H5. apply ret_ok in H1. destruct H1 as [_ ->].
    apply keepv_neighbour in H3, H4, H5. destruct H3, H4, H5, H. congruence.
  Qed.
End Heads.

Local Existing Instance RA.
Local Open Scope R_scope.

(** running vertices are stopped in a new node: where it is said to be, or in the middle of them *)
Lemma stop_place V step (now : R) pos s n s1 : NoDup V -> (forall v, In v V -> running s now v) ->
  stop_and_register V step now pos s = Ok (n, s1) ->
  n = nn s /\ nn s1 = S (nn s) /\
  match pos with Some q => sn_pos (ns s1 n) = q | None => mean_position s V now = Ok (sn_pos (ns s1 n)) end.
Proof.
  intros ND RU H. apply stop_and_register_spec in H. destruct H as (new & s0 & H & Es1).
  apply stop_kvertices_spec in H. destruct H as (_ & An & H). specialize (An ND).
  assert (NA : forall W acc, (forall v, In v W -> In v V) -> last_anchor now s W acc = acc).
  { induction W as [|v W IH]; intros acc HW; [reflexivity|]. unfold last_anchor in *. cbn [fold_left].
    rewrite (running_anchored s now v) by (apply RU, HW; left; reflexivity). apply IH. intros w Hw. apply HW. right. exact Hw. }
  rewrite NA in An by auto. destruct new; [|discriminate].
  destruct H as (-> & q & f & -> & _ & _ & Hpos). subst s1. split; [reflexivity|]. split; [reflexivity|].
  cbn [ns with_vn nn]. rewrite upd_same. cbn [sn_pos]. destruct pos as [q'|]; [exact Hpos|].
  destruct Hpos as (f' & Hf' & Hm). rewrite <- Hm. unfold mean_position.
  assert (Q : forall W, rmapl (fun v => position_at s v now) W = rmapl (fun v => position_at (with_vs s f') v now) W).
  { induction W as [|v W IH]; [reflexivity|]. cbn [rmapl]. rewrite IH. f_equal.
    unfold position_at. cbn [vs with_vs ns]. rewrite Hf'. unfold scanned. destruct (mem _ _ _); [|reflexivity].
    destruct (negb _); reflexivity. }
  rewrite Q. reflexivity.
Qed.

Lemma mean_one s v (now : R) p q : mean_position s [v] now = Ok q -> position_at s v now = Ok p -> q = p.
Proof.
  unfold mean_position. intros H H1. cbn [rmapl] in H. rewrite H1 in H. cbn [rbind rmap map length fold_left] in H.
  assert (N : @nofnat RA 1 = 1) by exact q1.
  rewrite N in H. rewrite !pdiv_R in H by lra. cbn [rbind] in H. injection H as <-.
  destruct p as [x y]. cbn [fst snd]. ra_simp. qlit. apply f_equal2; field.
Qed.
Lemma mean_mid s v1 v2 (now : R) p1 p2 q : mean_position s [v1; v2] now = Ok q ->
  position_at s v1 now = Ok p1 -> position_at s v2 now = Ok p2 ->
  q = ((fst p1 + fst p2) / 2, (snd p1 + snd p2) / 2).
Proof.
  unfold mean_position. intros H H1 H2. cbn [rmapl] in H. rewrite H1, H2 in H. cbn [rbind rmap map length fold_left] in H.
  assert (N : @nofnat RA 2 = 2) by exact q2.
  rewrite N in H. rewrite !pdiv_R in H by lra. cbn [rbind] in H. injection H as <-.
  destruct p1 as [x y], p2 as [z w]. cbn [fst snd]. ra_simp. qlit. apply f_equal2; field.
Qed.
Lemma mean_three s v1 v2 v3 (now : R) p q : mean_position s [v1; v2; v3] now = Ok q ->
  position_at s v1 now = Ok p -> position_at s v2 now = Ok p -> position_at s v3 now = Ok p -> q = p.
Proof.
  unfold mean_position. intros H H1 H2 H3. cbn [rmapl] in H. rewrite H1, H2, H3 in H. cbn [rbind rmap map length fold_left] in H.
  assert (N : @nofnat RA 3 = 3) by (change (Q2R 3 = 3); unfold Q2R; cbn; lra).
  rewrite N in H. rewrite !pdiv_R in H by lra. cbn [rbind] in H. injection H as <-.
  destruct p as [x y]. cbn [fst snd]. ra_simp. qlit. apply f_equal2; field.
Qed.

(** ** The place of the node *)
(** edge event: where the outer fronts have come, or in the middle if these are nearly parallel *)
Theorem edge_place (E : Env RA) evt step s u s' e : ev_side evt = [e] -> registered s -> units s ->
  handle_edge_event evt step s = Ok (u, s') ->
  let now := ev_time evt in
  let v1 := get3 (t_v (ts s (ev_tri evt))) (ccw e) in
  let v2 := get3 (t_v (ts s (ev_tri evt))) (cw e) in
  v1 <> v2 -> running s now v1 -> running s now v2 ->
  exists l r, k_wfl (vs s v1) = Some l /\ k_wfr (vs s v2) = Some r /\ k_start_node (vs s' (nv s)) = Some (nn s) /\
    let q := sn_pos (ns s' (nn s)) in
    (Rabs (det (wf_line (wfs s l)) (wf_line (wfs s r))) > / 10^10 /\ Bisect.on_both (wf_line (wfs s l)) (wf_line (wfs s r)) now q \/
     Rabs (det (wf_line (wfs s l)) (wf_line (wfs s r))) <= / 10^10 /\
     forall p1 p2, position_at s v1 now = Ok p1 -> position_at s v2 now = Ok p2 ->
       q = ((fst p1 + fst p2) / 2, (snd p1 + snd p2) / 2)).
Proof.
  intros He R U H now v1 v2 Ne A1 A2.
  destruct (edge_head _ _ _ _ _ _ He R H) as (pos & n & s1 & info & int & s2 & Hp & Hs & Hk & F & _).
  fold now v1 v2 in Hp, Hs, Hk. clear H.
  destruct (wf_intersection_some _ _ _ _ _ _ Hp) as (l & r & El & Er).
  pose proof (wf_intersection_ok _ _ _ _ _ _ l r U El Er Hp) as Hq.
  exists l, r. split; [exact El|]. split; [exact Er|]. cbv zeta.
  assert (Nv : nv s1 = nv s) by (apply stop_ends in Hs; apply Hs).
  apply stop_place in Hs.
  2: { constructor; [intros [K|[]]; auto|]. constructor; [intros []|constructor]. }
  2: { intros v [<-|[<-|[]]]; assumption. }
  destruct Hs as (-> & Nn & Hs).
  split.
  { apply new_starts in Hk. destruct Hk as (_ & K1 & _ & _ & _ & _ & _ & K2 & _).
    rewrite (sm_start_node _ _ (fo_motion _ _ F (nv s) ltac:(rewrite K1, Nv; apply Nat.lt_succ_diag_r))). exact K2. }
  assert (NS : ns s' (nn s) = ns s1 (nn s)).
  { apply newv_spec in Hk. destruct Hk as (kv & _ & _ & Es2). rewrite (fo_ns _ _ F); subst s2; [reflexivity|]. cbn. lia. }
  rewrite NS. destruct pos as [q|].
  - left. rewrite Hs. exact Hq.
  - right. split; [exact Hq|]. intros p1 p2 P1 P2. eapply mean_mid; eauto.
Qed.
(** split event: where the vertex is *)
Theorem split_place (E : Env RA) evt step s u s' e p : ev_side evt = [e] -> registered s ->
  handle_split_event evt step s = Ok (u, s') ->
  let now := ev_time evt in let v := get3 (t_v (ts s (ev_tri evt))) e in
  running s now v -> position_at s v now = Ok p -> k_start_node (vs s' (nv s)) = Some (nn s) /\ sn_pos (ns s' (nn s)) = p.
Proof.
  intros He R H now v RU P. destruct (split_stop _ _ _ _ _ _ He R H) as (n & s1 & ul & ur & info & int & s2 & Hs & Hk & F). fold now v in Hs.
  assert (Nv : nv s1 = nv s) by (apply stop_ends in Hs; apply Hs).
  apply stop_place in Hs; [|repeat constructor; intros []|intros w [<-|[]]; exact RU].
  destruct Hs as (-> & Nn & Hs). split.
  - apply new_starts in Hk. destruct Hk as (_ & K1 & _ & _ & _ & _ & _ & K2 & _).
    rewrite (sm_start_node _ _ (fo_motion _ _ F (nv s) ltac:(rewrite K1, Nv; apply Nat.lt_succ_diag_r))). exact K2.
  - assert (NS : ns s' (nn s) = ns s1 (nn s)).
    { apply newv_spec in Hk. destruct Hk as (kv & _ & _ & Es2). rewrite (fo_ns _ _ F); subst s2; [reflexivity|]. cbn. lia. }
    rewrite NS. eapply mean_one; eauto.
Qed.
(** collapse of a triangle to a point: there *)
Theorem three_place (E : Env RA) evt step s u s' p : registered s -> handle_edge_event_3sides evt step s = Ok (u, s') ->
  let now := ev_time evt in let c i := get3 (t_v (ts s (ev_tri evt))) i in
  (forall i j, c i = c j -> i = j) -> (forall i, running s now (c i)) -> (forall i, position_at s (c i) now = Ok p) ->
  (forall i, ends s' (c i) (nn s) now) /\ sn_pos (ns s' (nn s)) = p.
Proof.
  intros R H now c DI RU P. destruct (three_stop _ _ _ _ _ R H) as (n & s1 & Hs & F & VS). fold now in Hs.
  assert (L : list3 (t_v (ts s (ev_tri evt))) = [c S0; c S1; c S2]) by (unfold c; destruct (t_v (ts s (ev_tri evt))); reflexivity).
  rewrite L in Hs. assert (EN : forall i, ends s1 (c i) n now).
  { apply stop_ends in Hs. destruct Hs as [Hs _]. intros i. apply Hs. destruct i; cbn; auto. }
  apply stop_place in Hs.
  - destruct Hs as (-> & Nn & Hs). split; [intros i; unfold ends; rewrite VS; apply EN|].
    rewrite (fo_ns _ _ F) by (rewrite Nn; apply Nat.lt_succ_diag_r). eapply mean_three; eauto.
  - constructor; [|constructor; [|constructor; [intros []|constructor]]].
    + intros [K|[K|[]]]; apply DI in K; discriminate.
    + intros [K|[]]; apply DI in K; discriminate.
  - intros w [<-|[<-|[<-|[]]]]; apply RU.
Qed.

(** ** How far the two ends of a side are from where the outer fronts meet *)
Lemma meeting_near (L K : line2) (p q : R * R) : unit_line L -> eval L p = eval L q ->
  sqdist p q * (det L K)^2 = (eval K p - eval K q)^2.
Proof.
  destruct L as [[a b] c], K as [[d e] f], p as [x y], q as [z w].
  unfold unit_line, eval, sqdist, det. cbn [lw lb fst snd]. ra_simp. intros U H.
  assert (H1 : a * (x - z) + b * (y - w) = 0) by lra.
  replace (d * x + e * y + f - (d * z + e * w + f)) with (d * (x - z) + e * (y - w)) by ring.
  set (g := x - z) in *. set (h := y - w) in *.
  assert (X : g = (b * g - a * h) * b) by (transitivity (g * (a * a + b * b) - a * (a * g + b * h)); [rewrite U, H1; ring|ring]).
  assert (Y : h = - ((b * g - a * h) * a)) by (transitivity (h * (a * a + b * b) - b * (a * g + b * h)); [rewrite U, H1; ring|ring]).
  set (k := b * g - a * h) in *. rewrite X, Y.
  replace (((k * b)^2 + (- (k * a))^2) * (a * e - d * b)^2) with (k^2 * (a * a + b * b) * (a * e - d * b)^2) by ring.
  rewrite U. ring.
Qed.
Lemma eval_near (K : line2) (p q : R * R) : unit_line K -> (eval K p - eval K q)^2 <= sqdist p q.
Proof.
  destruct K as [[d e] f], p as [x y], q as [z w]. unfold unit_line, eval, sqdist. cbn [lw lb fst snd]. ra_simp. intros U.
  set (g := x - z). set (h := y - w). replace (d * x + e * y + f - (d * z + e * w + f)) with (d * g + e * h) by (unfold g, h; ring).
  assert (Q : g^2 + h^2 - (d * g + e * h)^2 = (e * g - d * h)^2).
  { transitivity ((g^2 + h^2) * (d * d + e * e) - (d * g + e * h)^2); [rewrite U; ring|ring]. }
  pose proof (pow2_ge_0 (e * g - d * h)). lra.
Qed.
