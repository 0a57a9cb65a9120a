(** What the handling of an infinitely fast vertex does (any arithmetic) *)
From Verif Require Import Base Arith Calc VectorOps Line2d Primitives Collapse CollapseProofs EventsLib
  FlipEvent ParallelEvent EdgeEvent SplitEvent EventLoop Pass OpSpec Order StopSpec RunBase RunTimed RunLoop
  Decent Total FanProofs TotalRun Mesh MeshEvents MeshEdge MeshRun Effects EdgeHead RingSpec.
Local Open Scope nat_scope.

Section Fast.
  Context {A : Arith} {E : Env A}.
  Local Open Scope M_scope.

  Ltac peel H n s1 H1 := apply bind_ok in H; destruct H as (n & s1 & H1 & H).

  (** ** Steps that leave the corners of all triangles alone *)
  Definition seats {X} (m : M X) : Prop := forall s x s', m s = Ok (x, s') -> forall u, t_v (ts s' u) = t_v (ts s u).
  Lemma seats_ro {X} (m : M X) : ro m -> seats m.
  Proof. intros H s x s' K u. apply H in K. subst. reflexivity. Qed.
  Lemma seats_bind {X Y} (m : M X) (k : X -> M Y) : seats m -> (forall x, seats (k x)) -> seats (bind m k).
  Proof. intros H K s y s' L u. apply bind_ok in L. destruct L as (x & s1 & L1 & L2). rewrite (K _ _ _ _ L2). eapply H, L1. Qed.
  Lemma seats_whenM b m : seats m -> seats (whenM b m).
  Proof. destruct b; simpl; auto. intros _. apply seats_ro; auto with ro. Qed.
  Lemma seats_mesh {X} (m : M X) : (forall s, okp m s (fun _ s' => same_mesh s s')) -> seats m.
  Proof. intros H s x s' K u. apply (H s x s' K). Qed.
  Lemma seats_relink n t x : seats (relink n t x).
  Proof.
    apply seats_bind; [apply seats_ro; auto with ro|intros y]. apply seats_bind; [apply seats_ro; auto with ro|intros i].
    intros s z s' H u. apply modt_spec in H. subst. cbn.
    match goal with |- context [upd ?a ?b ?c u] => destruct (upd_case a b c u) as [[<- ->]|[_ ->]] end; reflexivity.
  Qed.
  Lemma seats_unlink n t now : seats (unlink_and_schedule n t now).
  Proof.
    destruct n as [n|]; cbn [unlink_and_schedule]; [|apply seats_ro; auto with ro].
    apply seats_bind; [apply seats_relink|intros]. apply seats_bind; [apply seats_ro; auto with ro|intros].
    apply seats_whenM, seats_mesh. intros; apply mesh_sched.
  Qed.
  Lemma seats_stop V step now pos : seats (stop_and_register V step now pos).
  Proof. apply seats_mesh. intros; apply mesh_stop. Qed.
  Lemma seats_stop_at v n now : seats (stop_at v n now).
  Proof. apply seats_mesh. intros; apply mesh_stop_at. Qed.
  Lemma seats_tstops t now : seats (set_tstops t now).
  Proof. apply seats_mesh. intros; apply mesh_tstops. Qed.

  Lemma stop_at_ends v n now s u s' : stop_at v n now s = Ok (u, s') ->
    ends s' v n now /\ (forall w, w <> v -> vs s' w = vs s w) /\ (forall w, same_motion (vs s w) (vs s' w)) /\
    nv s' = nv s /\ nn s' = nn s /\ ts s' = ts s /\ sk_vertices s' = sk_vertices s /\ sk_nodes s' = sk_nodes s /\ ns s' = ns s.
  Proof.
    intros H. apply stop_at_eff in H. destruct H as (f & -> & F). cbn. split.
    { split; cbn; rewrite F, Nat.eqb_refl; cbn; eauto. }
    split. { intros w Hw. rewrite F. destruct (Nat.eqb_spec v w); congruence. }
    split; [|auto 10]. intros w. rewrite F. destruct (Nat.eqb_spec v w); [subst; constructor; reflexivity|apply same_motion_refl].
  Qed.

  Lemma corner_in s t i v : In v (list3 (t_v (ts s t))) <->
    v = corner s t i \/ v = corner s t (ccw i) \/ v = corner s t (cw i).
  Proof.
    unfold corner. destruct (t_v (ts s t)) as [p q r]. destruct i; cbn; split; intuition (subst; auto).
  Qed.

  (** ** The two legs of the pivot collapse onto each other *)
  Theorem even_effects t e pivot now step s s' : handle_parallel_edge_event_even_legs t e pivot now step s = Ok (tt, s') ->
    corner s t e = pivot /\
    exists n, (forall v, In v (list3 (t_v (ts s t))) -> ends s' v n now) /\
      (forall v, ~ In v (list3 (t_v (ts s t))) ->
         k_stop_node (vs s' v) = k_stop_node (vs s v) /\ k_stops (vs s' v) = k_stops (vs s v)) /\
      nv s' = nv s /\ sk_vertices s' = sk_vertices s /\
      (forall u, t_stops (ts s' u) = if Nat.eqb t u then Some now else t_stops (ts s u)) /\
      ((n = nn s /\ sk_nodes s' = sk_nodes s ++ [n]) \/ sk_nodes s' = sk_nodes s) /\
      (forall u, t_v (ts s' u) = t_v (ts s u)).
  Proof.
    intros H. unfold handle_parallel_edge_event_even_legs in H. cbv zeta in H.
    assert (SE : forall u, t_v (ts s' u) = t_v (ts s u)).
    { revert H. apply seats_bind; [apply seats_ro; auto with ro|intros x].
      apply seats_bind; [apply seats_ro; auto with ro|intros i].
      apply seats_bind; [apply seats_ro; auto with ro|intros _].
      apply seats_bind; [apply seats_ro; auto with ro|intros _].
      apply seats_bind; [apply seats_stop|intros n]. apply seats_bind; [apply seats_stop_at|intros _].
      apply seats_bind; [apply seats_tstops|intros _]. apply seats_bind; [apply seats_ro; auto with ro|intros y].
      apply seats_unlink. }
    ro_next H. ro_next H.
    peel H u s1 H1. apply assertM_ok in H1. destruct H1 as [_ ->].
    peel H u1 s1 H1. apply assertM_ok in H1. destruct H1 as [P ->]. apply Nat.eqb_eq in P.
    change (corner s t e = pivot) in P. split; [exact P|].
    change (get3 (t_v (ts s t)) (ccw e)) with (corner s t (ccw e)) in H.
    change (get3 (t_v (ts s t)) (cw e)) with (corner s t (cw e)) in H.
    peel H n s1 H1. apply stop_ends in H1. destruct H1 as (E1 & E2 & _ & E3 & E4 & E5 & E6).
    peel H u2 s2 H2. apply stop_at_ends in H2. destruct H2 as (D1 & D2 & _ & D3 & D4 & D5 & D6 & D7 & _).
    peel H u3 s3 H3. apply modt_spec in H3.
    ro_next H. apply quiets_unlink in H. exists n.
    assert (V3 : vs s3 = vs s2) by (subst s3; reflexivity).
    split.
    { intros v Hv. apply (quiet_ends _ _ _ _ _ H). unfold ends. rewrite V3.
      destruct (Nat.eq_dec v pivot) as [->|Nv]; [exact D1|]. rewrite (D2 v Nv). apply E1.
      apply (corner_in s t e) in Hv. cbn. intuition congruence. }
    split.
    { intros v Hv. rewrite (qu_stop_node _ _ H), (qu_stops _ _ H), V3.
      pose proof (fun Q => Hv (proj2 (corner_in s t e v) Q)) as Hc. rewrite D2 by (intros ->; apply Hc; auto).
      rewrite E2; [auto|]. cbn. intuition. }
    split. { rewrite (qu_nv _ _ H). subst s3. cbn. congruence. }
    split. { rewrite (qu_verts _ _ H). subst s3. cbn. congruence. }
    split. { intros u4. rewrite (qu_tstops _ _ H). subst s3. cbn. unfold upd. destruct (Nat.eqb t u4); [reflexivity|]. rewrite D5, E4. reflexivity. }
    split. { rewrite (qu_nodes _ _ H). subst s3. cbn. rewrite D7. tauto. }
    exact SE.
  Qed.

  (** ** Stopping one vertex *)
  (** the state in which the position of [v] is read has the same motions *)
  Lemma mean_same s f V now : (forall v, same_motion (vs s v) (f v)) ->
    mean_position (with_vs s f) V now = mean_position s V now.
  Proof.
    intros M. unfold mean_position.
    replace (rmapl (fun v => position_at (with_vs s f) v now) V) with (rmapl (fun v => position_at s v now) V); [reflexivity|].
    induction V as [|v V IH]; [reflexivity|]. cbn. rewrite IH.
    replace (position_at (with_vs s f) v now) with (position_at s v now); [reflexivity|].
    unfold position_at. cbn. destruct (M v) as [M1 M2 M3 M4 M5 M6 M7 M8 M9 M10]. rewrite M1, M2, M3, M5, M8. reflexivity.
  Qed.

  (** the node in which a single vertex that is stopped at [now] ends: the one at which
      it is already, or a new one at its position *)
  Definition at_node (s : state) (v : nat) (now : num) : option nat :=
    if anchored now (vs s v) then anchor (vs s v) else None.
  Definition node_of (s : state) (v : nat) (now : num) (s' : state) (n : nat) : Prop :=
    match at_node s v now with
    | Some m => n = m /\ sk_nodes s' = sk_nodes s
    | None => n = nn s /\ sk_nodes s' = sk_nodes s ++ [n] /\ mean_position s [v] now = Ok (sn_pos (ns s' n))
    end.

  Lemma stop_one v step now s n s' : stop_and_register [v] step now None s = Ok (n, s') -> node_of s v now s' n.
  Proof.
    intros H. apply stop_and_register_spec in H. destruct H as (new & s1 & H & ->).
    apply stop_kvertices_spec in H. destruct H as (_ & L & H).
    specialize (L ltac:(constructor; [intros []|constructor])). unfold last_anchor in L. cbn in L.
    unfold node_of, at_node. destruct (if anchored now (vs s v) then anchor (vs s v) else None) as [m|].
    - destruct new; [discriminate|]. destruct H as (f & -> & _). cbn. split; [congruence|reflexivity].
    - destruct new; [|discriminate]. destruct H as (-> & p & f & -> & Ff & G & f' & Hf & Hm). cbn.
      split; [reflexivity|]. split; [reflexivity|]. rewrite upd_same. cbn.
      rewrite <- Hm. symmetry. apply mean_same. intros w. rewrite Hf. unfold scanned.
      destruct (_ && _)%bool; [constructor; reflexivity|apply same_motion_refl].
  Qed.

  (** ** A triangle bounded by three wavefronts *)
  Theorem tri_effects t e pivot now step s s' : handle_parallel_edge_event_3tri t e pivot now step s = Ok (tt, s') ->
    corner s t e = pivot /\
    exists n, (forall v, In v (list3 (t_v (ts s t))) -> ends s' v n now) /\
      (forall v, ~ In v (list3 (t_v (ts s t))) ->
         k_stop_node (vs s' v) = k_stop_node (vs s v) /\ k_stops (vs s' v) = k_stops (vs s v)) /\
      nv s' = nv s /\ sk_vertices s' = sk_vertices s /\
      (forall u, t_stops (ts s' u) = if Nat.eqb t u then Some now else t_stops (ts s u)) /\
      ((n = nn s /\ sk_nodes s' = sk_nodes s ++ [n]) \/ sk_nodes s' = sk_nodes s) /\
      (forall u, t_v (ts s' u) = t_v (ts s u)) /\
      (* the node is that of the slower of the two other vertices *)
      exists m1 m2, norm_2 (k_velocity (vs s (corner s t (ccw e)))) = Ok m1 /\
         norm_2 (k_velocity (vs s (corner s t (cw e)))) = Ok m2 /\
         node_of s (if nltb m2 m1 then corner s t (cw e) else corner s t (ccw e)) now s' n.
  Proof.
    intros H. unfold handle_parallel_edge_event_3tri in H. cbv zeta in H.
    ro_next H. ro_next H.
    peel H u s1 H1. apply assertM_ok in H1. destruct H1 as [Q ->].
    apply side_eqb_eq in Q. subst.
    peel H u1 s1 H1. apply assertM_ok in H1. destruct H1 as [P ->]. apply Nat.eqb_eq in P.
    change (corner s t e = pivot) in P. split; [exact P|].
    change (get3 (t_v (ts s t)) (ccw e)) with (corner s t (ccw e)) in H.
    change (get3 (t_v (ts s t)) (cw e)) with (corner s t (cw e)) in H.
    do 6 ro_next H. clear H0 H1 H2 H3 H4.
    peel H m1 s1 H1. unfold rdr in H1. apply rd_ok in H1. destruct H1 as [Hm1 ->].
    peel H m2 s1 H1. unfold rdr in H1. apply rd_ok in H1. destruct H1 as [Hm2 ->].
    peel H n s2 H1.
    set (c1 := corner s t (ccw e)) in *. set (c2 := corner s t (cw e)) in *.
    set (w := if nltb m2 m1 then c2 else c1). set (w' := if nltb m2 m1 then c1 else c2).
    assert (K : exists s1 u, stop_and_register [w] step now None s = Ok (n, s1) /\ stop_at w' n now s1 = Ok (u, s2)).
    { revert H1. unfold w, w'. destruct (nltb m2 m1); intros H1; peel H1 k sa Ha; peel H1 u5 sb Hb;
      apply ret_ok in H1; destruct H1 as [-> ->]; eauto. }
    clear H1. destruct K as (s1 & u5 & H1 & H2).
    pose proof (stop_one _ _ _ _ _ _ H1) as NO.
    apply stop_ends in H1. destruct H1 as (E1 & E2 & _ & E3 & E4 & E5 & E6).
    apply stop_at_ends in H2. destruct H2 as (D1 & D2 & _ & D3 & D4 & D5 & D6 & D7 & D8).
    peel H u6 s3 H3. apply stop_at_ends in H3. destruct H3 as (G1 & G2 & _ & G3 & G4 & G5 & G6 & G7 & G8).
    peel H u7 s4 H4. apply modt_spec in H4. ro_next H.
    match type of H with ?m _ = _ => assert (RO : ro m) end.
    { apply (ro_forM (list3 (t_v (ts s4 t)))). intros. apply ro_bind; auto with ro. }
    apply RO in H. subst s'. clear RO. exists n.
    assert (V4 : vs s4 = vs s3) by (subst s4; reflexivity).
    assert (WW : (w = c1 /\ w' = c2) \/ (w = c2 /\ w' = c1)) by (unfold w, w'; destruct (nltb m2 m1); auto).
    split.
    { intros v Hv. unfold ends. rewrite V4.
      destruct (Nat.eq_dec v pivot) as [->|Nv]; [exact G1|]. rewrite (G2 v Nv).
      destruct (Nat.eq_dec v w') as [->|Nw]; [exact D1|]. rewrite (D2 v Nw). apply E1.
      apply (corner_in s t e) in Hv. fold c1 c2 in Hv. left. intuition congruence. }
    split.
    { intros v Hv. rewrite V4. pose proof (fun Q => Hv (proj2 (corner_in s t e v) Q)) as Hc. fold c1 c2 in Hc.
      rewrite G2 by (intros ->; apply Hc; auto). rewrite D2 by (intros ->; apply Hc; intuition).
      rewrite E2; [auto|]. intros [Q|[]]. apply Hc. intuition congruence. }
    split. { subst s4. cbn. congruence. }
    split. { subst s4. cbn. congruence. }
    split. { intros u4. subst s4. cbn. unfold upd. destruct (Nat.eqb t u4); [reflexivity|]. rewrite G5, D5, E4. reflexivity. }
    split. { subst s4. cbn. rewrite G7, D7. tauto. }
    split. { intros u4. subst s4. cbn. 
      match goal with |- context [upd ?a ?b ?c u4] => destruct (upd_case a b c u4) as [[<- ->]|[_ ->]] end; cbn; rewrite G5, D5, E4; reflexivity. }
    exists m1, m2. split; [exact Hm1|]. split; [exact Hm2|]. unfold node_of in NO |- *. fold w.
    subst s4. cbn. rewrite G7, D7, G8, D8. exact NO.
  Qed.

  (** ** The walk of replace_kvertex and the corners *)
  Lemma walk_seats fuel t v newv now d s fan s' : v <> newv -> replace_walk fuel t v newv now d s = Ok (fan, s') ->
    (forall u i, corner s' u i = corner s u i \/ (corner s u i = v /\ corner s' u i = newv /\ In u fan)) /\
    (forall u, In u fan -> exists i, corner s' u i = newv).
  Proof.
    intros N H. apply walk_changes in H; [|exact N]. destruct H as (_ & C & K & _). split; [exact K|].
    intros u Hu. specialize (C u). apply (count_occ_In Nat.eq_dec) in Hu.
    assert (D : exists i, corner s' u i <> corner s u i).
    { destruct (Nat.eq_dec (corner s' u S0) (corner s u S0)) as [Q0|]; [|eauto].
      destruct (Nat.eq_dec (corner s' u S1) (corner s u S1)) as [Q1|]; [|eauto].
      destruct (Nat.eq_dec (corner s' u S2) (corner s u S2)) as [Q2|]; [|eauto].
      exfalso. assert (t_v (ts s' u) = t_v (ts s u)).
      { unfold corner in *. destruct (t_v (ts s' u)), (t_v (ts s u)). cbn in *. congruence. }
      unfold corners in C. rewrite H in C. lia. }
    destruct D as [i D]. exists i. destruct (K u i) as [Q|(_ & Q & _)]; [contradiction|exact Q].
  Qed.

  (** one of the two fans of shorter_leg and edge events *)
  Lemma fan_seats o t x v kv now d s fan s' : v <> kv ->
    match o with
    | None => ret []
    | Some a => relink a t x ;; replace_kvertex a v kv now d
    end s = Ok (fan, s') ->
    (forall u i, corner s' u i = corner s u i \/ (corner s u i = v /\ corner s' u i = kv /\ In u fan)) /\
    (forall u, In u fan -> exists i, corner s' u i = kv).
  Proof.
    intros N H. destruct o as [a|].
    - peel H y s1 H1. pose proof (seats_relink _ _ _ _ _ _ H1) as C1. unfold replace_kvertex in H. ro_next H.
      apply walk_seats in H; [|exact N]. destruct H as [H K]. split; [|exact K].
      intros u i. replace (corner s u i) with (corner s1 u i); [apply H|]. unfold corner. rewrite C1. reflexivity.
    - apply ret_ok in H. destruct H as [-> ->]. split; [auto|intros u []].
  Qed.
  Lemma quiets_fan o t x v kv now d : quiets (match o with
    | None => ret []
    | Some a => relink a t x ;; replace_kvertex a v kv now d
    end).
  Proof. destruct o; [|apply quiets_ro; apply ro_ret]. apply quiets_bind; [apply quiets_relink|intros; apply quiets_replace]. Qed.
  Lemma keeps_fan o t x v kv now d : keeps (I := fun _ => registered) (G := follows) now (match o with
    | None => ret []
    | Some a => relink a t x ;; replace_kvertex a v kv now d
    end).
  Proof.
    destruct o; [|apply (keeps_ro base_sound); apply ro_ret].
    apply (keeps_bind base_sound); [apply (keeps_relink base_sound)|intros; apply (keeps_replace_kvertex base_sound)].
  Qed.
  Lemma keepv_fan o t x v kv now d : keepv (match o with
    | None => ret []
    | Some a => relink a t x ;; replace_kvertex a v kv now d
    end).
  Proof. destruct o; [|apply keepv_ro; apply ro_ret]. apply keepv_bind; [apply keepv_relink|intros; apply keepv_replace]. Qed.

  Lemma left_wfr_ok v s w s' : left_wfr v s = Ok (w, s') ->
    s' = s /\ exists l, kleft (vs s v) = Some l /\ w = k_wfr (vs s l).
  Proof.
    intros H. unfold left_wfr in H. ro_next H. peel H l s1 H1. destruct (kleft (vs s v)) as [k|]; [|discriminate H1].
    injection H1 as <- <-. apply vattr_ok in H. destruct H as (_ & -> & ->). eauto.
  Qed.
  Lemma right_wfl_ok v s w s' : right_wfl v s = Ok (w, s') ->
    s' = s /\ exists l, kright (vs s v) = Some l /\ w = k_wfl (vs s l).
  Proof.
    intros H. unfold right_wfl in H. ro_next H. peel H l s1 H1. destruct (kright (vs s v)) as [k|]; [|discriminate H1].
    injection H1 as <- <-. apply vattr_ok in H. destruct H as (_ & -> & ->). eauto.
  Qed.

  (** ** The shorter leg of the pivot collapses *)
  Theorem shorter_effects rec t e pivot now step s s' :
    handle_parallel_edge_event_shorter_leg rec t e pivot now step s = Ok (tt, s') ->
    registered s -> (forall u i, corner s u i < nv s) ->
    let v1 := corner s t (ccw e) in
    let v2 := corner s t (cw e) in
    let kv := nv s in
    k_inf_fast (vs s pivot) = true /\ (pivot = v1 \/ pivot = v2) /\
    exists n fa fb s6,
      (* the ends of the leg end *)
      (forall v, v = v1 \/ v = v2 -> k_inf_fast (vs s v) = false -> ends s6 v n now) /\
      (k_stop_node (vs s pivot) = None -> ends s6 pivot n now) /\
      (k_stop_node (vs s pivot) <> None -> k_stop_node (vs s6 pivot) = k_stop_node (vs s pivot)) /\
      (forall v, v < nv s -> v <> v1 -> v <> v2 ->
         k_stop_node (vs s6 v) = k_stop_node (vs s v) /\ k_stops (vs s6 v) = k_stops (vs s v)) /\
      (* the node *)
      ((n = nn s /\ sk_nodes s6 = sk_nodes s ++ [n]) \/ sk_nodes s6 = sk_nodes s) /\ In n (sk_nodes s6) /\
      (forall w, (if k_inf_fast (vs s v1) then [] else [v1]) ++ (if k_inf_fast (vs s v2) then [] else [v2]) = [w] ->
         node_of s w now s6 n) /\
      (* the new vertex *)
      k_start_node (vs s6 kv) = Some n /\ k_starts (vs s6 kv) = Some now /\
      k_ul (vs s6 kv) = k_ul (vs s v1) /\ k_ur (vs s6 kv) = k_ur (vs s v2) /\
      k_stop_node (vs s6 kv) = None /\ k_stops (vs s6 kv) = None /\
      nv s6 = S (nv s) /\ sk_vertices s6 = sk_vertices s ++ [kv] /\
      (* its neighbours *)
      (forall v, v <> kv -> kright (vs s6 v) = if onat_eqb (kleft (vs s v1)) (Some v) then Some kv else kright (vs s v)) /\
      kright (vs s6 kv) = (if onat_eqb (kleft (vs s v1)) (Some v2) then Some kv else kright (vs s v2)) /\
      (forall v, kright (vs s6 kv) = Some v -> kleft (vs s6 v) = Some kv) /\
      (kright (vs s6 kv) <> Some kv -> kleft (vs s6 kv) = kleft (vs s v1)) /\
      (* the wavefronts it follows *)
      (exists l r, kleft (vs s v1) = Some l /\ kright (vs s v2) = Some r /\
         (l <> kv -> k_wfl (vs s6 kv) = k_wfr (vs s l)) /\ (r <> kv -> k_wfr (vs s6 kv) = k_wfl (vs s r))) /\
      (* the triangles *)
      (forall u, t_stops (ts s6 u) = if Nat.eqb t u then Some now else t_stops (ts s u)) /\
      (forall u i, corner s6 u i = corner s u i \/
         ((corner s u i = v1 \/ corner s u i = v2) /\ corner s6 u i = kv /\ In u (fa ++ fb))) /\
      (forall u, In u (fa ++ fb) -> exists i, corner s6 u i = kv) /\
      (* the rest *)
      registered s6 /\ follows s s6 /\
      whenM (k_inf_fast (vs s6 kv)) (parallel_fan_of rec fa fb kv now step) s6 = Ok (tt, s').
  Proof.
    intros H R CO v1 v2 kv. unfold handle_parallel_edge_event_shorter_leg in H. cbv zeta in H.
    peel H f0 s0 H0. apply vattr_ok in H0. destruct H0 as (_ & -> & ->).
    peel H u0 s0 H0. apply assertM_ok in H0. destruct H0 as [PF ->]. split; [exact PF|].
    ro_next H. change (get3 (t_v (ts s t)) (ccw e)) with v1 in H. change (get3 (t_v (ts s t)) (cw e)) with v2 in H.
    peel H u1 s0 H0. apply assertM_ok in H0. destruct H0 as [PV ->].
    assert (PV' : pivot = v1 \/ pivot = v2).
    { apply Bool.orb_true_iff in PV. rewrite !Nat.eqb_eq in PV. exact PV. } clear PV. split; [exact PV'|].
    peel H f1 s0 H0. apply vattr_ok in H0. destruct H0 as (_ & -> & ->).
    peel H f2 s0 H0. apply vattr_ok in H0. destruct H0 as (_ & -> & ->).
    set (V := _ ++ _) in H. fold V.
    assert (N1 : v1 <> kv) by (pose proof (CO t (ccw e)); unfold v1, kv; lia).
    assert (N2 : v2 <> kv) by (pose proof (CO t (cw e)); unfold v2, kv; lia).
    assert (INV : forall v, In v V <-> (v = v1 \/ v = v2) /\ k_inf_fast (vs s v) = false).
    { intros v. unfold V. rewrite in_app_iff.
      destruct (k_inf_fast (vs s v1)) eqn:Q1, (k_inf_fast (vs s v2)) eqn:Q2; cbn; intuition (subst; congruence). }
    peel H n s1 Hstop.
    pose proof (stop_follows _ _ _ _ _ _ _ Hstop) as (F1 & R1). destruct (R1 R) as [R1' In1]. clear R1.
    assert (NO : forall w, V = [w] -> node_of s w now s1 n).
    { intros w Hw. rewrite Hw in Hstop. eapply stop_one; eauto. }
    assert (WF1 : forall v, k_wfl (vs s1 v) = k_wfl (vs s v) /\ k_wfr (vs s1 v) = k_wfr (vs s v)).
    { apply stop_ring in Hstop. destruct Hstop as (_ & _ & _ & Q & _). intros v. split; apply Q. }
    assert (RG1 : forall v, kleft (vs s1 v) = kleft (vs s v) /\ kright (vs s1 v) = kright (vs s v)).
    { apply stop_ring in Hstop. destruct Hstop as (_ & _ & _ & Q & _). intros v. split; apply Q. }
    apply stop_ends in Hstop. destruct Hstop as (E1 & E2 & EM & E3 & E4 & E5 & E6).
    ro_next H.
    peel H u2 s2 H2.
    assert (B : registered s2 /\ follows s1 s2 /\
      (k_stop_node (vs s1 pivot) = None -> ends s2 pivot n now) /\
      (k_stop_node (vs s1 pivot) <> None -> vs s2 pivot = vs s1 pivot) /\
      (forall w, w <> pivot -> vs s2 w = vs s1 w) /\ (forall w, same_motion (vs s1 w) (vs s2 w)) /\
      (forall w, kleft (vs s2 w) = kleft (vs s1 w) /\ kright (vs s2 w) = kright (vs s1 w)) /\
      (forall w, k_wfl (vs s2 w) = k_wfl (vs s1 w) /\ k_wfr (vs s2 w) = k_wfr (vs s1 w)) /\
      nv s2 = nv s1 /\ nn s2 = nn s1 /\ ts s2 = ts s1 /\ sk_vertices s2 = sk_vertices s1 /\ sk_nodes s2 = sk_nodes s1 /\ ns s2 = ns s1).
    { destruct (k_stop_node (vs s1 pivot)) as [m|]; cbn [is_none] in H2.
      - apply ret_ok in H2. destruct H2 as [_ ->]. split; [exact R1'|]. split; [apply follows_refl|].
        split; [discriminate|]. split; [reflexivity|]. split; [reflexivity|]. split; [intros; apply same_motion_refl|]. repeat split.
      - peel H2 u3 s3 H3. apply assertM_ok in H3. destruct H3 as [_ ->].
        destruct (s_stop_at base_sound now _ _ _ R1' In1 _ _ H2) as [R2 F2].
        assert (RG : forall w, kleft (vs s2 w) = kleft (vs s1 w) /\ kright (vs s2 w) = kright (vs s1 w)).
        { pose proof H2 as K. apply stop_at_eff in K. destruct K as (f & -> & F). intros w. cbn. rewrite F.
          destruct (Nat.eqb pivot w) eqn:Q; [apply Nat.eqb_eq in Q; subst w|]; split; reflexivity. }
        assert (WG : forall w, k_wfl (vs s2 w) = k_wfl (vs s1 w) /\ k_wfr (vs s2 w) = k_wfr (vs s1 w)).
        { pose proof H2 as K. apply stop_at_eff in K. destruct K as (f & -> & F). intros w. cbn. rewrite F.
          destruct (Nat.eqb pivot w) eqn:Q; [apply Nat.eqb_eq in Q; subst w|]; split; reflexivity. }
        apply stop_at_ends in H2. destruct H2 as (D1 & D2 & D3 & D4).
        split; [exact R2|]. split; [exact F2|]. split; [auto|]. split; [congruence|].
        split; [exact D2|]. split; [exact D3|]. split; [exact RG|]. split; [exact WG|]. tauto. }
    clear H2. destruct B as (R2 & F2 & P1 & P2 & P3 & PM & RG2 & WF2 & P4 & P5 & P6 & P7 & P8 & P9).
    peel H u3 s3 H3. destruct (s_tstops base_sound now _ _ R2 _ _ H3) as [R3 F3]. apply modt_spec in H3.
    assert (V3 : vs s3 = vs s2) by (subst s3; reflexivity).
    assert (X3 : nv s3 = nv s2 /\ nn s3 = nn s2 /\ sk_vertices s3 = sk_vertices s2 /\ sk_nodes s3 = sk_nodes s2 /\ ns s3 = ns s2) by (subst s3; repeat split).
    assert (T3 : forall u, t_stops (ts s3 u) = (if Nat.eqb t u then Some now else t_stops (ts s2 u)) /\ t_v (ts s3 u) = t_v (ts s2 u)).
    { intros u. subst s3. cbn. unfold upd. destruct (Nat.eqb_spec t u); [subst; auto|auto]. }
    clear H3. destruct X3 as (X31 & X32 & X33 & X34 & X35).
    do 5 ro_next H.
    assert (In3 : In n (sk_nodes s3)) by (rewrite X34, P8; exact In1).
    peel H kv0 s4 Hnew.
    pose proof (newv_follows _ _ _ _ _ _ _ _ _ Hnew In3) as (F4 & R4 & _). specialize (R4 R3).
    assert (NS4 : ns s4 = ns s3).
    { pose proof Hnew as K. apply newv_spec in K. destruct K as (k & _ & _ & ->). reflexivity. }
    apply new_starts in Hnew. destruct Hnew as (-> & B2 & B3 & B4 & B5 & B6 & B7 & B8 & B9 & B10 & B11 & B12 & B13 & B14).
    assert (KV : nv s3 = kv) by (rewrite X31, P4, E3; reflexivity). rewrite KV in *.
    peel H wl s5 Hl. apply left_wfr_ok in Hl. destruct Hl as [-> (l & KL1 & WL)].
    peel H wr s5 Hr. apply right_wfl_ok in Hr. destruct Hr as [-> (r & KR1 & WR)].
    peel H u4 s5 H5.
    destruct (keeps_wf base_sound now _ _ _ _ R4 _ _ H5) as [R5 F5].
    pose proof (quiets_wf _ _ _ _ _ _ H5) as Q5. assert (TS5 : ts s5 = ts s4) by (apply wf_eff in H5; destruct H5 as (f & -> & _); reflexivity).
    apply wf_ring in H5. destruct H5 as (_ & W5 & _ & WL5 & WR5 & _).
    ro_next H.
    peel H u5 s6 H6.
    assert (L5 : kv < nv s5) by (rewrite (qu_nv _ _ Q5), B2; lia).
    destruct (s_addv base_sound now _ _ R5 L5 _ _ H6) as [R6 F6].
    assert (NS6 : ns s6 = ns s5) by (injection H6 as _ <-; reflexivity).
    apply addv_eff in H6. destruct H6 as (C1 & C2 & C3 & C4 & C5 & C6).
    ro_next H.
    peel H u6 s7 H7. destruct (keeps_circ base_sound now _ _ _ R6 _ _ H7) as [R7 F7].
    assert (TS7 : ts s7 = ts s6) by (pose proof H7 as K; apply circ_spec in K; destruct K as (f & -> & _); reflexivity).
    assert (Q7 := quiets_circ _ _ _ _ _ _ H7). apply circ_ring in H7. destruct H7 as [_ G7].
    ro_next H.
    peel H u7 s8 H8. destruct (keeps_circ base_sound now _ _ _ R7 _ _ H8) as [R8 F8].
    assert (TS8 : ts s8 = ts s7) by (pose proof H8 as K; apply circ_spec in K; destruct K as (f & -> & _); reflexivity).
    assert (Q8 := quiets_circ _ _ _ _ _ _ H8). apply circ_ring in H8. destruct H8 as [_ G8].
    peel H fa s9 H9.
    destruct (keeps_fan _ _ _ _ _ _ _ _ R8 _ _ H9) as [R9 F9].
    pose proof (quiets_fan _ _ _ _ _ _ _ _ _ _ H9) as Q9. pose proof (keepv_fan _ _ _ _ _ _ _ _ _ _ H9) as [VS9 _].
    apply fan_seats in H9; [|exact N2]. destruct H9 as [K9 K9'].
    peel H fb s10 H10.
    destruct (keeps_fan _ _ _ _ _ _ _ _ R9 _ _ H10) as [R10 F10].
    pose proof (quiets_fan _ _ _ _ _ _ _ _ _ _ H10) as Q10. pose proof (keepv_fan _ _ _ _ _ _ _ _ _ _ H10) as [VS10 _].
    apply fan_seats in H10; [|exact N1]. destruct H10 as [K10 K10'].
    peel H u8 s11 H11. pose proof (seats_unlink _ _ _ _ _ _ H11) as S11.
    destruct (keeps_unlink base_sound now _ _ _ R10 _ _ H11) as [R11 F11].
    pose proof (keepv_unlink _ _ _ _ _ _ H11) as [VS11 _]. apply quiets_unlink in H11. rename H11 into Q11.
    peel H f9 s0 Hf. apply vattr_ok in Hf. destruct Hf as (_ & -> & ->).
    pose proof (quiet_trans _ _ _ (quiet_trans _ _ _ Q7 Q8) (quiet_trans _ _ _ Q9 (quiet_trans _ _ _ Q10 Q11))) as QQ.
    assert (VV : vs s11 = vs s8) by congruence.
    assert (ST : forall v, v <> kv -> k_stop_node (vs s11 v) = k_stop_node (vs s2 v) /\ k_stops (vs s11 v) = k_stops (vs s2 v)).
    { intros v Hv. rewrite (qu_stop_node _ _ QQ), (qu_stops _ _ QQ), C1, (qu_stop_node _ _ Q5), (qu_stops _ _ Q5), (B7 v Hv), V3. auto. }
    assert (EN : forall v, v <> kv -> ends s2 v n now -> ends s11 v n now).
    { intros v Hv [A1 A2]. destruct (ST v Hv) as [S1' S2']. split; [congruence|]. rewrite S2'. exact A2. }
    assert (PI : ~ In pivot V) by (rewrite INV; intros [_ Q]; congruence).
    assert (PK : pivot <> kv) by (intros Q; destruct PV' as [Z|Z]; [apply N1|apply N2]; congruence).
    assert (NN11 : sk_nodes s11 = sk_nodes s1).
    { rewrite (qu_nodes _ _ QQ), C5, (qu_nodes _ _ Q5), B5, X34, P8. reflexivity. }
    assert (NS11 : ns s11 = ns s1).
    { rewrite (qu_ns _ _ QQ), NS6, (qu_ns _ _ Q5), NS4, X35, P9. reflexivity. }
    assert (MK : same_motion (vs s4 kv) (vs s11 kv)).
    { eapply same_motion_trans; [apply (qu_motion _ _ Q5)|]. rewrite <- C1. apply QQ. }
    destruct MK as [_ _ _ M4 M5 M6 M7 _ _ _].
    assert (OLD : forall v, v <> kv -> vs s6 v = vs s2 v) by (intros v Hv; rewrite C1, (W5 v Hv), (B7 v Hv), V3; reflexivity).
    exists n, fa, fb, s11.
    split. { intros v Hv Hf. apply EN; [destruct Hv; congruence|].
             assert (Hi : In v V) by (apply INV; auto). unfold ends. rewrite (P3 v) by (intros ->; congruence). apply E1, Hi. }
    split. { intros Hp. apply EN; [exact PK|]. apply P1. rewrite (E2 pivot PI). exact Hp. }
    split. { intros Hp. destruct (ST pivot PK) as [-> _]. rewrite P2; rewrite (E2 pivot PI); auto. }
    split. { intros v Lv Hv1 Hv2. destruct (ST v) as [-> ->]; [unfold kv; lia|].
             rewrite (P3 v) by (destruct PV'; congruence). rewrite (E2 v); [auto|]. rewrite INV. tauto. }
    split. { rewrite NN11. tauto. }
    split. { rewrite NN11. exact In1. }
    split. { intros w Hw. specialize (NO w Hw). unfold node_of in NO |- *. rewrite NN11, NS11. exact NO. }
    split. { congruence. }
    split. { congruence. }
    split. { rewrite M6, B10, V3, (sm_ul _ _ (PM v1)). apply (sm_ul _ _ (EM v1)). }
    split. { rewrite M7, B11, V3, (sm_ur _ _ (PM v2)). apply (sm_ur _ _ (EM v2)). }
    split. { rewrite (qu_stop_node _ _ QQ), C1, (qu_stop_node _ _ Q5). exact B13. }
    split. { rewrite (qu_stops _ _ QQ), C1, (qu_stops _ _ Q5). exact B12. }
    split. { rewrite (qu_nv _ _ QQ), C2, (qu_nv _ _ Q5). exact B2. }
    split. { rewrite (qu_verts _ _ QQ), C6, (qu_verts _ _ Q5), B6, X33, P7, E5. reflexivity. }
    assert (KL : kleft (vs s6 v1) = kleft (vs s v1)).
    { rewrite (OLD v1 N1). destruct (RG2 v1) as [-> _]. apply RG1. }
    assert (ON : forall a b, onat_eqb a (Some b) = true <-> a = Some b).
    { intros [a|] b; cbn; [rewrite Nat.eqb_eq|]; split; congruence. }
    rewrite VV.
    assert (RR : forall v, v <> kv -> kright (vs s7 v) = if onat_eqb (kleft (vs s v1)) (Some v) then Some kv else kright (vs s v)).
    { intros v Hv. destruct (G7 v) as (_ & -> & _). rewrite KL, (OLD v Hv). destruct (RG2 v) as [_ ->]. destruct (RG1 v) as [_ ->]. reflexivity. }
    assert (RK : kright (vs s8 kv) = kright (vs s7 v2)).
    { destruct (G8 kv) as (_ & -> & _). cbn [onat_eqb]. rewrite Nat.eqb_refl. reflexivity. }
    split. { intros v Hv. destruct (G8 v) as (_ & -> & _).
      assert (Q : onat_eqb (Some kv) (Some v) = false) by (cbn; apply Nat.eqb_neq; auto). rewrite Q. apply RR, Hv. }
    split. { rewrite RK. apply RR, N2. }
    split. { intros v Hv. rewrite RK in Hv. destruct (G8 v) as (_ & _ & ->). apply ON in Hv. rewrite Hv. reflexivity. }
    split. { intros Hk. rewrite RK in Hk. destruct (G8 kv) as (_ & _ & ->).
      destruct (onat_eqb (kright (vs s7 v2)) (Some kv)) eqn:Q; [apply ON in Q; contradiction|].
      destruct (G7 kv) as (_ & _ & ->). cbn [onat_eqb]. rewrite Nat.eqb_refl. exact KL. }
    split.
    { assert (REST : rest (vs s8 kv) = rest (vs s5 kv)) by (destruct (G8 kv) as [-> _]; destruct (G7 kv) as [-> _]; rewrite C1; reflexivity).
      apply rest_eq in REST. destruct REST as (_ & RL & RR' & _).
      exists l, r. rewrite (B7 v1 N1), V3 in KL1. rewrite (B7 v2 N2), V3 in KR1.
      destruct (RG2 v1) as [X1 _], (RG1 v1) as [X2 _], (RG2 v2) as [_ X3], (RG1 v2) as [_ X4].
      split; [congruence|]. split; [congruence|]. split; intros Nl.
      - rewrite RL, WL5, WL, (B7 l Nl), V3. destruct (WF2 l) as [_ ->]. apply WF1.
      - rewrite RR', WR5, WR, (B7 r Nl), V3. destruct (WF2 r) as [-> _]. apply WF1. }
    assert (T8 : forall u, t_v (ts s8 u) = t_v (ts s u) /\ t_stops (ts s8 u) = if Nat.eqb t u then Some now else t_stops (ts s u)).
    { intros u. rewrite TS8, TS7, C3, TS5, B3. destruct (T3 u) as [-> ->]. rewrite P6, E4. auto. }
    split. { intros u. rewrite (qu_tstops _ _ Q11), (qu_tstops _ _ Q10), (qu_tstops _ _ Q9). apply T8. }
    assert (C8 : forall u i, corner s8 u i = corner s u i) by (intros u i; unfold corner; destruct (T8 u) as [-> _]; reflexivity).
    assert (C11 : forall u i, corner s11 u i = corner s10 u i) by (intros u i; unfold corner; rewrite S11; reflexivity).
    split.
    { intros u i. rewrite C11. destruct (K10 u i) as [->|(A1 & A2 & A3)].
      - destruct (K9 u i) as [->|(A1 & A2 & A3)]; [left; apply C8|].
        right. rewrite C8 in A1. split; [auto|]. split; [exact A2|]. apply in_or_app. auto.
      - right. split; [|split; [exact A2|apply in_or_app; auto]].
        destruct (K9 u i) as [Q|(B1' & B2' & B3')]; [rewrite Q, C8 in A1; auto|]. congruence. }
    split.
    { intros u Hu. apply in_app_or in Hu. destruct Hu as [Hu|Hu].
      - destruct (K9' u Hu) as [i Hi]. exists i. rewrite C11. destruct (K10 u i) as [->|(A1 & A2 & A3)]; auto.
      - destruct (K10' u Hu) as [i Hi]. exists i. rewrite C11. exact Hi. }
    split; [exact R11|]. split; [|rewrite VV in H; exact H].
    repeat (first [eassumption|eapply follows_trans; [eassumption|]]).
  Qed.
End Fast.
