(** The mesh of triangles through the handling of infinitely fast vertices *)
From Verif Require Import Base Arith Calc VectorOps Line2d Primitives Collapse CollapseProofs EventsLib
  FlipEvent ParallelEvent EdgeEvent SplitEvent EventLoop Pass OpSpec Order StopSpec RunBase RunTimed RunLoop
  Decent Total FanProofs TotalRun Mesh MeshEvents MeshEdge MeshRun.
Local Open Scope nat_scope.

Section MeshFast.
  Context {A : Arith} {E : Env A}.
  Local Open Scope M_scope.

  Ltac peel H n s1 H1 := apply bind_ok in H; destruct H as (n & s1 & H1 & H).
  Ltac peel2 H G n s1 H1 := apply bind_ok in H; destruct H as (n & s1 & H1 & H);
    match type of G with ?g = bind _ ?k _ => match type of H1 with _ = Ok (?x, ?s2) =>
      let G' := fresh in assert (G' : g = k x s2) by (rewrite G; apply (bind_eq _ k _ _ _ H1));
      clear G; rename G' into G; cbv beta in G end end.

  Lemma fast_at v b s s' : vattr v k_inf_fast s = Ok (b, s') -> b = k_inf_fast (vs s v) /\ s' = s.
  Proof.
    intros H. unfold vattr in H. apply rd_ok in H. destruct H as [H ->]. split; [|reflexivity].
    unfold kattr in H. match type of H with (if ?b then _ else _) = _ => destruct b; [discriminate|] end.
    injection H as H. congruence.
  Qed.

  Lemma stop_nv V step now pos s n s' : stop_and_register V step now pos s = Ok (n, s') -> nv s' = nv s.
  Proof.
    intros H. apply stop_and_register_spec in H. destruct H as (new & s1 & H & ->).
    apply stop_kvertices_spec in H. destruct H as (Hi & _ & H). destruct new.
    - destruct H as (-> & p & f & -> & F & T & _). reflexivity.
    - destruct H as (f & -> & _ & F). reflexivity.
  Qed.

  (** ** The shorter leg *)
  Lemma leg_block (P : nat -> Prop) o t x v kv now d s fan s' : registered s -> v <> kv ->
    (forall u i w, P u -> link s u i = Some w -> P w) -> (forall a, o = Some a -> P a) -> (forall y, x = Some y -> P y) ->
    (forall u i j, P u -> corner s u i = v -> corner s u j = v -> i = j) ->
    match o with
    | None => ret []
    | Some a => relink a t x ;; replace_kvertex a v kv now d
    end s = Ok (fan, s') ->
    side_post P o t x v kv d s fan s'.
  Proof.
    intros R N C Po Px DI H. unfold side_post. destruct o as [a|].
    - peel H u0 s1 H1.
      destruct (relink_replace P a t x v kv now d s u0 s1 fan s' R N C (Po a eq_refl) Px DI H1 H)
        as (R2 & F2 & ST & ND & IN & CC & i & I1 & I2 & I3).
      repeat (split; [assumption|]). split; [cbn [lk]; eauto|]. eauto.
    - apply ret_ok in H. destruct H as [-> ->]. split; [exact R|]. split; [apply follows_refl|]. split; [auto|].
      split; [constructor|]. split; [intros u []|]. split; [intros u i; rewrite sub1_out; auto|].
      split; [cbn [lk]; auto|reflexivity].
  Qed.

  Lemma quiet_stop_at v n now s u s' : registered s -> In n (sk_nodes s) -> stop_at v n now s = Ok (u, s') ->
    quiet s s' /\ sk_nodes s' = sk_nodes s /\ nv s' = nv s.
  Proof.
    intros R I H. destruct (s_stop_at base_sound now s v n R I u s' H) as [A1 A2].
    apply stop_at_eff in H. destruct H as (f & -> & _). split; [|auto].
    split; [exact A1|]. split; [exact A2|]. apply mesh_same_ts; reflexivity.
  Qed.

  Lemma linked_same D s s' : (forall u, t_v (ts s' u) = t_v (ts s u) /\ t_n (ts s' u) = t_n (ts s u)) -> linked D s -> linked D s'.
  Proof.
    intros M L t i n Dt H. unfold link, shares, corner in *. destruct (M t) as [V N]. rewrite N in H.
    destruct (L t i n Dt H) as (Dn & j & J1 & J2). split; [exact Dn|]. exists j.
    destruct (M n) as [V' N']. rewrite V, V', N'. auto.
  Qed.

  (** the side [e] of [t] has collapsed: [kv] takes the place of both its ends, in the
      fans [fa] and [fb] *)
  Record merged (D : nat -> Prop) (s : state) (t : nat) (e : side) (kv : nat) (fa fb : list nat) (s' : state) : Prop := {
    mg_a : side_fan s t (cw e) cw fa;
    mg_b : side_fan s t (ccw e) ccw fb;
    mg_corner : forall u i, corner s' u i = sub2 (corner s t (cw e)) (corner s t (ccw e)) kv fa fb u (corner s u i);
    mg_links : unl D s t (fun k => Some (joined s t e k)) s' }.

  Theorem leg_until rec D t e pivot now step s s' :
    registered s -> (forall u i, corner s u i < nv s) -> linked D s -> (forall u, D u -> distinct s u) -> D t -> apart s t ->
    handle_parallel_edge_event_shorter_leg rec t e pivot now step s = Ok (tt, s') ->
    exists fa fb s6, registered s6 /\ follows s s6 /\ nv s < nv s6 /\
      merged D s t e (nv s) fa fb s6 /\
      t_stops (ts s6 t) = Some now /\ (forall u, u <> t -> t_stops (ts s6 u) = t_stops (ts s u)) /\
      whenM (k_inf_fast (vs s6 (nv s))) (parallel_fan_of rec fa fb (nv s) now step) s6 = Ok (tt, s') /\
      handle_parallel_edge_event_shorter_leg no_fans t e pivot now step s = Ok (tt, s6).
  Proof.
    intros R LT L DI Dt AP H.
    remember (handle_parallel_edge_event_shorter_leg no_fans t e pivot now step s) as g eqn:G.
    unfold handle_parallel_edge_event_shorter_leg in H, G. cbv zeta in H, G.
    peel2 H G x s1 H1. apply ro_ok in H1; [|auto with ro]. subst s1.
    peel2 H G z1 s1 H1. apply ro_ok in H1; [|auto with ro]. subst s1.
    peel2 H G z2 s1 H1. apply gets_ok in H1. destruct H1 as [-> ->].
    peel2 H G z3 s1 H1. apply ro_ok in H1; [|auto with ro]. subst s1.
    peel2 H G z4 s1 H1. apply ro_ok in H1; [|auto with ro]. subst s1.
    peel2 H G z5 s1 H1. apply ro_ok in H1; [|auto with ro]. subst s1.
    change (get3 (t_v (ts s t)) (ccw e)) with (corner s t (ccw e)) in H, G.
    change (get3 (t_v (ts s t)) (cw e)) with (corner s t (cw e)) in H, G.
    set (v1 := corner s t (ccw e)) in *. set (v2 := corner s t (cw e)) in *.
    peel2 H G nd s1 H1.
    assert (N1v : nv s1 = nv s).
    { eapply stop_nv, H1. }
    apply quiet_stop in H1; [|exact R]. destruct H1 as [Q1 N1].
    peel2 H G p s2 H1. apply ro_ok in H1; [|auto with ro]. subst s2.
    peel2 H G z6 s2 H1.
    assert (Q2 : quiet s1 s2 /\ sk_nodes s2 = sk_nodes s1 /\ nv s2 = nv s1).
    { destruct (is_none (k_stop_node p)).
      - peel H1 z7 s3 H2. apply ro_ok in H2; [|auto with ro]. subst s3.
        apply quiet_stop_at in H1; [exact H1|apply Q1|exact N1].
      - apply ret_ok in H1. destruct H1 as [_ ->]. split; [apply quiet_refl, Q1|auto]. }
    clear H1. destruct Q2 as (Q2 & N2 & N2v).
    peel2 H G z7 s3 H1.
    assert (N3 : sk_nodes s3 = sk_nodes s2 /\ nv s3 = nv s2) by (apply modt_spec in H1; subst s3; auto).
    apply tstops_ok in H1; [|apply Q2]. destruct H1 as (R3 & F3 & V3 & ST3 & ST3').
    assert (M3 : forall u, t_v (ts s3 u) = t_v (ts s u) /\ t_n (ts s3 u) = t_n (ts s u)).
    { intros u. destruct (V3 u) as [-> ->]. destruct (proj2 (proj2 Q2) u) as (-> & -> & _). destruct (proj2 (proj2 Q1) u) as (-> & -> & _). auto. }
    assert (C3 : forall u i, corner s3 u i = corner s u i) by (intros u i; unfold corner; destruct (M3 u) as [-> _]; reflexivity).
    assert (K3 : forall u i, link s3 u i = link s u i) by (intros u i; unfold link; destruct (M3 u) as [_ ->]; reflexivity).
    pose proof (linked_same D s s3 M3 L) as L3.
    assert (DI3 : forall u, D u -> distinct s3 u) by (intros u Du i j; rewrite !C3; apply (DI u Du)).
    assert (AP3 : apart s3 t) by (intros i j y; rewrite !K3; apply AP).
    assert (NV3 : nv s3 = nv s) by (rewrite (proj2 N3), N2v; exact N1v).
    assert (IN3 : In nd (sk_nodes s3)) by (rewrite (proj1 N3), N2; exact N1).
    peel2 H G z8 s4 H1. apply ro_ok in H1; [|auto with ro]. subst s4.
    peel2 H G z9 s4 H1. apply ro_ok in H1; [|auto with ro]. subst s4.
    peel2 H G k1 s4 H1. apply ro_ok in H1; [|auto with ro]. subst s4.
    peel2 H G k2 s4 H1. apply ro_ok in H1; [|auto with ro]. subst s4.
    peel2 H G len s4 H1. apply ro_ok in H1; [|auto with ro]. subst s4.
    peel2 H G kv s4 H1. apply quiet_newv in H1; [|exact R3|exact IN3]. destruct H1 as (Q4 & KV & KVlt).
    rewrite NV3 in KV.
    peel2 H G wl s5 H1. apply ro_ok in H1; [|auto with ro]. subst s5.
    peel2 H G wr s5 H1. apply ro_ok in H1; [|auto with ro]. subst s5.
    peel2 H G y1 s5 H1. apply quiet_wf in H1; [|apply Q4]. rename H1 into Q5.
    peel2 H G z10 s6 H1. apply gets_ok in H1. destruct H1 as [-> ->].
    assert (M5 : mesh_same s3 s5) by (eapply mesh_same_trans; [apply Q4|apply Q5]).
    change (get3 (t_n (ts s5 t)) (ccw e)) with (link s5 t (ccw e)) in H, G.
    change (get3 (t_n (ts s5 t)) (cw e)) with (link s5 t (cw e)) in H, G.
    change (get3 (t_n (ts s5 t)) e) with (link s5 t e) in H, G.
    rewrite !(mesh_same_link s3 s5) in H, G by exact M5.
    assert (V5 : kv < nv s5) by (pose proof (fo_nv _ _ (proj1 (proj2 Q5))); lia).
    peel2 H G y2 s6 H1. apply quiet_addv in H1; [|apply Q5|exact V5]. rename H1 into Q6.
    peel2 H G k1' s7 H1. apply ro_ok in H1; [|auto with ro]. subst s7.
    peel2 H G y3 s7 H1. apply quiet_circ in H1; [|apply Q6]. rename H1 into Q7.
    peel2 H G k2' s8 H1. apply ro_ok in H1; [|auto with ro]. subst s8.
    peel2 H G y4 s8 H1. apply quiet_circ in H1; [|apply Q7]. rename H1 into Q8.
    assert (Q : quiet s3 s8).
    { apply (quiet_trans _ s4); [exact Q4|]. apply (quiet_trans _ s5); [exact Q5|]. apply (quiet_trans _ s6); [exact Q6|].
      apply (quiet_trans _ s7); assumption. }
    assert (V8 : kv < nv s8).
    { pose proof (fo_nv _ _ (proj1 (proj2 Q6))). pose proof (fo_nv _ _ (proj1 (proj2 Q7))). pose proof (fo_nv _ _ (proj1 (proj2 Q8))). lia. }
    assert (F03 : follows s s3).
    { apply (G_trans base_sound _ _ _ (proj1 (proj2 Q1))). apply (G_trans base_sound _ _ _ (proj1 (proj2 Q2))). exact F3. }
    assert (ST0 : forall u, u <> t -> t_stops (ts s3 u) = t_stops (ts s u)).
    { intros u Hu. rewrite (ST3' u Hu). destruct (proj2 (proj2 Q2) u) as (_ & _ & ->). apply (proj2 (proj2 Q1)). }
    clear Q1 Q2 Q4 Q5 Q6 Q7 Q8 N1 N2 N2v N3 N1v V3 ST3' F3. destruct Q as (R8 & F8 & M8).
    assert (K1 : kv <> corner s3 t (ccw e)) by (rewrite C3; specialize (LT t (ccw e)); lia).
    assert (K2 : kv <> corner s3 t (cw e)) by (rewrite C3; specialize (LT t (cw e)); lia).
    assert (NB : forall i y, link s3 t i = Some y -> D y) by (intros i y Hy; apply (L3 t i y Dt Hy)).
    unfold v1, v2 in H, G. rewrite <- !C3 in H, G.
    (* the first neighbour *)
    peel2 H G fa s9 H1. apply (leg_block D) in H1; auto.
    2:{ intros u i w Du. rewrite (mesh_same_link s3 s8) by exact M8. intros Hw. apply (L3 u i w Du Hw). }
    2:{ intros a Ha. eapply NB, Ha. }
    2:{ intros a Ha. eapply NB, Ha. }
    2:{ intros u i j Du. rewrite !(mesh_same_corner s3 s8) by exact M8. intros E1 E2. apply (DI3 u Du). congruence. }
    pose proof H1 as (R9 & F9 & ST9 & _). rename H1 into B9.
    destruct (side_next D s3 t e kv s8 fa s9 L3 DI3 Dt K1 M8 B9) as [CL9 UQ9].
    (* the second neighbour *)
    peel2 H G fb s10 H1. apply (leg_block D) in H1; auto.
    2:{ intros a Ha. eapply NB, Ha. }
    2:{ intros a Ha. eapply NB, Ha. }
    pose proof H1 as (R10 & F10 & ST10 & _). rename H1 into B10.
    (* the third neighbour *)
    peel2 H G y10 s11 H1. apply unlink_ok in H1; [|exact R10]. destruct H1 as (R11 & F11 & V11 & LK11).
    destruct (two_sides D s3 t e kv s8 fa s9 fb s10 s11 L3 DI3 Dt AP3 K1 K2 M8 B9 B10 LK11) as (FAN_A & FAN_B & C10 & U11).
    peel2 H G fast s12 H1. apply fast_at in H1. destruct H1 as [-> ->].
    assert (SF : forall k d l, side_fan s3 t k d l -> side_fan s t k d l).
    { intros k d l. unfold side_fan. rewrite K3. destruct (link s t (d k)) as [a|]; [|auto]. rewrite C3.
      intros [F N]. split; [|exact N]. apply (fan_weaken s3); [|exact F]. intros u q _. rewrite C3, K3. auto. }
    exists fa, fb, s11. split; [exact R11|].
    split; [apply (G_trans base_sound _ _ _ F03); apply (G_trans base_sound _ _ _ F8); apply (G_trans base_sound _ _ _ F9);
            apply (G_trans base_sound _ _ _ F10); exact F11|].
    subst kv.
    split; [pose proof (fo_nv _ _ F9); pose proof (fo_nv _ _ F10); pose proof (fo_nv _ _ F11); lia|].
    split; [|split; [|split; [|split]]].
    - constructor.
      + apply SF, FAN_A.
      + apply SF, FAN_B.
      + intros u i. rewrite <- !C3. rewrite <- C10. unfold corner. destruct (V11 u) as [-> _]. reflexivity.
      + assert (JJ : forall k, joined s t e k = joined s3 t e k) by (intros k; unfold joined; rewrite !K3; reflexivity).
        destruct U11 as [U1 U2 U3]. constructor.
        * intros m. rewrite U1, K3. reflexivity.
        * intros u j Du Nu. rewrite <- !K3. apply U2; auto.
        * intros u j m Du Nu P1 P2 P3. rewrite JJ. apply U3; auto; [rewrite K3; exact P1|rewrite K3; exact P2|].
          unfold shares. rewrite !C3. exact P3.
    - destruct (V11 t) as [_ ->]. rewrite ST10, ST9. destruct (M8 t) as (_ & _ & ->). exact ST3.
    - intros u Hu. destruct (V11 u) as [_ ->]. rewrite ST10, ST9. destruct (M8 u) as (_ & _ & ->). apply ST0, Hu.
    - exact H.
    - rewrite G. destruct (k_inf_fast _), fa, fb; reflexivity.
  Qed.

  Lemma merged_linked D s t e kv fa fb s' : linked D s -> (forall u, D u -> distinct s u) -> D t -> apart s t ->
    kv <> corner s t (ccw e) -> kv <> corner s t (cw e) -> merged D s t e kv fa fb s' ->
    linked (fun u => D u /\ u <> t) s'.
  Proof.
    intros L DI Dt AP K1 K2 [M1 M2 M3 M4]. apply (edge_linked D s t e kv fa fb s'); auto.
    intros f Hf. revert M4. apply unl_ext. auto.
  Qed.

  (** ** Fans from one side without neighbour to the other *)
  Definition full_fan (s : state) (v : nat) (d : side -> side) (fan : list nat) : Prop :=
    match fan with
    | [] => False
    | f :: _ => is_fan s v d (Some f) fan /\ forall k, corner s f k = v -> link s f (back d k) = None
    end.

  Lemma fan_map s s' v v' d o l :
    (forall u k, In u l -> corner s u k = v -> corner s' u k = v' /\ link s' u (d k) = link s u (d k)) ->
    is_fan s v d o l -> is_fan s' v' d o l.
  Proof.
    intros H F. revert H. induction F as [|w sd l C F IH]; intros H; [constructor|].
    destruct (H w sd) as [H1 H2]; [simpl; auto|exact C|]. apply fan_step with sd; [exact H1|].
    change (get3 (t_n (ts s' w)) (d sd)) with (link s' w (d sd)). rewrite H2. apply IH.
    intros u k Hu. apply H. simpl. auto.
  Qed.

  Lemma fan_head s v d o l : is_fan s v d o l -> o = hd_error l.
  Proof. intros []; reflexivity. Qed.

  Lemma fan_rev D s v : linked D s -> (forall u, D u -> distinct s u) ->
    forall l a k l2, is_fan s v cw (Some a) l -> D a -> corner s a k = v -> is_fan s v ccw (link s a (ccw k)) l2 ->
    full_fan s v ccw (rev l ++ l2).
  Proof.
    intros L DI. induction l as [|x r IH]; intros a k l2 F Da C F2; [inversion F|].
    inversion F as [|w sd r' C' F' E1 E2]. subst.
    assert (sd = k) by (apply (DI x Da); unfold corner in *; congruence). subst sd.
    change (get3 (t_n (ts s x)) (cw k)) with (link s x (cw k)) in F'.
    cbn [rev]. rewrite <- app_assoc. cbn [app].
    assert (F3 : is_fan s (corner s x k) ccw (Some x) (x :: l2)) by (apply fan_step with k; [reflexivity|exact F2]).
    destruct (link s x (cw k)) as [b|] eqn:Hb.
    - destruct (L x (cw k) b Da Hb) as (Db & j & J1 & J2).
      pose proof (turn_eq cw k b x s j (or_introl eq_refl) J2) as T.
      apply (IH b (cw j) (x :: l2)); auto. rewrite ccw_cw, J1. exact F3.
    - inversion F'. subst r. cbn [rev app full_fan]. split; [exact F3|].
      intros k' Hk. assert (k' = k) by (apply (DI x Da); exact Hk). subst k'. unfold back. rewrite ccw_ccw. exact Hb.
  Qed.

  Lemma merged_full D s t e kv fa fb s' : linked D s -> (forall u, D u -> distinct s u) -> D t -> apart s t ->
    kv <> corner s t (ccw e) -> kv <> corner s t (cw e) -> merged D s t e kv fa fb s' ->
    (forall u, D u -> u <> t -> distinct s' u) ->
    match fa, fb with
    | _ :: _, _ :: _ => full_fan s' kv ccw (rev fa ++ fb)
    | _ :: _, [] => full_fan s' kv cw fa
    | [], _ :: _ => full_fan s' kv ccw fb
    | [], [] => True
    end.
  Proof.
    intros L DI Dt AP K1 K2 MG DI'. pose proof (merged_linked D s t e kv fa fb s' L DI Dt AP K1 K2 MG) as L'.
    destruct MG as [FA FB C [U1 U2 U3]].
    assert (N12 : corner s t (ccw e) <> corner s t (cw e)) by (intros Q; apply (DI t Dt) in Q; destruct e; discriminate).
    pose proof (side_fan_in D s t (cw e) cw fa L Dt FA) as IA. pose proof (side_fan_out D s t (cw e) cw fa L DI Dt FA) as OA.
    pose proof (side_fan_in D s t (ccw e) ccw fb L Dt FB) as IB. pose proof (side_fan_out D s t (ccw e) ccw fb L DI Dt FB) as OB.
    (* the halves *)
    assert (HA : forall a, link s t (ccw e) = Some a -> is_fan s' kv cw (Some a) fa).
    { intros a Ha. unfold side_fan in FA. rewrite cw_cw, Ha in FA. destruct FA as [F _].
      apply (fan_map s s' (corner s t (cw e))); [|exact F]. intros u k Hu Hk.
      assert (Nu : u <> t) by (intros ->; contradiction). split.
      - rewrite C, Hk. unfold sub2. rewrite (sub1_in _ _ fa) by exact Hu. apply sub1_other. exact K1.
      - apply U2; auto. intros Q. destruct (is_fan_next _ _ _ _ _ F u Hu) as (sd & S1 & S2).
        assert (sd = k) by (apply (DI u (IA u Hu)); congruence). subst sd. apply OA, S2, Q. }
    assert (HB : forall b, link s t (cw e) = Some b -> is_fan s' kv ccw (Some b) fb).
    { intros b Hb. unfold side_fan in FB. rewrite ccw_ccw, Hb in FB. destruct FB as [F _].
      apply (fan_map s s' (corner s t (ccw e))); [|exact F]. intros u k Hu Hk.
      assert (Nu : u <> t) by (intros ->; contradiction). split.
      - rewrite C, Hk. unfold sub2. rewrite (sub1_other _ _ fa) by exact N12. apply sub1_in, Hu.
      - apply U2; auto. intros Q. destruct (is_fan_next _ _ _ _ _ F u Hu) as (sd & S1 & S2).
        assert (sd = k) by (apply (DI u (IB u Hu)); congruence). subst sd. apply OB, S2, Q. }
    (* where they meet *)
    assert (JA : forall a, link s t (ccw e) = Some a -> D a /\ a <> t /\ forall k, corner s' a k = kv -> link s' a (ccw k) = link s t (cw e)).
    { intros a Ha. destruct (L t (ccw e) a Dt Ha) as (Da & j & J1 & J2).
      assert (Na : a <> t) by (intros ->; eapply (self_shares D s t); eauto). split; [exact Da|]. split; [exact Na|].
      intros k Hk. rewrite <- (cw_cw e) in J2. pose proof (turn_eq cw (cw e) a t s j (or_introl eq_refl) J2) as T.
      assert (Ia : In a fa) by (specialize (HA a Ha); apply fan_head in HA; destruct fa; [discriminate HA|]; injection HA as <-; simpl; auto).
      assert (k = cw j).
      { apply (DI' a Da Na). rewrite Hk. symmetry. rewrite C, T. unfold sub2. rewrite (sub1_in _ _ fa) by exact Ia. apply sub1_other. exact K1. }
      subst k. rewrite ccw_cw. rewrite cw_cw in J2. rewrite (U3 a j (ccw e)); auto. unfold joined.
      destruct (side_eqb_spec (ccw e) e) as [Q|_]; [destruct e; discriminate|]. destruct (side_eqb_spec (ccw e) (ccw e)); [reflexivity|congruence]. }
    assert (JB : forall b, link s t (cw e) = Some b -> D b /\ b <> t /\ forall k, corner s' b k = kv -> link s' b (cw k) = link s t (ccw e)).
    { intros b Hb. destruct (L t (cw e) b Dt Hb) as (Db & j & J1 & J2).
      assert (Nb : b <> t) by (intros ->; eapply (self_shares D s t); eauto). split; [exact Db|]. split; [exact Nb|].
      intros k Hk. rewrite <- (ccw_ccw e) in J2. pose proof (turn_eq ccw (ccw e) b t s j (or_intror eq_refl) J2) as T.
      assert (Ib : In b fb) by (specialize (HB b Hb); apply fan_head in HB; destruct fb; [discriminate HB|]; injection HB as <-; simpl; auto).
      assert (k = ccw j).
      { apply (DI' b Db Nb). rewrite Hk. symmetry. rewrite C, T. unfold sub2. rewrite (sub1_other _ _ fa) by exact N12. apply sub1_in, Ib. }
      subst k. rewrite cw_ccw. rewrite ccw_ccw in J2. rewrite (U3 b j (cw e)); auto. unfold joined.
      destruct (side_eqb_spec (cw e) e) as [Q|_]; [destruct e; discriminate|]. destruct (side_eqb_spec (cw e) (ccw e)) as [Q|_]; [destruct e; discriminate|]. reflexivity. }
    assert (EA : link s t (ccw e) = None -> fa = []) by (intros Q; unfold side_fan in FA; rewrite cw_cw, Q in FA; exact FA).
    assert (EB : link s t (cw e) = None -> fb = []) by (intros Q; unfold side_fan in FB; rewrite ccw_ccw, Q in FB; exact FB).
    destruct (link s t (ccw e)) as [a|] eqn:Ha.
    - specialize (HA a eq_refl). destruct (JA a eq_refl) as (Da & Na & JA'). clear JA.
      destruct (link s t (cw e)) as [b|] eqn:Hb.
      + specialize (HB b eq_refl). pose proof (fan_head _ _ _ _ _ HA) as P1. pose proof (fan_head _ _ _ _ _ HB) as P2.
        destruct fa as [|a0 ra]; [discriminate P1|]. destruct fb as [|b0 rb]; [discriminate P2|].
        injection P1 as <-. injection P2 as <-.
        assert (X : exists sd, corner s' a sd = kv) by (inversion HA as [|w sd l C1 F1 E1]; exists sd; exact C1). destruct X as (sd & C1).
        apply (fan_rev (fun u => D u /\ u <> t) s' kv L' ltac:(intros u [Du Nu]; auto) (a :: ra) a sd (b :: rb) HA); auto.
        rewrite (JA' sd C1). exact HB.
      + rewrite (EB eq_refl). pose proof (fan_head _ _ _ _ _ HA) as P1. destruct fa as [|a0 ra]; [discriminate P1|].
        injection P1 as <-. split; [exact HA|]. intros k Hk. unfold back. rewrite cw_cw. apply JA', Hk.
    - rewrite (EA eq_refl). destruct (link s t (cw e)) as [b|] eqn:Hb.
      + specialize (HB b eq_refl). destruct (JB b eq_refl) as (Db & Nb & JB').
        pose proof (fan_head _ _ _ _ _ HB) as P2. destruct fb as [|b0 rb]; [discriminate P2|].
        injection P2 as <-. split; [exact HB|]. intros k Hk. unfold back. rewrite ccw_ccw. apply JB', Hk.
      + rewrite (EB eq_refl). exact I.
  Qed.

  (** ** Triangles that vanish without merging vertices *)
  Lemma back_unique D s t u i j : linked D s -> (forall u, D u -> distinct s u) -> D u -> apart s t ->
    link s u i = Some t -> link s u j = Some t -> i = j.
  Proof.
    intros L DI Du AP Hi Hj. destruct (L u i t Du Hi) as (_ & m & M1 & [S1 S2]).
    destruct (L u j t Du Hj) as (_ & m' & M1' & [S1' S2']).
    assert (m = m') by (apply (AP m m' u); assumption). subst m'.
    assert (Q : cw i = cw j) by (apply (DI u Du); congruence). rewrite <- (ccw_cw i), <- (ccw_cw j), Q. reflexivity.
  Qed.

  Lemma prune D X s s' : linked D s -> (forall u, t_v (ts s' u) = t_v (ts s u)) ->
    (forall u j, D u -> ~ In u X -> link s' u j = match link s u j with
                                              | Some x => if existsb (Nat.eqb x) X then None else Some x
                                              | None => None
                                              end) ->
    linked (fun u => D u /\ ~ In u X) s'.
  Proof.
    intros L C K u i w [Du Nu] H. rewrite (K u i Du Nu) in H. destruct (link s u i) as [x|] eqn:Hx; [|discriminate].
    destruct (existsb (Nat.eqb x) X) eqn:EX; [discriminate|]. injection H as <-.
    assert (Nx : ~ In x X).
    { intros Q. assert (existsb (Nat.eqb x) X = true); [|congruence]. apply existsb_exists. exists x. split; [exact Q|apply Nat.eqb_refl]. }
    destruct (L u i x Du Hx) as (Dx & j & J1 & J2). split; [auto|]. exists j. split.
    - rewrite (K x j Dx Nx), J1. destruct (existsb (Nat.eqb u) X) eqn:EU; [|reflexivity].
      apply existsb_exists in EU. destruct EU as (y & Y1 & Y2). apply Nat.eqb_eq in Y2. subst y. contradiction.
    - unfold shares, corner in *. rewrite !C. exact J2.
  Qed.

  Lemma lk_at s s' o t u j : lk s s' o t None -> link s u j <> Some t -> link s' u j = link s u j.
  Proof.
    intros K H. destruct o as [a|]; cbn [lk] in K; [|apply K]. destruct K as (i & K1 & K2). rewrite K2.
    destruct (Nat.eqb_spec a u) as [->|]; [|reflexivity]. destruct (side_eqb_spec i j) as [->|]; [|reflexivity]. contradiction.
  Qed.
  Lemma lk_none s s' o t u j : lk s s' o t None -> link s u j = None -> link s' u j = None.
  Proof. intros K H. rewrite (lk_at s s' o t u j K); [exact H|]. rewrite H. discriminate. Qed.
  Lemma lk_back D s s' t e u j : linked D s -> (forall u, D u -> distinct s u) -> D u -> apart s t ->
    (forall m, m <> e -> link s t m <> Some u) -> lk s s' (link s t e) t None -> link s u j = Some t -> link s' u j = None.
  Proof.
    intros L DI Du AP NO K H. destruct (L u j t Du H) as (_ & m & M1 & _).
    assert (m = e).
    { destruct (side_eqb_spec m e) as [|N]; [assumption|]. exfalso. apply (NO m N). exact M1. }
    subst m. rewrite M1 in K. cbn [lk] in K. destruct K as (i & K1 & K2). rewrite K2, Nat.eqb_refl.
    rewrite (back_unique D s t u i j L DI Du AP K1 H). destruct (side_eqb_spec j j); [reflexivity|congruence].
  Qed.

  Lemma apart_one s t e : (forall m, m <> e -> link s t m = None) -> apart s t.
  Proof.
    intros H i j x Hi Hj.
    assert (Q : forall k, link s t k = Some x -> k = e).
    { intros k Hk. destruct (side_eqb_spec k e) as [|N]; [assumption|]. rewrite (H k N) in Hk. discriminate. }
    rewrite (Q i Hi), (Q j Hj). reflexivity.
  Qed.

  Lemma even_single D s t e s' : linked D s -> (forall u, D u -> distinct s u) ->
    (forall m, m <> e -> link s t m = None) -> (forall u, t_v (ts s' u) = t_v (ts s u)) ->
    lk s s' (link s t e) t None -> linked (fun u => D u /\ ~ In u [t]) s'.
  Proof.
    intros L DI NO C K. apply (prune D [t] s s' L C). intros u j Du Nu. cbn [existsb].
    destruct (link s u j) as [x|] eqn:Hx.
    - destruct (Nat.eqb_spec x t) as [->|N]; cbn [orb].
      + apply (lk_back D s s' t e); auto; [apply apart_one with e, NO|]. intros m Hm. rewrite (NO m Hm). discriminate.
      + rewrite (lk_at s s' _ t u j K); [exact Hx|]. rewrite Hx. congruence.
    - apply (lk_none s s' _ t u j K Hx).
  Qed.

  Lemma even_double D s t0 t1 e0 e1 s1 s' : linked D s -> (forall u, D u -> distinct s u) -> D t0 -> D t1 -> t0 <> t1 ->
    apart s t0 -> apart s t1 ->
    (forall m, m <> e0 -> link s t0 m = None \/ link s t0 m = Some t1) ->
    (forall m, m <> e1 -> link s t1 m = None \/ link s t1 m = Some t0) ->
    (exists m, m <> e1 /\ link s t1 m = Some t0) ->
    (forall u, t_v (ts s1 u) = t_v (ts s u)) -> (forall u, t_v (ts s' u) = t_v (ts s1 u)) ->
    lk s s1 (link s t0 e0) t0 None -> lk s1 s' (link s1 t1 e1) t1 None ->
    linked (fun u => D u /\ ~ In u [t0; t1]) s'.
  Proof.
    intros L DI D0 D1 N01 AP0 AP1 NO0 NO1 (m1 & M1 & M2) C1 C2 K1 K2.
    apply (prune D [t0; t1] s s' L); [intros u; rewrite C2; apply C1|]. intros u j Du Nu. cbn [existsb].
    assert (Nu0 : u <> t0) by (intros ->; apply Nu; simpl; auto).
    assert (Nu1 : u <> t1) by (intros ->; apply Nu; simpl; auto).
    assert (L1 : link s1 t1 e1 = link s t1 e1).
    { apply (lk_at s s1 _ t0 t1 e1 K1). intros Q. apply M1. apply (AP1 m1 e1 t0 M2 Q). }
    destruct (link s u j) as [x|] eqn:Hx.
    - destruct (Nat.eqb_spec x t0) as [->|Nx0]; cbn [orb].
      + apply (lk_none s1 s' _ t1 u j K2). apply (lk_back D s s1 t0 e0); auto.
        intros m Hm. destruct (NO0 m Hm) as [-> | ->]; congruence.
      + assert (H1 : link s1 u j = Some x) by (rewrite (lk_at s s1 _ t0 u j K1); [exact Hx|congruence]).
        destruct (Nat.eqb_spec x t1) as [->|Nx1]; cbn [orb].
        * destruct (L u j t1 Du Hx) as (_ & m & B1 & _).
          assert (m = e1).
          { destruct (side_eqb_spec m e1) as [|N]; [assumption|]. exfalso. destruct (NO1 m N) as [Q|Q]; congruence. }
          subst m. rewrite L1, B1 in K2. cbn [lk] in K2. destruct K2 as (i & I1 & I2). rewrite I2, Nat.eqb_refl.
          assert (I3 : link s u i = Some t1).
          { destruct (link s u i) as [y|] eqn:Hy.
            - destruct (Nat.eq_dec y t0) as [->|Ny].
              + rewrite (lk_back D s s1 t0 e0 u i) in I1; auto; [discriminate|].
                intros m Hm. destruct (NO0 m Hm) as [-> | ->]; congruence.
              + rewrite (lk_at s s1 _ t0 u i K1) in I1; [congruence|congruence].
            - rewrite (lk_none s s1 _ t0 u i K1 Hy) in I1. discriminate. }
          rewrite (back_unique D s t1 u i j L DI Du AP1 I3 Hx). destruct (side_eqb_spec j j); [reflexivity|congruence].
        * rewrite (lk_at s1 s' _ t1 u j K2); [exact H1|congruence].
    - apply (lk_none s1 s' _ t1 u j K2). apply (lk_none s s1 _ t0 u j K1 Hx).
  Qed.

  (** ** Triangles with even legs, and triangles on their own *)
  Lemma even_until t e pivot now step s u s' : registered s ->
    handle_parallel_edge_event_even_legs t e pivot now step s = Ok (u, s') ->
    registered s' /\ follows s s' /\ (forall w, t_v (ts s' w) = t_v (ts s w)) /\ lk s s' (link s t e) t None /\
    t_stops (ts s' t) = Some now /\ (forall w, w <> t -> t_stops (ts s' w) = t_stops (ts s w)) /\ corner s t e = pivot.
  Proof.
    intros R H. unfold handle_parallel_edge_event_even_legs in H. cbv zeta in H.
    peel H x s1 H1. apply gets_ok in H1. destruct H1 as [-> ->].
    peel H z1 s1 H1. apply ro_ok in H1; [|auto with ro]. subst s1.
    peel H z2 s1 H1. apply ro_ok in H1; [|auto with ro]. subst s1.
    peel H z3 s1 H1. apply assertM_ok in H1. destruct H1 as [H1 ->]. apply Nat.eqb_eq in H1. rename H1 into PV.
    peel H nd s1 H1. apply quiet_stop in H1; [|exact R]. destruct H1 as [Q1 N1].
    peel H z4 s2 H1. apply quiet_stop_at in H1; [|apply Q1|exact N1]. destruct H1 as (Q2 & _ & _).
    peel H z5 s3 H1. apply tstops_ok in H1; [|apply Q2]. destruct H1 as (R3 & F3 & V3 & ST3 & ST3').
    peel H x s4 H1. apply gets_ok in H1. destruct H1 as [-> ->].
    change (get3 (t_n (ts s3 t)) e) with (link s3 t e) in H.
    apply unlink_ok in H; [|exact R3]. destruct H as (R4 & F4 & V4 & L4).
    assert (M3 : forall w, t_v (ts s3 w) = t_v (ts s w) /\ t_n (ts s3 w) = t_n (ts s w)).
    { intros w. destruct (V3 w) as [-> ->]. destruct (proj2 (proj2 Q2) w) as (-> & -> & _). destruct (proj2 (proj2 Q1) w) as (-> & -> & _). auto. }
    assert (K3 : forall w i, link s3 w i = link s w i) by (intros w i; unfold link; destruct (M3 w) as [_ ->]; reflexivity).
    split; [exact R4|]. split.
    { apply (G_trans base_sound _ _ _ (proj1 (proj2 Q1))). apply (G_trans base_sound _ _ _ (proj1 (proj2 Q2))).
      apply (G_trans base_sound _ _ _ F3 F4). }
    split; [intros w; destruct (V4 w) as [-> _]; apply M3|]. split.
    { rewrite K3 in L4. destruct (link s t e) as [a|]; cbn [lk] in *.
      - destruct L4 as (i & I1 & I2). exists i. split; [rewrite <- K3; exact I1|]. intros w j. rewrite I2, K3. reflexivity.
      - intros w j. rewrite L4. apply K3. }
    split; [destruct (V4 t) as [_ ->]; exact ST3|]. split; [|exact PV].
    intros w Hw. destruct (V4 w) as [_ ->]. rewrite (ST3' w Hw). destruct (proj2 (proj2 Q2) w) as (_ & _ & ->). apply (proj2 (proj2 Q1)).
  Qed.

  Lemma even_at_until t pivot now step s u s' : registered s -> even_legs_at t pivot now step s = Ok (u, s') ->
    exists e, registered s' /\ follows s s' /\ (forall w, t_v (ts s' w) = t_v (ts s w)) /\ lk s s' (link s t e) t None /\
    t_stops (ts s' t) = Some now /\ (forall w, w <> t -> t_stops (ts s' w) = t_stops (ts s w)) /\ corner s t e = pivot.
  Proof.
    intros R H. unfold even_legs_at in H. peel H x s1 H1. apply gets_ok in H1. destruct H1 as [-> ->].
    peel H i s1 H1. apply ro_ok in H1; [|auto with ro]. subst s1. exists i. eapply even_until; eauto.
  Qed.

  Lemma three_until t e pivot now step s u s' : registered s ->
    handle_parallel_edge_event_3tri t e pivot now step s = Ok (u, s') ->
    registered s' /\ follows s s' /\ (forall w, t_v (ts s' w) = t_v (ts s w) /\ t_n (ts s' w) = t_n (ts s w)) /\
    t_stops (ts s' t) = Some now /\ (forall w, w <> t -> t_stops (ts s' w) = t_stops (ts s w)).
  Proof.
    intros R H. unfold handle_parallel_edge_event_3tri in H. cbv zeta in H.
    peel H x s1 H1. apply gets_ok in H1. destruct H1 as [-> ->].
    do 11 (let zz := fresh "z" in peel H zz ss H1; apply ro_ok in H1; [|auto with ro]; subst ss).
    peel H nd s1 H1.
    assert (Q : quiet s s1 /\ In nd (sk_nodes s1)).
    { match type of H1 with (if ?b then _ else _) _ = _ => destruct b end;
        (peel H1 n s2 H2; apply quiet_stop in H2; [|exact R]; destruct H2 as [Q1 N1];
         peel H1 w s3 H2; apply quiet_stop_at in H2; [|apply Q1|exact N1]; destruct H2 as (Q2 & N2 & _);
         apply ret_ok in H1; destruct H1 as [-> ->]; split; [apply (quiet_trans _ s2); assumption|rewrite N2; exact N1]). }
    destruct Q as [Q1 N1].
    peel H y4 s2 H2. apply quiet_stop_at in H2; [|apply Q1|exact N1]. destruct H2 as (Q2 & _ & _).
    peel H y5 s3 H2. apply tstops_ok in H2; [|apply Q2]. destruct H2 as (R3 & F3 & V3 & ST3 & ST3').
    peel H x s4 H2. apply gets_ok in H2. destruct H2 as [-> ->].
    apply ro_ok in H; [|apply ro_forM; intros; apply ro_bind; auto with ro]. subst s'.
    split; [exact R3|]. split.
    { apply (G_trans base_sound _ _ _ (proj1 (proj2 Q1))). apply (G_trans base_sound _ _ _ (proj1 (proj2 Q2))). exact F3. }
    split.
    { intros w. destruct (V3 w) as [-> ->]. destruct (proj2 (proj2 Q2) w) as (-> & -> & _). destruct (proj2 (proj2 Q1) w) as (-> & -> & _). auto. }
    split; [exact ST3|].
    intros w Hw. rewrite (ST3' w Hw). destruct (proj2 (proj2 Q2) w) as (_ & _ & ->). apply (proj2 (proj2 Q1)).
  Qed.

  Lemma isolated_until D t pivot now step s u s' : registered s -> linked D s -> (forall i, link s t i = None) ->
    parallel_fan_isolated t pivot now step s = Ok (u, s') ->
    linked (fun u => D u /\ ~ In u [t]) s' /\ registered s' /\ follows s s' /\
    t_stops (ts s' t) = Some now /\ (forall w, w <> t -> t_stops (ts s' w) = t_stops (ts s w)).
  Proof.
    intros R L NO H. unfold parallel_fan_isolated in H.
    assert (FIN : (forall w, t_v (ts s' w) = t_v (ts s w)) -> (forall w j, link s' w j = link s w j) -> linked (fun u => D u /\ ~ In u [t]) s').
    { intros C K. apply (prune D [t] s s' L C). intros w j Dw Nw. rewrite K. cbn [existsb].
      destruct (link s w j) as [x|] eqn:Hx; [|reflexivity]. destruct (Nat.eqb_spec x t) as [->|]; [|reflexivity].
      destruct (L w j t Dw Hx) as (_ & m & M1 & _). rewrite NO in M1. discriminate. }
    assert (TRI : forall e, handle_parallel_edge_event_3tri t e pivot now step s = Ok (u, s') ->
      linked (fun u => D u /\ ~ In u [t]) s' /\ registered s' /\ follows s s' /\
      t_stops (ts s' t) = Some now /\ (forall w, w <> t -> t_stops (ts s' w) = t_stops (ts s w))).
    { intros e K. apply three_until in K; [|exact R]. destruct K as (K1 & K2 & K3 & K4 & K5).
      split; [apply FIN; [intros w; apply K3|intros w j; unfold link; destruct (K3 w) as [_ ->]; reflexivity]|]. auto. }
    do 3 (let zz := fresh "z" in peel H zz ss H1; apply ro_ok in H1; [|auto with ro]; subst ss). cbv zeta in H.
    destruct (where3 _ _) as [|sd [|]];
      try (peel H x ss H1; apply gets_ok in H1; destruct H1 as [-> ->]; peel H i ss H1; apply ro_ok in H1; [|auto with ro]; subst ss; eapply TRI, H).
    destruct (near_zero _).
    - peel H x ss H1. apply gets_ok in H1. destruct H1 as [-> ->].
      apply even_at_until in H; [|exact R]. destruct H as (e & K1 & K2 & K3 & K4 & K5 & K6 & _).
      rewrite NO in K4. cbn [lk] in K4. split; [apply FIN; auto|]. auto.
    - peel H x ss H1; apply gets_ok in H1; destruct H1 as [-> ->]; peel H i ss H1; apply ro_ok in H1; [|auto with ro]; subst ss; eapply TRI, H.
  Qed.

  Lemma fasts_at s t q s' :
    rd (fun s => rmapl (fun v => kattr (vs s v) (k_inf_fast (vs s v))) (list3 (t_v (ts s t)))) s = Ok (q, s') ->
    s' = s /\ q = map (fun v => k_inf_fast (vs s v)) (list3 (t_v (ts s t))).
  Proof.
    intros H. apply rd_ok in H. destruct H as [H ->]. split; [reflexivity|]. revert q H.
    generalize (list3 (t_v (ts s t))). intros l. induction l as [|v l IH]; intros q H; cbn [rmapl] in H.
    - injection H as <-. reflexivity.
    - destruct (kattr _ _) as [b|] eqn:K in H; cbn [rbind] in H; [|discriminate].
      destruct (rmapl _ l) as [q'|] eqn:Q in H; cbn [rbind] in H; [|discriminate]. injection H as <-.
      cbn [map]. rewrite <- (IH q' Q). f_equal. unfold kattr in K.
      match type of K with (if ?c then _ else _) = _ => destruct c; [discriminate|] end. injection K as <-. reflexivity.
  Qed.

  Lemma even_not_at t pivot now step s u s' : (forall i, corner s t i <> pivot) -> even_legs_at t pivot now step s <> Ok (u, s').
  Proof.
    intros N H. unfold even_legs_at in H. peel H x s1 H1. apply gets_ok in H1. destruct H1 as [-> ->].
    peel H i s1 H1. unfold rdr in H1. apply rd_ok in H1. destruct H1 as [H1 ->]. apply vindex_get in H1. apply (N i). exact H1.
  Qed.

  Lemma flip_until D t0 t1 v d now step s u s' : registered s -> linked D s -> (forall u, D u -> distinct s u) -> D t0 ->
    opposite s t0 -> apart s t0 -> apart s t1 -> k_inf_fast (vs s v) = true -> (d = cw \/ d = ccw) ->
    full_fan s v d [t0; t1] ->
    flip_then_even_legs t0 t1 v now step s = Ok (u, s') ->
    exists t, (t = t0 \/ t = t1) /\ linked (fun u => D u /\ ~ In u [t]) s' /\ registered s' /\ follows s s' /\
      t_stops (ts s' t) = Some now /\ (forall w, w <> t -> t_stops (ts s' w) = t_stops (ts s w)).
  Proof.
    intros R L DI D0 OP AP0 AP1 VF Hd [FF FN] H. unfold flip_then_even_legs in H.
    pose proof H as H0.
    peel H x s1 H1. apply gets_ok in H1. destruct H1 as [-> ->].
    peel H i0 s1 H1. unfold rdr in H1. apply rd_ok in H1. destruct H1 as [I0 ->].
    peel H x s1 H1. apply gets_ok in H1. destruct H1 as [-> ->].
    peel H i1 s1 H1. unfold rdr in H1. apply rd_ok in H1. destruct H1 as [I1 ->].
    assert (IX : forall a b i, nindex (ts s a) b = Ok i -> link s a i = Some b).
    { intros a b i Q. unfold link. unfold nindex in Q. apply index3_get in Q.
      destruct (get3 (t_n (ts s a)) i) as [q|]; [|discriminate]. apply Nat.eqb_eq in Q. congruence. }
    apply IX in I0, I1. clear IX.
    assert (SH : shares s t0 i0 t1 i1).
    { destruct (L t0 i0 t1 D0 I0) as (_ & j & J1 & J2). rewrite (AP1 i1 j t0 I1 J1). exact J2. }
    pose proof (OP i0 t1 i1 I0 I1 SH) as AC.
    destruct (flip_spec D s t0 i0 t1 i1 L DI D0 I0 I1 SH AC) as (s2 & F1 & F2 & V0 & N0 & V1 & N1 & FO & _ & FS & L2 & DI2).
    peel H z1 s3 H1.
    assert (RF : registered s2 /\ follows s s2).
    { pose proof (keeps_flip base_sound now t0 i0 t1 i1 s R z1 s3 H1) as Q. rewrite F1 in H1. injection H1 as <- <-. exact Q. }
    rewrite F1 in H1. injection H1 as <- <-. destruct RF as [R2 FO2].
    assert (VS2 : vs s2 = vs s) by (rewrite F2; reflexivity).
    peel H f0 s3 H1. apply fasts_at in H1. destruct H1 as [-> ->].
    peel H f1 s3 H1. apply fasts_at in H1. destruct H1 as [-> ->].
    rewrite VS2, V0, V1 in H.
    (* where the sides lie *)
    assert (K0 : exists k0, corner s t0 k0 = v /\ i0 = d k0 /\ link s t0 (back d k0) = None /\ link s t1 (d (d i1)) = None /\ corner s t1 (d i1) = v).
    { inversion FF as [|w sd l C FF' E1 E2]. subst w l.
      change (get3 (t_n (ts s t0)) (d sd)) with (link s t0 (d sd)) in FF'.
      pose proof (fan_head _ _ _ _ _ FF') as HD. cbn [hd_error] in HD.
      exists sd. split; [exact C|]. assert (i0 = d sd) by (apply (AP0 _ _ t1); assumption). subst i0. split; [reflexivity|].
      split; [apply FN, C|]. pose proof (turn_eq d sd t1 t0 s i1 Hd SH) as TE.
      assert (TE' : corner s t1 (d i1) = v) by (rewrite TE; exact C). split; [|exact TE'].
      rewrite HD in FF'. inversion FF' as [|w sd1 l C1 FF'' E1' E2']. subst w l.
      assert (sd1 = d i1).
      { apply (DI t1); [apply (L t0 (d sd) t1 D0 HD)|]. change (corner s t1 sd1 = v) in C1. congruence. }
      subst sd1. apply fan_head in FF''. exact FF''. }
    destruct K0 as (k0 & KC & -> & KN & K1N & K1C).
    assert (D1 : D t1) by (apply (L t0 _ t1 D0 I0)).
    assert (T01 : t0 <> t1) by (intros <-; apply (self_shares D s t0 (d k0) i1 DI D0 SH)).
    pose proof (DI t0 D0) as DT0. pose proof (DI t1 D1) as DT1.
    destruct Hd as [-> | ->].
    - (* t0 keeps the vertex *)
      rewrite ccw_cw in V0, H. rewrite KC in V0, H.
      unfold back in KN. rewrite KN in N0. rewrite cw_cw in K1N. rewrite K1N in N0. rewrite cw_cw in V1, H.
      exists t0. split; [auto|].
      peel H z2 s4 H1. cbn [list3 map existsb x0 x1 x2] in H1. unfold id in H1. rewrite VF in H1. cbn [orb] in H1.
      rewrite Bool.orb_true_r in H1. cbn [whenM] in H1. apply even_at_until in H1; [|exact R2].
      destruct H1 as (e & R4 & F4 & C4 & LK4 & ST4 & ST4' & PV).
      assert (s' = s4).
      { unfold whenM in H. destruct (existsb _ _); [|apply ret_ok in H; apply H].
        exfalso. revert H. apply even_not_at. intros i. unfold corner. rewrite C4, V1.
        destruct i; cbn [get3]; intros Q.
        - rewrite <- K1C in Q. apply DT1 in Q. destruct i1; discriminate.
        - rewrite <- KC in Q. apply DT0 in Q. destruct k0; discriminate.
        - rewrite <- KC in Q. apply DT0 in Q. destruct k0; discriminate. }
      subst s4.
      assert (e = S1).
      { apply (DI2 t0 D0). rewrite PV. unfold corner. rewrite V0. reflexivity. }
      subst e. split; [|split; [exact R4|split; [apply (G_trans base_sound _ _ _ FO2 F4)|split; [exact ST4|]]]].
      + apply (even_single D s2 t0 S1 s' L2 DI2); auto. intros m Hm. unfold link. rewrite N0. destruct m; [reflexivity|congruence|reflexivity].
      + intros w Hw. rewrite (ST4' w Hw). apply FS.
    - (* t1 receives it *)
      rewrite cw_ccw in V1, H. rewrite KC in V1, H.
      unfold back in KN. rewrite KN in N1. rewrite ccw_ccw in K1N. rewrite K1N in N1. rewrite ccw_ccw in V0, H.
      exists t1. split; [auto|].
      peel H z2 s4 H1.
      assert (s4 = s2).
      { unfold whenM in H1. destruct (existsb _ _); [|apply ret_ok in H1; apply H1].
        exfalso. revert H1. apply even_not_at. intros i. unfold corner. rewrite V0.
        destruct i; cbn [get3]; intros Q.
        - rewrite <- KC in Q. apply DT0 in Q. destruct k0; discriminate.
        - rewrite <- KC in Q. apply DT0 in Q. destruct k0; discriminate.
        - rewrite <- K1C in Q. apply DT1 in Q. destruct i1; discriminate. }
      subst s4. cbn [list3 map existsb x0 x1 x2] in H. unfold id in H. rewrite VF in H. cbn [orb] in H.
      rewrite Bool.orb_true_r in H. cbn [whenM] in H. apply even_at_until in H; [|exact R2].
      destruct H as (e & R4 & F4 & C4 & LK4 & ST4 & ST4' & PV).
      assert (e = S1).
      { apply (DI2 t1 D1). rewrite PV. unfold corner. rewrite V1. reflexivity. }
      subst e. split; [|split; [exact R4|split; [apply (G_trans base_sound _ _ _ FO2 F4)|split; [exact ST4|]]]].
      + apply (even_single D s2 t1 S1 s' L2 DI2); auto. intros m Hm. unfold link. rewrite N1. destruct m; [reflexivity|congruence|reflexivity].
      + intros w Hw. rewrite (ST4' w Hw). apply FS.
  Qed.

  (** ** Handling an infinitely fast vertex *)
  (** the states in which legs of triangles with an infinitely fast vertex have
      collapsed, one after the other; each of them makes the next vertex *)
  Inductive legs (now : num) (step : Z) : nat -> state -> nat -> state -> Prop :=
  | legs_none v s : legs now step v s v s
  | legs_one v s t e s1 v' s' : active s t -> link s t e = None ->
      handle_parallel_edge_event_shorter_leg no_fans t e v now step s = Ok (tt, s1) ->
      legs now step (nv s) s1 v' s' -> legs now step v s v' s'.

  (** the triangles have three different corners, and no two neighbours have the same ones *)
  Definition proper (s : state) : Prop := forall u, active s u -> distinct s u /\ opposite s u.

  Lemma fan_last s v d o l x : is_fan s v d o l -> l <> [] ->
    exists k, corner s (last l x) k = v /\ link s (last l x) (d k) = None.
  Proof.
    intros F. induction F as [|w sd l C F IH]; intros N; [congruence|].
    destruct l as [|y l].
    - exists sd. split; [exact C|]. apply fan_head in F. exact F.
    - change (last (w :: y :: l) x) with (last (y :: l) x). apply IH. discriminate.
  Qed.

  Lemma last_in (l : list nat) x : l <> [] -> In (last l x) l.
  Proof. induction l as [|a [|b l] IH]; intros N; [congruence|simpl; auto|]. right. apply IH. discriminate. Qed.

  Lemma active_minus s s' X now : sk_triangles s' = sk_triangles s ->
    (forall u, In u X -> t_stops (ts s' u) = Some now) -> (forall u, ~ In u X -> t_stops (ts s' u) = t_stops (ts s u)) ->
    linked (fun u => active s u /\ ~ In u X) s' -> linked (active s') s'.
  Proof.
    intros T S1 S2 L.
    assert (Q : forall u, active s' u <-> active s u /\ ~ In u X).
    { intros u. unfold active. rewrite T. destruct (in_dec Nat.eq_dec u X) as [I|I].
      - split; [intros [_ Q]; rewrite (S1 u I) in Q; discriminate|tauto].
      - rewrite (S2 u I). tauto. }
    intros u i w Du H. apply Q in Du. destruct (L u i w Du H) as (Dw & j & J). split; [apply Q, Dw|]. exists j. exact J.
  Qed.

  Theorem fan_mesh fuel : forall fan v now d step s s',
    registered s -> (forall u i, corner s u i < nv s) -> linked (active s) s ->
    full_fan s v (turn_fn d) fan -> (forall u, In u fan -> active s u) ->
    (forall v1 s1, legs now step v s v1 s1 -> proper s1) ->
    handle_parallel_fan fuel fan v now d step s = Ok (tt, s') ->
    linked (active s') s' /\
    (forall u, t_stops (ts s' u) = t_stops (ts s u) \/ (active s u /\ t_stops (ts s' u) = Some now)).
  Proof.
    induction fuel as [|fuel IH]; intros fan v now d step s s' R LT L FF FA PR H; cbn [handle_parallel_fan] in H; [discriminate|].
    destruct fan as [|f r] eqn:EF; [discriminate|]. rewrite <- EF in *.
    pose proof (PR v s (legs_none now step v s)) as P0.
    assert (DI : forall u, active s u -> distinct s u) by (intros u Hu; apply P0, Hu).
    assert (AP : forall u, active s u -> apart s u) by (intros u Hu; apply (opposite_apart (active s)); auto; apply P0, Hu).
    assert (FIN : forall X, follows s s' -> (forall u, In u X -> active s u) -> (forall u, In u X -> t_stops (ts s' u) = Some now) ->
      (forall u, ~ In u X -> t_stops (ts s' u) = t_stops (ts s u)) -> linked (fun u => active s u /\ ~ In u X) s' ->
      linked (active s') s' /\
      (forall u, t_stops (ts s' u) = t_stops (ts s u) \/ (active s u /\ t_stops (ts s' u) = Some now))).
    { intros X F XA X1 X2 LX. split; [apply (active_minus s s' X now); auto; apply (fo_tris _ _ F)|].
      intros u. destruct (in_dec Nat.eq_dec u X) as [I|I]; [right; auto|left; auto]. }
    (* a leg *)
    assert (LEG : forall t e, active s t -> link s t e = None ->
      handle_parallel_edge_event_shorter_leg (handle_parallel_fan fuel) t e v now step s = Ok (tt, s') ->
      linked (active s') s' /\
      (forall u, t_stops (ts s' u) = t_stops (ts s u) \/ (active s u /\ t_stops (ts s' u) = Some now))).
    { intros t e At Ne K.
      destruct (leg_until (handle_parallel_fan fuel) (active s) t e v now step s s' R LT L DI At (AP t At) K)
        as (fa & fb & s6 & R6 & F6 & V6 & MG & ST & ST' & K6 & K0).
      assert (K1 : nv s <> corner s t (ccw e)) by (specialize (LT t (ccw e)); lia).
      assert (K2 : nv s <> corner s t (cw e)) by (specialize (LT t (cw e)); lia).
      pose proof (merged_linked (active s) s t e (nv s) fa fb s6 L DI At (AP t At) K1 K2 MG) as L6.
      assert (A6 : forall u, active s6 u <-> active s u /\ u <> t).
      { intros u. unfold active. rewrite (fo_tris _ _ F6). destruct (Nat.eq_dec u t) as [->|N].
        - rewrite ST. split; [intros [_ Q]; discriminate|tauto].
        - rewrite (ST' u N). tauto. }
      assert (L6' : linked (active s6) s6).
      { intros u i w Du Hl. apply A6 in Du. destruct (L6 u i w Du Hl) as (Dw & j & J). split; [apply A6, Dw|]. exists j. exact J. }
      assert (PR6 : forall v1 s1, legs now step (nv s) s6 v1 s1 -> proper s1).
      { intros v1 s1 Q. apply (PR v1 s1). apply (legs_one now step v s t e s6 v1 s1); assumption. }
      assert (STOPS : forall u, t_stops (ts s6 u) = t_stops (ts s u) \/ (active s u /\ t_stops (ts s6 u) = Some now)).
      { intros u. destruct (Nat.eq_dec u t) as [->|N]; [right; auto|left; auto]. }
      assert (DONE : s' = s6 -> linked (active s') s' /\
        (forall u, t_stops (ts s' u) = t_stops (ts s u) \/ (active s u /\ t_stops (ts s' u) = Some now))).
      { intros ->. auto. }
      assert (REC : forall fan' d', handle_parallel_fan fuel fan' (nv s) now d' step s6 = Ok (tt, s') ->
        full_fan s6 (nv s) (turn_fn d') fan' -> (forall u, In u fan' -> In u fa \/ In u fb) ->
        linked (active s') s' /\
        (forall u, t_stops (ts s' u) = t_stops (ts s u) \/ (active s u /\ t_stops (ts s' u) = Some now))).
      { intros fan' d' Q1 Q2 Q3. apply IH in Q1; auto.
        - destruct Q1 as [Q1 Q4]. split; [exact Q1|]. intros u. destruct (Q4 u) as [-> |[Q5 Q6]]; [apply STOPS|].
          apply A6 in Q5. right. tauto.
        - intros u i. rewrite (mg_corner _ _ _ _ _ _ _ _ MG). unfold sub2, sub1. specialize (LT u i).
          repeat (match goal with |- context [if ?b then _ else _] => destruct b end; try lia).
        - intros u Hu. apply A6. destruct (Q3 u Hu) as [I|I].
          + split; [apply (side_fan_in (active s) s t (cw e) cw fa L At (mg_a _ _ _ _ _ _ _ _ MG) u I)|].
            intros ->. apply (side_fan_out (active s) s t (cw e) cw fa L DI At (mg_a _ _ _ _ _ _ _ _ MG) I).
          + split; [apply (side_fan_in (active s) s t (ccw e) ccw fb L At (mg_b _ _ _ _ _ _ _ _ MG) u I)|].
            intros ->. apply (side_fan_out (active s) s t (ccw e) ccw fb L DI At (mg_b _ _ _ _ _ _ _ _ MG) I). }
      pose proof (merged_full (active s) s t e (nv s) fa fb s6 L DI At (AP t At) K1 K2 MG
        ltac:(intros u Hu Nu; apply (PR6 _ _ (legs_none now step (nv s) s6)); apply A6; auto)) as FULL.
      destruct (k_inf_fast (vs s6 (nv s))); cbn [whenM] in K6.
      - unfold parallel_fan_of in K6. destruct fa as [|a fa]; destruct fb as [|b fb].
        + apply ret_ok in K6. apply DONE, K6.
        + apply (REC _ Ccw K6 FULL). auto.
        + apply (REC _ Cw K6 FULL). auto.
        + apply (REC _ Ccw K6 FULL). intros u Hu. apply in_app_or in Hu. destruct Hu as [Hu|Hu]; [left; apply in_rev, Hu|right; exact Hu].
      - apply ret_ok in K6. apply DONE, K6. }
    assert (HF : In f fan) by (rewrite EF; simpl; auto).
    assert (NE : fan <> []) by (rewrite EF; discriminate).
    assert (FF' : is_fan s v (turn_fn d) (Some f) fan /\ forall k, corner s f k = v -> link s f (back (turn_fn d) k) = None)
      by (rewrite EF in *; exact FF). destruct FF' as [F1 F2].
    destruct (fan_last s v (turn_fn d) (Some f) fan f F1 NE) as (kl & KL1 & KL2).
    pose proof (FA _ (last_in fan f NE)) as AL.
    assert (FL : forall k, corner s (last fan f) k = v -> link s (last fan f) (turn_fn d k) = None).
    { intros k Hk. assert (k = kl) by (apply (DI _ AL); congruence). subst k. exact KL2. }
    peel H fast s1 H1. apply fast_at in H1. destruct H1 as [-> ->].
    peel H z1 s1 H1. apply assertM_ok in H1. destruct H1 as [VF ->].
    peel H x s1 H1. apply gets_ok in H1. destruct H1 as [-> ->].
    destruct (Nat.eqb_spec (tri_type (ts s f)) 3) as [T3|_].
    - peel H z2 s1 H1. apply ro_ok in H1; [|auto with ro]. subst s1.
      assert (NO : forall i, link s f i = None).
      { unfold tri_type in T3. unfold link. intros i. destruct (t_n (ts s f)) as [[|] [|] [|]]; cbn in T3; try discriminate. destruct i; reflexivity. }
      apply (isolated_until (active s)) in H; auto. destruct H as (L' & R' & F' & ST & ST').
      apply (FIN [f]); auto.
      + intros u [<-|[]]. apply FA, HF.
      + intros u [<-|[]]. exact ST.
      + intros u Hu. apply ST'. intros ->. apply Hu. simpl. auto.
    - peel H z2 s1 H1. apply ro_ok in H1; [|auto with ro]. subst s1.
      assert (ENDS : exists ltri rtri, active s ltri /\ active s rtri /\
        (forall k, corner s ltri k = v -> link s ltri (ccw k) = None) /\
        (forall k, corner s rtri k = v -> link s rtri (cw k) = None) /\
        (ltri, rtri) = match d with Cw => (f, last fan f) | Ccw => (last fan f, f) end).
      { destruct d; cbn [turn_fn] in *; eexists; eexists; (split; [|split; [|split; [|split; [|reflexivity]]]]); auto.
        - intros k Hk. specialize (F2 k Hk). unfold back in F2. rewrite cw_cw in F2. exact F2.
        - intros k Hk. specialize (F2 k Hk). unfold back in F2. rewrite ccw_ccw in F2. exact F2. }
      destruct ENDS as (ltri & rtri & AL' & AR' & LN & RN & EQ). rewrite <- EQ in H.
      peel H x s1 H1. apply gets_ok in H1. destruct H1 as [-> ->].
      peel H li s1 H1. unfold rdr in H1. apply rd_ok in H1. destruct H1 as [LI ->]. apply vindex_get in LI.
      peel H ld s1 H1. apply ro_ok in H1; [|auto with ro]. subst s1.
      peel H x s1 H1. apply gets_ok in H1. destruct H1 as [-> ->].
      peel H ri s1 H1. unfold rdr in H1. apply rd_ok in H1. destruct H1 as [RI ->]. apply vindex_get in RI.
      peel H rdist s1 H1. apply ro_ok in H1; [|auto with ro]. subst s1.
      cbv zeta in H. destruct (near_zero _), (near_zero _); [| | |discriminate].
      + clear LEG IH EQ LN RN LI RI AL' AR'. destruct r as [|t1 [|t2 r]]; [| |discriminate].
        * (* one triangle *)
          peel H z3 s1 H1. unfold assert_stopped in H. peel H x s2 H2. apply gets_ok in H2. destruct H2 as [-> ->].
          apply ro_ok in H; [|auto with ro]. subst s1.
          apply even_at_until in H1; [|exact R]. destruct H1 as (e & R' & F' & C' & LK & ST & ST' & PV).
          apply (FIN [f]); auto.
          -- intros u [<-|[]]. apply FA, HF.
          -- intros u [<-|[]]. exact ST.
          -- intros u Hu. apply ST'. intros ->. apply Hu. simpl. auto.
          -- apply (even_single (active s) s f e s' L DI); auto.
             rewrite EF in FL. cbn [last] in FL. specialize (FL e PV). specialize (F2 e PV).
             intros m Hm. destruct d; unfold back in F2; cbn [turn_fn] in *; destruct m, e; cbn [cw ccw] in *; congruence.
        * (* two triangles *)
          peel H all2 s1 H1. apply ro_ok in H1; [|auto with ro]. subst s1.
          assert (A0 : active s f) by (apply FA, HF).
          assert (A1 : active s t1) by (apply FA; rewrite EF; simpl; auto).
          rewrite EF in FL, F1. cbn [last] in FL.
          assert (LINK : forall k, corner s f k = v -> link s f (turn_fn d k) = Some t1).
          { intros k Hk. inversion F1 as [|w sd l C F' E1 E2]. subst w l.
            assert (k = sd) by (apply (DI f A0); rewrite Hk; symmetry; exact C). subst sd. apply fan_head in F'. exact F'. }
          destruct all2.
          -- peel H z3 s1 H1. apply even_at_until in H1; [|exact R]. destruct H1 as (e0 & R' & F' & C' & LK & ST & ST' & PV).
             peel H z4 s2 H1. apply even_at_until in H1; [|exact R']. destruct H1 as (e1 & R'' & F'' & C'' & LK' & ST1 & ST1' & PV').
             unfold assert_stopped in H.
             peel H z5 s3 H1. peel H1 x s4 H2. apply gets_ok in H2. destruct H2 as [-> ->]. apply ro_ok in H1; [|auto with ro]. subst s3.
             peel H x s4 H2. apply gets_ok in H2. destruct H2 as [-> ->]. apply ro_ok in H; [|auto with ro]. subst s2.
             assert (PV1 : corner s t1 e1 = v) by (unfold corner in *; rewrite C' in PV'; exact PV').
             specialize (LINK e0 PV). specialize (FL e1 PV1). specialize (F2 e0 PV).
             destruct (L f _ t1 A0 LINK) as (_ & j & J1 & J2).
             assert (N01 : f <> t1) by (intros <-; apply (self_shares (active s) s f _ j DI A0 J2)).
             assert (Hd : turn_fn d = cw \/ turn_fn d = ccw) by (destruct d; auto).
             pose proof (turn_eq (turn_fn d) e0 t1 f s j Hd J2) as TE.
             assert (JE : turn_fn d j = e1) by (apply (DI t1 A1); congruence).
             apply (FIN [f; t1]).
             ++ apply (G_trans base_sound _ _ _ F' F'').
             ++ intros u [<-|[<-|[]]]; assumption.
             ++ intros u [<-|[<-|[]]]; [rewrite (ST1' f N01)|]; assumption.
             ++ intros u Hu. rewrite ST1' by (intros ->; apply Hu; simpl; auto). apply ST'. intros ->. apply Hu. simpl. auto.
             ++ apply (even_double (active s) s f t1 e0 e1 s1 s' L DI A0 A1 N01 (AP f A0) (AP t1 A1)); auto.
                ** intros m Hm. unfold back in F2. destruct d; cbn [turn_fn] in *; destruct m, e0; cbn [cw ccw] in *; try congruence; auto.
                ** intros m Hm. rewrite <- JE in Hm, FL. destruct d; cbn [turn_fn] in *; destruct m, j; cbn [cw ccw] in *; try congruence; auto.
                ** exists j. split; [|exact J1]. rewrite <- JE. destruct d, j; discriminate.
          -- apply (flip_until (active s) f t1 v (turn_fn d) now step s tt s') in H; auto.
             ++ destruct H as (t & Ht & L' & R' & F' & ST & ST'). apply (FIN [t]); auto.
                ** intros u [<-|[]]. destruct Ht as [-> | ->]; assumption.
                ** intros u [<-|[]]. exact ST.
                ** intros u Hu. apply ST'. intros ->. apply Hu. simpl. auto.
             ++ apply P0, A0.
             ++ destruct d; auto.
             ++ split; [exact F1|exact F2].
      + apply (LEG ltri (ccw li)); auto.
      + apply (LEG rtri (cw ri)); auto.
  Qed.

  (** ** Events *)
  (** triangles that stop were active, and stop now *)
  Definition stops_at (now : num) (s s' : state) : Prop :=
    forall u, t_stops (ts s' u) = t_stops (ts s u) \/ (active s u /\ t_stops (ts s' u) = Some now).

  Lemma stops_trans now s s1 s' : sk_triangles s1 = sk_triangles s -> stops_at now s s1 -> stops_at now s1 s' -> stops_at now s s'.
  Proof.
    intros T S1 S2 u. destruct (S2 u) as [-> |[[Q1 Q2] Q3]]; [apply S1|]. right. split; [|exact Q3].
    split; [rewrite <- T; exact Q1|]. destruct (S1 u) as [<-|[_ Q]]; [exact Q2|congruence].
  Qed.

  Lemma active_but s s1 t now : follows s s1 -> t_stops (ts s1 t) = Some now ->
    (forall u, u <> t -> t_stops (ts s1 u) = t_stops (ts s u)) -> forall u, active s1 u <-> active s u /\ u <> t.
  Proof.
    intros F ST ST' u. unfold active. rewrite (fo_tris _ _ F). destruct (Nat.eq_dec u t) as [->|N].
    - rewrite ST. split; [intros [_ Q]; discriminate|tauto].
    - rewrite (ST' u N). tauto.
  Qed.

  Lemma linked_iff D D' s : (forall u, D u <-> D' u) -> linked D s -> linked D' s.
  Proof.
    intros Q L u i w Du H. apply Q in Du. destruct (L u i w Du H) as (Dw & J). split; [apply Q, Dw|exact J].
  Qed.

  Theorem edge_fast_mesh s evt step e s' :
    registered s -> shaped s -> linked (active s) s -> (forall u, active s u -> distinct s u) ->
    active s (ev_tri evt) -> apart s (ev_tri evt) -> ev_side evt = [e] ->
    (forall s1 v v1 s2, handle_edge_event_with no_fans evt step s = Ok (tt, s1) -> nv s <= v < nv s1 ->
       k_inf_fast (vs s1 v) = true -> legs (ev_time evt) step v s1 v1 s2 -> proper s2) ->
    handle_edge_event evt step s = Ok (tt, s') ->
    linked (active s') s' /\ stops_at (ev_time evt) s s'.
  Proof.
    intros R SH L DI At AP SE PR H. unfold handle_edge_event in H.
    destruct (edge_until _ (active s) s evt step e s' R SH L DI At AP SE H)
      as (kv & fa & fb & s1 & R1 & F1 & V1 & FA & FB & C1 & U1 & ST & ST' & K & K0).
    set (t := ev_tri evt) in *. set (now := ev_time evt) in *.
    assert (LT : forall u i, corner s u i < nv s) by (intros u i; destruct i; apply (sh_v _ SH)).
    assert (MG : merged (active s) s t e kv fa fb s1) by (constructor; assumption).
    assert (K1 : kv <> corner s t (ccw e)) by (specialize (LT t (ccw e)); lia).
    assert (K2 : kv <> corner s t (cw e)) by (specialize (LT t (cw e)); lia).
    pose proof (merged_linked (active s) s t e kv fa fb s1 L DI At AP K1 K2 MG) as L1.
    pose proof (active_but s s1 t now F1 ST ST') as A1.
    assert (L1' : linked (active s1) s1) by (revert L1; apply linked_iff; intros u; rewrite A1; tauto).
    assert (LT1 : forall u i, corner s1 u i < nv s1).
    { intros u i. rewrite C1. unfold sub2, sub1. specialize (LT u i).
      repeat (match goal with |- context [if ?b then _ else _] => destruct b end; try lia). }
    assert (ST1 : stops_at now s s1).
    { intros u. destruct (Nat.eq_dec u t) as [->|N]; [right; auto|left; auto]. }
    assert (FIN : linked (active s') s' /\ stops_at now s1 s' -> linked (active s') s' /\ stops_at now s s').
    { intros [Q1 Q2]. split; [exact Q1|]. apply (stops_trans now s s1 s'); auto. apply (fo_tris _ _ F1). }
    apply FIN.
    destruct (k_inf_fast (vs s1 kv)) eqn:VF; cbn [whenM] in K.
    2:{ apply ret_ok in K. destruct K as [_ ->]. split; [exact L1'|]. intros u. left. reflexivity. }
    assert (PR1 : forall v1 s2, legs now step kv s1 v1 s2 -> proper s2) by (intros v1 s2 Q; apply (PR s1 kv v1 s2); auto).
    pose proof (merged_full (active s) s t e kv fa fb s1 L DI At AP K1 K2 MG
      ltac:(intros u Hu Nu; apply (PR1 _ _ (legs_none now step kv s1)); apply A1; auto)) as FULL.
    assert (IA : forall u, In u fa -> active s1 u).
    { intros u Hu. apply A1. split; [apply (side_fan_in (active s) s t (cw e) cw fa L At FA u Hu)|].
      intros ->. apply (side_fan_out (active s) s t (cw e) cw fa L DI At FA Hu). }
    assert (IB : forall u, In u fb -> active s1 u).
    { intros u Hu. apply A1. split; [apply (side_fan_in (active s) s t (ccw e) ccw fb L At FB u Hu)|].
      intros ->. apply (side_fan_out (active s) s t (ccw e) ccw fb L DI At FB Hu). }
    unfold parallel_fan_of in K. destruct fa as [|a fa]; destruct fb as [|b fb].
    - apply ret_ok in K. destruct K as [_ ->]. split; [exact L1'|]. intros u. left. reflexivity.
    - apply (fan_mesh reclimit (b :: fb) kv now Ccw step s1 s'); auto.
    - apply (fan_mesh reclimit (a :: fa) kv now Cw step s1 s'); auto.
    - apply (fan_mesh reclimit (rev (a :: fa) ++ b :: fb) kv now Ccw step s1 s'); auto.
      intros u Hu. apply in_app_or in Hu. destruct Hu as [Hu|Hu]; [apply IA, in_rev, Hu|apply IB, Hu].
  Qed.

  Theorem split_fast_mesh s evt step e s' :
    registered s -> shaped s -> linked (active s) s -> (forall u, active s u -> distinct s u) ->
    active s (ev_tri evt) -> apart s (ev_tri evt) -> ev_side evt = [e] ->
    (forall s1 v v1 s2, handle_split_event_with no_fans evt step s = Ok (tt, s1) -> nv s <= v < nv s1 ->
       k_inf_fast (vs s1 v) = true -> legs (ev_time evt) step v s1 v1 s2 -> proper s2) ->
    (forall s1 v w, handle_split_event_with no_fans evt step s = Ok (tt, s1) -> nv s <= v < w -> w < nv s1 ->
       k_inf_fast (vs s1 v) = true -> k_inf_fast (vs s1 w) = true -> False) ->
    handle_split_event evt step s = Ok (tt, s') ->
    linked (active s') s' /\ stops_at (ev_time evt) s s'.
  Proof.
    intros R SH L DI At AP SE PR ON H. unfold handle_split_event in H.
    destruct (split_until _ (active s) s evt step e s'
        ltac:(intros fan v d x y Rx Hx; apply (keeps_parallel_fan base_sound reclimit fan v (ev_time evt) d step x Rx tt y Hx))
        R SH L DI At AP SE H)
      as (vb & va & fb & fa & s1 & R1 & F1 & V1 & V2 & V3 & NE & NC & NW & FA & FB & DJ & C1 & U1 & ST & ST' & (s2 & K1 & K2) & K0).
    set (t := ev_tri evt) in *. set (now := ev_time evt) in *.
    assert (LT : forall u i, corner s u i < nv s) by (intros u i; destruct i; apply (sh_v _ SH)).
    assert (N1 : va <> corner s t e) by (specialize (LT t e); lia).
    assert (N2 : vb <> corner s t e) by (specialize (LT t e); lia).
    assert (L1 : linked (fun u => active s u /\ u <> t) s1).
    { apply (split_linked (active s) s t e va vb fa fb s1 L DI At AP NE DJ FA FB); auto.
      intros f Hf Hg. destruct U1 as [W1 W2 W3]. constructor; auto. intros u j m Hu Nu Hm Hj Sm.
      rewrite (W3 u j m Hu Nu Hm Hj Sm). assert (Q : f m = Some None); [|rewrite Q; reflexivity].
      destruct (side_eqb_spec m e) as [->|Nm]; [congruence|]. destruct m, e; cbn [cw ccw] in *; congruence. }
    pose proof (active_but s s1 t now F1 ST ST') as A1.
    assert (L1' : linked (active s1) s1) by (revert L1; apply linked_iff; intros u; rewrite A1; tauto).
    assert (LT1 : forall u i, corner s1 u i < nv s1).
    { intros u i. rewrite C1. unfold sub1. specialize (LT u i).
      repeat (match goal with |- context [if ?b then _ else _] => destruct b end; try lia). }
    assert (ST1 : stops_at now s s1).
    { intros u. destruct (Nat.eq_dec u t) as [->|N]; [right; auto|left; auto]. }
    assert (FIN : linked (active s') s' /\ stops_at now s1 s' -> linked (active s') s' /\ stops_at now s s').
    { intros [Q1 Q2]. split; [exact Q1|]. apply (stops_trans now s s1 s'); auto. apply (fo_tris _ _ F1). }
    apply FIN.
    assert (IA : forall u, In u fa -> active s1 u).
    { intros u Hu. apply A1. split; [apply (side_fan_in (active s) s t e cw fa L At FA u Hu)|].
      intros ->. apply (side_fan_out (active s) s t e cw fa L DI At FA Hu). }
    assert (IB : forall u, In u fb -> active s1 u).
    { intros u Hu. apply A1. split; [apply (side_fan_in (active s) s t e ccw fb L At FB u Hu)|].
      intros ->. apply (side_fan_out (active s) s t e ccw fb L DI At FB Hu). }
    (* each side is a whole fan *)
    assert (HALF : forall d fan w, (d = cw \/ d = ccw) -> side_fan s t e d fan -> link s t (d e) <> None ->
      (forall u i, In u fan -> corner s u i = corner s t e -> corner s1 u i = w) ->
      (forall u, active s1 u -> distinct s1 u) -> full_fan s1 w d fan).
    { intros d fan w Hd F N CW DI1. pose proof (side_fan_in (active s) s t e d fan L At F) as IN.
      pose proof (side_fan_out (active s) s t e d fan L DI At F) as OUT. unfold side_fan in F.
      destruct (link s t (d e)) as [a|] eqn:Ha; [|congruence]. clear N. destruct F as [F ND].
      assert (F' : is_fan s1 w d (Some a) fan).
      { apply (fan_map s s1 (corner s t e)); [|exact F]. intros u k Hu Hk.
        assert (Nu : u <> t) by (intros ->; contradiction). split; [apply CW; assumption|].
        apply (un_other _ _ _ _ _ U1); auto. intros Q. destruct (is_fan_next _ _ _ _ _ F u Hu) as (sd & S1 & S2).
        assert (sd = k) by (apply (DI u (IN u Hu)); congruence). subst sd. apply OUT, S2, Q. }
      pose proof (fan_head _ _ _ _ _ F') as HD. destruct fan as [|a0 r]; [discriminate HD|]. injection HD as <-.
      split; [exact F'|]. intros k Hk. destruct (L t (d e) a At Ha) as (Aa & j & J1 & J2).
      assert (Na : a <> t) by (intros ->; apply OUT; simpl; auto).
      pose proof (turn_eq d e a t s j Hd J2) as TE.
      assert (k = d j).
      { apply (DI1 a); [apply A1; auto|]. rewrite Hk. symmetry. apply CW; [simpl; auto|exact TE]. }
      subst k. assert (B : back d (d j) = j) by (unfold back; destruct Hd as [-> | ->]; destruct j; reflexivity).
      rewrite B. apply (un_back _ _ _ _ _ U1 a j (d e)); auto. }
    assert (CA : forall u i, In u fa -> corner s u i = corner s t e -> corner s1 u i = va).
    { intros u i Hu Hc. rewrite C1, Hc. rewrite (sub1_out _ vb fb); [apply sub1_in, Hu|]. intros Q. apply (DJ u Hu Q). }
    assert (CB : forall u i, In u fb -> corner s u i = corner s t e -> corner s1 u i = vb).
    { intros u i Hu Hc. rewrite C1, Hc. rewrite (sub1_in _ vb fb) by exact Hu. apply sub1_out. intros Q. apply (DJ u Q Hu). }
    destruct (k_inf_fast (vs s1 va)) eqn:VA; cbn [whenM] in K1.
    - destruct (k_inf_fast (vs s1 vb)) eqn:VB; [exfalso; apply (ON s1 vb va K0); auto; lia|].
      cbn [whenM] in K2. apply ret_ok in K2. destruct K2 as [_ ->].
      assert (PR1 : forall v1 s2, legs now step va s1 v1 s2 -> proper s2) by (intros v1 s3 Q; apply (PR s1 va v1 s3); auto; lia).
      apply (fan_mesh reclimit fa va now Cw step s1 s2); auto. apply HALF; auto.
      intros u Hu. apply (PR1 _ _ (legs_none now step va s1)), Hu.
    - apply ret_ok in K1. destruct K1 as [_ ->].
      destruct (k_inf_fast (vs s1 vb)) eqn:VB; cbn [whenM] in K2.
      + assert (PR1 : forall v1 s2, legs now step vb s1 v1 s2 -> proper s2) by (intros v1 s3 Q; apply (PR s1 vb v1 s3); auto; lia).
        apply (fan_mesh reclimit fb vb now Ccw step s1 s'); auto. apply HALF; auto.
        intros u Hu. apply (PR1 _ _ (legs_none now step vb s1)), Hu.
      + apply ret_ok in K2. destruct K2 as [_ ->]. split; [exact L1'|]. intros u. left. reflexivity.
  Qed.

  (** the event is about a triangle of the skeleton, and the triangles are proper, also
      whenever in the course of the event an infinitely fast vertex is about to be handled;
      of these there is at most one at a time *)
  Record steady (s : state) (e : nat) (step : Z) : Prop := {
    sy_tri : In (ev_tri (es s e)) (sk_triangles s);
    sy_distinct : forall u, active s u -> distinct s u;
    sy_opposite : opposite s (ev_tri (es s e));
    sy_events : ev_tp (es s e) = Edge -> length (ev_side (es s e)) = 3 ->
      forall i n, link s (ev_tri (es s e)) i = Some n -> t_event (ts s n) <> None;
    sy_edge : ev_tp (es s e) = Edge -> forall s1 v v1 s2,
      handle_edge_event_with no_fans (es s e) step s = Ok (tt, s1) -> nv s <= v < nv s1 ->
      k_inf_fast (vs s1 v) = true -> legs (ev_time (es s e)) step v s1 v1 s2 -> proper s2;
    sy_split : ev_tp (es s e) = Split -> forall s1 v v1 s2,
      handle_split_event_with no_fans (es s e) step s = Ok (tt, s1) -> nv s <= v < nv s1 ->
      k_inf_fast (vs s1 v) = true -> legs (ev_time (es s e)) step v s1 v1 s2 -> proper s2;
    sy_once : ev_tp (es s e) = Split -> forall s1 v w,
      handle_split_event_with no_fans (es s e) step s = Ok (tt, s1) -> nv s <= v < w -> w < nv s1 ->
      k_inf_fast (vs s1 v) = true -> k_inf_fast (vs s1 w) = true -> False }.

  Theorem event_fast_mesh s e step s' :
    registered s -> shaped s -> linked (active s) s -> steady s e step -> handle_event e step s = Ok (tt, s') ->
    linked (active s') s' /\ stops_at (ev_time (es s e)) s s'.
  Proof.
    intros R SH L [TT DI OP EV PE PS ON] H.
    pose proof (keeps_handle_event base_sound e step s R tt s' H) as [_ F].
    unfold handle_event in H. peel H evt s1 H1. apply gets_ok in H1. destruct H1 as [-> ->].
    peel H x s1 H1. apply gets_ok in H1. destruct H1 as [-> ->].
    set (evt := es s e) in *. set (t := ev_tri evt) in *. set (now := ev_time evt) in *.
    destruct (is_some (t_stops (ts s t))) eqn:STt.
    { apply ret_ok in H. destruct H as [_ ->]. split; [exact L|]. intros u. left. reflexivity. }
    assert (Dt : active s t) by (split; [exact TT|destruct (t_stops (ts s t)); [discriminate|reflexivity]]).
    pose proof (opposite_apart (active s) s t L DI Dt OP) as AP.
    assert (FIN : t_stops (ts s' t) = Some now -> (forall u, u <> t -> t_stops (ts s' u) = t_stops (ts s u)) ->
       linked (fun u => active s u /\ u <> t) s' -> linked (active s') s' /\ stops_at now s s').
    { intros ST1 ST2 LL. pose proof (active_but s s' t now F ST1 ST2) as A1. split.
      - revert LL. apply linked_iff. intros u. rewrite A1. tauto.
      - intros u. destruct (Nat.eq_dec u t) as [->|N]; [right; auto|left; auto]. }
    destruct (ev_tp evt) eqn:TP.
    - destruct (Nat.eqb (length (ev_side evt)) 3) eqn:L3.
      + apply Nat.eqb_eq in L3. apply (three_mesh (active s)) in H; auto; [|intros u [_ Hu]; exact Hu].
        fold t now in H. destruct H as (H1 & H2 & H3 & H4). apply FIN; auto.
        intros u i w [Du Nu] Hl. destruct (H1 u i w Du Nu Hl) as [(Dw & Nw & J)|[-> [[m K1] K2]]]; [auto|].
        exfalso. exact (EV eq_refl L3 m u K1 K2).
      + destruct (_ && _)%bool eqn:L1.
        * apply Bool.andb_true_iff in L1. destruct L1 as [_ TY]. apply Nat.eqb_eq in TY.
          apply (one_mesh (active s)) in H; auto. fold t now in H. destruct H as (H1 & H2 & H3 & H4). apply FIN; auto.
        * destruct (Nat.eqb (length (ev_side evt)) 2) eqn:L2; [discriminate|].
          assert (SE : exists sd, ev_side evt = [sd]).
          { unfold handle_edge_event, handle_edge_event_with in H. destruct (ev_side evt) as [|sd [|]]; try discriminate H. eauto. }
          destruct SE as [sd SE]. apply (edge_fast_mesh s evt step sd s'); auto. exact (PE eq_refl).
    - assert (SE : exists sd n, ev_side evt = [sd] /\ link s t sd = Some n).
      { unfold handle_flip_event in H. destruct (ev_side evt) as [|sd [|]]; try discriminate H.
        peel H x s1 H1. apply gets_ok in H1. destruct H1 as [-> ->]. fold t in H.
        destruct (get3 (t_n (ts s t)) sd) eqn:K; [|discriminate H]. eauto. }
      destruct SE as (sd & n & SE & SN).
      apply (flip_event_mesh (active s) s evt sd n) in H; auto.
      destruct H as (H1 & H2 & H3). split; [|intros u; left; apply H3].
      revert H1. apply linked_iff. intros u. unfold active. rewrite (fo_tris _ _ F), H3. tauto.
    - assert (SE : exists sd, ev_side evt = [sd]).
      { unfold handle_split_event, handle_split_event_with in H. destruct (ev_side evt) as [|sd [|]]; try discriminate H. eauto. }
      destruct SE as [sd SE]. apply (split_fast_mesh s evt step sd s'); auto; [exact (PS eq_refl)|exact (ON eq_refl)].
  Qed.

  Theorem run_fast_mesh s0 now tr s :
    registered s0 -> shaped s0 -> linked (active s0) s0 -> reach s0 now tr s ->
    (forall now1 tr1 s1 e now2 s2, reach s0 now1 tr1 s1 -> length tr1 < length tr ->
       take_next now1 s1 = Ok ((e, now2), s2) -> steady s2 e (Z.of_nat (S (length tr1)))) ->
    linked (active s) s.
  Proof.
    intros R0 SH0 L0 H. induction H as [|now tr s e now' s1 s' R IH T H]; intros RG; [exact L0|].
    rewrite app_length in RG. cbn [length] in RG.
    destruct (steps_base _ _ _ _ _ _ R0 R) as [Rs Fs].
    pose proof (steps_shaped _ _ _ _ _ _ R0 SH0 R) as Ss.
    assert (C : registered s1 /\ shaped s1 /\ nv s1 = nv s /\ sk_triangles s1 = sk_triangles s /\ ts s1 = ts s /\ vs s1 = vs s).
    { apply take_next_ok in T. destruct T as [(r & _ & _ & ->)|(r & _ & _ & _ & ->)];
        (split; [destruct Rs; constructor; auto|split; [destruct Ss; constructor; auto|auto]]). }
    destruct C as (R1 & SH1 & N1 & T1 & TS & VS).
    assert (Ls : linked (active s) s).
    { apply IH. intros now1 tr1 s3 e1 now2 s2 Q1 Q2. apply (RG now1 tr1 s3 e1 now2 s2 Q1). lia. }
    assert (L1 : linked (active s1) s1).
    { unfold linked, active, shares, corner, link in *. rewrite T1, TS. exact Ls. }
    apply (event_fast_mesh s1 e _ s' R1 SH1 L1 (RG now tr s e now' s1 R ltac:(lia) T) H).
  Qed.
End MeshFast.
