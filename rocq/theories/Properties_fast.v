(** What the handling of an infinitely fast vertex does (C74) *)
From Coq Require Import Reals Lra.
From Verif Require Import Base Arith ArithR ArithQ Calc VectorOps Line2d Primitives Collapse CalcProofs Line2dProofs CollapseProofs CollapseR EventsLib
  FlipEvent ParallelEvent EdgeEvent SplitEvent EventLoop Pass OpSpec Order StopSpec RunBase RunTimed RunLoop
  Decent Total FanProofs TotalRun Scenario ScenarioRun Properties_total Mesh Properties_mesh Effects Properties_effects RingSpec Fast FastRun Properties_collapse ExecR.
Local Close Scope R_scope.
Local Close Scope Q_scope.
Local Open Scope nat_scope.

Section C74.
  Context {A : Arith} {E : Env A}.

  (** ** Specification *)
  (** the corner of triangle [t] on side [i] *)
  Definition corner_of (s : state) (t : nat) (i : side) : nat := get3 (t_v (ts s t)) i.
  Definition has_corner (s : state) (t v : nat) : Prop := exists i, corner_of s t i = v.
  (** triangle [t] shrinks to a point: its corners end in one node, nothing else changes *)
  Definition shrinks (s s' : state) (t : nat) (now : num) (n : nat) : Prop :=
    (forall v, has_corner s t v -> ended_at s' v n now) /\
    only_ends s s' (list3 (t_v (ts s t))) /\ nv s' = nv s /\ sk_vertices s' = sk_vertices s /\
    removes s s' t now /\ nodes_with s s' n /\ (forall u, t_v (ts s' u) = t_v (ts s u)).
  (** side [e] of triangle [t], a leg of the infinitely fast [pivot], collapses in node [n]:
      [s6] is the state in which its ends have ended, the new vertex has begun and taken
      their places, and the triangle is removed *)
  Record leg_collapses (s s6 : state) (t : nat) (e : side) (pivot : nat) (now : num) (n : nat) : Prop := {
    lc_pivot : k_inf_fast (vs s pivot) = true /\ (pivot = corner_of s t (ccw e) \/ pivot = corner_of s t (cw e));
    lc_ends : forall v, v = corner_of s t (ccw e) \/ v = corner_of s t (cw e) -> k_inf_fast (vs s v) = false -> ended_at s6 v n now;
    lc_pivot_ends : k_stop_node (vs s pivot) = None -> ended_at s6 pivot n now;
    lc_pivot_ended : k_stop_node (vs s pivot) <> None -> k_stop_node (vs s6 pivot) = k_stop_node (vs s pivot);
    lc_only : only_ends s s6 [corner_of s t (ccw e); corner_of s t (cw e)];
    lc_node : nodes_with s s6 n /\ In n (sk_nodes s6);
    lc_new : begun_at s6 (nv s) n now (k_ul (vs s (corner_of s t (ccw e)))) (k_ur (vs s (corner_of s t (cw e)))) /\
             nv s6 = S (nv s) /\ sk_vertices s6 = sk_vertices s ++ [nv s];
    lc_ring : forall l r, kleft (vs s (corner_of s t (ccw e))) = Some l -> kright (vs s (corner_of s t (cw e))) = Some r ->
             l <> r -> l < nv s -> r < nv s -> l <> corner_of s t (cw e) ->
             kleft (vs s6 (nv s)) = Some l /\ kright (vs s6 (nv s)) = Some r /\
             kright (vs s6 l) = Some (nv s) /\ kleft (vs s6 r) = Some (nv s) /\
             k_wfl (vs s6 (nv s)) = k_wfr (vs s l) /\ k_wfr (vs s6 (nv s)) = k_wfl (vs s r);
    lc_removes : removes s s6 t now;
    lc_corners : forall u i, corner_of s6 u i = corner_of s u i \/
             (corner_of s6 u i = nv s /\ (corner_of s u i = corner_of s t (ccw e) \/ corner_of s u i = corner_of s t (cw e))) }.

  Lemma has_corner_in s t v : has_corner s t v <-> In v (list3 (t_v (ts s t))).
  Proof.
    unfold has_corner, corner_of. destruct (t_v (ts s t)) as [p q r]. split.
    - intros [[| |] <-]; cbn; auto.
    - cbn. intros [<-|[<-|[<-|[]]]]; [exists S0|exists S1|exists S2]; reflexivity.
  Qed.

  (** ** C74: the legs are even *)
  Theorem C74_even t e pivot now step s s' :
    handle_parallel_edge_event_even_legs t e pivot now step s = Ok (tt, s') ->
    corner_of s t e = pivot /\ exists n, shrinks s s' t now n.
  Proof.
    intros H. apply even_effects in H. destruct H as (P & n & H1 & H2 & H3 & H4 & H5 & H6 & H7).
    split; [exact P|]. exists n. split; [intros v Hv; apply H1, has_corner_in, Hv|].
    split; [intros v _; apply H2|]. split; [exact H3|]. split; [exact H4|]. split; [exact H5|]. split; [exact H6|exact H7].
  Qed.

  (** a triangle bounded by three wavefronts *)
  Theorem C74_three t e pivot now step s s' :
    handle_parallel_edge_event_3tri t e pivot now step s = Ok (tt, s') ->
    corner_of s t e = pivot /\ exists n, shrinks s s' t now n.
  Proof.
    intros H. apply tri_effects in H. destruct H as (P & n & H1 & H2 & H3 & H4 & H5 & H6 & H7 & _).
    split; [exact P|]. exists n. split; [intros v Hv; apply H1, has_corner_in, Hv|].
    split; [intros v _; apply H2|]. split; [exact H3|]. split; [exact H4|]. split; [exact H5|]. split; [exact H6|exact H7].
  Qed.

  (** one leg is shorter: it collapses, and what the new vertex meets is handled in turn if
      it is infinitely fast as well *)
  Lemma shorter_collapses rec t e pivot now step s s' :
    registered s -> (forall u i, corner_of s u i < nv s) ->
    handle_parallel_edge_event_shorter_leg rec t e pivot now step s = Ok (tt, s') ->
    exists n fa fb s6, leg_collapses s s6 t e pivot now n /\ registered s6 /\ follows s s6 /\
      (forall u, In u (fa ++ fb) <-> has_corner s6 u (nv s)) /\
      (forall w, w = corner_of s t (ccw e) \/ w = corner_of s t (cw e) -> k_inf_fast (vs s w) = false -> node_of s w now s6 n) /\
      whenM (k_inf_fast (vs s6 (nv s))) (parallel_fan_of rec fa fb (nv s) now step) s6 = Ok (tt, s').
  Proof.
    intros R C H. apply shorter_effects in H; auto. cbv zeta in H.
    destruct H as (PF & PV & n & fa & fb & s6 & E1 & E2 & E3 & E4 & N1 & N2 & NO & B1 & B2 & B3 & B4 & B5 & B6 & NV & SV & K1 & K2 & K3 & K4 & (l & r & L1 & L2 & W1 & W2) & T & CO & FA & R6 & F6 & W).
    exists n, fa, fb, s6. split; [|split; [exact R6|split; [exact F6|split; [|split; [|exact W]]]]].
    3:{ intros w Hw Fw. apply NO. change (corner_of s t) with (corner s t) in Hw.
        destruct PV as [-> | ->]; rewrite PF; destruct Hw as [-> | ->]; try congruence; rewrite Fw; reflexivity. }
    2:{ intros u. split; [apply FA|]. intros [i Q]. destruct (CO u i) as [X|(_ & _ & X)]; [|exact X].
        pose proof (C u i). change (corner_of s6 u i) with (corner s6 u i) in Q. change (corner_of s u i) with (corner s u i) in *. lia. }
    constructor.
    - split; auto.
    - exact E1.
    - exact E2.
    - exact E3.
    - intros v Lv Hv. apply E4; auto; intros ->; apply Hv; cbn; auto.
    - split; auto.
    - split; [repeat split; auto|auto].
    - intros l0 r0 Q1 Q2 Nlr Ll Lr Nl. change (corner_of s t) with (corner s t) in *.
      assert (l0 = l) by congruence. assert (r0 = r) by congruence. subst l0 r0.
      assert (ON : forall a b : nat, onat_eqb (Some a) (Some b) = Nat.eqb a b) by reflexivity.
      rewrite L1 in K1, K2, K4.
      assert (RK : kright (vs s6 (nv s)) = Some r).
      { rewrite K2, ON. destruct (Nat.eqb_spec l (corner s t (cw e))); [contradiction|exact L2]. }
      split; [apply K4; rewrite RK; intros [= Z]; lia|]. split; [exact RK|].
      split; [rewrite K1 by lia; rewrite ON, Nat.eqb_refl; reflexivity|].
      split; [apply K3, RK|]. split; [apply W1; lia|apply W2; lia].
    - exact T.
    - intros u i. change (corner_of s6 u i) with (corner s6 u i). destruct (CO u i) as [Q|(Q1 & Q2 & _)]; auto.
  Qed.
  Theorem C74_shorter fuel t e pivot now step s s' :
    registered s -> (forall u i, corner_of s u i < nv s) ->
    handle_parallel_edge_event_shorter_leg (handle_parallel_fan fuel) t e pivot now step s = Ok (tt, s') ->
    exists n s6, leg_collapses s s6 t e pivot now n /\ follows s6 s' /\
      (k_inf_fast (vs s6 (nv s)) = false -> s' = s6) /\
      (k_inf_fast (vs s6 (nv s)) = true -> (exists u, has_corner s6 u (nv s)) -> k_stop_node (vs s' (nv s)) <> None).
  Proof.
    intros R C H. destruct (shorter_collapses _ _ _ _ _ _ _ _ R C H) as (n & fa & fb & s6 & L & R6 & F6 & FA & _ & W).
    exists n, s6. split; [exact L|].
    split; [apply (keeps_whenM base_sound now _ _ (keeps_fan_of base_sound _ fa fb (nv s) now step (keeps_parallel_fan base_sound fuel)) s6 R6 _ _ W)|].
    split; [intros Q; rewrite Q in W; apply ret_ok in W; tauto|].
    intros Q [u [i Hu]]. rewrite Q in W. cbn in W.
    assert (C6 : seated s6).
    { intros v j. destruct (lc_new _ _ _ _ _ _ _ L) as (_ & NV & _). destruct (lc_corners _ _ _ _ _ _ _ L v j) as [X|[X _]];
        change (corner s6 v j) with (corner_of s6 v j); rewrite X; [specialize (C v j)|]; lia. }
    apply (fan_of_held _ _ _ _ _ _ _ _ (fan_held fuel)) in W; [|exact R6|exact C6|intros v Hv; apply FA, Hv].
    apply W. intros Z. assert (X : In u (fa ++ fb)) by (apply FA; exists i; exact Hu). rewrite Z in X. destruct X.
  Qed.

  (** the whole fan: the infinitely fast vertex ends, and no infinitely fast vertex that is
      made on the way is left *)
  Theorem C74_fan fuel t rest pivot now d step s s' :
    registered s -> (forall u i, corner_of s u i < nv s) -> has_corner s t pivot ->
    handle_parallel_fan fuel (t :: rest) pivot now d step s = Ok (tt, s') ->
    k_stop_node (vs s' pivot) <> None /\
    forall u v, has_corner s' u v ->
      (exists u0, has_corner s u0 v) \/
      (nv s <= v < nv s' /\ (k_inf_fast (vs s' v) = true -> k_stop_node (vs s' v) <> None)).
  Proof.
    intros R C P H. destruct (fan_held _ _ _ _ _ _ _ _ H R C) as [K1 K2].
    { intros u r [= <- _]. exact P. }
    split; [exact K1|]. intros u v [i <-]. destruct (K2 u i) as [(u0 & i0 & Q)|Q]; [left|right; exact Q].
    exists u0, i0. exact Q.
  Qed.

  (** ** At every event, and in every run *)
  Definition none_left (s : state) : Prop :=
    forall u v, has_corner s u v -> k_inf_fast (vs s v) = true -> k_stop_node (vs s v) <> None.
  (** a split that is handled makes two infinitely fast vertices at once *)
  Definition twice_fast (s : state) (e : nat) (s' : state) : Prop :=
    ev_tp (es s e) = Split /\ t_stops (ts s (ev_tri (es s e))) = None /\
    k_inf_fast (vs s' (nv s)) = true /\ k_inf_fast (vs s' (S (nv s))) = true.
  Lemma not_twice s e s' : ~ twice_fast s e s' ->
    ev_tp (es s e) = Split -> t_stops (ts s (ev_tri (es s e))) = None ->
    k_inf_fast (vs s' (nv s)) = false \/ k_inf_fast (vs s' (S (nv s))) = false.
  Proof.
    intros N H K. destruct (k_inf_fast (vs s' (nv s))) eqn:Q1; [|auto]. destruct (k_inf_fast (vs s' (S (nv s)))) eqn:Q2; [|auto].
    destruct N. split; auto.
  Qed.
  Lemma none_left_tame s : none_left s <-> tame s.
  Proof.
    split; intros H.
    - intros u i. apply (H u). exists i. reflexivity.
    - intros u v [i <-]. apply H.
  Qed.

  Theorem C74_event e step s s' :
    registered s -> (forall u i, corner_of s u i < nv s) -> none_left s ->
    handle_event e step s = Ok (tt, s') -> ~ twice_fast s e s' -> none_left s'.
  Proof.
    intros R C T H N. apply none_left_tame. apply none_left_tame in T.
    pose proof (keeps_handle_event base_sound e step s R tt s' H) as [_ F].
    apply (safe_tame s s'); auto. eapply event_safe; eauto. apply not_twice, N.
  Qed.

  Theorem C74_run s0 now tr s :
    registered s0 -> shaped s0 -> none_left s0 -> reach s0 now tr s ->
    (forall now1 tr1 s1 e now2 s2 s3, reach s0 now1 tr1 s1 -> length tr1 < length tr ->
       take_next now1 s1 = Ok ((e, now2), s2) -> handle_event e (Z.of_nat (S (length tr1))) s2 = Ok (tt, s3) ->
       ~ twice_fast s2 e s3) ->
    none_left s.
  Proof.
    intros R SH T H N. apply none_left_tame. apply none_left_tame in T. apply (run_tame s0 now tr s); auto.
    intros now1 tr1 s1 e now2 s2 s3 Q1 Q2 Q3 Q4. apply not_twice. apply (N now1 tr1 s1 e now2 s2 s3); auto.
  Qed.
End C74.
Print Assumptions C74_even.
Print Assumptions C74_three.
Print Assumptions C74_shorter.
Print Assumptions C74_fan.
Print Assumptions C74_event.
Print Assumptions C74_run.

(** ** Which leg, and where (exact reals) *)
Section C74_geometry.
  Context {E : Env RA}.
  Local Open Scope R_scope.

  Definition apart_by (p q : R * R) : R := sqrt ((fst q - fst p)^2 + (snd q - snd p)^2).

  Lemma dist_2_R (p q : R * R) : dist_2 (A:=RA) p q = Ok (apart_by p q).
  Proof.
    unfold dist_2, norm_2.
    assert (Q : norm2_2 (A:=RA) (sub2 (A:=RA) q p) = (fst q - fst p)^2 + (snd q - snd p)^2).
    { unfold norm2_2, dot2, sub2. cbn [fst snd]. ra_simp. qlit. ring. }
    rewrite Q. apply psqrt_R. apply Rplus_le_le_0_compat; apply pow2_ge_0.
  Qed.
  Lemma leg_length_R t sd (now x : R) (s s' : state (A:=RA)) : leg_length t sd now s = Ok (x, s') -> s' = s /\
    exists p q, position_at s (corner_of s t (ccw sd)) now = Ok p /\ position_at s (corner_of s t (cw sd)) now = Ok q /\ x = apart_by p q.
  Proof.
    intros H. unfold leg_length in H. apply rd_ok in H. destruct H as [H ->]. split; [reflexivity|].
    unfold edge_segment in H. unfold corner_of.
    destruct (position_at s (get3 (t_v (ts s t)) (ccw sd)) now) as [p|]; [|discriminate H].
    cbn [rbind] in H. destruct (position_at s (get3 (t_v (ts s t)) (cw sd)) now) as [q|]; [|discriminate H].
    cbn [rbind] in H. rewrite dist_2_R in H. injection H as <-. eauto.
  Qed.
  Lemma apart_sym p q : apart_by p q = apart_by q p.
  Proof. unfold apart_by. f_equal. ring. Qed.

  Definition stays (F : list nat) (s s' : state (A:=RA)) : Prop :=
    nv s' = nv s /\ sk_vertices s' = sk_vertices s /\ (forall u, t_stops (ts s' u) <> t_stops (ts s u) -> In u F).
  Lemma stays_trans F a b c : stays F a b -> stays F b c -> stays F a c.
  Proof.
    intros (H1 & H2 & H3) (K1 & K2 & K3). split; [congruence|]. split; [congruence|]. intros u Hu.
    assert (D : forall o1 o2 : option R, o1 = o2 \/ o1 <> o2).
    { clear. intros [x|] [y|]; try (right; congruence); [|auto]. destruct (Req_dec x y); [left|right]; congruence. }
    destruct (D (t_stops (ts b u)) (t_stops (ts a u))) as [Q|Q]; auto. apply K3. congruence.
  Qed.
  Lemma even_at_stays F t pivot (now : R) step s s' : In t F -> even_legs_at t pivot now step s = Ok (tt, s') -> stays F s s'.
  Proof.
    intros I H. unfold even_legs_at in H. ro_next H. ro_next H. apply even_effects in H.
    destruct H as (_ & n & _ & _ & H3 & H4 & H5 & _). split; [exact H3|]. split; [exact H4|].
    intros u Hu. rewrite H5 in Hu. destruct (Nat.eqb_spec t u); [subst; exact I|contradiction].
  Qed.
  Lemma flip_then_stays t0 t1 pivot (now : R) step s s' : flip_then_even_legs t0 t1 pivot now step s = Ok (tt, s') -> stays [t0; t1] s s'.
  Proof.
    intros H. unfold flip_then_even_legs in H. cbv zeta in H. do 4 ro_next H. clear H0 H1.
    apply bind_ok in H. destruct H as (u & s1 & H1 & H).
    assert (Q1 : stays [t0; t1] s s1).
    { apply quiets_flip in H1. split; [apply (qu_nv _ _ H1)|]. split; [apply (qu_verts _ _ H1)|].
      intros w Hw. rewrite (qu_tstops _ _ H1) in Hw. contradiction. }
    do 2 ro_next H. apply bind_ok in H. destruct H as (u2 & s2 & K2 & H). destruct u2.
    assert (W : forall b t a c, In t [t0; t1] -> whenM b (even_legs_at t pivot now step) a = Ok (tt, c) -> stays [t0; t1] a c).
    { clear. intros [|] t a c I H; cbn [whenM] in H; [eapply even_at_stays; eauto|]. apply ret_ok in H. destruct H as [_ ->].
      split; [reflexivity|]. split; [reflexivity|]. intros u Hu. contradiction. }
    eapply stays_trans; [exact Q1|]. eapply stays_trans; eapply W; try eassumption; cbn; auto.
  Qed.

  (** [lt] and [rt] are the outermost triangles of the fan, left and right of the pivot; their
      outer legs run from the pivot at [p] to [a] and [b].  If one of them is shorter, that one
      collapses; otherwise no new vertex is made and only triangles of the fan are removed *)
  Theorem C74_choice fuel t rest pivot (now : R) d step (s s' : state (A:=RA)) :
    registered s -> (forall u i, (corner_of s u i < nv s)%nat) ->
    handle_parallel_fan (S fuel) (t :: rest) pivot now d step s = Ok (tt, s') ->
    t_n (ts s t) <> mk3 None None None ->
    let lt := match d with Cw => t | Ccw => last (t :: rest) t end in
    let rt := match d with Cw => last (t :: rest) t | Ccw => t end in
    exists li ri p a b, corner_of s lt li = pivot /\ corner_of s rt ri = pivot /\
      position_at s pivot now = Ok p /\ position_at s (corner_of s lt (cw li)) now = Ok a /\
      position_at s (corner_of s rt (ccw ri)) now = Ok b /\
      (apart_by p a < apart_by p b - / 10^10 ->
         exists n s6, leg_collapses s s6 lt (ccw li) pivot now n /\ follows s6 s') /\
      (apart_by p b < apart_by p a - / 10^10 ->
         exists n s6, leg_collapses s s6 rt (cw ri) pivot now n /\ follows s6 s') /\
      (Rabs (apart_by p a - apart_by p b) <= / 10^10 ->
         nv s' = nv s /\ sk_vertices s' = sk_vertices s /\ (length rest <= 1)%nat /\
         (forall u, t_stops (ts s' u) <> t_stops (ts s u) -> In u (t :: rest))).
  Proof.
    intros R C H NI lt rt. cbn [handle_parallel_fan] in H.
    apply bind_ok in H. destruct H as (f0 & s0 & H0 & H). apply vattr_ok in H0. destruct H0 as (_ & -> & ->).
    ro_next H. ro_next H.
    assert (B : Nat.eqb (tri_type (ts s t)) 3 = false).
    { apply Nat.eqb_neq. intros Q. apply NI. unfold tri_type in Q. destruct (t_n (ts s t)) as [[|] [|] [|]]; cbn in Q; try discriminate. reflexivity. }
    rewrite B in H. ro_next H.
    assert (SP : (match d with Cw => (t, last (t :: rest) t) | Ccw => (last (t :: rest) t, t) end) = (lt, rt)) by (destruct d; reflexivity).
    rewrite SP in H. clear SP.
    ro_next H. apply bind_ok in H. destruct H as (li & s0 & J1 & H). unfold rdr in J1. apply rd_ok in J1. destruct J1 as [Hl ->]. apply vindex_get in Hl.
    apply bind_ok in H. destruct H as (dl & s0 & J1 & H). apply leg_length_R in J1. destruct J1 as [-> (a & p & L1 & L2 & ->)].
    ro_next H. apply bind_ok in H. destruct H as (ri & s0 & J1 & H). unfold rdr in J1. apply rd_ok in J1. destruct J1 as [Hr ->]. apply vindex_get in Hr.
    apply bind_ok in H. destruct H as (dr & s0 & J1 & H). apply leg_length_R in J1. destruct J1 as [-> (p' & b & L3 & L4 & ->)].
    assert (CW : forall i, cw (ccw i) = i) by (intros []; reflexivity). assert (CC : forall i, ccw (ccw i) = cw i) by (intros []; reflexivity).
    assert (WC : forall i, ccw (cw i) = i) by (intros []; reflexivity). assert (WW : forall i, cw (cw i) = ccw i) by (intros []; reflexivity).
    rewrite CW in L2. rewrite CC in L1. rewrite WC in L3. rewrite WW in L4.
    change (get3 (t_v (ts s lt)) li) with (corner_of s lt li) in Hl. change (get3 (t_v (ts s rt)) ri) with (corner_of s rt ri) in Hr.
    rewrite Hl in L2. rewrite Hr in L3. assert (p' = p) by congruence. subst p'. clear L3.
    exists li, ri, p, a, b. repeat (split; [assumption|]).
    assert (EXT : forall t e, handle_parallel_edge_event_shorter_leg (handle_parallel_fan fuel) t e pivot now step s = Ok (tt, s') ->
      exists n s6, leg_collapses s s6 t e pivot now n /\ follows s6 s').
    { intros t0 e0 K. destruct (C74_shorter _ _ _ _ _ _ _ _ R C K) as (n & s6 & K1 & K2 & _). eauto. }
    rewrite (apart_sym p a) in *. set (x := apart_by a p) in *. set (z := apart_by p b) in *. clearbody x z.
    cbv zeta in H.
    pose proof (near_zero_R (nsub (Arith:=RA) x (nmin (A:=RA) x z))) as Z1.
    pose proof (near_zero_R (nsub (Arith:=RA) z (nmin (A:=RA) x z))) as Z2.
    assert (M : (x <= z /\ nmin (A:=RA) x z = x) \/ (z < x /\ nmin (A:=RA) x z = z)).
    { unfold nmin. ra_simp. destruct (Rltb z x) eqn:Q; rb2p; [right|left]; split; auto. }
    assert (EVEN : match rest with
       | [] => bind (even_legs_at t pivot now step) (fun _ => assert_stopped t)
       | [t1] =>
           bind (all_legs_even t t1 pivot now) (fun all_2 => if (all_2 : bool) then
             bind (even_legs_at t pivot now step) (fun _ => bind (even_legs_at t1 pivot now step) (fun _ =>
               bind (assert_stopped t) (fun _ => assert_stopped t1)))
             else flip_then_even_legs t t1 pivot now step)
       | _ :: _ :: _ => raise NotImplementedError
       end s = Ok (tt, s') ->
       nv s' = nv s /\ sk_vertices s' = sk_vertices s /\ (length rest <= 1)%nat /\
       (forall u, t_stops (ts s' u) <> t_stops (ts s u) -> In u (t :: rest))).
    { clear. intros H. assert (K : stays (t :: rest) s s' /\ (length rest <= 1)%nat).
      { destruct rest as [|t1 [|t2 r]]; [| |discriminate H]; (split; [|cbn; lia]).
        - apply bind_ok in H. destruct H as (u & s1 & H1 & H). destruct u. apply (even_at_stays [t]) in H1; [|left; reflexivity].
          unfold assert_stopped in H. ro_next H. apply assertM_ok in H. destruct H as [_ ->]. exact H1.
        - ro_next H. match type of H with context [if ?b then _ else _] => destruct b end; [|apply flip_then_stays in H; exact H].
          apply bind_ok in H. destruct H as (u & s1 & H1 & H). destruct u. apply (even_at_stays [t; t1]) in H1; [|left; reflexivity].
          apply bind_ok in H. destruct H as (u & s2 & H2 & H). destruct u. apply (even_at_stays [t; t1]) in H2; [|right; left; reflexivity].
          apply bind_ok in H. destruct H as (u & s3 & H3 & H). unfold assert_stopped in H3, H.
          ro_next H3. apply assertM_ok in H3. destruct H3 as [_ ->]. ro_next H. apply assertM_ok in H. destruct H as [_ ->].
          eapply stays_trans; eauto. } destruct K as [(K1 & K2 & K3) K4]. auto. }
    destruct (near_zero (nsub (Arith:=RA) x _)) eqn:N1, (near_zero (nsub (Arith:=RA) z _)) eqn:N2.
    all: set (eps := / 10^10) in *; assert (E0 : 0 < eps) by (unfold eps; apply Rinv_0_lt_compat, pow_lt; lra).
    all: match type of Z1 with ?b = true <-> _ => assert (Z1' : b = true <-> - eps <= x - nmin (A:=RA) x z <= eps) by exact Z1 end.
    all: match type of Z2 with ?b = true <-> _ => assert (Z2' : b = true <-> - eps <= z - nmin (A:=RA) x z <= eps) by exact Z2 end.
    all: clear Z1 Z2; clearbody eps.
    all: destruct M as [[M1 M2]|[M1 M2]]; rewrite M2 in Z1', Z2'; clear M2.
    all: try (exfalso; assert (X : false = true) by (apply Z1'; lra); discriminate X).
    all: try (exfalso; assert (X : false = true) by (apply Z2'; lra); discriminate X).
    - destruct Z2' as [Z2 _]. specialize (Z2 eq_refl). split; [intros; lra|]. split; [intros; lra|]. intros _. apply EVEN, H.
    - destruct Z1' as [Z1 _]. specialize (Z1 eq_refl). split; [intros; lra|]. split; [intros; lra|]. intros _. apply EVEN, H.
    - assert (NC : eps < z - x) by (destruct (Rlt_or_le eps (z - x)); [assumption|]; assert (X : false = true) by (apply Z2'; lra); discriminate X).
      split; [intros _; apply EXT, H|]. split; [intros; lra|]. intros Q. exfalso. unfold Rabs in Q. destruct (Rcase_abs _); lra.
    - assert (NC : eps < x - z) by (destruct (Rlt_or_le eps (x - z)); [assumption|]; assert (X : false = true) by (apply Z1'; lra); discriminate X).
      split; [intros; lra|]. split; [intros _; apply EXT, H|]. intros Q. exfalso. unfold Rabs in Q. destruct (Rcase_abs _); lra.
  Qed.

  (** ** A fan of two triangles, the outer legs of which are even: the leg between them decides whether they are flipped first *)
  Lemma nmin_even (x z : R) :
    near_zero (A:=RA) (nsub (Arith:=RA) x (nmin (A:=RA) x z)) && near_zero (A:=RA) (nsub (Arith:=RA) z (nmin (A:=RA) x z)) = true <-> Rabs (x - z) <= / 10^10.
  Proof.
    rewrite andb_true_iff, !near_zero_R. set (eps := / 10^10). assert (E0 : 0 < eps) by (unfold eps; apply Rinv_0_lt_compat, pow_lt; lra). clearbody eps.
    assert (M : (x <= z /\ nmin (A:=RA) x z = x) \/ (z < x /\ nmin (A:=RA) x z = z)).
    { unfold nmin. ra_simp. destruct (Rltb z x) eqn:Q; rb2p; [right|left]; split; auto. }
    change (nsub (Arith:=RA)) with Rminus. unfold Rabs. destruct (Rcase_abs (x - z)); destruct M as [[M ->]|[M ->]]; lra.
  Qed.
  (** the two legs of [pivot] in triangle [t], the one to the corner clockwise first *)
  Definition legs_of (s : state (A:=RA)) (t pivot : nat) (now : R) (i : side) (x z : R) : Prop :=
    corner_of s t i = pivot /\ exists p a c, position_at s pivot now = Ok p /\
      position_at s (corner_of s t (cw i)) now = Ok a /\ position_at s (corner_of s t (ccw i)) now = Ok c /\ x = apart_by p a /\ z = apart_by p c.
  Lemma legs_even_R t pivot (now : R) b (s s' : state (A:=RA)) : legs_even t pivot now s = Ok (b, s') -> s' = s /\
    exists i x z, vindex (ts s t) pivot = Ok i /\ legs_of s t pivot now i x z /\ (b = true <-> Rabs (x - z) <= / 10^10).
  Proof.
    intros H. unfold legs_even in H. ro_next H.
    apply bind_ok in H. destruct H as (i & s0 & J1 & H). unfold rdr in J1. apply rd_ok in J1. destruct J1 as [HI ->]. pose proof (vindex_get _ _ _ HI) as Hl.
    apply bind_ok in H. destruct H as (dl & s0 & J1 & H). apply leg_length_R in J1. destruct J1 as [-> (a & p & L1 & L2 & ->)].
    apply bind_ok in H. destruct H as (dr & s0 & J1 & H). apply leg_length_R in J1. destruct J1 as [-> (p' & c & L3 & L4 & ->)].
    apply ret_ok in H. destruct H as [Hb ->]. split; [reflexivity|].
    assert (CW : cw (ccw i) = i) by (destruct i; reflexivity). assert (CC : ccw (ccw i) = cw i) by (destruct i; reflexivity).
    assert (WC : ccw (cw i) = i) by (destruct i; reflexivity). assert (WW : cw (cw i) = ccw i) by (destruct i; reflexivity).
    rewrite CW in L2. rewrite CC in L1. rewrite WC in L3. rewrite WW in L4.
    change (get3 (t_v (ts s t)) i) with (corner_of s t i) in Hl. rewrite Hl in L2, L3. assert (p' = p) by congruence. subst p'.
    rewrite (apart_sym a p) in Hb. exists i, (apart_by p a), (apart_by p c). split; [exact HI|]. split.
    - split; [exact Hl|]. exists p, a, c. auto.
    - rewrite Hb. apply nmin_even.
  Qed.
  Lemma nindex_get (x : ktri (A:=RA)) t sd : nindex x t = Ok sd -> get3 (t_n x) sd = Some t.
  Proof.
    unfold nindex, index3, find3.
    assert (Q : forall o, match o with Some m => Nat.eqb t m | None => false end = true -> o = Some t).
    { intros [m|] K; [apply Nat.eqb_eq in K; congruence|discriminate]. }
    destruct (match x0 (t_n x) with Some m => Nat.eqb t m | None => false end) eqn:K0; [intros H; injection H as <-; apply Q, K0|].
    destruct (match x1 (t_n x) with Some m => Nat.eqb t m | None => false end) eqn:K1; [intros H; injection H as <-; apply Q, K1|].
    destruct (match x2 (t_n x) with Some m => Nat.eqb t m | None => false end) eqn:K2; [intros H; injection H as <-; apply Q, K2|]. discriminate.
  Qed.
  Lemma even_at_stops t pivot (now : R) step (s s' : state (A:=RA)) : even_legs_at t pivot now step s = Ok (tt, s') ->
    removes s s' t now /\ (forall u, t_v (ts s' u) = t_v (ts s u)).
  Proof.
    intros H. unfold even_legs_at in H. ro_next H. ro_next H. apply even_effects in H.
    destruct H as (_ & n & _ & _ & _ & _ & H5 & _ & H7). split; [exact H5|exact H7].
  Qed.

  Theorem C74_two fuel t0 t1 pivot (now : R) d step (s s' : state (A:=RA)) :
    handle_parallel_fan (S fuel) [t0; t1] pivot now d step s = Ok (tt, s') -> t_n (ts s t0) <> mk3 None None None ->
    exists i0 i1 p o0 o1, corner_of s t0 i0 = pivot /\ corner_of s t1 i1 = pivot /\ position_at s pivot now = Ok p /\
      position_at s (corner_of s t0 (match d with Cw => cw i0 | Ccw => ccw i0 end)) now = Ok o0 /\
      position_at s (corner_of s t1 (match d with Cw => ccw i1 | Ccw => cw i1 end)) now = Ok o1 /\
      (* the outer legs are even *)
      (Rabs (apart_by p o0 - apart_by p o1) <= / 10^10 ->
       exists x0 z0 x1 z1, legs_of s t0 pivot now i0 x0 z0 /\ legs_of s t1 pivot now i1 x1 z1 /\
       (* so are the legs of each triangle: both triangles vanish *)
       (Rabs (x0 - z0) <= / 10^10 /\ Rabs (x1 - z1) <= / 10^10 ->
          forall u, t_v (ts s' u) = t_v (ts s u) /\ t_stops (ts s' u) = if (t0 =? u)%nat || (t1 =? u)%nat then Some now else t_stops (ts s u)) /\
       (* they are not: the two are flipped, then those with an infinitely fast corner vanish *)
       (~ (Rabs (x0 - z0) <= / 10^10 /\ Rabs (x1 - z1) <= / 10^10) ->
          exists side0 side1 s1, get3 (t_n (ts s t0)) side0 = Some t1 /\ get3 (t_n (ts s t1)) side1 = Some t0 /\ flip t0 side0 t1 side1 s = Ok (tt, s1) /\
          forall u, t_v (ts s' u) = t_v (ts s1 u) /\
            (((u = t0 \/ u = t1) /\ (exists i, k_inf_fast (vs s1 (corner_of s1 u i)) = true)) -> t_stops (ts s' u) = Some now) /\
            (~ ((u = t0 \/ u = t1) /\ (exists i, k_inf_fast (vs s1 (corner_of s1 u i)) = true)) -> t_stops (ts s' u) = t_stops (ts s u)))).
  Proof.
    intros H NI. cbn [handle_parallel_fan last] in H.
    apply bind_ok in H. destruct H as (f0 & s0 & H0 & H). apply vattr_ok in H0. destruct H0 as (_ & -> & ->).
    ro_next H. ro_next H.
    assert (B : Nat.eqb (tri_type (ts s t0)) 3 = false).
    { apply Nat.eqb_neq. intros Q. apply NI. unfold tri_type in Q. destruct (t_n (ts s t0)) as [[|] [|] [|]]; cbn in Q; try discriminate. reflexivity. }
    rewrite B in H. ro_next H.
    set (lt := match d with Cw => t0 | Ccw => t1 end). set (rt := match d with Cw => t1 | Ccw => t0 end).
    assert (SP : (match d with Cw => (t0, t1) | Ccw => (t1, t0) end) = (lt, rt)) by (unfold lt, rt; destruct d; reflexivity).
    rewrite SP in H. clear SP.
    ro_next H. apply bind_ok in H. destruct H as (li & s0 & J1 & H). unfold rdr in J1. apply rd_ok in J1. destruct J1 as [VL ->]. pose proof (vindex_get _ _ _ VL) as Hl.
    apply bind_ok in H. destruct H as (dl & s0 & J1 & H). apply leg_length_R in J1. destruct J1 as [-> (a & p & L1 & L2 & ->)].
    ro_next H. apply bind_ok in H. destruct H as (ri & s0 & J1 & H). unfold rdr in J1. apply rd_ok in J1. destruct J1 as [VR ->]. pose proof (vindex_get _ _ _ VR) as Hr.
    apply bind_ok in H. destruct H as (dr & s0 & J1 & H). apply leg_length_R in J1. destruct J1 as [-> (p' & b & L3 & L4 & ->)].
    assert (CW : forall i, cw (ccw i) = i) by (intros []; reflexivity). assert (CC : forall i, ccw (ccw i) = cw i) by (intros []; reflexivity).
    assert (WC : forall i, ccw (cw i) = i) by (intros []; reflexivity). assert (WW : forall i, cw (cw i) = ccw i) by (intros []; reflexivity).
    rewrite CW in L2. rewrite CC in L1. rewrite WC in L3. rewrite WW in L4.
    change (get3 (t_v (ts s lt)) li) with (corner_of s lt li) in Hl. change (get3 (t_v (ts s rt)) ri) with (corner_of s rt ri) in Hr.
    rewrite Hl in L2. rewrite Hr in L3. assert (p' = p) by congruence. subst p'. clear L3.
    rewrite (apart_sym a p) in H. cbv zeta in H.
    pose proof (nmin_even (apart_by p a) (apart_by p b)) as NE.
    set (i0 := match d with Cw => li | Ccw => ri end). set (i1 := match d with Cw => ri | Ccw => li end).
    assert (V0 : vindex (ts s t0) pivot = Ok i0) by (destruct d; [exact VL|exact VR] || (destruct d; [exact VR|exact VL])).
    assert (V1 : vindex (ts s t1) pivot = Ok i1) by (destruct d; [exact VR|exact VL] || (destruct d; [exact VL|exact VR])).
    exists i0, i1, p, (match d with Cw => a | Ccw => b end), (match d with Cw => b | Ccw => a end).
    split; [destruct d; assumption|]. split; [destruct d; assumption|]. split; [exact L2|].
    split; [destruct d; assumption|]. split; [destruct d; assumption|].
    intros EV. assert (EV' : Rabs (apart_by p a - apart_by p b) <= / 10^10) by (destruct d; [exact EV|rewrite Rabs_minus_sym; exact EV] || (destruct d; [rewrite Rabs_minus_sym; exact EV|exact EV])).
    apply NE in EV'. apply andb_true_iff in EV'. destruct EV' as [N1 N2]. rewrite N1, N2 in H. clear NE N1 N2 EV.
    apply bind_ok in H. destruct H as (all2 & s0 & J1 & H). unfold all_legs_even in J1.
    apply bind_ok in J1. destruct J1 as (b0 & s0' & J0 & J1). apply legs_even_R in J0. destruct J0 as [-> (i0' & x0 & z0 & I0 & G0 & B0)].
    apply bind_ok in J1. destruct J1 as (b1 & s0' & J0 & J1). apply legs_even_R in J0. destruct J0 as [-> (i1' & x1 & z1 & I1 & G1 & B1)].
    apply ret_ok in J1. destruct J1 as [J1 ->]. assert (i0' = i0) by congruence. subst i0'. assert (i1' = i1) by congruence. subst i1'.
    exists x0, z0, x1, z1. split; [exact G0|]. split; [exact G1|]. split.
    - intros [E0 E1]. apply B0 in E0. apply B1 in E1. rewrite J1, E0, E1 in H. cbn [andb] in H.
      apply bind_ok in H. destruct H as (u & s1 & R1 & H). destruct u. apply even_at_stops in R1. destruct R1 as [S1 C1].
      apply bind_ok in H. destruct H as (u & s2 & R2 & H). destruct u. apply even_at_stops in R2. destruct R2 as [S2 C2].
      apply bind_ok in H. destruct H as (u & s3 & R3 & H). unfold assert_stopped in R3, H.
      ro_next R3. apply assertM_ok in R3. destruct R3 as [_ ->]. ro_next H. apply assertM_ok in H. destruct H as [_ ->].
      intros w. split; [rewrite C2; apply C1|]. rewrite S2, S1. destruct (t0 =? w)%nat, (t1 =? w)%nat; reflexivity.
    - intros NE. assert (AF : all2 = false).
      { rewrite J1. destruct b0; [|reflexivity]. destruct b1; [|reflexivity]. destruct NE. split; [apply B0|apply B1]; reflexivity. }
      rewrite AF in H. unfold flip_then_even_legs in H. cbv zeta in H.
      ro_next H. apply bind_ok in H. destruct H as (side0 & s0 & K0 & H). unfold rdr in K0. apply rd_ok in K0. destruct K0 as [K0 ->].
      ro_next H. apply bind_ok in H. destruct H as (side1 & s0 & K1 & H). unfold rdr in K1. apply rd_ok in K1. destruct K1 as [K1 ->].
      apply bind_ok in H. destruct H as (u & s1 & F1 & H). destruct u.
      exists side0, side1, s1. split; [apply nindex_get, K0|]. split; [apply nindex_get, K1|]. split; [exact F1|].
      apply bind_ok in H. destruct H as (f0 & s2 & K2 & H). apply rd_ok in K2. destruct K2 as [K2 ->].
      apply bind_ok in H. destruct H as (f1 & s2 & K3 & H). apply rd_ok in K3. destruct K3 as [K3 ->].
      assert (FS : forall (s1 : state (A:=RA)) t f, rmapl (fun v => kattr (vs s1 v) (k_inf_fast (vs s1 v))) (list3 (t_v (ts s1 t))) = Ok f ->
        (existsb Datatypes.id f = true <-> exists i, k_inf_fast (vs s1 (corner_of s1 t i)) = true)).
      { clear. intros s1 t f H. unfold corner_of. destruct (t_v (ts s1 t)) as [c0 c1 c2]. cbn [list3 rmapl x0 x1 x2] in H.
        unfold kattr in H. repeat (match type of H with context [if ?b then _ else _] => destruct b; cbn [rbind] in H; try discriminate H end).
        injection H as <-. cbn [existsb Datatypes.id]. rewrite !orb_true_iff. split.
        - intros [Q|[Q|[Q|Q]]]; [exists S0|exists S1|exists S2|discriminate Q]; exact Q.
        - intros [[] Q]; auto. }
      pose proof (FS _ _ _ K2) as FS0. pose proof (FS _ _ _ K3) as FS1. clear FS K2 K3.
      apply quiets_flip in F1.
      apply bind_ok in H. destruct H as (u & s2 & R1 & H). destruct u.
      assert (W : forall b t a c, whenM b (even_legs_at t pivot now step) a = Ok (tt, c) ->
        (forall u, t_v (ts c u) = t_v (ts a u)) /\ (forall u, t_stops (ts c u) = if (b && (t =? u)%nat)%bool then Some now else t_stops (ts a u))).
      { clear. intros [|] t a c H; cbn [whenM] in H.
        - apply even_at_stops in H. destruct H as [R1 R2]. split; [exact R2|]. intros u. cbn [andb]. apply R1.
        - apply ret_ok in H. destruct H as [_ ->]. auto. }
      apply W in R1. apply W in H. destruct R1 as [C1 S1], H as [C2 S2]. intros w. split; [rewrite C2; apply C1|].
      rewrite S2, S1, (qu_tstops _ _ F1). split.
      + intros [[-> | ->] Q].
        * apply FS0 in Q. rewrite Q. cbn [andb]. rewrite Nat.eqb_refl. destruct (existsb Datatypes.id f1 && (t1 =? t0)%nat)%bool; reflexivity.
        * apply FS1 in Q. rewrite Q. cbn [andb]. rewrite Nat.eqb_refl. reflexivity.
      + intros Q. destruct (existsb Datatypes.id f1) eqn:X1; [|destruct (existsb Datatypes.id f0) eqn:X0]; cbn [andb].
        * destruct (Nat.eqb_spec t1 w); [destruct Q; subst; split; [auto|apply FS1; reflexivity]|].
          destruct (existsb Datatypes.id f0) eqn:X0; [|reflexivity]. cbn [andb]. destruct (Nat.eqb_spec t0 w); [|reflexivity].
          destruct Q; subst; split; [auto|apply FS0; reflexivity].
        * destruct (Nat.eqb_spec t0 w); [|reflexivity]. destruct Q; subst; split; [auto|apply FS0; reflexivity].
        * reflexivity.
  Qed.

  (** the node in which vertex [v] ends at time [now]: the one it had ended in, the one it has only
      just started from, or a new one at its position *)
  Definition joins (s s' : state (A:=RA)) (v : nat) (now : R) (n : nat) : Prop :=
    (forall m, k_stops (vs s v) <> None -> k_stop_node (vs s v) = Some m -> n = m) /\
    (forall a m, k_stops (vs s v) = None -> k_starts (vs s v) = Some a -> Rabs (a - now) <= / 10^10 ->
       k_start_node (vs s v) = Some m -> n = m) /\
    (forall a p, k_stops (vs s v) = None -> k_starts (vs s v) = Some a -> Rabs (a - now) > / 10^10 ->
       position_at s v now = Ok p -> n = nn s /\ sn_pos (ns s' n) = p).

  Lemma near_zero_abs (x : R) : near_zero (A:=RA) x = true <-> Rabs x <= / 10^10.
  Proof. rewrite near_zero_R. unfold Rabs. destruct (Rcase_abs x); lra. Qed.
  Lemma mean_one (s : state (A:=RA)) v (now : R) p q : mean_position s [v] now = Ok q -> position_at s v now = Ok p -> q = p.
  Proof.
    unfold mean_position. intros H H1. cbn [rmapl] in H. rewrite H1 in H. cbn [rbind rmap map length fold_left] in H.
    assert (N : @nofnat RA 1 = 1) by exact q1.
    rewrite N in H. rewrite !pdiv_R in H by lra. cbn [rbind] in H. injection H as <-.
    destruct p as [x y]. cbn [fst snd]. ra_simp. qlit. apply f_equal2; field.
  Qed.
  Lemma node_of_joins (s s' : state (A:=RA)) v (now : R) n : node_of s v now s' n -> joins s s' v now n.
  Proof.
    unfold node_of, at_node, anchored, anchor. intros H. split; [|split].
    - intros m N Q. destruct (k_stops (vs s v)); [|contradiction]. cbn in H. rewrite Q in H. tauto.
    - intros a m N St C Q. rewrite N, St in H. cbn [is_some orb] in H.
      assert (Z : near_zero (nsub (Arith:=RA) a now) = true) by (apply near_zero_abs; exact C).
      rewrite Z, Q in H. tauto.
    - intros a p N St C P. rewrite N, St in H. cbn [is_some orb] in H.
      destruct (near_zero (nsub (Arith:=RA) a now)) eqn:Z.
      + apply near_zero_abs in Z. change (nsub (Arith:=RA) a now) with (a - now) in Z. lra.
      + destruct H as (-> & _ & H). split; [reflexivity|]. eapply mean_one; eauto.
  Qed.

  Definition speed (s : state (A:=RA)) (v : nat) : R := sqrt (fst (k_velocity (vs s v))^2 + snd (k_velocity (vs s v))^2).

  (** a triangle bounded by three wavefronts ends where the slower of the two other corners is *)
  Theorem C74_three_where t e pivot (now : R) step (s s' : state (A:=RA)) :
    handle_parallel_edge_event_3tri t e pivot now step s = Ok (tt, s') ->
    exists n, shrinks s s' t now n /\
      (speed s (corner_of s t (cw e)) < speed s (corner_of s t (ccw e)) -> joins s s' (corner_of s t (cw e)) now n) /\
      (speed s (corner_of s t (ccw e)) <= speed s (corner_of s t (cw e)) -> joins s s' (corner_of s t (ccw e)) now n).
  Proof.
    intros H. pose proof (tri_effects _ _ _ _ _ _ _ H) as (P & n & H1 & H2 & H3 & H4 & H5 & H6 & H7 & m1 & m2 & M1 & M2 & N).
    exists n. split.
    { split; [intros v Hv; apply H1, has_corner_in, Hv|].
      split; [intros v _; apply H2|]. split; [exact H3|]. split; [exact H4|]. split; [exact H5|]. split; [exact H6|exact H7]. }
    assert (SP : forall v m, norm_2 (A:=RA) (k_velocity (vs s v)) = Ok m -> m = speed s v).
    { clear. intros v m H. unfold norm_2 in H.
      assert (Q : norm2_2 (A:=RA) (k_velocity (vs s v)) = fst (k_velocity (vs s v))^2 + snd (k_velocity (vs s v))^2).
      { unfold norm2_2, dot2. ra_simp. qlit. ring. }
      rewrite Q, psqrt_R in H by (apply Rplus_le_le_0_compat; apply pow2_ge_0). injection H as <-. reflexivity. }
    apply SP in M1, M2. change (corner s t) with (corner_of s t) in M1, M2, N. subst m1 m2.
    split; intros Q.
    - assert (B : nltb (Arith:=RA) (speed s (corner_of s t (cw e))) (speed s (corner_of s t (ccw e))) = true) by (ra_simp; apply Rltb_true; exact Q).
      rewrite B in N. apply node_of_joins, N.
    - assert (B : nltb (Arith:=RA) (speed s (corner_of s t (cw e))) (speed s (corner_of s t (ccw e))) = false) by (ra_simp; apply Rltb_false; exact Q).
      rewrite B in N. apply node_of_joins, N.
  Qed.

  (** a leg collapses where its other end is *)
  Theorem C74_shorter_where fuel t e pivot (now : R) step (s s' : state (A:=RA)) w :
    registered s -> (forall u i, (corner_of s u i < nv s)%nat) ->
    handle_parallel_edge_event_shorter_leg (handle_parallel_fan fuel) t e pivot now step s = Ok (tt, s') ->
    (w = corner_of s t (ccw e) \/ w = corner_of s t (cw e)) -> k_inf_fast (vs s w) = false ->
    exists n s6, leg_collapses s s6 t e pivot now n /\ joins s s6 w now n /\ follows s6 s'.
  Proof.
    intros R C H W NW.
    destruct (shorter_collapses _ _ _ _ _ _ _ _ R C H) as (n & fa & fb & s6 & L & R6 & F6 & FA & NO & X).
    exists n, s6. split; [exact L|]. split; [apply node_of_joins, NO; auto|].
    apply (keeps_whenM base_sound now _ _ (keeps_fan_of base_sound _ fa fb (nv s) now step (keeps_parallel_fan base_sound fuel)) s6 R6 _ _ X).
  Qed.
End C74_geometry.
Print Assumptions C74_choice.
Print Assumptions C74_two.
Print Assumptions C74_three_where.
Print Assumptions C74_shorter_where.

(** ** Cases over exact rationals *)
Local Open Scope Q_scope.
(** an infinitely fast vertex at (0,0), made at time 1 between a wavefront moving up and one
    moving down, with one triangle and what lies behind it *)
Definition hot (n l r : nat) : kvertex (A:=QA) :=
  mkKV (A:=QA) false (0, 0) (0, 0) [] [] (Some 1) None (Some n) None (Some l) (Some r) (Some l) (Some r) 0 true true.
Definition spike (x1 x2 : Q) (v : Q * Q) (nb : option nat) : state (A:=QA) :=
  st [lnk (hot 0 2 0) 2 1; lnk (mv (x1, -1) (0, 1) 1 0 1) 0 3; lnk (mv (x2, 1) v 2 1 2) 3 0; lnk (mv (20, 0) (-1, 0) 3 1 1) 1 2]
     [tr 0 1 2 nb None None; tr 3 2 1 (if is_some nb then Some 0%nat else None) None None]
     [nd 0 0; nd x1 (-1); nd x2 1; nd 20 0] []
     [wf (0, 1) 1; wf (-1, 0) 20; wf (0, -1) 1] [] [].
(** the same with two triangles *)
Definition spike2 (x1 x2 x3 : Q) : state (A:=QA) :=
  st [lnk (hot 0 2 0) 3 1; lnk (mv (x1, -1) (0, 1) 1 0 1) 0 4; mv (x2, 0) (0, 0) 2 1 2; lnk (mv (x3, 1) (0, -1) 3 1 2) 5 0;
      mv (20, -2) (-1, 0) 4 1 1; mv (20, 2) (-1, 0) 5 1 1]
     [tr 0 1 2 (Some 2%nat) (Some 1%nat) None; tr 0 2 3 (Some 3%nat) None (Some 0%nat);
      tr 4 2 1 (Some 0%nat) None None; tr 5 3 2 (Some 1%nat) None None]
     [nd 0 0; nd x1 (-1); nd x2 0; nd x3 1; nd 20 (-2); nd 20 2] []
     [wf (0, 1) 1; wf (-1, 0) 20; wf (0, -1) 1] [] [].
Local Close Scope Q_scope.
Lemma listed (vl : list (kvertex (A:=QA))) tl nl wl :
  (forall v, k_stop_node (nth v vl dflt_v) = None) ->
  (forall v n, k_start_node (nth v vl dflt_v) = Some n -> n < length nl) -> registered (st vl tl nl [] wl [] []).
Proof.
  intros S1 S2. constructor.
  - intros v n H. apply S2 in H. apply in_seq. cbn. lia.
  - intros v n H. cbn in H. rewrite S1 in H. discriminate.
  - intros n H. apply in_seq in H. cbn in *. lia.
  - intros v H. apply in_seq in H. cbn in *. lia.
Qed.
Lemma spike_registered x1 x2 v nb : registered (spike x1 x2 v nb).
Proof.
  apply listed; intros [|[|[|[|w]]]]; cbn; try reflexivity; try (intros n [= <-]; lia);
    destruct w; cbn; try reflexivity; discriminate.
Qed.
Lemma spike2_registered x1 x2 x3 : registered (spike2 x1 x2 x3).
Proof.
  apply listed; intros [|[|[|[|[|[|w]]]]]]; cbn; try reflexivity; try (intros n [= <-]; lia);
    destruct w; cbn; try reflexivity; discriminate.
Qed.
Lemma spike_seated x1 x2 v nb : forall u i, corner_of (spike x1 x2 v nb) u i < nv (spike x1 x2 v nb).
Proof. intros [|[|u]] []; cbn; try lia; destruct u; cbn; lia. Qed.
Lemma spike2_seated x1 x2 x3 : forall u i, corner_of (spike2 x1 x2 x3) u i < nv (spike2 x1 x2 x3).
Proof. intros [|[|[|[|u]]]] []; cbn; try lia; destruct u; cbn; lia. Qed.

Definition done_by (m : M (A:=QA) unit) (s : state (A:=QA)) (P : state (A:=QA) -> bool) : bool :=
  match m s with Ok (_, s') => P s' | Err _ => false end.
Definition gone (s : state (A:=QA)) (t : nat) : bool := match t_stops (ts s t) with Some z => Qeq_bool z 1 | None => false end.
Definition node_at (s : state (A:=QA)) (n : nat) (x y : Q) : bool := Qeq_bool (fst (sn_pos (ns s n))) x && Qeq_bool (snd (sn_pos (ns s n))) y.
Definition cornersb (s : state (A:=QA)) (t a b c : nat) : bool :=
  let 'mk3 p q r := t_v (ts s t) in (p =? a) && (q =? b) && (r =? c).
Definition t1 : @num QA := 1%Q.

(** equal legs: the three vertices end in node 4 at (5,0), no vertex is made *)
Example C74_even_case : done_by (handle_parallel_edge_event_even_legs 0 S0 0 t1 7) (spike 5 5 (0, -1)%Q (Some 1)) (fun s =>
  forallb (fun v => endsb s v 4 1) [0; 1; 2] && is_none (k_stops (vs s 3)) && (nv s =? 4) && gone s 0 && negb (gone s 1) && node_at s 4 5 0) = true.
Proof. vm_compute. reflexivity. Qed.
(** an isolated triangle: all three end where the slower vertex 1 is *)
Example C74_three_case : done_by (handle_parallel_edge_event_3tri 0 S0 0 t1 7) (spike 5 (31#3) (-(4#3), -1)%Q None) (fun s =>
  forallb (fun v => endsb s v 4 1) [0; 1; 2] && is_none (k_stops (vs s 3)) && (nv s =? 4) && gone s 0 && node_at s 4 5 0) = true.
Proof. vm_compute. reflexivity. Qed.
(** the leg to vertex 1 is shorter: it collapses in node 4 at (5,0); the new vertex 4 takes the place of vertex 1 *)
Example C74_shorter_case : done_by (handle_parallel_edge_event_shorter_leg (handle_parallel_fan 3) 0 S2 0 t1 7) (spike 5 9 (0, -1)%Q (Some 1)) (fun s =>
  forallb (fun v => endsb s v 4 1) [0; 1] && beginsb s 4 4 1 && node_at s 4 5 0 && gone s 0 && cornersb s 1 3 2 4 &&
  onat_eqb (kleft (vs s 4)) (Some 2) && onat_eqb (kright (vs s 4)) (Some 3) && onat_eqb (kright (vs s 2)) (Some 4) && onat_eqb (kleft (vs s 3)) (Some 4) &&
  onat_eqb (k_ul (vs s 4)) (Some 2) && onat_eqb (k_ur (vs s 4)) (Some 1)) = true.
Proof. vm_compute. reflexivity. Qed.
(** the fan: which leg collapses depends on their lengths; with two triangles the legs can be even in both, or only outside *)
Example C74_fan_cases :
  done_by (handle_parallel_fan 3 [0] 0 t1 Cw 7) (spike 5 9 (0, -1)%Q (Some 1)) (fun s => endsb s 0 4 1 && endsb s 1 4 1 && is_none (k_stops (vs s 2)) && cornersb s 1 3 2 4) &&
  done_by (handle_parallel_fan 3 [0] 0 t1 Cw 7) (spike 9 5 (0, -1)%Q (Some 1)) (fun s => endsb s 0 4 1 && endsb s 2 4 1 && is_none (k_stops (vs s 1)) && cornersb s 1 3 4 1) &&
  done_by (handle_parallel_fan 3 [0; 1] 0 t1 Ccw 7) (spike2 5 5 5) (fun s => forallb (fun v => endsb s v 6 1) [0; 1; 2; 3] && gone s 0 && gone s 1) &&
  done_by (handle_parallel_fan 3 [0; 1] 0 t1 Ccw 7) (spike2 5 7 5) (fun s => forallb (fun v => endsb s v 6 1) [0; 1; 3] && is_none (k_stops (vs s 2)) &&
    negb (gone s 0) && gone s 1 && cornersb s 0 1 2 3) &&
  done_by (handle_parallel_fan 3 [0; 1] 0 t1 Ccw 7) (spike2 5 7 9) (fun s => endsb s 0 6 1 && endsb s 1 6 1 && gone s 0 && cornersb s 1 6 2 3 && cornersb s 2 4 2 6) = true.
Proof. vm_compute. reflexivity. Qed.

(** in runs: no infinitely fast vertex is left after the edge event that makes one (rectangle),
    or two, one after the other (rectangle with a vertex halfway a side) *)
Definition none_leftb (s : state (A:=QA)) (k : nat) : bool := forallb (fun u => forallb (fun v =>
  negb (k_inf_fast (vs s v)) || is_some (k_stop_node (vs s v))) (list3 (t_v (ts s u)))) (seq 0 k).
Example C74_event_cases :
  next_k 0 rect (fun s e s' => none_leftb s 3 && kindb s e Edge [S0] 1%Q 2 && k_inf_fast (vs s' 4) && is_some (k_stop_node (vs s' 4)) && none_leftb s' 3) &&
  next_k 0 rectm (fun s e s' => none_leftb s 4 && kindb s e Edge [S2] 1%Q 2 && k_inf_fast (vs s' 5) && k_inf_fast (vs s' 6) && none_leftb s' 4) = true.
Proof. vm_compute. reflexivity. Qed.
(** [C74_run] applies to runs in which no split makes two infinitely fast vertices *)
Definition once_at (s0 : state (A:=QA)) (j : nat) : bool :=
  match go j 0%Q [] s0 with
  | Ok (now, tr, s1) => match take_next now s1 with
      | Ok ((e, _), s2) => match handle_event e (Z.of_nat (S (length tr))) s2 with
          | Ok (_, s3) => negb (match ev_tp (es s2 e) with Split => true | _ => false end) || is_some (t_stops (ts s2 (ev_tri (es s2 e)))) ||
              negb (k_inf_fast (vs s3 (nv s2))) || negb (k_inf_fast (vs s3 (S (nv s2))))
          | Err _ => true end
      | Err _ => true end
  | Err _ => true
  end.
Lemma once_run s0 k : forallb (once_at s0) (seq 0 k) = true ->
  forall now1 tr1 s1 e now2 s2 s3, reach s0 now1 tr1 s1 -> length tr1 < k ->
    take_next now1 s1 = Ok ((e, now2), s2) -> handle_event e (Z.of_nat (S (length tr1))) s2 = Ok (tt, s3) -> ~ twice_fast s2 e s3.
Proof.
  intros H now1 tr1 s1 e now2 s2 s3 R L T D (W1 & W2 & W3 & W4). rewrite forallb_forall in H. specialize (H (length tr1)).
  rewrite in_seq in H. specialize (H ltac:(lia)). unfold once_at in H.
  rewrite (reach_go _ _ _ _ R), T, D, W1, W2, W3, W4 in H. discriminate H.
Qed.
Lemma fast_example k s P : fresh s -> shaped s -> (forall v, k_inf_fast (vs s v) = false) ->
  holds_k k s (fun _ _ s' => match init_event_list s with
     | Ok (_, s1) => forallb (once_at (with_qi s1 (queue s1) [])) (seq 0 k) | Err _ => false end && P s') = true ->
  exists s0 now tr s', started s s0 /\ reach s0 now tr s' /\ length tr = k /\ none_left s' /\ P s' = true.
Proof.
  intros F SH SL H. apply example_k in H. destruct H as (s0 & now & tr & s' & S & R & L & H).
  exists s0, now, tr, s'. split; [exact S|]. split; [exact R|]. split; [exact L|].
  apply Bool.andb_true_iff in H. destruct H as [H HP]. split; [|exact HP].
  destruct (init_timed QA_ord QE_addr _ _ F S) as ((RG & _) & _ & _ & _ & VS & _).
  pose proof (started_shaped QA_ord QE_addr _ _ F SH S) as SH0.
  apply (C74_run s0 now tr s' RG SH0); [|exact R|].
  - intros u v _. rewrite VS, SL. discriminate.
  - destruct S as (s1 & I & ->). rewrite I in H. rewrite L. apply once_run, H.
Qed.
Ltac slow := intros v; do 12 (destruct v as [|v]; [reflexivity|]); destruct v; reflexivity.
Example C74_run_rect : exists s0 now tr s, started rect s0 /\ reach s0 now tr s /\ length tr = 1 /\ none_left s /\
  k_inf_fast (vs s 4) && endsb s 4 5 1 = true.
Proof. apply (fast_example 1 rect (fun s => _)); [apply rect_fresh|apply st_shaped; [discriminate| |]; shape_list|slow|]. vm_compute. reflexivity. Qed.
Example C74_run_rectm : exists s0 now tr s, started rectm s0 /\ reach s0 now tr s /\ length tr = 1 /\ none_left s /\
  k_inf_fast (vs s 5) && endsb s 5 6 1 && k_inf_fast (vs s 6) && endsb s 6 7 1 = true.
Proof. apply (fast_example 1 rectm (fun s => _)); [apply rectm_fresh|apply st_shaped; [discriminate| |]; shape_list|slow|]. vm_compute. reflexivity. Qed.

(** ** Cases over exact reals *)
Section C74_cases.
  Context {E : Env RA}.
  Local Open Scope R_scope.
  Definition vx (o v : R * R) (a : R) (n l r nl nr : nat) (fast : bool) : kvertex (A:=RA) :=
    mkKV (A:=RA) false o v [(0, None, Some nl)] [(0, None, Some nr)] (Some a) None (Some n) None (Some l) (Some r) (Some l) (Some r) 0 fast true.
  (** as [spike] *)
  Definition needle (x1 x2 : R) (v w : R * R) (nb : option nat) : state (A:=RA) :=
    mkSt (A:=RA)
      (fun i => match i with
        | 0%nat => vx (0, 0) (0, 0) 1 0 2 0 2 1 true | 1%nat => vx (x1, -1) (0, 1) 0 1 0 1 0 3 false
        | 2%nat => vx (x2, 1) v 0 2 1 2 3 0 false | _ => vx (20, 0) (-1, 0) 0 3 1 1 1 2 false end) 4
      (fun t => match t with
        | 0%nat => mkTri (A:=RA) (mk3 0 1 2)%nat (mk3 nb None None) None 0 None true
        | _ => mkTri (A:=RA) (mk3 3 2 1)%nat (mk3 (if is_some nb then Some 0%nat else None) None None) None 0 None true end) 2
      (fun n => mkNode (A:=RA) match n with 0%nat => (0, 0) | 1%nat => (x1, -1) | 2%nat => (x2, 1) | _ => (20, 0) end 0 None) 4
      (fun _ => mkEv (A:=RA) 0 0 [] Edge 0) 0
      (fun i => mkWF (A:=RA) match i with
        | 0%nat => mkLine (A:=RA) (0, 1) 1 | 1%nat => mkLine (A:=RA) w 20 | _ => mkLine (A:=RA) (0, -1) 1 end (0, 0) (0, 0))
      [0; 1; 2; 3]%nat [0; 1; 2; 3]%nat [0; 1]%nat [] [].
  Lemma needle_registered x1 x2 v w nb : registered (needle x1 x2 v w nb).
  Proof.
    constructor; cbn [sk_nodes sk_vertices needle vs].
    - intros [|[|[|u]]] n H; cbn in H; injection H as <-; cbn; tauto.
    - intros [|[|[|u]]] n H; discriminate H.
    - intros n H. cbn in *. lia.
    - intros n H. cbn in *. lia.
  Qed.
  Lemma needle_seated x1 x2 v w nb : forall u i, (corner_of (needle x1 x2 v w nb) u i < nv (needle x1 x2 v w nb))%nat.
  Proof. intros [|u] []; cbn; lia. Qed.

  (** [C74_choice], equal legs *)
  Example C74_choice_case : let s := needle 5 5 (0, -1) (-1, 0) (Some 1%nat) in
    registered s /\ (forall u i, (corner_of s u i < nv s)%nat) /\ t_n (ts s 0) <> mk3 None None None /\
    exists s', handle_parallel_fan 1 [0%nat] 0 1 Cw 7 s = Ok (tt, s').
  Proof.
    split; [apply needle_registered|]. split; [apply needle_seated|]. split; [discriminate|]. eexists. exec.
  Qed.
  (** [C74_three_where]: vertex 1 is slower (speed 1) than vertex 2 (speed 5/3) *)
  Example C74_three_where_case : let s := needle 5 (31/3) (-4/3, -1) (-1, 0) None in
    speed s (corner_of s 0 (ccw S0)) <= speed s (corner_of s 0 (cw S0)) /\
    exists s', handle_parallel_edge_event_3tri 0 S0 0 1 7 s = Ok (tt, s').
  Proof.
    split; [unfold speed; cbn; apply sqrt_le_1_alt; lra|]. eexists. exec.
  Qed.
  (** [C74_shorter_where]: the leg to vertex 1 collapses *)
  Example C74_shorter_where_case : let s := needle 5 9 (0, -1) (0, 1) None in
    registered s /\ (forall u i, (corner_of s u i < nv s)%nat) /\ corner_of s 0 (cw S2) = 1%nat /\ k_inf_fast (vs s 1) = false /\
    exists s', handle_parallel_edge_event_shorter_leg (handle_parallel_fan 1) 0 S2 0 1 7 s = Ok (tt, s').
  Proof.
    split; [apply needle_registered|]. split; [apply needle_seated|]. split; [reflexivity|]. split; [reflexivity|]. eexists. exec.
  Qed.
End C74_cases.
