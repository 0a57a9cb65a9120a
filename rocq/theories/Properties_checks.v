(** C77: the assertions with which event_loop begins *)
From Coq Require Import Reals Lra.
From Verif Require Import Base Arith ArithR ArithQ Calc CalcProofs VectorOps Line2d Line2dProofs Primitives Collapse EventsLib EventLoop OpSpec
  Pass RunBase RunTimed RunLoop Total Mesh MeshRun Rings RingLeft Initialize StarProofs InitProofs InitState InitCirc InitMesh InitChecks
  TriExample
  ScenarioRun Properties_init Properties_start Properties_ringstart Properties_main.

(** ** What the two checks mean *)
Section Meaning.
  Context {A : Arith} {E : Env A}.

  Lemma rforall_ok {X} (f : X -> res unit) l : rforall f l = Ok tt <-> forall x, In x l -> f x = Ok tt.
  Proof.
    induction l as [|x l IH]; cbn [rforall].
    - split; [intros _ x []|reflexivity].
    - split.
      + intros H. apply rbind_ok in H. destruct H as ([] & H1 & H2). intros y [<-|Hy]; [exact H1|apply IH; assumption].
      + intros H. rewrite (H x (or_introl eq_refl)). cbn. apply IH. intros y Hy. apply H. right. exact Hy.
  Qed.
  Lemma rassert_iff b : rassert b = Ok tt <-> b = true.
  Proof. destruct b; cbn; split; congruence. Qed.
  Lemma is_none_iff {X} (o : option X) : is_none o = true <-> o = None.
  Proof. destruct o; cbn; split; congruence. Qed.

  (** positive, up to the tolerance of near_zero *)
  Definition not_negative (x : num) : Prop := nltb n0 x = true \/ near_zero x = true.

  Lemma bisectors_iff s now : check_bisectors s now = Ok tt <->
    forall t i, active s t -> link s t i = None ->
      exists p q, position_at s (corner s t (ccw i)) now = Ok p /\ position_at s (corner s t (cw i)) now = Ok q /\
        not_negative (orient2d p q (nadd (fst q) (fst (k_velocity (vs s (corner s t (cw i))))),
                                    nadd (snd q) (snd (k_velocity (vs s (corner s t (cw i))))))).
  Proof.
    unfold check_bisectors. rewrite rforall_ok. split.
    - intros H t i [T1 T2] L. specialize (H t T1). rewrite T2 in H. cbn [is_none] in H. rewrite rforall_ok in H.
      specialize (H i ltac:(destruct i; cbn; auto)). unfold link in L. rewrite L in H. cbn [is_none] in H.
      unfold check_bisector_direction, edge_segment in H.
      apply rbind_ok in H. destruct H as (q & Q & H). apply rbind_ok in H. destruct H as (p & P & H).
      exists p, q. split; [exact P|]. split; [exact Q|]. apply rassert_iff, orb_true_iff in H. exact H.
    - intros H t T1. destruct (is_none (t_stops (ts s t))) eqn:T2; [|reflexivity]. apply is_none_iff in T2.
      apply rforall_ok. intros i _. destruct (is_none (get3 (t_n (ts s t)) i)) eqn:L; [|reflexivity]. apply is_none_iff in L.
      destruct (H t i (conj T1 T2) L) as (p & q & P & Q & N). unfold check_bisector_direction, edge_segment.
      unfold corner in P, Q, N. rewrite Q, P. cbn [rbind]. apply rassert_iff, orb_true_iff. exact N.
  Qed.

  Definition on_the_left (x : num) : Prop := nleb n0 x = true \/ near_zero x = true.
  Definition on_the_right (x : num) : Prop := nleb x n0 = true \/ near_zero x = true.

  Lemma is_finite_iff s t : is_finite s t = true <-> forall i, k_inf (vs s (corner s t i)) = false.
  Proof.
    unfold is_finite, corner. rewrite forallb_forall. split.
    - intros H i. apply negb_true_iff, H. destruct i; cbn; auto.
    - intros H v [<-|[<-|[<-|[]]]]; apply negb_true_iff; [apply (H S0)|apply (H S1)|apply (H S2)].
  Qed.
  Lemma is_finite_not s t : is_finite s t = false <-> exists i, k_inf (vs s (corner s t i)) = true.
  Proof.
    split.
    - intros H. unfold is_finite in H. destruct (k_inf (vs s (corner s t S0))) eqn:K0; [exists S0; exact K0|].
      destruct (k_inf (vs s (corner s t S1))) eqn:K1; [exists S1; exact K1|].
      destruct (k_inf (vs s (corner s t S2))) eqn:K2; [exists S2; exact K2|].
      unfold corner in *. cbn in *. rewrite K0, K1, K2 in H. discriminate.
    - intros [i H]. apply not_true_is_false. intros K. apply (proj1 (is_finite_iff s t)) with (i := i) in K. congruence.
  Qed.

  Lemma orientation_iff s now : check_active_triangles_orientation s now = Ok tt <->
    forall t, active s t -> exists p q r, position_at s (corner s t S0) now = Ok p /\
      position_at s (corner s t S1) now = Ok q /\ position_at s (corner s t S2) now = Ok r /\
      ((forall i, k_inf (vs s (corner s t i)) = false) -> on_the_left (orient2d p q r)) /\
      ((exists i, k_inf (vs s (corner s t i)) = true) -> on_the_right (orient2d p q r)).
  Proof.
    unfold check_active_triangles_orientation. rewrite rforall_ok. split.
    - intros H t [T1 T2]. specialize (H t T1). rewrite T2 in H. cbn [is_none] in H.
      apply rbind_ok in H. destruct H as (p & P & H). apply rbind_ok in H. destruct H as (q & Q & H).
      apply rbind_ok in H. destruct H as (r & R & H). exists p, q, r. do 3 (split; [assumption|]). split.
      + intros F. apply is_finite_iff in F. rewrite F in H. apply rassert_iff, orb_true_iff in H. exact H.
      + intros F. apply is_finite_not in F. rewrite F in H. apply rassert_iff, orb_true_iff in H. exact H.
    - intros H t T1. destruct (is_none (t_stops (ts s t))) eqn:T2; [|reflexivity]. apply is_none_iff in T2.
      destruct (H t (conj T1 T2)) as (p & q & r & P & Q & R & H1 & H2).
      change (x0 (t_v (ts s t))) with (corner s t S0). change (x1 (t_v (ts s t))) with (corner s t S1).
      change (x2 (t_v (ts s t))) with (corner s t S2). rewrite P, Q, R. cbn [rbind].
      destruct (is_finite s t) eqn:F; apply rassert_iff, orb_true_iff; [apply H1, is_finite_iff, F|apply H2, is_finite_not, F].
  Qed.
End Meaning.

Theorem C77_bisectors_meaning :
  forall (A : Arith) (E : Env A) s now, check_bisectors s now = Ok tt <->
  forall t i, active s t -> link s t i = None ->
    exists p q, position_at s (corner s t (ccw i)) now = Ok p /\ position_at s (corner s t (cw i)) now = Ok q /\
      not_negative (orient2d p q (nadd (fst q) (fst (k_velocity (vs s (corner s t (cw i))))),
                                  nadd (snd q) (snd (k_velocity (vs s (corner s t (cw i))))))).
Proof. intros A E. apply bisectors_iff. Qed.
Print Assumptions C77_bisectors_meaning.

Theorem C77_orientation_meaning :
  forall (A : Arith) (E : Env A) s now, check_active_triangles_orientation s now = Ok tt <->
  forall t, active s t -> exists p q r, position_at s (corner s t S0) now = Ok p /\
    position_at s (corner s t S1) now = Ok q /\ position_at s (corner s t S2) now = Ok r /\
    ((forall i, k_inf (vs s (corner s t i)) = false) -> on_the_left (orient2d p q r)) /\
    ((exists i, k_inf (vs s (corner s t i)) = true) -> on_the_right (orient2d p q r)).
Proof. intros A E. apply orientation_iff. Qed.
Print Assumptions C77_orientation_meaning.

(** ** They succeed at the start *)
Local Open Scope R_scope.
Local Existing Instance RA.

(** orient2d has the sign of twice the area of the triangle *)
Definition true_orientation (E : Env RA) : Prop := forall p q r : R * R,
  (0 <= orient p q r -> 0 <= orient2d (A:=RA) p q r) /\ (orient p q r <= 0 -> orient2d (A:=RA) p q r <= 0).

(** the triangles go around counterclockwise; the sides of the triangles with one
    infinite corner bound the convex hull of the vertices *)
Definition turning_left (d : dtriang (A:=RA)) : Prop :=
  (forall t a b c, (t < dt_nt d)%nat -> d_v (dt_t d t) = mk3 (Some a) (Some b) (Some c) ->
     dv_finite (dt_v d a) = true -> dv_finite (dt_v d b) = true -> dv_finite (dt_v d c) = true ->
     0 <= orient (dv_pos (dt_v d a)) (dv_pos (dt_v d b)) (dv_pos (dt_v d c))) /\
  (forall t i x a b v, (t < dt_nt d)%nat ->
     get3 (d_v (dt_t d t)) i = Some x -> dv_finite (dt_v d x) = false ->
     get3 (d_v (dt_t d t)) (ccw i) = Some a -> dv_finite (dt_v d a) = true ->
     get3 (d_v (dt_t d t)) (cw i) = Some b -> dv_finite (dt_v d b) = true ->
     (v < dt_nv d)%nat -> orient (dv_pos (dt_v d a)) (dv_pos (dt_v d b)) (dv_pos (dt_v d v)) <= 0).

Lemma near_zero_0 (x : R) : 0 <= x -> nltb (Arith:=RA) (n0 (A:=RA)) x = true \/ near_zero (A:=RA) x = true.
Proof.
  intros H. destruct (Req_dec x 0) as [->|N].
  - right. apply near_zero_R. assert (0 < / 10 ^ 10) by (apply Rinv_0_lt_compat; lra). lra.
  - left. ra_simp. qlit. apply Rltb_true. lra.
Qed.

Section Start.
  Context {E : Env RA}.
  Variables (d : dtriang (A:=RA)) (s0 s1 : state) (io : bool).
  Hypothesis TE : true_orientation E.
  Hypothesis TG : triangulation d.
  Hypothesis HI : init_skeleton d = Ok s0.
  Hypothesis SA : vs s1 = vs s0 /\ (forall t, active s1 t -> active (start_of io s0) t) /\
    (forall t i, corner s1 t i = corner s0 t i) /\ (forall t i, link s1 t i = link s0 t i).

  Lemma start_same : vs s1 = vs s0 /\ (forall t, active s1 t -> active s0 t) /\ (forall t i, corner s1 t i = corner s0 t i) /\
    (forall t i, link s1 t i = link s0 t i) /\ (forall t, active s1 t -> active (start_of io s0) t) /\
    forall t i, corner (start_of io s0) t i = corner s0 t i.
  Proof.
    destruct SA as (VS & AC & CO & LI).
    split; [exact VS|]. split; [|split; [exact CO|split; [exact LI|split; [exact AC|intros; destruct io; reflexivity]]]].
    intros t Ht. apply AC in Ht. destruct Ht as [T1 T2]. destruct io; [|split; assumption].
    cbn in T1. apply filter_In in T1. split; [apply T1|exact T2].
  Qed.
  Lemma at_origin v : k_inf_fast (vs s0 v) = false -> position_at s1 v (n0 (A:=RA)) = Ok (k_origin (vs s0 v)).
  Proof.
    intros F. destruct start_same as (VS & _). unfold position_at. rewrite VS, F.
    destruct (k_inf (vs s0 v)); [reflexivity|]. destruct (k_origin (vs s0 v)) as [x y]. cbn [fst snd]. ra_simp. qlit.
    f_equal. f_equal; ring.
  Qed.

  Lemma orientation_start : turning_left d -> check_active_triangles_orientation s1 (n0 (A:=RA)) = Ok tt.
  Proof.
    intros [T1 T2]. apply orientation_iff. intros t Ht. destruct start_same as (VS & A1 & CO & LI & A2 & C2).
    destruct (init_corners d s0 HI TG) as (c & CC & NK & NP & IC). destruct (IC t (A1 t Ht)) as [Lt K].
    assert (AO : forall i, position_at s1 (corner s1 t i) (n0 (A:=RA)) = Ok (k_origin (vs s0 (corner s0 t i)))).
    { intros i. rewrite CO. apply at_origin. destruct (K i) as [(x & _ & _ & _ & F & _)|(x & _ & _ & -> & _)]; [exact F|reflexivity]. }
    exists (k_origin (vs s0 (corner s0 t S0))), (k_origin (vs s0 (corner s0 t S1))), (k_origin (vs s0 (corner s0 t S2))).
    do 3 (split; [apply AO|]). split.
    - intros F. assert (K' : forall i, exists x, get3 (d_v (dt_t d t)) i = Some x /\ dv_finite (dt_v d x) = true /\
        k_origin (vs s0 (corner s0 t i)) = dv_pos (dt_v d x)).
      { intros i. specialize (F i). rewrite CO, VS in F. destruct (K i) as [(x & X1 & X2 & _ & _ & X3)|(x & _ & _ & X & _)]; [exists x; auto|].
        rewrite X in F. discriminate. }
      destruct (K' S0) as (x & X1 & X2 & ->), (K' S1) as (y & Y1 & Y2 & ->), (K' S2) as (z & Z1 & Z2 & ->).
      left. apply Rleb_true. ra_simp. qlit. apply TE. apply (T1 t x y z Lt); try assumption.
      destruct (d_v (dt_t d t)) as [p q r]. cbn in X1, Y1, Z1. congruence.
    - intros [i I]. rewrite CO, VS in I.
      destruct (K i) as [(x & _ & _ & X & _)|(x & X1 & X2 & X3 & X4)]; [congruence|].
      destruct (init_linked d TG s0 HI) as (_ & DI & _). specialize (DI t (A1 t Ht)).
      assert (FI : forall j, j <> i -> exists y, get3 (d_v (dt_t d t)) j = Some y /\ dv_finite (dt_v d y) = true /\
        k_origin (vs s0 (corner s0 t j)) = dv_pos (dt_v d y)).
      { intros j NJ. destruct (K j) as [(y & Y1 & Y2 & _ & _ & Y3)|(y & _ & _ & _ & Y4)]; [exists y; auto|].
        exfalso. apply NJ. apply DI. congruence. }
      assert (G : orient (k_origin (vs s0 (corner s0 t (ccw i)))) (k_origin (vs s0 (corner s0 t (cw i)))) (k_origin (vs s0 (corner s0 t i))) <= 0).
      { destruct (FI (ccw i) ltac:(destruct i; discriminate)) as (y & Y1 & Y2 & ->).
        destruct (FI (cw i) ltac:(destruct i; discriminate)) as (z & Z1 & Z2 & ->). rewrite X3. cbn [inf_vertex k_origin].
        apply (centroid_side d c _ _ CC NK NP). intros v Hv. apply (T2 t i x y z v); assumption. }
      left. apply Rleb_true. ra_simp. qlit. apply TE. destruct i; cbn [ccw cw] in G; unfold orient in *; lra.
  Qed.

  Hypothesis RG : io = true -> regions d.
  Lemma bisectors_start : check_bisectors s1 (n0 (A:=RA)) = Ok tt.
  Proof.
    apply bisectors_iff. intros t i Ht L. destruct start_same as (VS & A1 & CO & LI & A2 & C2).
    destruct (C73_start RA E d s0 io TG RG HI) as (F & EN & NL).
    assert (L2 : link (start_of io s0) t i = None) by (rewrite LI in L; destruct io; exact L).
    destruct (EN t i (A2 t Ht) L2) as [I1 I2]. destruct (start_heap io s0) as (P1 & _). rewrite C2, P1 in I1, I2.
    destruct (fi_ring _ F t i (A2 t Ht) L2) as [K|(_ & _ & _ & J)]; [destruct (NL _ _ K)|]. rewrite !C2, P1 in J.
    rewrite !CO, VS. set (a := corner s0 t (ccw i)) in *. set (b := corner s0 t (cw i)) in *.
    exists (k_origin (vs s0 a)), (k_origin (vs s0 b)).
    destruct (init_vertex d s0 HI TG a I1) as (? & ? & ? & ? & ? & ? & ? & _ & _ & _ & _ & _ & _ & FA & _).
    destruct (init_vertex d s0 HI TG b I2) as (? & ? & ? & ? & ? & ? & ? & _ & _ & _ & _ & _ & _ & FB & _).
    split; [apply at_origin, FA|]. split; [apply at_origin, FB|]. apply near_zero_0, TE.
    exact (init_inward d s0 HI TG a b I1 I2 J).
  Qed.
End Start.

Lemma same_here {E : Env RA} (s0 : state (A:=RA)) io : let s1 := start_of io s0 in vs s1 = vs s0 /\ (forall t, active s1 t -> active (start_of io s0) t) /\
  (forall t i, corner s1 t i = corner s0 t i) /\ (forall t i, link s1 t i = link s0 t i).
Proof. cbn. destruct io; repeat split; auto; apply H. Qed.
Lemma same_started {E : Env RA} (d : dtriang (A:=RA)) s0 io s1 : (forall t u : nat, addr (A:=RA) t = addr (A:=RA) u -> t = u) ->
  init_skeleton d = Ok s0 -> started (start_of io s0) s1 ->
  vs s1 = vs s0 /\ (forall t, active s1 t -> active (start_of io s0) t) /\
  (forall t i, corner s1 t i = corner s0 t i) /\ (forall t i, link s1 t i = link s0 t i).
Proof.
  intros inj HI ST.
  assert (FR : fresh (start_of io s0)) by (apply start_fresh, (init_fresh d s0 HI), (nleb_refl RA_ord)).
  destruct (init_timed RA_ord inj _ _ FR ST) as (_ & FO & _ & TS & VS & _).
  destruct (start_heap io s0) as (P1 & _). split; [congruence|]. split; [|split].
  - intros t [T1 T2]. destruct (TS t) as (_ & _ & K). rewrite K in T2. destruct FO. rewrite fo_tris in T1. split; assumption.
  - intros t i. unfold corner. destruct (TS t) as (-> & _). destruct io; reflexivity.
  - intros t i. unfold link. destruct (TS t) as (_ & -> & _). destruct io; reflexivity.
Qed.

(** loop.py 275-278: in exact arithmetic check_bisectors succeeds on the initial
    skeleton, and on the state that init_event_list makes of it. *)
Theorem C77_bisectors :
  forall (E : Env RA), (forall t u : nat, addr (A:=RA) t = addr (A:=RA) u -> t = u) -> true_orientation E ->
  forall (d : dtriang (A:=RA)) s0 io,
  triangulation d -> (io = true -> regions d) -> init_skeleton d = Ok s0 ->
  check_bisectors (start_of io s0) 0 = Ok tt /\
  forall s1, started (start_of io s0) s1 -> check_bisectors s1 0 = Ok tt.
Proof.
  intros E inj TE d s0 io TG RG HI. assert (Z : 0 = n0 (A:=RA)) by (ra_simp; qlit; reflexivity). rewrite Z. split.
  - apply (bisectors_start d s0 _ io TE TG HI); [apply same_here|exact RG].
  - intros s1 ST. apply (bisectors_start d s0 s1 io TE TG HI); [apply (same_started d s0 io s1 inj HI ST)|exact RG].
Qed.
Print Assumptions C77_bisectors.

(** So does check_active_triangles_orientation, if the triangulation is one of
    triangles that go around counterclockwise, up to the convex hull. *)
Theorem C77_orientation :
  forall (E : Env RA), (forall t u : nat, addr (A:=RA) t = addr (A:=RA) u -> t = u) -> true_orientation E ->
  forall (d : dtriang (A:=RA)) s0 io,
  triangulation d -> init_skeleton d = Ok s0 -> turning_left d ->
  check_active_triangles_orientation (start_of io s0) 0 = Ok tt /\
  forall s1, started (start_of io s0) s1 -> check_active_triangles_orientation s1 0 = Ok tt.
Proof.
  intros E inj TE d s0 io TG HI TL. assert (Z : 0 = n0 (A:=RA)) by (ra_simp; qlit; reflexivity). rewrite Z. split.
  - apply (orientation_start d s0 _ io TE TG HI); [apply same_here|exact TL].
  - intros s1 ST. apply (orientation_start d s0 s1 io TE TG HI); [apply (same_started d s0 io s1 inj HI ST)|exact TL].
Qed.
Print Assumptions C77_orientation.

(** *** Cases: the right triangle (0,0) (4,0) (0,3) over the reals *)
Definition rtri : list (R * R) := [(0, 0); (4, 0); (0, 3)].
Lemma rtri_good d : tri_of (A:=RA) rtri = Ok d -> triangulation d /\ regions d /\ turning_left d.
Proof.
  intros D. injection D as <-. split; [apply triangulationb_ok; vm_compute; reflexivity|].
  split; [apply regionsb_ok; vm_compute; reflexivity|]. split.
  - intros [|[|[|[|[|[|[|t]]]]]]] a b c L H FA FB FC; cbn in L; try lia; cbn in H; injection H as <- <- <-; try discriminate.
    unfold orient. cbn. lra.
  - intros t i x a b v L X FX Y FY Z' FZ V. cbn in V.
    assert (VV : (v = 0 \/ v = 1 \/ v = 2)%nat) by lia. clear V.
    destruct t as [|[|[|[|[|[|[|t]]]]]]]; cbn in L; try lia; destruct i; cbn in X, Y, Z';
      injection X as <-; injection Y as <-; injection Z' as <-; try discriminate;
      destruct VV as [->|[->| ->]]; unfold orient; cbn; lra.
Qed.
Example C77_case :
  exists (d : dtriang (A:=RA)) s0, triangulation d /\ regions d /\ init_skeleton d = Ok s0 /\ turning_left d /\
  forall E : Env RA, (forall t u : nat, addr (A:=RA) t = addr (A:=RA) u -> t = u) -> true_orientation E ->
  check_bisectors s0 0 = Ok tt /\ check_active_triangles_orientation s0 0 = Ok tt.
Proof.
  destruct (triangle_init_R (0, 0) (4, 0) (0, 3)) as (d & s & D & S); try (intros Q; injection Q; lra).
  destruct (rtri_good d D) as (TG & RG & TL). exists d, s. split; [exact TG|]. split; [exact RG|]. split; [exact S|].
  split; [exact TL|]. intros E inj TE. split.
  - exact (proj1 (C77_bisectors E inj TE d s false TG ltac:(discriminate) S)).
  - exact (proj1 (C77_orientation E inj TE d s false TG S TL)).
Qed.

(** both checks run, and fail: the one when the sides have turned around (time
    7), the other when the vertex 2 is put on the other side, at (-4,0) *)
Definition put (s : state (A:=QA)) (v : nat) (p : Q * Q) : state (A:=QA) :=
  let kv := vs s v in
  with_vs s (upd (vs s) v (mkKV (A:=QA) (k_inf kv) p (k_velocity kv) (k_left kv) (k_right kv) (k_starts kv) (k_stops kv)
    (k_start_node kv) (k_stop_node kv) (k_ul kv) (k_ur kv) (k_wfl kv) (k_wfr kv) (k_info kv) (k_inf_fast kv) (k_internal kv))).
Example C77_meaning_case :
  match init_skeleton rtri_dt with
  | Ok s => is_ok (check_bisectors s 0%Q) && is_ok (check_active_triangles_orientation s 0%Q) &&
      negb (is_ok (check_bisectors s 7%Q)) && negb (is_ok (check_active_triangles_orientation (put s 2 ((-4)%Q, 0%Q)) 0%Q))
  | Err _ => false
  end = true.
Proof. vm_compute. reflexivity. Qed.
