(** Property theorems: initialize.py (C49, C50, C52, C62, C63) *)
From Coq Require Import Permutation QArith.
From Verif Require Import Base Arith ArithQ Calc VectorOps Line2d Primitives Collapse CollapseProofs EventsLib
  FlipEvent ParallelEvent EdgeEvent SplitEvent EventLoop Pass OpSpec Order StopSpec RunBase RunTimed RunLoop
  Total Initialize StarProofs InitProofs InitState InitCirc.
Local Open Scope nat_scope.

(** ** A triangulation: the right triangle (0,0) (4,0) (0,3) in a large triangle of
    infinite vertices; all three sides are constrained *)
Definition dv x y : dvert (A:=QA) := mkDV ((x, y) : @num QA * @num QA) None true.
Definition di x y : dvert (A:=QA) := mkDV ((x, y) : @num QA * @num QA) None false.
Definition o3 (a b c : nat) : triple (option nat) := mk3 (Some a) (Some b) (Some c).
Definition rtri_tris (t : nat) : dtri :=
  nth t
   [mkDT (o3 0 1 2) (o3 2 3 1) (mk3 true true true);
    mkDT (o3 3 1 0) (o3 0 4 5) (mk3 true false false);
    mkDT (o3 4 2 1) (o3 0 5 6) (mk3 true false false);
    mkDT (o3 5 0 2) (o3 0 6 4) (mk3 true false false);
    mkDT (o3 0 5 3) (mk3 None (Some 1) (Some 3)) (mk3 false false false);
    mkDT (o3 1 3 4) (mk3 None (Some 2) (Some 1)) (mk3 false false false);
    mkDT (o3 2 4 5) (mk3 None (Some 3) (Some 2)) (mk3 false false false)]
   (mkDT (mk3 None None None) (mk3 None None None) (mk3 false false false)).
Definition rtri_star (v : nat) : list (nat * side) :=
  nth v [[(0, S0); (3, S1); (4, S0); (1, S2)]; [(0, S1); (1, S1); (5, S0); (2, S2)];
         [(0, S2); (2, S1); (6, S0); (3, S2)]] [].
Definition rtri_dt : dtriang (A:=QA) :=
  mkDtri (fun i => nth i [dv 0 0; dv 4 0; dv 0 3; di 0 (-100); di 100 100; di (-100) 100]%Q (dv 0%Q 0%Q)) 3
   rtri_tris 7 rtri_star (fun t => Nat.eqb t 0).

(** [ring], decided *)
Definition ringb {A : Arith} (d : dtriang (A:=A)) (l : list (nat * side)) : bool :=
  match l with
  | [] => true
  | e :: r => (fix go p r := match r with [] => Bool.eqb (ahead d p) (behind d e)
                             | f :: r => Bool.eqb (ahead d p) (behind d f) && go f r end) e r
  end.
Lemma ringb_ok {A : Arith} (d : dtriang (A:=A)) l : ringb d l = true -> ring d l.
Proof.
  destruct l as [|e r]; cbn [ringb]; intros H.
  - split; [intros [|? ?]; discriminate|discriminate].
  - assert (G : forall r p, (fix go p r := match r with [] => Bool.eqb (ahead d p) (behind d e)
        | f :: r => Bool.eqb (ahead d p) (behind d f) && go f r end) p r = true ->
      (forall l1 a b l2, p :: r = l1 ++ a :: b :: l2 -> ahead d a = behind d b) /\ ahead d (last r p) = behind d e).
    { clear r H. induction r as [|f r IH]; intros p H.
      - apply Bool.eqb_prop in H. split; [|exact H]. intros [|? [|? ?]]; discriminate.
      - apply andb_true_iff in H. destruct H as [H1 H2]. apply Bool.eqb_prop in H1. destruct (IH f H2) as [I1 I2].
        split.
        + intros [|q l1] a b l2 K; cbn [app] in K; [injection K as <- <- _; exact H1|injection K as _ K; apply (I1 l1 a b l2 K)].
        + rewrite last_in. exact I2. }
    destruct (G r e H) as [G1 G2]. split; [exact G1|]. intros e' l K. injection K as -> ->. exact G2.
Qed.

(** ** C49 *)
Theorem C49_split_star :
  forall (A : Arith) (d : dtriang) v,
  ring d (dt_star d v) -> 2 <= constrained_edges d (dt_star d v) ->
  exists groups, split_star d v = Ok groups /\
    rotation (dt_star d v) (concat groups) /\
    length groups = constrained_edges d (dt_star d v) /\
    forall g, In g groups -> good_group d g.
Proof.
  intros A d v R N. destruct (split_star_spec d v R) as (gs & H1 & H2 & H3 & H4); [lia|].
  exists gs. rewrite Forall_forall in H4. auto.
Qed.
Print Assumptions C49_split_star.

(** with fewer constrained edges there is one group, the whole star *)
Theorem C49_one_group :
  forall (A : Arith) (d : dtriang) v,
  ring d (dt_star d v) -> dt_star d v <> [] -> constrained_edges d (dt_star d v) < 2 ->
  exists g, split_star d v = Ok [g] /\ rotation (dt_star d v) g.
Proof.
  intros A d v R NE N. destruct (constrained_edges d (dt_star d v)) as [|n] eqn:C.
  - exists (dt_star d v). split; [apply split_star_none; assumption|]. exists [], (dt_star d v).
    rewrite app_nil_r. auto.
  - destruct (split_star_spec d v R) as (gs & H1 & H2 & H3 & H4); [lia|]. rewrite C in H3.
    destruct gs as [|g [|]]; cbn [length] in H3; try lia. exists g. split; [exact H1|].
    cbn [concat] in H2. rewrite app_nil_r in H2. exact H2.
Qed.
Print Assumptions C49_one_group.

(** the star of vertex 1 starts at a constrained edge, that of vertex 0 when it is
    rotated by two does not: there the last and the first group are merged *)
Definition rot_dt : dtriang (A:=QA) :=
  mkDtri (dt_v rtri_dt) 3 rtri_tris 7
    (fun v => if Nat.eqb v 0 then [(4, S0); (1, S2); (0, S0); (3, S1)] else rtri_star v) (dt_internal rtri_dt).
Example C49_cases :
  (ring rtri_dt (dt_star rtri_dt 1) /\ constrained_edges rtri_dt (dt_star rtri_dt 1) = 2 /\
   split_star rtri_dt 1 = Ok [[(0, S1)]; [(1, S1); (5, S0); (2, S2)]]) /\
  (ring rot_dt (dt_star rot_dt 0) /\ constrained_edges rot_dt (dt_star rot_dt 0) = 2 /\
   split_star rot_dt 0 = Ok [[(3, S1); (4, S0); (1, S2)]; [(0, S0)]]).
Proof.
  split; (split; [apply ringb_ok; vm_compute; reflexivity|]); split; vm_compute; reflexivity.
Qed.
(** one constrained edge only *)
Definition one_dt : dtriang (A:=QA) :=
  mkDtri (dt_v rtri_dt) 3
    (fun t => match t with
              | 0 => mkDT (o3 0 1 2) (o3 2 3 1) (mk3 true false true)
              | 3 => mkDT (o3 5 0 2) (o3 0 6 4) (mk3 false false false)
              | _ => rtri_tris t
              end) 7 rtri_star (dt_internal rtri_dt).
Example C49_one_group_case :
  ring one_dt (dt_star one_dt 0) /\ dt_star one_dt 0 <> [] /\ constrained_edges one_dt (dt_star one_dt 0) = 1 /\
  split_star one_dt 0 = Ok [[(0, S0); (3, S1); (4, S0); (1, S2)]].
Proof.
  split; [apply ringb_ok; vm_compute; reflexivity|]. split; [discriminate|]. split; vm_compute; reflexivity.
Qed.

(** ** C50 *)
(** the vertices with fewer than two constrained edges are rejected; before that
    only a division in the centroid, a triangle or an earlier vertex can fail *)
Theorem C50_rejected :
  forall (A : Arith) (E : Env A) (d : dtriang) v, v < dt_nv d ->
  ring d (dt_star d v) -> dt_star d v <> [] -> constrained_edges d (dt_star d v) < 2 ->
  (forall s, init_skeleton d <> Ok s) /\
  forall cpos ti b,
    (* what comes before the vertex succeeds *)
    centroid d = Ok cpos -> (forall t, t < dt_nt d -> init_triangle d t = Ok (ti t)) ->
    (forall t, dt_nt d <= t -> ti t = no_tinit) ->
    fold_left (fun acc w => rbind acc (fun b => init_vertex d ti b w)) (seq 0 v)
      (Ok (mkBuild [] (fun _ => mk3 None None None) [])) = Ok b ->
    dv_finite (dt_v d v) = true ->
    init_skeleton d = Err NotImplementedError.
Proof.
  intros A E d v L R NE N. destruct (C49_one_group A d v R NE N) as (g & G & _). split.
  - intros s H. destruct (init_sk_vertices d s H v L) as (_ & gs & n & K1 & K2 & _).
    rewrite G in K1. injection K1 as <-. apply K2. reflexivity.
  - intros cpos ti b H1 H2 H3 H4 H5. unfold init_skeleton. rewrite H1. cbn [rbind].
    assert (T : rmapl (init_triangle d) (seq 0 (dt_nt d)) = Ok (map ti (seq 0 (dt_nt d)))).
    { apply rmapl_all. assert (B : forall t, In t (seq 0 (dt_nt d)) -> t < dt_nt d) by (intros t Ht; apply in_seq in Ht; lia).
      revert B. generalize (seq 0 (dt_nt d)). induction l as [|t l IH]; intros B; constructor.
      - apply H2, B. left. reflexivity.
      - apply IH. intros u Hu. apply B. right. exact Hu. }
    rewrite T. cbn [rbind]. cbv zeta.
    assert (V : forall tj, (forall t, tj t = ti t) -> init_vertices d tj = Err NotImplementedError).
    { intros tj TJ. unfold init_vertices.
      assert (FX : forall l acc, fold_left (fun acc w => rbind acc (fun b => init_vertex d tj b w)) l acc =
        fold_left (fun acc w => rbind acc (fun b => init_vertex d ti b w)) l acc).
      { assert (IG : forall v b g, init_group d tj v b g = init_group d ti v b g).
        { intros w c h. unfold init_group. destruct h as [|e h]; [reflexivity|]. rewrite !TJ. reflexivity. }
        assert (IV : forall b w, init_vertex d tj b w = init_vertex d ti b w).
        { intros c w. unfold init_vertex. destruct (rassert _); [|reflexivity]. cbn [rbind].
          destruct (split_star d w) as [gs|]; [|reflexivity]. cbn [rbind]. destruct (Nat.eqb (length gs) 1); [reflexivity|].
          change (rfold (init_group d tj w) gs (Ok c) = rfold (init_group d ti w) gs (Ok c)).
          clear - IG. revert c. induction gs as [|h gs IH]; intros c; [reflexivity|].
          change (rfold (init_group d tj w) gs (init_group d tj w c h) = rfold (init_group d ti w) gs (init_group d ti w c h)).
          rewrite IG. destruct (init_group d ti w c h) as [c'|e]; [apply IH|rewrite !rfold_err; reflexivity]. }
        intros l. induction l as [|w l IH]; intros acc; [reflexivity|]. cbn [fold_left]. rewrite IH. f_equal.
        destruct acc as [c|]; [|reflexivity]. cbn [rbind]. apply IV. }
      rewrite FX.
      assert (SP : seq 0 (dt_nv d) = seq 0 v ++ v :: seq (S v) (dt_nv d - S v)).
      { replace (dt_nv d) with (v + S (dt_nv d - S v)) at 1 by lia. rewrite seq_app. cbn [seq Nat.add]. reflexivity. }
      rewrite SP, fold_left_app, H4. cbn [fold_left rbind].
      assert (IV : init_vertex d ti b v = Err NotImplementedError).
      { unfold init_vertex. rewrite H5. cbn [rassert rbind]. rewrite G. reflexivity. }
      rewrite IV. apply (rfold_err (init_vertex d ti)). }
    rewrite V; [reflexivity|]. intros t. destruct (Nat.lt_ge_cases t (dt_nt d)) as [Lt|Ge].
    + rewrite (nth_indep _ no_tinit (ti 0)) by (rewrite map_length, seq_length; exact Lt).
      rewrite (map_nth ti). rewrite seq_nth by exact Lt. reflexivity.
    + rewrite nth_overflow by (rewrite map_length, seq_length; exact Ge). symmetry. apply H3, Ge.
Qed.
Print Assumptions C50_rejected.

Example C50_rejected_case :
  0 < dt_nv one_dt /\ ring one_dt (dt_star one_dt 0) /\ dt_star one_dt 0 <> [] /\
  constrained_edges one_dt (dt_star one_dt 0) < 2 /\
  match init_skeleton one_dt with Err NotImplementedError => true | _ => false end = true.
Proof.
  split; [vm_compute; lia|]. split; [apply ringb_ok; vm_compute; reflexivity|]. split; [discriminate|].
  split; [vm_compute; lia|]. vm_compute. reflexivity.
Qed.

(** counting positions of a list and its elements *)
Lemma filter_positions {X} (l : list X) (f : nat -> bool) (g : X -> bool) :
  (forall i x, nth_error l i = Some x -> f i = g x) ->
  length (filter f (seq 0 (length l))) = length (filter g l).
Proof.
  assert (G : forall l a, (forall i x, nth_error l i = Some x -> f (a + i) = g x) ->
    length (filter f (seq a (length l))) = length (filter g l)).
  { clear. induction l as [|x l IH]; intros a H; [reflexivity|]. cbn [length seq filter].
    pose proof (H 0 x eq_refl) as H0. rewrite Nat.add_0_r in H0. rewrite H0.
    assert (K : length (filter f (seq (S a) (length l))) = length (filter g l)).
    { apply IH. intros i y Hi. replace (S a + i) with (a + S i) by lia. apply H. exact Hi. }
    destruct (g x); cbn [length]; rewrite K; reflexivity. }
  intros H. apply (G l 0). exact H.
Qed.
Lemma groups_count {A : Arith} (d : dtriang (A:=A)) v : v < dt_nv d ->
  length (filter (fun vg => Nat.eqb (fst vg) v) (all_groups d)) = length (groups_of d v).
Proof.
  intros L. unfold all_groups.
  assert (F : forall w, filter (fun vg => Nat.eqb (fst vg) v) (map (pair w) (groups_of d w)) =
    if Nat.eqb w v then map (pair w) (groups_of d w) else []).
  { intros w. generalize (groups_of d w). induction l as [|g l IH]; cbn; [destruct (Nat.eqb w v); reflexivity|].
    rewrite IH. destruct (Nat.eqb w v); reflexivity. }
  assert (G : forall l, NoDup l -> length (filter (fun vg => Nat.eqb (fst vg) v) (flat_map (fun v => map (pair v) (groups_of d v)) l)) =
    if in_dec Nat.eq_dec v l then length (groups_of d v) else 0).
  { induction l as [|w l IH]; intros N; [reflexivity|]. apply NoDup_cons_iff in N. destruct N as [N1 N2].
    cbn [flat_map]. rewrite filter_app, app_length, F, (IH N2).
    destruct (Nat.eqb w v) eqn:E.
    - apply Nat.eqb_eq in E. subst w. rewrite map_length. destruct (in_dec Nat.eq_dec v l); [contradiction|].
      destruct (in_dec Nat.eq_dec v (v :: l)) as [|X]; [lia|]. destruct X. left. reflexivity.
    - apply Nat.eqb_neq in E. cbn [length Nat.add].
      destruct (in_dec Nat.eq_dec v l), (in_dec Nat.eq_dec v (w :: l)) as [X|X]; try reflexivity.
      + destruct X. right. assumption.
      + destruct X; [congruence|contradiction]. }
  rewrite G by apply seq_NoDup. destruct (in_dec _ _ _) as [|X]; [reflexivity|]. destruct X. apply in_seq. lia.
Qed.
Lemma index_of_inj (v w : nat) l n : index_of Nat.eqb v l = Some n -> index_of Nat.eqb w l = Some n -> v = w.
Proof.
  revert n. induction l as [|x l IH]; intros n; cbn; [discriminate|].
  destruct (Nat.eqb v x) eqn:E1, (Nat.eqb w x) eqn:E2.
  - apply Nat.eqb_eq in E1, E2. congruence.
  - destruct (index_of Nat.eqb w l); cbn; intros H1 H2; congruence.
  - destruct (index_of Nat.eqb v l); cbn; intros H1 H2; congruence.
  - destruct (index_of Nat.eqb v l), (index_of Nat.eqb w l); cbn; try discriminate. intros H1 H2. eapply IH; [reflexivity|congruence].
Qed.

Theorem C50_vertices :
  forall (A : Arith) (E : Env A) (d : dtriang) s, init_skeleton d = Ok s ->
  forall v, v < dt_nv d -> ring d (dt_star d v) -> dt_star d v <> [] ->
  2 <= constrained_edges d (dt_star d v) /\
  exists n, In n (sk_nodes s) /\ sn_pos (ns s n) = dv_pos (dt_v d v) /\
    length (filter (fun k => onat_eqb (k_start_node (vs s k)) (Some n)) (sk_vertices s)) =
      constrained_edges d (dt_star d v) /\
    forall k, In k (sk_vertices s) -> k_start_node (vs s k) = Some n ->
      k_inf (vs s k) = false /\ k_origin (vs s k) = dv_pos (dt_v d v) /\ k_starts (vs s k) = Some n0.
Proof.
  intros A E d s HI v L R NE. destruct (init_sk_vertices d s HI v L) as (_ & gs & n & G1 & G2 & G3 & G4).
  assert (C : 2 <= constrained_edges d (dt_star d v)).
  { destruct (Nat.lt_ge_cases (constrained_edges d (dt_star d v)) 2) as [K|K]; [|exact K].
    destruct (C49_one_group A d v R NE K) as (g & G & _). rewrite G in G1. injection G1 as <-. destruct G2. reflexivity. }
  split; [exact C|]. exists n.
  destruct (init_vertices_cases d s HI) as (cpos & ti & b & _ & _ & _ & C1 & C2 & C3 & C4).
  assert (ND : forall w m, node_of d w = Ok m -> m = n -> w = v).
  { intros w m. unfold node_of in *. destruct (index_of Nat.eqb w _) eqn:I1; [|discriminate].
    destruct (index_of Nat.eqb v _) eqn:I2; [|discriminate]. intros H1 H2. injection H1 as ->. injection G3 as ->. subst m.
    eapply index_of_inj; eauto. }
  split; [|split; [exact G4|split]].
  - destruct (init_skeleton_parts d s HI) as (cp & tj & bb & kvs & ls & un & P).
    destruct (pa_s _ _ _ _ _ _ _ _ P) as (_ & s1 & _ & _ & ES). rewrite ES. cbn. apply in_seq.
    apply node_of_lt in G3. lia.
  - destruct (C49_split_star A d v R C) as (gs' & H1 & _ & H3 & _). rewrite <- H3.
    assert (gs' = groups_of d v) as -> by (unfold groups_of; rewrite H1; reflexivity).
    rewrite <- groups_count by exact L. rewrite C2. apply filter_positions.
    intros i [w g] Hi. destruct (C4 i w g Hi) as (k & (lw & rw & bi & node & info & _ & _ & _ & _ & _ & _ & K & EK) & _ & ->).
    rewrite EK. cbn. destruct (Nat.eqb node n) eqn:Q.
    + apply Nat.eqb_eq in Q. symmetry. apply Nat.eqb_eq. eapply ND; eauto.
    + symmetry. apply Nat.eqb_neq. apply Nat.eqb_neq in Q. intros ->. cbn in K. rewrite K in G3. congruence.
  - intros k Hk HS. rewrite C2 in Hk. apply in_seq in Hk.
    destruct (nth_error (all_groups d) k) as [[w g]|] eqn:N; [|apply nth_error_None in N; lia].
    destruct (C4 k w g N) as (k' & (lw & rw & bi & node & info & _ & _ & _ & _ & _ & _ & K & EK) & _ & EV).
    rewrite EV, EK in *. cbn in *. injection HS as ->. rewrite (ND w n K eq_refl). auto.
Qed.
Print Assumptions C50_vertices.

Example C50_vertices_case :
  forallb (fun v => ringb rtri_dt (dt_star rtri_dt v)) [0; 1; 2] = true /\
  match init_skeleton rtri_dt with
  | Ok s => Nat.eqb (length (sk_vertices s)) 6 && Nat.eqb (length (sk_nodes s)) 3 &&
            Nat.eqb (length (filter (fun k => onat_eqb (k_start_node (vs s k)) (Some 0)) (sk_vertices s))) 2
  | Err _ => false
  end = true.
Proof. split; vm_compute; reflexivity. Qed.

(** ** C52 *)
Section C52.
  Context {A : Arith}.
  (** alive at [now] *)
  Definition alive (s : state) (now : num) (v : nat) : Prop :=
    exists a, k_starts (vs s v) = Some a /\ nleb a now = true /\
      forall b, k_stops (vs s v) = Some b -> nltb now b = true.
  Definition properly_linked (s : state) (now : num) (t : nat) : Prop :=
    t_stops (ts s t) = None ->
    (forall i n, get3 (t_n (ts s t)) i = Some n -> exists j, get3 (t_n (ts s n)) j = Some t) /\
    ((forall i, k_inf (vs s (get3 (t_v (ts s t)) i)) = false) ->
     forall i, alive s now (get3 (t_v (ts s t)) i)).
End C52.

Lemma forallb3 {X} (f : X -> bool) (t : triple X) : forallb f (list3 t) = true <-> forall i, f (get3 t i) = true.
Proof.
  destruct t as [a b c]. cbn. rewrite !andb_true_iff. split.
  - intros (H1 & H2 & H3 & _) []; assumption.
  - intros H. pose proof (H S0). pose proof (H S1). pose proof (H S2). auto.
Qed.

Lemma alive_at_ok {A : Arith} (s : state) now v b : alive_at s now v = Ok b -> (b = true <-> alive s now v).
Proof.
  unfold alive_at, alive. destruct (k_starts (vs s v)) as [a|]; [|discriminate]. intros H. injection H as <-.
  rewrite orb_true_iff, !andb_true_iff. split.
  - intros [[H1 H2]|[H1 H2]]; exists a; (split; [reflexivity|]); (split; [exact H1|]); intros b Hb; rewrite Hb in H2; [exact H2|discriminate].
  - intros (a' & K & H1 & H2). injection K as <-. destruct (k_stops (vs s v)) as [b|]; [left|right]; auto.
Qed.

Lemma check_ktriangle_ok {A : Arith} (s : state) now t b :
  check_ktriangle s now t = Ok b -> (b = true <-> properly_linked s now t).
Proof.
  unfold check_ktriangle, properly_linked. destruct (t_stops (ts s t)) as [x|] eqn:ST; cbn [is_some].
  - intros H. injection H as <-. split; [discriminate|reflexivity].
  - intros H. apply rbind_ok in H. destruct H as (al & HA & H). injection H as <-. apply rmapl_all in HA.
    rewrite andb_true_iff.
    assert (LK : forallb (fun o => match o with None => true | Some n => mem onat_eqb (Some t) (list3 (t_n (ts s n))) end)
        (list3 (t_n (ts s t))) = true <->
      forall i n, get3 (t_n (ts s t)) i = Some n -> exists j, get3 (t_n (ts s n)) j = Some t).
    { rewrite forallb3. split.
      - intros H i n Hi. specialize (H i). rewrite Hi in H. unfold mem in H. apply existsb_exists in H.
        destruct H as (o & H1 & H2). apply onat_eqb_eq in H2. subst o.
        destruct (t_n (ts s n)) as [a b c]. cbn in H1. destruct H1 as [->|[->|[->|[]]]]; [exists S0|exists S1|exists S2]; reflexivity.
      - intros H i. destruct (get3 (t_n (ts s t)) i) as [n|] eqn:G; [|reflexivity]. destruct (H i n G) as (j & Hj).
        unfold mem. apply existsb_exists. exists (Some t). split; [|apply onat_eqb_eq; reflexivity].
        destruct (t_n (ts s n)) as [a b c]. destruct j; cbn in *; auto. }
    rewrite LK. unfold is_finite in HA.
    assert (AL : forallb (fun b => b) al = true <->
      ((forall i, k_inf (vs s (get3 (t_v (ts s t)) i)) = false) -> forall i, alive s now (get3 (t_v (ts s t)) i))).
    { destruct (forallb (fun v => negb (k_inf (vs s v))) (list3 (t_v (ts s t)))) eqn:F.
      - rewrite forallb3 in F.
        assert (F' : forall i, k_inf (vs s (get3 (t_v (ts s t)) i)) = false) by (intros i; apply negb_true_iff, F).
        destruct (t_v (ts s t)) as [a b c]. cbn [list3 x0 x1 x2] in HA.
        inversion HA as [|? p ? l1 P1 HA1]; subst. inversion HA1 as [|? q ? l2 P2 HA2]; subst.
        inversion HA2 as [|? r ? l3 P3 HA3]; subst. inversion HA3; subst.
        apply alive_at_ok in P1, P2, P3. cbn [forallb]. rewrite !andb_true_iff, P1, P2, P3. split.
        + intros (H1 & H2 & H3 & _) _ []; assumption.
        + intros H. pose proof (H F' S0). pose proof (H F' S1). pose proof (H F' S2). auto.
      - split; [|intros _].
        + intros _ H. rewrite (proj2 (forallb3 _ _)) in F; [discriminate|]. intros i. apply negb_true_iff, H.
        + destruct (t_v (ts s t)) as [a b c]. cbn [list3 x0 x1 x2] in HA.
          inversion HA as [|? p ? l1 P1 HA1]; subst. inversion HA1 as [|? q ? l2 P2 HA2]; subst.
          inversion HA2 as [|? r ? l3 P3 HA3]; subst. inversion HA3; subst.
          injection P1 as <-. injection P2 as <-. injection P3 as <-. reflexivity. }
    rewrite AL. split; [intros [H1 H2] _; auto|intros H; split; apply H; reflexivity].
Qed.

Theorem C52_check_ktriangles :
  forall (A : Arith) (s : state) L now b, check_ktriangles s L now = Ok b ->
  (b = true <-> forall t, In t L -> properly_linked s now t).
Proof.
  intros A s L now b H. unfold check_ktriangles in H. apply rbind_ok in H. destruct H as (l & H & K). injection K as <-.
  apply rmapl_all in H. rewrite forallb_forall. induction H as [|t b L l P Q IH]; [split; [intros _ t []|intros _ t []]|].
  apply check_ktriangle_ok in P. split.
  - intros H u [<-|Hu]; [apply P, H; left; reflexivity|]. apply IH; [|exact Hu]. intros x Hx. apply H. right. exact Hx.
  - intros H x [<-|Hx]; [apply P, H; left; reflexivity|]. apply IH; [|exact Hx]. intros u Hu. apply H. right. exact Hu.
Qed.
Print Assumptions C52_check_ktriangles.

(** the only exception is the comparison of the None of a vertex that has no
    starting time, in an unstopped finite triangle *)
Definition undated {A : Arith} (s : state) (t : nat) : Prop :=
  t_stops (ts s t) = None /\ (forall i, k_inf (vs s (get3 (t_v (ts s t)) i)) = false) /\
  exists i, k_starts (vs s (get3 (t_v (ts s t)) i)) = None.
Lemma check_ktriangle_err {A : Arith} (s : state) now t :
  (undated s t -> check_ktriangle s now t = Err TypeError) /\ (~ undated s t -> exists b, check_ktriangle s now t = Ok b).
Proof.
  unfold check_ktriangle, undated, is_finite. destruct (t_stops (ts s t)) as [x|]; cbn [is_some].
  { split; [intros [K _]; discriminate|]. intros _. eexists. reflexivity. }
  pose proof (forallb3 (fun v => negb (k_inf (vs s v))) (t_v (ts s t))) as F.
  destruct (forallb (fun v => negb (k_inf (vs s v))) (list3 (t_v (ts s t)))).
  - assert (F' : forall i, k_inf (vs s (get3 (t_v (ts s t)) i)) = false) by (intros i; apply negb_true_iff; revert i; apply F; reflexivity).
    clear F. destruct (t_v (ts s t)) as [a b c]. unfold alive_at. cbn [rmapl list3 x0 x1 x2].
    split.
    + intros (_ & _ & i & Hi). destruct (k_starts (vs s a)) eqn:Ea; cbn [rbind]; [|reflexivity].
      destruct (k_starts (vs s b)) eqn:Eb; cbn [rbind]; [|reflexivity].
      destruct (k_starts (vs s c)) eqn:Ec; cbn [rbind]; [|reflexivity]. destruct i; cbn in Hi; congruence.
    + intros N. destruct (k_starts (vs s a)) eqn:Ea; [|destruct N; split; [reflexivity|split; [exact F'|exists S0; exact Ea]]].
      destruct (k_starts (vs s b)) eqn:Eb; [|destruct N; split; [reflexivity|split; [exact F'|exists S1; exact Eb]]].
      destruct (k_starts (vs s c)) eqn:Ec; [|destruct N; split; [reflexivity|split; [exact F'|exists S2; exact Ec]]].
      cbn [rbind]. eexists. reflexivity.
  - split.
    + intros (_ & K & _). destruct F as [_ F]. discriminate F. intros i. apply negb_true_iff, K.
    + intros _. cbn [rmapl list3 rbind]. eexists. reflexivity.
Qed.
Lemma undated_dec {A : Arith} (s : state) t : undated s t \/ ~ undated s t.
Proof.
  pose proof (check_ktriangle_err s n0 t) as [_ H]. destruct (check_ktriangle s n0 t) as [b|e] eqn:K.
  - right. intros U. apply (proj1 (check_ktriangle_err s n0 t)) in U. congruence.
  - left. unfold check_ktriangle in K. destruct (is_some (t_stops (ts s t))) eqn:ST; [discriminate|].
    unfold undated. destruct (t_stops (ts s t)); [discriminate|]. split; [reflexivity|]. unfold is_finite in K.
    pose proof (forallb3 (fun v => negb (k_inf (vs s v))) (t_v (ts s t))) as F.
    destruct (forallb (fun v => negb (k_inf (vs s v))) (list3 (t_v (ts s t)))); [|discriminate K].
    split; [intros i; apply negb_true_iff; revert i; apply F; reflexivity|].
    clear F. destruct (t_v (ts s t)) as [a b c]. unfold alive_at in K. cbn [rmapl list3 x0 x1 x2] in K.
    destruct (k_starts (vs s a)) eqn:Ea; [|exists S0; exact Ea].
    destruct (k_starts (vs s b)) eqn:Eb; [|exists S1; exact Eb].
    destruct (k_starts (vs s c)) eqn:Ec; [|exists S2; exact Ec]. discriminate K.
Qed.
Theorem C52_raises :
  forall (A : Arith) (s : state) L now,
  ((exists t, In t L /\ undated s t) -> check_ktriangles s L now = Err TypeError) /\
  ((forall t, In t L -> ~ undated s t) -> exists b, check_ktriangles s L now = Ok b).
Proof.
  intros A s L now. unfold check_ktriangles.
  assert (G : ((exists t, In t L /\ undated s t) -> rmapl (check_ktriangle s now) L = Err TypeError) /\
    ((forall t, In t L -> ~ undated s t) -> exists l, rmapl (check_ktriangle s now) L = Ok l)).
  { induction L as [|t L [IH1 IH2]]; [split; [intros (t & [] & _)|intros _; eexists; reflexivity]|].
    destruct (check_ktriangle_err s now t) as [E1 E2]. cbn [rmapl]. split.
    - intros (u & [<-|Hu] & U); [rewrite (E1 U); reflexivity|].
      destruct (undated_dec s t) as [Ut|Ut]; [rewrite (E1 Ut); reflexivity|].
      destruct (E2 Ut) as [b ->]. cbn [rbind]. rewrite IH1 by (exists u; auto). reflexivity.
    - intros H. destruct (E2 (H t (or_introl eq_refl))) as [b ->]. cbn [rbind].
      destruct IH2 as [l ->]; [intros u Hu; apply H; right; exact Hu|]. eexists. reflexivity. }
  destruct G as [G1 G2]. split; intros H; [rewrite (G1 H); reflexivity|]. destruct (G2 H) as [l ->]. eexists. reflexivity.
Qed.
Print Assumptions C52_raises.

(** accepted: the initial skeleton; rejected: the same with one link missing *)
Definition unlinked (s : state (A:=QA)) : state (A:=QA) :=
  with_ts s (upd (ts s) 2 (tri_n (ts s 2) (mk3 None None None))).
Example C52_cases :
  match init_skeleton rtri_dt with
  | Ok s => match check_ktriangles s (sk_triangles s) 0%Q, check_ktriangles (unlinked s) (sk_triangles s) 0%Q with
            | Ok true, Ok false => negb (existsb (fun t => is_some (t_stops (ts s t))) (sk_triangles s)) && (1 <? length (sk_triangles s))
            | _, _ => false
            end
  | Err _ => false
  end = true.
Proof. vm_compute. reflexivity. Qed.

(** ** C62: the initial skeleton meets the assumptions of the theorems about runs *)
Theorem C62_initial_state :
  forall (A : Arith) (E : Env A) (d : dtriang) s, OrdArith A -> init_skeleton d = Ok s ->
  fresh s /\ shaped s /\
  (* its triangles: mutual neighbours, corners alive at time 0 *)
  (forall t, In t (sk_triangles s) -> properly_linked s n0 t /\ t_stops (ts s t) = None) /\
  (* its nodes are the finite vertices of the triangulation, in order *)
  map (fun n => sn_pos (ns s n)) (sk_nodes s) = map (fun v => dv_pos (dt_v d v)) (seq 0 (dt_nv d)).
Proof.
  intros A E d s O HI. split; [apply (init_fresh d s HI), (nleb_refl O)|]. split; [apply (init_shaped d s HI)|].
  destruct (init_skeleton_parts d s HI) as (cp & ti & b & kvs & ls & un & P).
  destruct (pa_s _ _ _ _ _ _ _ _ P) as (_ & s1 & E1 & CK & ES). split.
  - intros t Ht. rewrite ES in Ht. cbn [sk_triangles init_state] in Ht. apply In_isort in Ht.
    split; [|rewrite ES; reflexivity].
    pose proof (proj1 (C52_check_ktriangles _ _ _ _ _ CK) eq_refl t Ht) as K. rewrite ES. rewrite E1 in K. exact K.
  - assert (K : node_keys d = seq 0 (dt_nv d)).
    { unfold node_keys. assert (F : forall v, In v (seq 0 (dt_nv d)) -> dv_finite (dt_v d v) = true).
      { intros v Hv. apply in_seq in Hv. destruct (init_sk_vertices d s HI v) as [F _]; [lia|exact F]. }
      revert F. generalize (seq 0 (dt_nv d)). induction l as [|v l IH]; intros F; [reflexivity|]. cbn.
      rewrite (F v (or_introl eq_refl)), IH by (intros w Hw; apply F; right; exact Hw). reflexivity. }
    rewrite ES. cbn [sk_nodes ns init_state]. rewrite K, seq_length.
    apply map_ext_in. intros v Hv. apply in_seq in Hv. unfold node_at. cbn [sn_pos]. rewrite K, seq_nth by lia. reflexivity.
Qed.
Print Assumptions C62_initial_state.

(** ** C63: the circular lists at the start *)
Theorem C63_circular_lists :
  forall (A : Arith) (E : Env A) (d : dtriang) s, init_skeleton d = Ok s -> stars_right d ->
  forall v, In v (sk_vertices s) -> exists l r, In l (sk_vertices s) /\ In r (sk_vertices s) /\
    k_left (vs s v) = [(n0, None, Some l)] /\ k_right (vs s v) = [(n0, None, Some r)] /\
    (* mutual *)
    k_right (vs s l) = [(n0, None, Some v)] /\ k_left (vs s r) = [(n0, None, Some v)] /\
    (* neighbours share a wavefront *)
    k_wfr (vs s l) = k_wfl (vs s v) /\ k_wfl (vs s r) = k_wfr (vs s v) /\
    exists a b, k_wfl (vs s v) = Some a /\ k_wfr (vs s v) = Some b.
Proof. intros A E d s. apply (init_circular d s). Qed.
Print Assumptions C63_circular_lists.

Example C62_C63_case :
  stars_right rtri_dt /\
  match init_skeleton rtri_dt with
  | Ok s => forallb (fun v => match kleft (vs s v), kright (vs s v) with
                              | Some l, Some r => negb (Nat.eqb l r) && onat_eqb (kright (vs s l)) (Some v)
                              | _, _ => false
                              end) (sk_vertices s) && (length (sk_vertices s) =? 6) && (length (sk_triangles s) =? 4)
  | Err _ => false
  end = true.
Proof.
  split; [|vm_compute; reflexivity]. intros v Hv. change (dt_nv rtri_dt) with 3 in Hv.
  destruct v as [|[|[|v]]]; [| | |lia]; cbn; (split;
    [repeat (constructor; [intros K; cbn in K; repeat (destruct K as [K|K]; [discriminate K|]); destruct K|]); constructor|]);
    intros t sd H; repeat (destruct H as [H|H]; [injection H as <- <-; reflexivity|]); destruct H.
Qed.
