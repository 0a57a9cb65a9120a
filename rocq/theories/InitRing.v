(** The rings of kinetic vertices of the initial skeleton fit (init_skeleton,
    initialize.py 158-717). *)
From Coq Require Import Permutation.
From Verif Require Import Base Arith Calc VectorOps Line2d Primitives Collapse CollapseProofs EventsLib
  FlipEvent ParallelEvent EdgeEvent SplitEvent EventLoop Pass OpSpec Order StopSpec RunBase RunTimed RunLoop
  Fan FanProofs Decent Total TotalRun Mesh MeshEvents MeshEdge MeshRun Rings EdgeHead RingLeft
  Initialize StarProofs InitProofs InitState InitCirc Properties_init InitMesh Main Properties_main.
Local Open Scope nat_scope.

Lemma nodup_right {X} (l r : list X) : NoDup (l ++ r) -> NoDup r.
Proof. induction l as [|x l IH]; [auto|]. cbn. intros H. apply IH. inversion H. assumption. Qed.
Lemma nodup_left {X} (l r : list X) : NoDup (l ++ r) -> NoDup l.
Proof.
  induction l as [|x l IH]; [constructor|]. cbn. intros H. inversion H as [|? ? H1 H2]. subst. constructor; [|apply IH, H2].
  intros K. apply H1, in_or_app. auto.
Qed.

Lemma edge_cases (l : list (nat * side)) : l = [] \/ exists t i r, l = (t, i) :: r.
Proof. destruct l as [|[t i] r]; [left; reflexivity|]. right. exists t, i, r. reflexivity. Qed.

(** a list in which each kept element leads to the next kept one is chained *)
Section Filtered.
  Context {A : Arith} {E : Env A}.
  Variables (s : state (A:=A)) (g : list (nat * side)) (f : nat * side -> bool).
  Hypothesis FW : forall X t i Y, g = X ++ (t, i) :: Y -> f (t, i) = true -> link s t (ccw i) = hd_t (filter f Y) None.
  Hypothesis BK : forall t i u j, In (t, i) g -> f (t, i) = true -> In (u, j) g -> f (u, j) = true ->
    link s t (ccw i) = Some u -> link s u (cw j) = Some t.

  Lemma filtered_chain Y : forall X p, g = X ++ Y ->
    (forall t i r, filter f Y = (t, i) :: r -> link s t (cw i) = p) -> Rings.chain s p (filter f Y) None.
  Proof.
    induction Y as [|[t i] Y IH]; intros X p HG HP; [exact I|]. cbn [filter] in *.
    assert (HG' : g = (X ++ [(t, i)]) ++ Y) by (rewrite <- app_assoc; exact HG).
    destruct (f (t, i)) eqn:Q; [|apply (IH (X ++ [(t, i)]) p HG' HP)].
    cbn [Rings.chain]. pose proof (FW X t i Y HG Q) as F.
    split; [apply (HP t i (filter f Y)); reflexivity|]. split; [exact F|].
    apply (IH (X ++ [(t, i)]) (Some t) HG'). intros u j r HF.
    assert (K : In (u, j) (filter f Y)) by (rewrite HF; left; reflexivity). apply filter_In in K. destruct K as [K1 K2].
    apply (BK t i u j); auto.
    - rewrite HG. apply in_or_app. right. left. reflexivity.
    - rewrite HG. apply in_or_app. right. right. exact K1.
    - rewrite F, HF. reflexivity.
  Qed.
End Filtered.

Section InitRing.
  Context {A : Arith} {E : Env A}.
  Variable d : dtriang (A:=A).
  Notation edge := (nat * side)%type.
  Notation dcorner t i := (get3 (d_v (dt_t d t)) i).
  Hypothesis TG : triangulation d.

  (** *** the groups *)
  Lemma group_list s v g : init_skeleton d = Ok s -> v < dt_nv d -> In g (groups_of d v) ->
    good_group d g /\ NoDup g /\ forall l1 a b l2, g = l1 ++ a :: b :: l2 -> after (dt_star d v) a b.
  Proof.
    intros HI L G. unfold groups_of in G. destruct (split_star d v) as [gs|] eqn:SS; [|destruct G].
    assert (Z : 1 <= constrained_edges d (dt_star d v)).
    { destruct (Nat.eq_dec (constrained_edges d (dt_star d v)) 0) as [Z|Z]; [exfalso|lia].
      destruct (init_sk_vertices d s HI v L) as (_ & gs0 & node & K1 & K2 & _). rewrite SS in K1. injection K1 as <-.
      destruct (dt_star d v) as [|e l] eqn:D.
      - pose proof (split_star_empty d v D) as Q. rewrite SS in Q. injection Q as ->. destruct G.
      - assert (split_star d v = Ok [dt_star d v]) as Q by (apply split_star_none; rewrite D; [exact Z|discriminate]).
        rewrite SS in Q. injection Q as ->. apply K2. reflexivity. }
    destruct (split_star_spec d v (tg_ring d TG v L) Z) as (gs' & S1 & (p & q & R1 & R2) & _ & S4).
    rewrite SS in S1. injection S1 as <-. rewrite Forall_forall in S4. split; [apply S4, G|].
    apply in_split in G. destruct G as (G1 & G2 & ->). rewrite concat_app in R2. cbn [concat] in R2.
    destruct (tg_star d TG v L) as [ND _]. split.
    - assert (N : NoDup (q ++ p)). { eapply Permutation_NoDup; [|exact ND]. rewrite R1. apply Permutation_app_comm. }
      rewrite <- R2 in N. apply nodup_right in N. apply nodup_left in N. exact N.
    - intros l1 a b l2 ->. rewrite R1. apply after_rotation. rewrite <- R2. left.
      exists (concat G1 ++ l1), (l2 ++ concat G2). rewrite <- !app_assoc. cbn [app]. rewrite <- ?app_assoc. reflexivity.
  Qed.
  Lemma group_first g t i : good_group d g -> In (t, i) g -> constrained d t (cw i) = true -> exists Y, g = (t, i) :: Y.
  Proof.
    intros [_ H] K C. apply in_split in K. destruct K as (X & Y & ->).
    destruct X as [|e X _] using rev_ind; [exists Y; reflexivity|]. rewrite <- app_assoc in H. cbn [app] in H.
    destruct (H X e (t, i) Y eq_refl) as [_ Q]. unfold behind in Q. cbn [fst snd] in Q. congruence.
  Qed.
  Lemma group_last g t i : good_group d g -> In (t, i) g -> constrained d t (ccw i) = true -> exists X, g = X ++ [(t, i)].
  Proof.
    intros [_ H] K C. apply in_split in K. destruct K as (X & Y & ->).
    destruct Y as [|e Y]; [exists X; reflexivity|].
    destruct (H X (t, i) e Y eq_refl) as [Q _]. unfold ahead in Q. cbn [fst snd] in Q. congruence.
  Qed.
  Lemma last_group g t i X : good_group d g -> g = X ++ [(t, i)] -> constrained d t (ccw i) = true.
  Proof.
    intros [(e & l & H1 & _ & H2) _] H. rewrite H1 in H.
    assert (Q : last l e = (t, i)). { rewrite <- (InitProofs.last_in e (0, S0) l), H, last_last. reflexivity. }
    rewrite Q in H2. exact H2.
  Qed.
  Lemma first_group g t i Y : good_group d g -> g = (t, i) :: Y -> constrained d t (cw i) = true.
  Proof. intros [(e & l & H1 & H2 & _) _] H. rewrite H1 in H. injection H as -> _. exact H2. Qed.

  Section Parts.
    Variables (s : state (A:=A)) (cpos : pt) (ti : nat -> tinit (A:=A)) (b : build (A:=A)) (kvs : list (kvertex (A:=A)))
      (ls : list (list (nat * side * nat))) (un : list nat).
    Hypothesis HI : init_skeleton d = Ok s.
    Hypothesis P : parts d s cpos ti b kvs ls un.
    Let c := length kvs.
    Let tv := with_infinite d c (b_tv b).
    Let tn := fun t => ti_n (ti t).
    Let tn1 := fold_left set_tn1 (concat ls) tn.
    Let BU : built d ti (all_groups d) b := proj1 (init_vertices_built d ti b (pa_b _ _ _ _ _ _ _ _ P)).

    (** *** what the parts say about the skeleton *)
    Lemma kept_active t : active s t <-> t < dt_nt d /\ ~ In t un.
    Proof.
      destruct (pa_s _ _ _ _ _ _ _ _ P) as (_ & s1 & _ & _ & ES).
      unfold active. rewrite ES. cbn [sk_triangles ts t_stops init_state].
      set (L := filter (fun t => negb (mem Nat.eqb t un)) (seq 0 (dt_nt d))).
      assert (Q : In t (isort (key_le s1) L) <-> In t L).
      { split; intros K; [apply In_isort in K; exact K|]. eapply Permutation_in; [apply isort_perm|exact K]. }
      rewrite Q. unfold L. rewrite filter_In, in_seq, negb_true_iff, mem_false.
      split; [intros [[H K] _]; split; [lia|exact K]|intros [H K]; split; [split; [lia|exact K]|reflexivity]].
    Qed.
    Lemma kept_link t i : ~ In t un -> link s t i = get3 (tn1 t) i.
    Proof.
      destruct (pa_s _ _ _ _ _ _ _ _ P) as (_ & s1 & _ & _ & ES). intros U. apply mem_false in U.
      unfold link. rewrite ES. cbn [ts t_n init_state]. rewrite U. reflexivity.
    Qed.
    Lemma kept_corner t i : t < dt_nt d -> ~ In t un -> get3 (tv t) i = Some (corner s t i).
    Proof.
      destruct (pa_s _ _ _ _ _ _ _ _ P) as (_ & s1 & _ & _ & ES). intros L U. apply mem_false in U.
      unfold corner. rewrite ES. cbn [ts t_v init_state]. rewrite U, g3m3.
      destruct (tv_full d s cpos ti b kvs ls un P t i L) as (k & K). fold c in K. fold tv in K. fold c. fold tv. rewrite K. reflexivity.
    Qed.
    Lemma vertex_at v : vs s v = nth v kvs (inf_vertex cpos).
    Proof. destruct (pa_s _ _ _ _ _ _ _ _ P) as (_ & s1 & _ & _ & ES). rewrite ES. reflexivity. Qed.
    Lemma c_len : c = length (all_groups d).
    Proof. exact (c_groups d s cpos ti b kvs ls un P). Qed.

    (** a side of a kept triangle without a neighbour is constrained *)
    Lemma none_constrained t i : t < dt_nt d -> ~ In t un -> (get3 (tn1 t) i = None <-> constrained d t i = true).
    Proof.
      intros L U. split.
      - intros H. destruct (fold_set (concat ls) tn t i) as [(y & _ & H2)|[_ H2]]; fold tn1 in H2; rewrite H in H2; [discriminate|].
        destruct (constrained d t i) eqn:C; [reflexivity|exfalso]. apply U.
        rewrite (pa_unwanted _ _ _ _ _ _ _ _ P). apply in_flat_map. exists t. split; [apply in_seq; lia|].
        assert (W : ti_unwanted (ti t) <> 0).
        { destruct (pa_ti _ _ _ _ _ _ _ _ P) as [T _]. specialize (T t L). unfold init_triangle in T.
          apply rbind_ok in T; destruct T as (w0 & _ & T). apply rbind_ok in T; destruct T as (w1 & _ & T).
          apply rbind_ok in T; destruct T as (w2 & _ & T).
          apply rbind_ok in T; destruct T as (x & Hx & T).
          apply rbind_ok in T; destruct T as (y & Hy & T).
          apply rbind_ok in T; destruct T as (z & Hz & T). injection T as T. unfold tn in H2. rewrite <- T in H2 |- *.
          assert (W : forall q, init_neighbour d t i = Ok q -> fst q = None -> snd q = true).
          { intros q Hq N. unfold init_neighbour in Hq. rewrite C in Hq.
            destruct (get3 (d_n (dt_t d t)) i) as [n|]; [|injection Hq as <-; reflexivity].
            destruct (is_none _); [injection Hq as <-; reflexivity|]. destruct (Nat.ltb n (dt_nt d)); [|discriminate].
            injection Hq as <-. discriminate. }
          cbn [ti_n ti_unwanted] in *. destruct i; cbn in H2.
          - rewrite (W _ Hx (eq_sym H2)). lia.
          - rewrite (W _ Hy (eq_sym H2)). lia.
          - rewrite (W _ Hz (eq_sym H2)). lia. }
        destruct (ti_unwanted (ti t)); [congruence|]. left. reflexivity.
      - intros C. destruct (get3 (tn1 t) i) as [n|] eqn:H; [exfalso|reflexivity].
        destruct (fold_set (concat ls) tn t i) as [(y & H1 & _)|[_ H2]]; [|fold tn1 in H2].
        + destruct (entries d TG s cpos ti b kvs ls un HI P t i y H1) as (v & j & [[R _]|[R _]] & _);
            destruct R as (_ & _ & _ & _ & _ & _ & u & R1 & _);
            destruct (tn_link d s cpos ti b kvs ls un P t i u L R1) as (C' & _); congruence.
        + rewrite H in H2. destruct (tn_link d s cpos ti b kvs ls un P t i n L (eq_sym H2)) as (C' & _). congruence.
    Qed.

    (** the group of a corner *)
    Lemma corner_group t i : t < dt_nt d -> ~ In t un -> corner s t i <> c ->
      exists v g, nth_error (all_groups d) (corner s t i) = Some (v, g) /\ v < dt_nv d /\ In (t, i) g /\
        good_group d g /\ get3 (b_tv b t) i = Some (corner s t i).
    Proof.
      intros L U NC. pose proof (kept_corner t i L U) as K. unfold tv, c in K. rewrite tv_get in K by exact L.
      destruct (is_some (infinite_corner d t i)); [fold c in K; congruence|].
      destruct (corner_back d TG s cpos ti b kvs ls un HI P t i _ K) as (v & g & N & Lv & I & _).
      exists v, g. split; [exact N|]. split; [exact Lv|]. split; [exact I|]. split; [|exact K].
      destruct (all_groups_in d _ _ _ N) as (_ & G & _). apply (group_list s v g HI Lv G).
    Qed.

    (** what the kinetic vertex of a group is *)
    Lemma group_vertex k v g : nth_error (all_groups d) k = Some (v, g) ->
      k_inf (vs s k) = false /\ k_stops (vs s k) = None /\
      kleft (vs s k) = (let e := last g (0, S0) in get3 (b_tv b (fst e)) (cw (snd e))) /\
      kright (vs s k) = (let e := hd (0, S0) g in get3 (b_tv b (fst e)) (ccw (snd e))) /\
      k_wfl (vs s k) = side_index (left_side g) /\ k_wfr (vs s k) = side_index (right_side g) /\
      k_ul (vs s k) = side_index (left_side g) /\ k_ur (vs s k) = side_index (right_side g) /\
      (exists l, kleft (vs s k) = Some l) /\ exists r, kright (vs s k) = Some r.
    Proof.
      intros N. destruct (links_built d ti b BU) as [_ L2]. rewrite <- (pa_kvs _ _ _ _ _ _ _ _ P) in L2.
      destruct (L2 k v g N) as (kv & K1 & _ & K3).
      assert (CK : check_links (fun i => nth i kvs (inf_vertex cpos)) (link_for k g) = Ok tt).
      { apply (pa_links _ _ _ _ _ _ _ _ P). rewrite (bl_links _ _ _ _ BU). apply in_map_iff. exists (k, (v, g)).
        split; [reflexivity|]. apply combine_nth_error. exact N. }
      assert (K4 : nth k kvs (inf_vertex cpos) = linked_kv (b_tv b) (link_for k g) kv) by (apply nth_error_nth; exact K3).
      destruct K1 as (lw & rw & bi & node & info & K). destruct K as (NE & _ & _ & _ & _ & _ & _ & EK). cbn [fst snd] in *.
      assert (KL : kleft (vs s k) = (let e := last g (0, S0) in get3 (b_tv b (fst e)) (cw (snd e)))).
      { rewrite vertex_at, K4, kleft_linked by (rewrite EK; reflexivity). reflexivity. }
      assert (KR : kright (vs s k) = (let e := hd (0, S0) g in get3 (b_tv b (fst e)) (ccw (snd e)))).
      { rewrite vertex_at, K4, kright_linked by (rewrite EK; reflexivity). reflexivity. }
      assert (KS : (exists l, kleft (vs s k) = Some l) /\ exists r, kright (vs s k) = Some r).
      { unfold check_links in CK. cbn [l_kv link_for] in CK. rewrite <- vertex_at in CK.
        apply rbind_ok in CK. destruct CK as (l & C1 & CK).
        apply rbind_ok in CK. destruct CK as ([] & _ & CK).
        apply rbind_ok in CK. destruct CK as (r & C3 & _).
        destruct (kleft (vs s k)) as [x|]; [|discriminate]. destruct (kright (vs s k)) as [y|]; [|discriminate]. eauto. }
      destruct KS as [KS1 KS2].
      assert (KV : vs s k = linked_kv (b_tv b) (link_for k g) kv) by (rewrite vertex_at; exact K4).
      repeat (split; [first [assumption|rewrite KV; unfold linked_kv; rewrite EK; reflexivity]|]). assumption.
    Qed.

    Lemma group_lt k v g : nth_error (all_groups d) k = Some (v, g) -> k < c.
    Proof. intros H. rewrite c_len. apply nth_error_Some. congruence. Qed.
    Lemma inf_is_c t i : t < dt_nt d -> ~ In t un -> corner s t i = c -> k_inf (vs s (corner s t i)) = true.
    Proof. intros _ _ ->. rewrite vertex_at. unfold c. rewrite nth_overflow by lia. reflexivity. Qed.
    Lemma finite_lt v : k_inf (vs s v) = false -> v < c.
    Proof.
      rewrite vertex_at. intros H. destruct (Nat.lt_ge_cases v c) as [K|K]; [exact K|].
      rewrite nth_overflow in H by exact K. discriminate.
    Qed.

    (** *** the ends of a constrained side *)
    Lemma first_corner t i : t < dt_nt d -> ~ In t un -> constrained d t (cw i) = true -> corner s t i <> c ->
      exists v Y, nth_error (all_groups d) (corner s t i) = Some (v, (t, i) :: Y) /\ good_group d ((t, i) :: Y).
    Proof.
      intros L U C NC. destruct (corner_group t i L U NC) as (v & g & N & _ & I & G & _).
      destruct (group_first g t i G I C) as (Y & ->). exists v, Y. auto.
    Qed.
    Lemma last_corner t i : t < dt_nt d -> ~ In t un -> constrained d t (ccw i) = true -> corner s t i <> c ->
      exists v X, nth_error (all_groups d) (corner s t i) = Some (v, X ++ [(t, i)]) /\ good_group d (X ++ [(t, i)]).
    Proof.
      intros L U C NC. destruct (corner_group t i L U NC) as (v & g & N & _ & I & G & _).
      destruct (group_last g t i G I C) as (X & ->). exists v, X. auto.
    Qed.
    Lemma filled t i k : t < dt_nt d -> ~ In t un -> get3 (b_tv b t) i = Some k -> corner s t i = k /\ k < c.
    Proof.
      intros L U H. assert (Lk : k < c).
      { rewrite c_len. apply (corner_lt d ti b (pa_b _ _ _ _ _ _ _ _ P) t i k H). }
      split; [|exact Lk]. pose proof (kept_corner t i L U) as K. unfold tv, c in K. rewrite tv_get in K by exact L.
      destruct (corner_back d TG s cpos ti b kvs ls un HI P t i k H) as (v & g & _ & _ & _ & _ & D & F).
      rewrite (finite_not_inf d t i v D F) in K. cbn in K. congruence.
    Qed.
    Lemma side_ends t i : t < dt_nt d -> ~ In t un -> constrained d t i = true ->
      corner s t (ccw i) <> c /\ corner s t (cw i) <> c.
    Proof.
      intros L U C.
      assert (B1 : corner s t (ccw i) <> c -> corner s t (cw i) <> c).
      { intros H. destruct (first_corner t (ccw i) L U) as (v & Y & N & _); [rewrite cw_ccw; exact C|exact H|].
        destruct (group_vertex _ _ _ N) as (_ & _ & _ & KR & _ & _ & _ & _ & _ & r & KS). cbn in KR. rewrite KS, ccw_ccw in KR.
        destruct (filled t (cw i) r L U (eq_sym KR)) as [-> Q]. lia. }
      assert (B2 : corner s t (cw i) <> c -> corner s t (ccw i) <> c).
      { intros H. destruct (last_corner t (cw i) L U) as (v & X & N & _); [rewrite ccw_cw; exact C|exact H|].
        destruct (group_vertex _ _ _ N) as (_ & _ & KL & _ & _ & _ & _ & _ & (r & KS) & _). rewrite last_last in KL. cbn in KL.
        rewrite KS, cw_cw in KL. destruct (filled t (ccw i) r L U (eq_sym KL)) as [-> Q]. lia. }
      assert (B3 : corner s t (ccw i) <> c \/ corner s t (cw i) <> c).
      { destruct (Nat.eq_dec (corner s t (ccw i)) c) as [Q1|Q1]; [|auto]. right. intros Q2.
        destruct (init_linked d TG s HI) as (_ & D & _).
        assert (EQ : ccw i = cw i) by (apply (D t (proj2 (kept_active t) (conj L U))); congruence). destruct i; discriminate. }
      tauto.
    Qed.
    Lemma side_joint t i : t < dt_nt d -> ~ In t un -> constrained d t i = true ->
      joint s (corner s t (ccw i)) (corner s t (cw i)).
    Proof.
      intros L U C. destruct (side_ends t i L U C) as [N1 N2].
      destruct (first_corner t (ccw i) L U) as (v & Y & G1 & _); [rewrite cw_ccw; exact C|exact N1|].
      destruct (last_corner t (cw i) L U) as (w & X & G2 & _); [rewrite ccw_cw; exact C|exact N2|].
      destruct (group_vertex _ _ _ G1) as (_ & _ & _ & KR & _ & WR & _ & UR & _ & r & SR).
      destruct (group_vertex _ _ _ G2) as (_ & _ & KL & _ & WL & _ & UL & _ & (l & SL) & _).
      cbn in KR. rewrite last_last in KL. cbn in KL. rewrite SR, ccw_ccw in KR. rewrite SL, cw_cw in KL.
      destruct (filled t (cw i) r L U (eq_sym KR)) as [Q1 _]. destruct (filled t (ccw i) l L U (eq_sym KL)) as [Q2 _].
      unfold joint. rewrite SR, SL, WR, WL, UR, UL. unfold right_side, left_side. rewrite last_last. cbn.
      rewrite cw_ccw, ccw_cw. rewrite Q1, Q2. auto.
    Qed.

    (** *** the triangles around a vertex *)
    Lemma un_walks t i k : In t un -> get3 (tv t) i = Some k -> k <> c -> exists x y sx,
      walk d ti b kvs un k cw t x /\ walk d ti b kvs un k ccw t y /\ get3 (tv x) sx = Some k /\
      In (x, ccw sx, y) (concat ls).
    Proof.
      intros U G NK. destruct (un_links d s cpos ti b kvs ls un P t U) as (l & H & Hl).
      fold c in H. fold tv in H. fold tn in H. unfold unwanted_links in H. apply rbind_ok in H. destruct H as (sd & _ & H).
      destruct (get3 (tv t) sd) as [v|] eqn:Gv; [|discriminate].
      apply rbind_ok in H. destruct H as ([] & NV & H). apply rassert_ok, negb_true_iff, Nat.eqb_neq in NV.
      assert (v = k) as ->.
      { destruct (side_eq_dec i sd) as [->|Q]; [congruence|]. exfalso.
        destruct (un_corners d s cpos ti b kvs ls un P t sd v U Gv NV) as [K1 K2]. fold c in K1, K2. fold tv in K1, K2.
        apply NK. destruct i, sd; cbn [cw ccw] in *; congruence. }
      apply rbind_ok in H. destruct H as (a & Ha & H).
      apply rbind_ok in H. destruct H as (e & He & H).
      apply rbind_ok in H. destruct H as (x & Hx & H).
      apply rbind_ok in H. destruct H as (sx & Hsx & H).
      apply rbind_ok in H. destruct H as (y & Hy & H).
      apply rbind_ok in H. destruct H as (sy & Hsy & H). injection H as <-.
      destruct a as [x'|]; [|discriminate]. injection Hx as ->. destruct e as [y'|]; [|discriminate]. injection Hy as ->.
      apply (rotate_walk d s cpos ti b kvs ls un P k cw _ [] t x U) in Ha.
      apply (rotate_walk d s cpos ti b kvs ls un P k ccw _ [] t y U) in He.
      apply index3_get, onat_eqb_eq in Hsx. exists x, y, sx. split; [exact Ha|]. split; [exact He|]. split; [congruence|].
      apply in_concat. eexists. split; [exact Hl|]. left. reflexivity.
    Qed.

    Section Group.
      Variables (k v : nat) (g : list edge).
      Hypothesis NG : nth_error (all_groups d) k = Some (v, g).
      Let Lv : v < dt_nv d := proj1 (all_groups_in d _ _ _ NG).
      Let GL : good_group d g /\ NoDup g /\ forall l1 a b l2, g = l1 ++ a :: b :: l2 -> after (dt_star d v) a b :=
        group_list s v g HI Lv (proj1 (proj2 (all_groups_in d _ _ _ NG))).

      Lemma k_not_c : k <> c.
      Proof. pose proof (group_lt _ _ _ NG). lia. Qed.
      Lemma member t i : In (t, i) g -> t < dt_nt d /\ dcorner t i = Some v /\ get3 (tv t) i = Some k.
      Proof.
        intros I. pose proof (proj2 (all_groups_in d _ _ _ NG)) as [G SI]. specialize (SI _ I).
        pose proof (proj1 (proj2 (tg_star d TG v Lv) t i) SI) as [Lt D]. split; [exact Lt|]. split; [exact D|].
        destruct (group_corner d TG s cpos ti b kvs ls un P v t i g Lv G I) as (k' & N' & K).
        assert (k' = k) as -> by (apply (group_unique d k' k v v g g (t, i) (tg_stars_right d TG) N' NG I I)).
        unfold tv, c. rewrite tv_get by exact Lt.
        rewrite (finite_not_inf d t i v D (proj1 (init_sk_vertices d s HI v Lv))). exact K.
      Qed.
      Lemma member_back t i : t < dt_nt d -> get3 (tv t) i = Some k -> In (t, i) g.
      Proof.
        intros L H. unfold tv, c in H. rewrite tv_get in H by exact L. pose proof k_not_c.
        destruct (is_some (infinite_corner d t i)); [fold c in H; congruence|].
        destruct (corner_back d TG s cpos ti b kvs ls un HI P t i k H) as (v' & g' & N & _ & I & _).
        rewrite NG in N. injection N as <- <-. exact I.
      Qed.
      (** the next one in the group is the neighbour *)
      Lemma next_link X t i t' i' Y : g = X ++ (t, i) :: (t', i') :: Y -> get3 (tn t) (ccw i) = Some t'.
      Proof.
        intros H. destruct GL as (G1 & _ & G3). pose proof (tg_turn d TG v _ _ Lv (G3 _ _ _ _ H)) as T. cbn [fst snd] in T.
        destruct (member t i) as (L & _). { rewrite H. apply in_or_app. right. left. reflexivity. }
        destruct (member t' i') as (L' & _). { rewrite H. apply in_or_app. right. right. left. reflexivity. }
        apply (tn_intro d TG s cpos ti b kvs ls un HI P t (ccw i) t' L); [|exact T|exact L'].
        destruct G1 as [_ G1]. apply (G1 X (t, i) (t', i') Y H).
      Qed.
      Definition keep (e : edge) : bool := negb (mem Nat.eqb (fst e) un).
      Lemma keep_true e : keep e = true <-> ~ In (fst e) un.
      Proof. unfold keep. rewrite negb_true_iff. apply mem_false. Qed.

      Lemma walk_next t y : walk d ti b kvs un k ccw t y -> forall X i Y, g = X ++ (t, i) :: Y -> hd_t (filter keep Y) None = Some y.
      Proof.
        induction 1 as [t r L U ST N|t t' r L U ST U' W IH]; intros X i Y H; destruct ST as (sd & S1 & S2).
        - assert (sd = i) as ->.
          { apply (tv_once d TG s cpos ti b kvs ls un HI P t sd i k L k_not_c S1). apply member. rewrite H. apply in_or_app. right. left. reflexivity. }
          destruct Y as [|[t2 i2] Y].
          + exfalso. pose proof (last_group g t i X (proj1 GL) H) as C.
            destruct (tn_link d s cpos ti b kvs ls un P t (ccw i) r L S2) as (C' & _). congruence.
          + pose proof (next_link _ _ _ _ _ _ H) as N2. unfold tn in N2. assert (t2 = r) as -> by congruence.
            assert (KR : keep (r, i2) = true) by (apply keep_true; exact N). cbn [filter]. rewrite KR. reflexivity.
        - assert (sd = i) as ->.
          { apply (tv_once d TG s cpos ti b kvs ls un HI P t sd i k L k_not_c S1). apply member. rewrite H. apply in_or_app. right. left. reflexivity. }
          destruct Y as [|[t2 i2] Y].
          + exfalso. pose proof (last_group g t i X (proj1 GL) H) as C.
            destruct (tn_link d s cpos ti b kvs ls un P t (ccw i) t' L S2) as (C' & _). congruence.
          + pose proof (next_link _ _ _ _ _ _ H) as N2. unfold tn in N2. assert (t2 = t') as -> by congruence.
            assert (KR : keep (t', i2) = false). { unfold keep. cbn [fst]. apply negb_false_iff. destruct (mem Nat.eqb t' un) eqn:Q; [reflexivity|].
              apply mem_false in Q. contradiction. }
            cbn [filter]. rewrite KR. apply (IH (X ++ [(t, i)]) i2 Y). rewrite <- app_assoc. exact H.
      Qed.

      Lemma group_next X t i Y : g = X ++ (t, i) :: Y -> keep (t, i) = true -> link s t (ccw i) = hd_t (filter keep Y) None.
      Proof.
        intros H K. apply keep_true in K. cbn [fst] in K. rewrite kept_link by exact K.
        assert (I : In (t, i) g) by (rewrite H; apply in_or_app; right; left; reflexivity).
        destruct (member t i I) as (L & D & T).
        destruct Y as [|[t' i'] Y].
        { cbn. apply none_constrained; auto. apply (last_group g t i X (proj1 GL) H). }
        pose proof (next_link _ _ _ _ _ _ H) as N.
        assert (I' : In (t', i') g) by (rewrite H; apply in_or_app; right; right; left; reflexivity).
        destruct (member t' i' I') as (L' & D' & T').
        destruct (in_dec Nat.eq_dec t' un) as [U'|U'].
        - destruct (un_walks t' i' k U' T' k_not_c) as (x & y & sx & W1 & W2 & Sx & EN).
          assert (KR : keep (t', i') = false). { unfold keep. cbn [fst]. apply negb_false_iff. destruct (mem Nat.eqb t' un) eqn:Q; [reflexivity|].
            apply mem_false in Q. contradiction. }
          cbn [filter]. rewrite KR. rewrite (walk_next t' y W2 (X ++ [(t, i)]) i' Y) by (rewrite <- app_assoc; exact H).
          assert (ST : step d ti b kvs k cw t' t).
          { apply (step_ccw_back d TG s cpos ti b kvs ls un HI P k t t' L). exists i. split; [exact T|exact N]. }
          assert (x = t) as ->.
          { apply (walk_det d TG s cpos ti b kvs ls un HI P k k_not_c cw t' x W1). apply walk_end; auto. }
          assert (sx = i) as -> by (apply (tv_once d TG s cpos ti b kvs ls un HI P t sx i k L k_not_c Sx T)).
          destruct (fold_set (concat ls) tn t (ccw i)) as [(z & Z1 & Z2)|[Z1 _]]; [|destruct (Z1 y EN)]. fold tn1 in Z2. rewrite Z2. f_equal.
          destruct (entries d TG s cpos ti b kvs ls un HI P t (ccw i) z Z1) as (v1 & j1 & R1 & _).
          assert (AR : around_v d ti b kvs un k ccw t y) by (exists t'; split; [exists i; split; [exact T|exact N]|exact W2]).
          destruct R1 as [[R1 _]|[R1 _]]; destruct R1 as (NV1 & _ & _ & R2 & R3 & AR1 & _); rewrite cw_ccw in *; fold c in R2, R3; fold tv in R2, R3.
          + assert (v1 = k) as -> by congruence.
            apply (around_det d TG s cpos ti b kvs ls un HI P k k_not_c ccw t z y L AR1 AR).
          + exfalso. apply k_not_c. congruence.
        - assert (KR : keep (t', i') = true) by (apply keep_true; exact U'). cbn [filter]. rewrite KR. cbn [hd_t].
          destruct (fold_set (concat ls) tn t (ccw i)) as [(z & Z1 & _)|[_ Z2]]; [exfalso|fold tn1 in Z2; congruence].
          destruct (entries d TG s cpos ti b kvs ls un HI P t (ccw i) z Z1) as (v1 & j1 & [[R1 _]|[R1 _]] & _);
            destruct R1 as (_ & _ & _ & _ & _ & _ & u & Q1 & Q2); unfold tn in N; congruence.
      Qed.

      (** the first one of the group is kept *)
      Lemma group_first_kept t i Y : g = (t, i) :: Y -> ~ In t un.
      Proof.
        intros H U. assert (I : In (t, i) g) by (rewrite H; left; reflexivity). destruct (member t i I) as (L & _ & T).
        destruct (un_walks t i k U T k_not_c) as (x & _ & _ & W & _).
        pose proof (first_group g t i Y (proj1 GL) H) as C.
        assert (S : exists t', step d ti b kvs k cw t t') by (inversion W; eauto).
        destruct S as (t' & sd & S1 & S2).
        assert (sd = i) as -> by (apply (tv_once d TG s cpos ti b kvs ls un HI P t sd i k L k_not_c S1 T)).
        destruct (tn_link d s cpos ti b kvs ls un P t (cw i) t' L S2) as (C' & _). congruence.
      Qed.

      Lemma group_star : Rings.star s k (filter keep g).
      Proof.
        destruct (init_linked d TG s HI) as (LK & DI & _).
        constructor.
        - apply NoDup_filter, GL.
        - apply (filtered_chain s g keep group_next) with (X := []); [|reflexivity|].
          + intros t i u j I1 K1 I2 K2 H. apply keep_true in K1, K2. cbn [fst] in K1, K2.
            destruct (member t i I1) as (L1 & _ & T1). destruct (member u j I2) as (L2 & _ & T2).
            rewrite kept_corner in T1, T2 by assumption. injection T1 as T1. injection T2 as T2.
            destruct (LK t (ccw i) u (proj2 (kept_active t) (conj L1 K1)) H) as (AU & jj & J1 & J2 & J3).
            rewrite cw_ccw in J2.
            assert (ccw jj = j) as <-.
            { apply (DI u AU). congruence. }
            rewrite cw_ccw. exact J1.
          + intros t i r H. destruct (edge_cases g) as [G|(t0 & i0 & Y & G)]; rewrite G in H; [discriminate|]. cbn [filter] in H.
            pose proof (group_first_kept t0 i0 Y G) as K0.
            assert (KR : keep (t0, i0) = true) by (apply keep_true; exact K0). rewrite KR in H. injection H as <- <- _.
            rewrite kept_link by exact K0. apply none_constrained; [|exact K0|].
            * apply (member t0 i0). rewrite G. left. reflexivity.
            * apply (first_group g t0 i0 Y (proj1 GL) G).
        - intros t i. rewrite filter_In, keep_true, kept_active. cbn [fst]. split.
          + intros [I U]. destruct (member t i I) as (L & _ & T). rewrite kept_corner in T by assumption. injection T as T. auto.
          + intros [[L U] C]. split; [|exact U]. apply member_back; [exact L|]. rewrite kept_corner by assumption. congruence.
      Qed.
    End Group.
  End Parts.

  Theorem init_fitting s : init_skeleton d = Ok s ->
    fitting s /\ ends s /\ (forall v, ~ stopped s v).
  Proof.
    intros HI. destruct (init_skeleton_parts d s HI) as (cp & ti & b & kvs & ls & un & P).
    destruct (init_linked d TG s HI) as (LK & _).
    pose proof (kept_active s cp ti b kvs ls un P) as AC.
    assert (NS : forall v, ~ stopped s v).
    { intros v H. apply H. destruct (nth_error (all_groups d) v) as [[w g]|] eqn:N.
      - apply (group_vertex s cp ti b kvs ls un P v w g N).
      - apply nth_error_None in N. rewrite (vertex_at s cp ti b kvs ls un P).
        rewrite nth_overflow; [reflexivity|]. pose proof (c_len s cp ti b kvs ls un P). lia. }
    assert (CN : forall t i, active s t -> link s t i = None -> t < dt_nt d /\ ~ In t un /\ constrained d t i = true).
    { intros t i Ht H. apply AC in Ht. destruct Ht as [L U]. split; [exact L|]. split; [exact U|].
      rewrite (kept_link s cp ti b kvs ls un P) in H by exact U.
      apply (none_constrained s cp ti b kvs ls un HI P t i L U). exact H. }
    split; [|split; [|exact NS]].
    - constructor.
      + exact LK.
      + intros t i Ht H. right. destruct (CN t i Ht H) as (L & U & C). apply (side_joint s cp ti b kvs ls un HI P); assumption.
      + intros v H. apply (finite_lt s cp ti b kvs ls un P) in H. rewrite (c_len s cp ti b kvs ls un P) in H.
        destruct (nth_error (all_groups d) v) as [[w g]|] eqn:N; [|apply nth_error_None in N; lia].
        exists (filter (keep un) g). apply (group_star s cp ti b kvs ls un HI P v w g N).
      + intros t i _ _ H. destruct (NS _ H).
    - intros t i Ht H. destruct (CN t i Ht H) as (L & U & C). destruct (side_ends s cp ti b kvs ls un HI P t i L U C) as [N1 N2].
      split; match goal with |- k_inf (vs s ?v) = false => assert (Q : exists w g, nth_error (all_groups d) v = Some (w, g)) end.
      + destruct (corner_group s cp ti b kvs ls un HI P t (ccw i) L U N1) as (w & g & K & _). eauto.
      + destruct Q as (w & g & Q). apply (group_vertex s cp ti b kvs ls un P _ _ _ Q).
      + destruct (corner_group s cp ti b kvs ls un HI P t (cw i) L U N2) as (w & g & K & _). eauto.
      + destruct Q as (w & g & Q). apply (group_vertex s cp ti b kvs ls un P _ _ _ Q).
  Qed.

  (** *** the inner part alone *)
  Lemma chain_internal (s : state (A:=A)) : (forall t i n, active s t -> link s t i = Some n -> t_internal (ts s n) = t_internal (ts s t)) ->
    forall l p q t i, (forall u j, In (u, j) l -> active s u) -> Rings.chain s p ((t, i) :: l) q -> active s t -> q = None ->
    forall u j, In (u, j) l -> t_internal (ts s u) = t_internal (ts s t).
  Proof.
    intros R. induction l as [|[t2 i2] l IH]; intros p q t i AL H AT -> u j K; [destruct K|].
    destruct H as (_ & H2 & H3). cbn [hd_t] in H2.
    assert (A2 : active s t2) by (apply (AL t2 i2); left; reflexivity).
    pose proof (R t (ccw i) t2 AT H2) as Q. destruct K as [K|K].
    - injection K as -> ->. exact Q.
    - rewrite <- Q. apply (IH (Some t) None t2 i2) with (j := j); auto. intros w x Kw. apply (AL w x). right. exact Kw.
  Qed.

  Theorem start_fitting s io : init_skeleton d = Ok s -> (io = true -> regions d) ->
    fitting (start_of io s) /\ ends (start_of io s) /\ (forall v, ~ stopped (start_of io s) v).
  Proof.
    intros HI RG. destruct (init_fitting s HI) as (F & EN & NS). destruct io; [|auto].
    destruct (init_linked d TG s HI) as (_ & _ & R). specialize (R (RG eq_refl)).
    assert (SUB : forall t, active (start_of true s) t <-> active s t /\ t_internal (ts s t) = true).
    { intros t. unfold active. cbn. rewrite filter_In. tauto. }
    assert (LI : forall t i, link (start_of true s) t i = link s t i) by reflexivity.
    assert (CO : forall t i, corner (start_of true s) t i = corner s t i) by reflexivity.
    assert (VS : vs (start_of true s) = vs s) by reflexivity.
    assert (NS' : forall v, ~ stopped (start_of true s) v) by (intros v; unfold stopped; rewrite VS; apply NS).
    split; [|split; [|exact NS']].
    - constructor.
      + intros t i n Ht H. apply SUB in Ht. destruct Ht as [Ht It]. destruct (fi_linked _ F t i n Ht H) as (Hn & J). split; [|exact J].
        apply SUB. split; [exact Hn|]. rewrite (R t i n Ht H). exact It.
      + intros t i Ht H. apply SUB in Ht. right. destruct (fi_ring _ F t i (proj1 Ht) H) as [(_ & _ & K & _)|K]; [destruct (NS _ K)|exact K].
      + intros v H. destruct (fi_star _ F v H) as [l [S1 S2 S3]].
        assert (CH : forall l p q, Rings.chain s p l q -> Rings.chain (start_of true s) p l q).
        { induction l0 as [|[u i] l0 IH]; intros p q; [auto|]. intros (K1 & K2 & K3). split; [exact K1|]. split; [exact K2|]. apply IH, K3. }
        destruct l as [|[t0 i0] l].
        { exists []. constructor; [constructor|exact I|]. intros t i. rewrite SUB. split; [intros []|].
          intros [[K _] C]. apply (S3 t i). auto. }
        assert (AT : active s t0) by (apply (S3 t0 i0); left; reflexivity).
        assert (AL : forall u j, In (u, j) l -> active s u) by (intros u j K; apply (S3 u j); right; exact K).
        pose proof (chain_internal s R l None None t0 i0 AL S2 AT eq_refl) as SAME.
        destruct (t_internal (ts s t0)) eqn:IT.
        * exists ((t0, i0) :: l). constructor; [exact S1|apply CH, S2|]. intros t i. rewrite SUB. split.
          -- intros K. split; [split|]; [apply (S3 t i); exact K| |apply (S3 t i); exact K].
             destruct K as [K|K]; [injection K as <- _; exact IT|apply (SAME t i K)].
          -- intros [[K _] C]. apply (S3 t i). auto.
        * exists []. constructor; [constructor|exact I|]. intros t i. rewrite SUB. split; [intros []|].
          intros [[K1 K2] C]. assert (K : In (t, i) ((t0, i0) :: l)) by (apply (S3 t i); auto).
          destruct K as [K|K]; [injection K as <- _|pose proof (SAME t i K)]; congruence.
      + intros t i _ _ H. destruct (NS' _ H).
    - intros t i Ht H. apply SUB in Ht. apply (EN t i (proj1 Ht) H).
  Qed.

  (** *** the event list does not change it *)
  Lemma mesh_same_fitting (s s1 : state (A:=A)) : mesh_same s s1 -> vs s1 = vs s -> sk_triangles s1 = sk_triangles s ->
    (fitting s -> fitting s1) /\ (ends s -> ends s1) /\ (forall v, stopped s1 v -> stopped s v).
  Proof.
    intros M VS T1.
    assert (AC : forall u, active s1 u <-> active s u).
    { intros u. unfold active. rewrite T1. destruct (M u) as (_ & _ & ->). tauto. }
    assert (LI : forall u i, link s1 u i = link s u i) by (intros; apply mesh_same_link; exact M).
    assert (CO : forall u i, corner s1 u i = corner s u i) by (intros; apply mesh_same_corner; exact M).
    assert (ST : forall v, stopped s1 v <-> stopped s v) by (intros v; unfold stopped; rewrite VS; tauto).
    assert (LO : forall u i, left_over s1 u i <-> left_over s u i).
    { intros u i. unfold left_over. rewrite AC, LI, !CO, !ST. tauto. }
    split; [|split; [|intros v; apply ST]].
    - intros [P1 P2 P3 P4]. constructor.
      + intros t i n Ht H. apply AC in Ht. rewrite LI in H. destruct (P1 t i n Ht H) as (Hn & j & J1 & J2).
        split; [apply AC, Hn|]. exists j. rewrite LI. split; [exact J1|]. unfold shares. rewrite !CO. exact J2.
      + intros t i Ht H. apply AC in Ht. rewrite LI in H. rewrite LO, !CO. unfold joint. rewrite VS. apply (P2 t i Ht H).
      + intros v H. rewrite VS in H. destruct (P3 v H) as [l [Q1 Q2 Q3]]. exists l. constructor; [exact Q1| |].
        * clear - Q2 LI. revert Q2. generalize (@None nat) at 1 3. induction l as [|[u i] l IH]; intros p K; [exact I|].
          destruct K as (K1 & K2 & K3). cbn. rewrite !LI. auto.
        * intros t i. rewrite AC, CO. apply Q3.
      + intros t i Ht HI HS. apply AC in Ht. rewrite CO, ?VS in *. apply ST in HS. destruct (P4 t i Ht HI HS) as (u & j & K1 & K2).
        exists u, j. split; [apply LO, K1|]. unfold touches. rewrite !CO. exact K2.
    - intros H t i Ht HL. apply AC in Ht. rewrite LI in HL. rewrite VS, !CO. apply (H t i Ht HL).
  Qed.
End InitRing.
