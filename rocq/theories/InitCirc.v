(** The circular lists of init_skeleton (initialize.py 589-605) are consistent. *)
From Coq Require Import Permutation.
From Verif Require Import Base Arith Calc VectorOps Line2d Primitives Initialize StarProofs InitProofs InitState.

Section Circ.
  Context {A : Arith} {E : Env A}.
  Variable d : dtriang (A:=A).
  Notation edge := (nat * side)%type.

  (** what StarEdgeIterator delivers: corners that are at the vertex, none twice *)
  Definition stars_right : Prop :=
    forall v, v < dt_nv d -> NoDup (dt_star d v) /\
      forall t sd, In (t, sd) (dt_star d v) -> get3 (d_v (dt_t d t)) sd = Some v.

  Lemma star_groups_concat r : forall g, concat (star_groups d r g) = g ++ r.
  Proof.
    induction r as [|[t s] r IH]; intros g; cbn [star_groups].
    - destruct g as [|x g]; [reflexivity|]. cbn. reflexivity.
    - destruct (constrained d t (ccw s)); cbn [concat]; rewrite IH, <- ?app_assoc; reflexivity.
  Qed.
  Lemma split_star_perm v gs : split_star d v = Ok gs -> Permutation (dt_star d v) (concat gs).
  Proof.
    unfold split_star. pose proof (star_groups_concat (dt_star d v) []) as C. cbn [app] in C.
    destruct (Nat.leb _ 1); [intros H; injection H as <-; rewrite C; reflexivity|].
    intros H. apply rbind_ok in H. destruct H as (gs' & M & H).
    apply rbind_ok in H. destruct H as (u & _ & H). injection H as <-.
    rewrite <- C. clear C. revert M. generalize (star_groups d (dt_star d v) []). intros [|[|[t s] g] rest]; cbn [star_merge]; try discriminate.
    destruct (constrained d t (cw s)). { intros M. injection M as <-. reflexivity. }
    intros M. injection M as <-. destruct rest as [|x rest] using rev_ind; [reflexivity|]. clear IHrest.
    rewrite last_last, removelast_last. cbn [concat]. rewrite concat_app. cbn [concat]. rewrite app_nil_r.
    rewrite <- app_assoc. rewrite (app_assoc ((t, s) :: g)). apply Permutation_app_comm.
  Qed.

  Lemma all_groups_in i v g : nth_error (all_groups d) i = Some (v, g) ->
    v < dt_nv d /\ In g (groups_of d v) /\ forall e, In e g -> In e (dt_star d v).
  Proof.
    intros H. apply nth_error_In in H. unfold all_groups in H. apply in_flat_map in H. destruct H as (w & Hw & H).
    apply in_map_iff in H. destruct H as (h & K & H). injection K as -> ->. apply in_seq in Hw.
    split; [lia|]. split; [exact H|]. intros e He. unfold groups_of in H. destruct (split_star d v) as [gs|] eqn:S; [|destruct H].
    apply split_star_perm in S. eapply Permutation_in; [symmetry; exact S|]. apply in_concat. exists g. auto.
  Qed.

  Lemma concat_distinct {X} (l : list (list X)) : NoDup (concat l) -> forall i j g h e,
    nth_error l i = Some g -> nth_error l j = Some h -> In e g -> In e h -> i = j.
  Proof.
    induction l as [|x l IH]; intros N i j g h e Hi Hj Eg Eh; [destruct i; discriminate|].
    cbn [concat] in N.
    assert (D : forall e, In e x -> In e (concat l) -> False).
    { clear - N. induction x as [|y x IHx]; intros e; [intros []|]. cbn in N. apply NoDup_cons_iff in N. destruct N as [N1 N2].
      intros [<-|He] C; [apply N1, in_or_app; right; exact C|]. eapply IHx; eauto. }
    assert (N' : NoDup (concat l)) by (clear - N; induction x as [|y x IHx]; [exact N|]; cbn in N; apply NoDup_cons_iff in N; apply IHx, N).
    destruct i as [|i], j as [|j]; cbn in Hi, Hj; [reflexivity| | |].
    - injection Hi as <-. destruct (D e Eg). apply in_concat. exists h. split; [eapply nth_error_In; eauto|exact Eh].
    - injection Hj as <-. destruct (D e Eh). apply in_concat. exists g. split; [eapply nth_error_In; eauto|exact Eg].
    - f_equal. eapply IH; eauto.
  Qed.

  Lemma all_groups_distinct : stars_right -> NoDup (concat (map snd (all_groups d))).
  Proof.
    intros W. unfold all_groups.
    assert (G : forall l, (forall v, In v l -> v < dt_nv d) -> NoDup l ->
      NoDup (concat (map snd (flat_map (fun v => map (pair v) (groups_of d v)) l)))).
    { induction l as [|v l IH]; intros B N; cbn; [constructor|]. apply NoDup_cons_iff in N. destruct N as [N1 N2].
      rewrite map_app, concat_app, map_map. cbn. rewrite map_id.
      destruct (W v (B v (or_introl eq_refl))) as [W1 W2].
      assert (P : forall v e, In e (concat (groups_of d v)) -> In e (dt_star d v)).
      { intros w e. unfold groups_of. destruct (split_star d w) eqn:S; [|intros []]. apply split_star_perm in S.
        intros K. eapply Permutation_in; [symmetry; exact S|exact K]. }
      assert (NA : forall (a b : list edge), NoDup a -> NoDup b -> (forall e, In e a -> In e b -> False) -> NoDup (a ++ b)).
      { clear. induction a as [|x a IH]; intros b Na Nb D; [exact Nb|]. apply NoDup_cons_iff in Na. destruct Na as [N1 N2].
        cbn. constructor.
        - intros K. apply in_app_or in K. destruct K as [K|K]; [exact (N1 K)|]. apply (D x); [left; reflexivity|exact K].
        - apply IH; auto. intros e H1 H2. apply (D e); [right; exact H1|exact H2]. }
      apply NA.
      - unfold groups_of. destruct (split_star d v) eqn:S; [|constructor]. apply split_star_perm in S.
        eapply Permutation_NoDup; [exact S|exact W1].
      - apply IH; [intros w Hw; apply B; right; exact Hw|exact N2].
      - intros [t sd] E1 E2. apply P in E1. apply W2 in E1. apply in_concat in E2. destruct E2 as (g & Hg & E2).
        apply in_map_iff in Hg. destruct Hg as ([w h] & <- & Hg). apply in_flat_map in Hg. destruct Hg as (w' & Hw & Hg).
        apply in_map_iff in Hg. destruct Hg as (h' & K & Hg). injection K as -> ->. cbn in E2.
        assert (E3 : In (t, sd) (concat (groups_of d w))) by (apply in_concat; exists h; auto).
        apply P in E3. apply (proj2 (W w (B w (or_intror Hw)))) in E3. congruence. }
    apply G; [intros v Hv; apply in_seq in Hv; lia|apply seq_NoDup].
  Qed.

  Lemma group_unique i j v w g h e : stars_right -> nth_error (all_groups d) i = Some (v, g) ->
    nth_error (all_groups d) j = Some (w, h) -> In e g -> In e h -> i = j.
  Proof.
    intros W Hi Hj. apply (concat_distinct (map snd (all_groups d)) (all_groups_distinct W)).
    - rewrite nth_error_map, Hi. reflexivity.
    - rewrite nth_error_map, Hj. reflexivity.
  Qed.

  Lemma wf_index_inj t s t' s' : wf_index t s = wf_index t' s' -> t = t' /\ s = s'.
  Proof. unfold wf_index. destruct s, s'; cbn [side_nat]; intros H; (split; [lia|]); try reflexivity; exfalso; lia. Qed.
  Lemma ccw_inj a b : ccw a = ccw b -> a = b. Proof. destruct a, b; cbn; congruence. Qed.
  Lemma cw_inj a b : cw a = cw b -> a = b. Proof. destruct a, b; cbn; congruence. Qed.
  Lemma last_In {X} (l : list X) x : l <> [] -> In (last l x) l.
  Proof.
    induction l as [|y l IH]; [congruence|]. intros _. destruct l as [|z l]; [left; reflexivity|]. right. apply IH. discriminate.
  Qed.
  Lemma hd_In {X} (l : list X) x : l <> [] -> In (hd x l) l.
  Proof. destruct l; [congruence|]. left. reflexivity. Qed.

  Lemma kleft_linked tv l (k : kvertex (A:=A)) : k_left k = [] -> kleft (linked_kv tv l k) = get3 (tv (fst (l_left l))) (snd (l_left l)).
  Proof. intros H. unfold kleft, linked_kv. cbn. rewrite H. reflexivity. Qed.
  Lemma kright_linked tv l (k : kvertex (A:=A)) : k_right k = [] -> kright (linked_kv tv l k) = get3 (tv (fst (l_right l))) (snd (l_right l)).
  Proof. intros H. unfold kright, linked_kv. cbn. rewrite H. reflexivity. Qed.

  Theorem init_circular s : init_skeleton d = Ok s -> stars_right ->
    forall v, In v (sk_vertices s) -> exists l r, In l (sk_vertices s) /\ In r (sk_vertices s) /\
      k_left (vs s v) = [(n0, None, Some l)] /\ k_right (vs s v) = [(n0, None, Some r)] /\
      k_right (vs s l) = [(n0, None, Some v)] /\ k_left (vs s r) = [(n0, None, Some v)] /\
      k_wfr (vs s l) = k_wfl (vs s v) /\ k_wfl (vs s r) = k_wfr (vs s v) /\
      exists a b, k_wfl (vs s v) = Some a /\ k_wfr (vs s v) = Some b.
  Proof.
    intros HI W. destruct (init_skeleton_parts d s HI) as (cpos & ti & b & kvs & ls & un & P).
    destruct (init_vertices_built d ti b (pa_b _ _ _ _ _ _ _ _ P)) as [B _].
    destruct (links_built d ti b B) as [L1 L2]. rewrite <- (pa_kvs _ _ _ _ _ _ _ _ P) in L1, L2.
    destruct (pa_s _ _ _ _ _ _ _ _ P) as (_ & s1 & _ & _ & ES).
    assert (VS : forall i, vs s i = nth i kvs (inf_vertex cpos)) by (intros i; rewrite ES; reflexivity).
    assert (SK : forall i, In i (sk_vertices s) <-> i < length (all_groups d)).
    { intros i. rewrite ES. cbn. rewrite in_seq, L1. lia. }
    pose proof (corner_lt d ti b (pa_b _ _ _ _ _ _ _ _ P)) as CL.
    (* one vertex *)
    assert (V : forall i, i < length (all_groups d) -> exists v g l r, nth_error (all_groups d) i = Some (v, g) /\ g <> [] /\
      l < length (all_groups d) /\ r < length (all_groups d) /\
      k_left (vs s i) = [(n0, None, Some l)] /\ k_right (vs s i) = [(n0, None, Some r)] /\
      k_wfl (vs s i) = side_index (left_side g) /\ k_wfr (vs s i) = side_index (right_side g) /\
      k_wfr (vs s l) = k_wfl (vs s i) /\ k_wfl (vs s r) = k_wfr (vs s i)).
    { intros i Hi. destruct (nth_error (all_groups d) i) as [[v g]|] eqn:N; [|apply nth_error_None in N; lia].
      destruct (L2 i v g N) as (k & K1 & K2 & K3).
      assert (C : check_links (fun i => nth i kvs (inf_vertex cpos)) (link_for i g) = Ok tt).
      { apply (pa_links _ _ _ _ _ _ _ _ P). rewrite (bl_links _ _ _ _ B). apply in_map_iff. exists (i, (v, g)).
        split; [reflexivity|]. apply combine_nth_error. exact N. }
      assert (K4 : nth i kvs (inf_vertex cpos) = linked_kv (b_tv b) (link_for i g) k) by (apply nth_error_nth; exact K3).
      destruct K1 as (lw & rw & bi & node & info & K). destruct K as (NE & _ & _ & _ & _ & _ & _ & EK). cbn [fst snd] in *.
      unfold check_links in C. cbn [l_kv link_for] in C. rewrite K4 in C.
      rewrite kleft_linked, kright_linked in C by (rewrite EK; reflexivity).
      apply rbind_ok in C. destruct C as (l & C1 & C).
      apply rbind_ok in C. destruct C as ([] & C2 & C). apply rassert_ok in C2. rewrite onat_eqb_eq in C2.
      apply rbind_ok in C. destruct C as (r & C3 & C).
      apply rbind_ok in C. destruct C as ([] & C4 & C). apply rassert_ok in C4. rewrite onat_eqb_eq in C4.
      set (lk := link_for i g) in *.
      destruct (get3 (b_tv b (fst (l_left lk))) (snd (l_left lk))) as [l'|] eqn:G1; [|discriminate]. injection C1 as ->.
      destruct (get3 (b_tv b (fst (l_right lk))) (snd (l_right lk))) as [r'|] eqn:G2; [|discriminate]. injection C3 as ->.
      exists v, g, l, r. split; [reflexivity|]. split; [exact NE|]. split; [eapply CL; eauto|]. split; [eapply CL; eauto|].
      rewrite !VS, K4. unfold linked_kv. rewrite G1, G2. rewrite EK. cbn. rewrite EK in C2, C4. cbn in C2, C4.
      repeat split; auto. }
    intros v Hv. apply SK in Hv. destruct (V v Hv) as (x & g & l & r & N & NE & Hl & Hr & KL & KR & WL & WR & EL & ER).
    exists l, r. rewrite !SK. split; [exact Hl|]. split; [exact Hr|]. split; [exact KL|]. split; [exact KR|].
    assert (J1 : k_right (vs s l) = [(n0, None, Some v)]).
    { destruct (V l Hl) as (y & h & l' & r' & N' & NE' & _ & Hr' & _ & KR' & _ & WR' & _ & ER').
      destruct (V r' Hr') as (z & f & l2 & r2 & N2 & NE2 & _ & _ & _ & _ & WL2 & _).
      rewrite KR'. do 3 f_equal.
      assert (I : side_index (left_side f) = side_index (left_side g)) by congruence.
      unfold side_index, left_side in I. injection I as I. apply wf_index_inj in I. cbn in I. destruct I as [I1 I2].
      apply ccw_inj in I2. f_equal.
      assert (EQ : last f (0, S0) = last g (0, S0)) by (destruct (last f (0, S0)), (last g (0, S0)); cbn in *; congruence).
      eapply (group_unique r' v z x f g (last g (0, S0))); eauto; [rewrite <- EQ|]; apply last_In; assumption. }
    assert (J2 : k_left (vs s r) = [(n0, None, Some v)]).
    { destruct (V r Hr) as (y & h & l' & r' & N' & NE' & Hl' & _ & KL' & _ & WL' & _ & EL' & _).
      destruct (V l' Hl') as (z & f & l2 & r2 & N2 & NE2 & _ & _ & _ & _ & _ & WR2 & _).
      rewrite KL'. do 3 f_equal.
      assert (I : side_index (right_side f) = side_index (right_side g)) by congruence.
      unfold side_index, right_side in I. injection I as I. apply wf_index_inj in I. cbn in I. destruct I as [I1 I2].
      apply cw_inj in I2. f_equal.
      assert (EQ : hd (0, S0) f = hd (0, S0) g) by (destruct (hd (0, S0) f), (hd (0, S0) g); cbn in *; congruence).
      eapply (group_unique l' v z x f g (hd (0, S0) g)); eauto; [rewrite <- EQ|]; apply hd_In; assumption. }
    split; [exact J1|]. split; [exact J2|]. split; [exact EL|]. split; [exact ER|].
    rewrite WL, WR. unfold side_index. eauto.
  Qed.
End Circ.
