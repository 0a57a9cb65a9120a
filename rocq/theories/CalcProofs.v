(** Proofs about Calc.v *)
From Coq Require Import Reals Lra Psatz Sorting.Sorted Permutation.
From Verif Require Import Base Arith ArithR Calc.

Section Generic.
  Context {A : Arith}.

  Lemma is_close_err a b rt at_ m :
    is_close a b rt at_ m = Err ValueError <->
    m = MUnknown \/ nltb rt n0 = true \/ nltb at_ n0 = true.
  Proof.
    unfold is_close. destruct m;
      destruct (nltb rt n0) eqn:E1, (nltb at_ n0) eqn:E2; simpl;
      try (split; [intros _; auto | reflexivity]);
      try (destruct (neqb a b)); split; intros H; try discriminate; auto;
      destruct H as [H|[H|H]]; discriminate.
  Qed.

  Lemma is_close_cases a b rt at_ m :
    (exists r, is_close a b rt at_ m = Ok r) \/ is_close a b rt at_ m = Err ValueError.
  Proof.
    unfold is_close. destruct m; destruct (nltb rt n0 || nltb at_ n0); eauto;
    destruct (neqb a b); eauto.
  Qed.

  Lemma is_close_refl (O : OrdArith A) a rt at_ m :
    is_close a a rt at_ m <> Err ValueError -> is_close a a rt at_ m = Ok true.
  Proof.
    unfold is_close. destruct m; try congruence;
    destruct (nltb rt n0 || nltb at_ n0); try congruence;
    rewrite (neqb_refl O); reflexivity.
  Qed.

  Lemma is_close_strong_weak a b rt at_ :
    is_close a b rt at_ MStrong = Ok true -> is_close a b rt at_ MWeak = Ok true.
  Proof.
    unfold is_close. destruct (nltb rt n0 || nltb at_ n0); [congruence|].
    destruct (neqb a b); [auto|].
    intros H. injection H as H. f_equal.
    apply orb_true_iff in H. apply orb_true_iff. destruct H as [H|H]; auto.
    left. apply andb_true_iff in H. apply orb_true_iff. tauto.
  Qed.
End Generic.

Section Real.
  Local Existing Instance RA.
  Local Open Scope R_scope.

  Lemma near_zero_R (v : R) : near_zero v = true <-> - / 10^10 <= v <= / 10^10.
  Proof.
    unfold near_zero. ra_simp. qlit.
    destruct (Reqb v 0) eqn:E; rb2p.
    - split; [intros _|reflexivity]. lra.
    - rewrite !orb_true_iff, !Rleb_true.
      replace (0 - v) with (- v) by lra. rewrite Rabs_Ropp.
      rewrite !Rabs_mult.
      rewrite (Rabs_right (/10^12)) by lra.
      rewrite !Rabs_R0.
      assert (Rabs v > 0) by (apply Rabs_pos_lt; lra).
      split.
      + intros [[H'|H']|H']; try (exfalso; lra).
        unfold Rabs in H'. destruct (Rcase_abs v); lra.
      + intros H'. right. unfold Rabs. destruct (Rcase_abs v); lra.
  Qed.

  Lemma near_zero_false_R (v : R) : near_zero v = false <-> Rabs v > / 10^10.
  Proof.
    rewrite <- not_true_iff_false, near_zero_R.
    unfold Rabs. destruct (Rcase_abs v); lra.
  Qed.

  Lemma near_zero_opp_R (v : R) : near_zero (- v) = near_zero v.
  Proof. apply eq_true_iff_eq. rewrite !near_zero_R. ra_simp; lra. Qed.

  Lemma near_zero_is_close (v : R) :
    is_close v 0 (/ 10^12) (/ 10^10) MWeak = Ok (near_zero v).
  Proof.
    unfold is_close, near_zero. ra_simp. qlit.
    destruct (Rltb (/ 10 ^ 12) 0) eqn:E; rb2p; [lra|].
    destruct (Rltb (/ 10 ^ 10) 0) eqn:F; rb2p; [lra|]. simpl orb.
    destruct (Reqb v 0); reflexivity.
  Qed.

  Lemma is_close_sym_R (a b rt at_ : R) m :
    m <> MAsymmetric -> is_close a b rt at_ m = is_close b a rt at_ m.
  Proof.
    intros Hm. unfold is_close. ra_simp.
    assert (Reqb a b = Reqb b a) as -> by (apply eq_true_iff_eq; rewrite !Reqb_true; split; auto).
    replace (Rabs (a - b)) with (Rabs (b - a)) by apply Rabs_minus_sym.
    rewrite (Rplus_comm b a).
    destruct m; try reflexivity; try congruence.
    - rewrite (andb_comm (Rleb _ (Rabs (rt * a)))). reflexivity.
    - rewrite (orb_comm (Rleb _ (Rabs (rt * a))) (Rleb _ (Rabs (rt * b)))). reflexivity.
  Qed.

  Lemma is_close_dist_R (a b rt at_ : R) m :
    is_close a b rt at_ m = Ok true ->
    Rabs (a - b) <= Rmax at_ (rt * Rmax (Rabs a) (Rabs b)).
  Proof.
    unfold is_close. ra_simp. qlit.
    pose proof (Rmax_l at_ (rt * Rmax (Rabs a) (Rabs b))).
    pose proof (Rmax_r at_ (rt * Rmax (Rabs a) (Rabs b))).
    pose proof (Rmax_l (Rabs a) (Rabs b)).
    pose proof (Rmax_r (Rabs a) (Rabs b)).
    pose proof (Rabs_pos a). pose proof (Rabs_pos b).
    rewrite (Rabs_minus_sym a b).
    assert (Hm : Rltb rt 0 || Rltb at_ 0 = false -> 
      (a = b -> Rabs (b - a) <= Rmax at_ (rt * Rmax (Rabs a) (Rabs b))) /\
      Rabs (rt * a) <= rt * Rmax (Rabs a) (Rabs b) /\
      Rabs (rt * b) <= rt * Rmax (Rabs a) (Rabs b) /\
      Rabs (rt * (a + b) * (/ 2)) <= rt * Rmax (Rabs a) (Rabs b)).
    { intros Hx. rb2p. assert (0 <= rt) by lra.
      rewrite !Rabs_mult. rewrite (Rabs_right rt) by lra. rewrite (Rabs_right (/ 2)) by lra.
      pose proof (Rabs_triang a b).
      split; [|split; [|split]]; [| nra | nra | nra].
      intros ->. rewrite Rminus_diag_eq by reflexivity. rewrite Rabs_R0.
      nra. }
    destruct m; try discriminate;
    (destruct (Rltb rt 0 || Rltb at_ 0) eqn:E; [discriminate|];
     destruct (Hm eq_refl) as (He & Ha & Hb & Hc);
     destruct (Reqb a b) eqn:F; [rb2p; auto|];
     intros K; injection K as K;
     rewrite ?orb_true_iff, ?andb_true_iff, ?orb_true_iff, ?Rleb_true in K;
     destruct K as [K|K]; try destruct K; lra).
  Qed.
End Real.

(** ** all_close_clusters *)
Section Clusters.
  Context {A : Arith}.
  Variable (at_ rt : num).

  (** the closeness test actually applied *)
  Definition cl (a b : num) : Prop := is_close a b at_ rt MAverage = Ok true.

  (** Specification: [out] is the selection from the sorted list [first :: l]
      that starts with [first]: every element skipped is close to the last one
      kept, every element kept is not close to the previous one kept. *)
  Inductive selects : num -> list num -> list num -> Prop :=
  | sel_nil f : selects f [] []
  | sel_skip f v l out : cl f v -> selects f l out -> selects f (v :: l) out
  | sel_keep f v l out : ~ cl f v -> selects v l out -> selects f (v :: l) (v :: out).

  Lemma clusters_loop_selects f l out :
    clusters_loop at_ rt f l = Ok out -> selects f l out.
  Proof.
    revert f out. induction l as [|v r IH]; simpl; intros f out H.
    - injection H as <-. constructor.
    - apply rbind_ok in H. destruct H as ([|] & Hc & H).
      + constructor; auto.
      + destruct (clusters_loop at_ rt v r) eqn:E; simpl in H; [|discriminate].
        injection H as <-. apply sel_keep; auto. unfold cl. rewrite Hc. discriminate.
  Qed.

  Lemma clusters_loop_total f l :
    nltb at_ n0 = false -> nltb rt n0 = false ->
    exists out, clusters_loop at_ rt f l = Ok out.
  Proof.
    intros H1 H2. revert f. induction l as [|v r IH]; simpl; intros f; eauto.
    destruct (is_close_cases f v at_ rt MAverage) as [[b Hb]|Hb].
    - rewrite Hb. simpl. destruct b; auto.
      destruct (IH v) as [o Ho]. rewrite Ho. simpl. eauto.
    - apply is_close_err in Hb. destruct Hb as [Hb|[Hb|Hb]]; congruence.
  Qed.

  Lemma selects_In f l out x : selects f l out -> In x out -> In x l.
  Proof. induction 1; simpl; intuition. Qed.

  Lemma selects_sorted f l out :
    (forall a b, cl a b \/ ~ cl a b) ->
    (forall a b, neqb a b = true -> cl a b) ->
    OrdArith A ->
    StronglySorted (leP nleb) (f :: l) -> selects f l out ->
    StronglySorted (fun a b => nltb a b = true) (f :: out).
  Proof.
    intros Hd Heq O Hs Hsel. induction Hsel as [f|f v l out Hc Hsel IH|f v l out Hc Hsel IH].
    - repeat constructor.
    - apply IH. inversion Hs as [|? ? Hs1 Hf1]; subst.
      inversion Hs1; subst. inversion Hf1; subst. constructor; auto.
    - inversion Hs as [|? ? Hs1 Hf1]; subst.
      specialize (IH Hs1).
      assert (Hfv : nltb f v = true).
      { inversion Hf1; subst. unfold leP in *.
        destruct (ntricho O f v) as [K|[K|K]]; [exact K|destruct (Hc (Heq _ _ K))|].
        rewrite (oa_ltb A O), negb_true_iff in K. congruence. }
      constructor; auto. constructor; auto.
      inversion IH; subst. rewrite Forall_forall in *. intros z Hz.
      eapply (nltb_trans O); eauto.
  Qed.

  (** every input is kept or close to a kept value *)
  Lemma selects_cover f l out x :
    selects f l out -> In x l -> In x out \/ exists y, In y (f :: out) /\ cl y x.
  Proof.
    induction 1 as [f|f v l out Hc Hsel IH|f v l out Hc Hsel IH]; simpl; [tauto| |].
    - intros [<-|Hx]; [right; exists f; auto|]. apply IH in Hx. exact Hx.
    - intros [<-|Hx]; [auto|]. apply IH in Hx. destruct Hx as [Hx|(y & [Hy|Hy] & Hc')].
      + auto.
      + right. exists y. split; auto.
      + right. exists y. split; auto.
  Qed.

  Fixpoint separated (l : list num) : Prop :=
    match l with
    | a :: ((b :: _) as r) => ~ cl a b /\ separated r
    | _ => True
    end.

  Lemma selects_separated f l out : selects f l out -> separated (f :: out).
  Proof.
    induction 1 as [f|f v l out Hc Hsel IH|f v l out Hc Hsel IH]; simpl; auto.
  Qed.
End Clusters.

(** The insertion sort result does not depend on the order of the input, for an
    arithmetic whose order is antisymmetric (e.g. the reals). *)
Lemma sorted_perm_unique {X} (le : X -> X -> Prop) l1 l2 :
  (forall a b, le a b -> le b a -> a = b) ->
  StronglySorted le l1 -> StronglySorted le l2 -> Permutation l1 l2 -> l1 = l2.
Proof.
  intros Ha H1. revert l2. induction H1 as [|x l1 H1 IH Hf]; intros l2 H2 Hp.
  - apply Permutation_nil in Hp. auto.
  - destruct H2 as [|y l2 H2 Hf2].
    + symmetry in Hp. apply Permutation_nil in Hp. discriminate.
    + assert (x = y).
      { assert (Hx : In x (y :: l2)) by (eapply Permutation_in; eauto; simpl; auto).
        assert (Hy : In y (x :: l1)) by (eapply Permutation_in; [symmetry; eauto|simpl; auto]).
        rewrite Forall_forall in *.
        destruct Hx as [Hx|Hx]; auto. destruct Hy as [Hy|Hy]; auto. }
      subst y. f_equal. apply IH; auto. eapply Permutation_cons_inv; eauto.
Qed.

(** ** groupby_cluster *)
Section Group.
  Context {A : Arith}.

  Lemma group_loop_concat prev c ct l :
    concat (group_loop prev c ct l) = c ++ seq ct (length l).
  Proof.
    revert prev c ct. induction l as [|x r IH]; simpl; intros prev c ct.
    - reflexivity.
    - destruct (near_pt prev x); simpl; rewrite IH; simpl.
      + rewrite <- app_assoc. reflexivity.
      + reflexivity.
  Qed.

  Lemma group_loop_nonempty prev c ct l g :
    c <> [] -> In g (group_loop prev c ct l) -> g <> [].
  Proof.
    revert prev c ct. induction l as [|x r IH]; simpl; intros prev c ct Hc.
    - intros [<-|[]]; auto.
    - destruct (near_pt prev x); simpl; intros Hi.
      + eapply IH; [|exact Hi]. destruct c; discriminate.
      + destruct Hi as [<-|Hi]; auto. eapply IH; [|exact Hi]. discriminate.
  Qed.
End Group.

(** Specification of the grouping: [gs] are the groups, given as index lists;
    [nth i L d] is the i-th input item. *)
Section GroupSpec.
  Context {A : Arith}.
  Definition leader (g : list nat) : nat := hd 0 g.
  (** members are near their leader *)
  Definition group_ok (L : list (num * num)) (d : num * num) (g : list nat) : Prop :=
    forall i, In i (tl g) -> near_pt (nth (leader g) L d) (nth i L d) = true.
  (** consecutive leaders are not near *)
  Fixpoint leaders_apart (L : list (num * num)) (d : num * num) (gs : list (list nat)) : Prop :=
    match gs with
    | g :: ((h :: _) as r) =>
        near_pt (nth (leader g) L d) (nth (leader h) L d) = false /\ leaders_apart L d r
    | _ => True
    end.

  Lemma group_loop_nonnil prev c n l : group_loop prev c n l <> [].
  Proof.
    revert prev c n. induction l as [|y r IH]; simpl; intros prev c n; [discriminate|].
    destruct (near_pt prev y); [apply IH|discriminate].
  Qed.

  Lemma group_loop_spec d pre prev c l :
    c <> [] -> nth (leader c) (pre ++ l) d = prev ->
    (forall i, In i (tl c) -> near_pt prev (nth i (pre ++ l) d) = true) ->
    Forall (group_ok (pre ++ l) d) (group_loop prev c (length pre) l) /\
    leaders_apart (pre ++ l) d (group_loop prev c (length pre) l) /\
    leader (hd [] (group_loop prev c (length pre) l)) = leader c.
  Proof.
    revert pre prev c. induction l as [|x r IH]; simpl; intros pre prev c Hc Hp Hn.
    - split; [|split]; auto. constructor; auto. unfold group_ok. rewrite Hp. auto.
    - assert (Hx : nth (length pre) (pre ++ x :: r) d = x) by (rewrite nth_middle; reflexivity).
      assert (El : S (length pre) = length (pre ++ [x])) by (rewrite app_length; simpl; lia).
      assert (Ea : pre ++ x :: r = (pre ++ [x]) ++ r) by (rewrite <- app_assoc; reflexivity).
      destruct (near_pt prev x) eqn:E.
      + rewrite El. rewrite Ea in *.
        destruct (IH (pre ++ [x]) prev (c ++ [length pre])) as (H1 & H2 & H3).
        * destruct c; discriminate.
        * destruct c; [congruence|]. exact Hp.
        * destruct c; [congruence|]. simpl. intros i Hi. apply in_app_or in Hi.
          destruct Hi as [Hi|[<-|[]]]; auto. rewrite Hx. exact E.
        * split; [|split]; auto. rewrite H3. destruct c; [congruence|reflexivity].
      + rewrite El. rewrite Ea in *.
        destruct (IH (pre ++ [x]) x [length pre]) as (H1 & H2 & H3).
        * discriminate.
        * exact Hx.
        * simpl. tauto.
        * assert (Hne : group_loop x [length pre] (length (pre ++ [x])) r <> []).
          { apply group_loop_nonnil. }
          destruct (group_loop x [length pre] (length (pre ++ [x])) r) as [|h t] eqn:Eg;
            [congruence|].
          split; [|split].
          -- constructor; auto. unfold group_ok. rewrite Hp. auto.
          -- simpl in H3. split; auto. rewrite Hp, H3. cbn [leader hd]. rewrite Hx. exact E.
          -- reflexivity.
  Qed.
End GroupSpec.

(** ** Clusters over the reals, in plain terms *)
Section ClustersR.
  Local Existing Instance RA.
  Local Open Scope R_scope.

  (** the closeness test all_close_clusters applies: tolerance [k] scaled by the
      average of the two values, or the absolute tolerance [e] *)
  Definition close_avg (k e a b : R) : Prop :=
    a = b \/ Rabs (b - a) <= Rabs (k * (a + b) / 2) \/ Rabs (b - a) <= e.

  Lemma cl_R (k e a b : R) : 0 <= k -> 0 <= e -> (cl k e a b <-> close_avg k e a b).
  Proof.
    intros Hk He. unfold cl, is_close, close_avg. ra_simp. qlit.
    destruct (Rltb k 0) eqn:E1; rb2p; [lra|]. destruct (Rltb e 0) eqn:E2; rb2p; [lra|].
    cbn [orb]. destruct (Reqb a b) eqn:E; rb2p.
    - split; auto.
    - unfold Rdiv. split.
      + intros H. injection H as H. apply orb_true_iff in H. rewrite !Rleb_true in H. auto.
      + intros [H|H]; [contradiction|]. f_equal. apply orb_true_iff. rewrite !Rleb_true. exact H.
  Qed.

  Lemma selects_cover_R (k e : R) f l out x :
    StronglySorted (leP Rleb) (f :: l) ->
    selects k e f l out -> In x (f :: l) ->
    exists y, In y (f :: out) /\ y <= x /\ (x = y \/ cl k e y x) /\
      forall z, In z (f :: out) -> z <= y \/ x <= z.
  Proof.
    intros Hs Hsel. revert x Hs.
    induction Hsel as [f|f v l out Hc Hsel IH|f v l out Hc Hsel IH]; intros x Hs Hx.
    - destruct Hx as [<-|[]]. exists f. simpl. repeat split; auto; try lra.
      intros z [<-|[]]. left. lra.
    - inversion Hs as [|? ? Hs1 Hf1]; subst. inversion Hs1 as [|? ? Hs2 Hf2]; subst.
      inversion Hf1 as [|? ? Hfv Hf3]; subst.
      assert (Hs' : StronglySorted (leP Rleb) (f :: l)) by (constructor; auto).
      destruct Hx as [<-|[<-|Hx]].
      + apply IH; simpl; auto.
      + exists f. unfold leP in *. rb2p. split; [simpl; auto|]. split; [lra|]. split; [auto|].
        intros z [<-|Hz]; [left; lra|].
        right. apply (@selects_In RA _ _ _ _ _ z Hsel) in Hz.
        rewrite Forall_forall in Hf2. specialize (Hf2 z Hz). cbv beta in Hf2. rb2p. exact Hf2.
      + apply IH; simpl; auto.
    - inversion Hs as [|? ? Hs1 Hf1]; subst.
      inversion Hf1 as [|? ? Hfv Hf3]; subst. unfold leP in Hfv. rb2p.
      destruct Hx as [<-|Hx].
      + exists f. split; [simpl; auto|]. split; [lra|]. split; [auto|].
        intros z [<-|[<-|Hz]]; [left; lra|right; exact Hfv|right].
        apply (@selects_In RA _ _ _ _ _ z Hsel) in Hz.
        rewrite Forall_forall in Hf3. specialize (Hf3 z Hz). cbv beta in Hf3. unfold leP in Hf3. rb2p. exact Hf3.
      + destruct (IH x Hs1 Hx) as (y & Hy & Hyx & Hcl & Hg).
        exists y. split; [simpl; auto|]. split; [exact Hyx|]. split; [exact Hcl|].
        intros z [<-|Hz]; [|apply Hg, Hz].
        left. assert (v <= y); [|lra].
        destruct Hy as [<-|Hy]; [lra|].
        apply (@selects_In RA _ _ _ _ _ y Hsel) in Hy.
        inversion Hs1 as [|? ? Hs2 Hf2]; subst.
        rewrite Forall_forall in Hf2. specialize (Hf2 y Hy). cbv beta in Hf2. unfold leP in Hf2. rb2p. exact Hf2.
  Qed.

  Lemma isort_R_sorted (l : list R) : StronglySorted (leP Rleb) (isort nleb l).
  Proof. apply isort_sorted; [apply (oa_total _ RA_ord)|apply (oa_trans _ RA_ord)]. Qed.

  (** consecutive elements are not close *)
  Fixpoint apart (k e : R) (l : list R) : Prop :=
    match l with
    | a :: ((b :: _) as r) => ~ close_avg k e a b /\ apart k e r
    | _ => True
    end.

  Definition clusters_spec (k e : R) (L out : list R) : Prop :=
    StronglySorted Rlt out /\
    (forall x, In x out -> In x L) /\
    (exists m, hd_error out = Some m /\ forall x, In x L -> m <= x) /\
    apart k e out /\
    (forall x, In x L ->
       exists y, In y out /\ y <= x /\ close_avg k e y x /\
                 forall z, In z out -> z <= y \/ x <= z).

  Lemma clusters_of_sorted_spec (k e : R) (L : list R) :
    0 <= k -> 0 <= e -> L <> [] ->
    exists out, clusters_of_sorted k e (isort nleb L) = Ok out /\ clusters_spec k e L out.
  Proof.
    intros Hk He HL. pose proof (isort_R_sorted L) as HS.
    assert (HP : forall x, In x (isort nleb L) <-> In x L) by (intros; apply In_isort).
    destruct (isort nleb L) as [|f l] eqn:E.
    { exfalso. destruct L as [|a r]; [congruence|]. destruct (proj2 (HP a)). simpl; auto. }
    unfold clusters_of_sorted.
    destruct (@clusters_loop_total RA k e f l) as [out Ho].
    { ra_simp. qlit. rb2p. exact Hk. }
    { ra_simp. qlit. rb2p. exact He. }
    rewrite Ho. simpl rmap. exists (f :: out). split; [reflexivity|].
    apply clusters_loop_selects in Ho.
    assert (Hd : forall a b : @num RA, cl k e a b \/ ~ cl k e a b).
    { intros a b. unfold cl. destruct (is_close a b k e MAverage) as [[|]|]; auto; right; discriminate. }
    assert (Heq : forall a b : @num RA, neqb a b = true -> cl k e a b).
    { intros a b K. ra_simp. rb2p. apply cl_R; auto. left. exact K. }
    unfold clusters_spec. split; [|split; [|split; [|split]]].
    - pose proof (selects_sorted k e f l out Hd Heq RA_ord HS Ho) as K.
      clear - K. induction K; constructor; auto.
      rewrite Forall_forall in *. intros x Hx. specialize (H x Hx). simpl in H. rb2p. exact H.
    - intros x Hx. apply HP. destruct Hx as [<-|Hx]; [simpl; auto|]. right.
      eapply selects_In; eauto.
    - exists f. split; [reflexivity|]. intros x Hx. apply HP in Hx.
      inversion HS as [|? ? Hs1 Hf1]; subst. destruct Hx as [<-|Hx]; [lra|].
      rewrite Forall_forall in Hf1. specialize (Hf1 x Hx). cbv beta in Hf1. unfold leP in Hf1. rb2p. exact Hf1.
    - pose proof (selects_separated k e f l out Ho) as K.
      clear - K Hk He. revert f K. induction out as [|b r IH]; intros f K; simpl in *; auto.
      destruct K as [K1 K2]. split; [|apply IH, K2].
      intros K. apply K1. apply cl_R; auto.
    - intros x Hx. apply HP in Hx.
      destruct (selects_cover_R k e f l out x HS Ho Hx) as (y & Hy & Hyx & Hc & Hg).
      exists y. split; [exact Hy|]. split; [exact Hyx|]. split; [|exact Hg].
      destruct Hc as [->|Hc]; [left; reflexivity|]. apply cl_R in Hc; auto.
  Qed.

  Lemma all_close_clusters_perm (k e : R) (L L' : list R) :
    Permutation L L' -> all_close_clusters L k e = all_close_clusters L' k e.
  Proof.
    intros HP. assert (isort nleb L = isort nleb L') as E.
    { apply (sorted_perm_unique (leP Rleb)).
      - unfold leP. intros a b H1 H2. rb2p. lra.
      - apply isort_R_sorted.
      - apply isort_R_sorted.
      - rewrite <- !isort_perm. exact HP. }
    unfold all_close_clusters. rewrite E. destruct L, L'; auto.
    - apply Permutation_nil in HP. discriminate.
    - symmetry in HP. apply Permutation_nil in HP. discriminate.
  Qed.

  Lemma clusters_keep_tiny (x : R) : 0 < x ->
    all_close_clusters [0; x] (/ 10^7) 0 = Ok [0; x].
  Proof.
    intros Hx. unfold all_close_clusters, isort, insert. ra_simp.
    destruct (Rleb 0 x) eqn:E; rb2p; [|lra].
    cbn [clusters_of_sorted clusters_loop].
    assert (is_close 0 x (/ 10^7) 0 MAverage = Ok false) as ->.
    { unfold is_close. ra_simp. qlit.
      destruct (Rltb _ 0) eqn:E1; rb2p; [lra|]. destruct (Rltb 0 0) eqn:E2; rb2p; [lra|].
      cbn [orb]. destruct (Reqb 0 x) eqn:E3; rb2p; [lra|].
      f_equal. apply orb_false_iff. rewrite !Rleb_false.
      rewrite Rabs_right by lra. rewrite Rabs_right by lra. lra. }
    reflexivity.
  Qed.
End ClustersR.
