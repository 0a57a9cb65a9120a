(** Property theorems about the building blocks of the event handlers:
    stop_kvertices, the neighbour histories, update_circ, Skeleton.segments and
    schedule_immediately. *)
From Coq Require Import Reals Lra Sorting.Sorted.
From Verif Require Import Base Arith ArithR ArithQ Calc VectorOps Transform Line2d Primitives Collapse EventsLib
  EdgeEvent EventLoop Pass OpSpec StopSpec RunBase RunTimed RunLoop HistProofs Scenario ScenarioRun.

(** ** C35 *)
Section C35.
  Context {A : Arith} {E : Env A}.

  (** a vertex that stop_kvertices can reuse a node of: it was stopped before,
      or it started (within the tolerance) at this moment *)
  Definition has_node_at (now : num) (kv : kvertex) : Prop :=
    k_stops kv <> None \/ exists a, k_starts kv = Some a /\ near_zero (nsub a now) = true.
  (** what every run guarantees of its vertices (C36, C37) *)
  Definition proper (kv : kvertex) : Prop :=
    (k_stops kv = None <-> k_stop_node kv = None) /\ k_start_node kv <> None.

  Lemma anchored_iff now kv : anchored now kv = true <-> has_node_at now kv.
  Proof.
    unfold anchored, has_node_at. rewrite orb_true_iff. split.
    - intros [H|H].
      + left. destruct (k_stops kv); [discriminate|discriminate].
      + right. destruct (k_starts kv); [eauto|discriminate].
    - intros [H|(a & H & K)].
      + left. destruct (k_stops kv); [reflexivity|congruence].
      + right. rewrite H. exact K.
  Qed.
  Lemma anchor_some now kv : proper kv -> anchored now kv = true -> anchor kv <> None.
  Proof.
    unfold anchor. intros [P1 P2] H. destruct (k_stops kv) eqn:K; [|exact P2].
    simpl. intros C. apply P1 in C. discriminate.
  Qed.
  Lemma last_anchor_none now s : forall V acc, (forall v, In v V -> proper (vs s v)) ->
    last_anchor now s V acc = None ->
    acc = None /\ forall v, In v V -> anchored now (vs s v) = false.
  Proof.
    induction V as [|v V IH]; intros acc P H; [split; [exact H|intros v []]|].
    unfold last_anchor in H. cbn in H. fold (last_anchor now s V) in H.
    apply IH in H; [|intros; apply P; simpl; auto]. destruct H as [H1 H2].
    destruct (anchored now (vs s v)) eqn:An.
    - exfalso. apply (anchor_some now (vs s v)); auto. apply P. simpl. auto.
    - split; [exact H1|]. intros w [<-|Hw]; auto.
  Qed.
  Lemma last_anchor_not now s : forall V acc, (forall v, In v V -> anchored now (vs s v) = false) ->
    last_anchor now s V acc = acc.
  Proof.
    induction V as [|v V IH]; intros acc P; [reflexivity|].
    unfold last_anchor. cbn. rewrite P by (simpl; auto). apply IH. intros; apply P; simpl; auto.
  Qed.
  Lemma last_anchor_some now s n : forall V acc, last_anchor now s V acc = Some n -> acc <> Some n ->
    exists v, In v V /\ anchored now (vs s v) = true /\ anchor (vs s v) = Some n.
  Proof.
    induction V as [|v V IH]; intros acc H N; [cbn in H; congruence|].
    unfold last_anchor in H. cbn in H. fold (last_anchor now s V) in H.
    destruct (anchored now (vs s v)) eqn:An.
    - destruct (option_map (Nat.eqb n) (anchor (vs s v))) as [[|]|] eqn:K.
      + destruct (anchor (vs s v)) as [m|] eqn:Am; [|discriminate]. injection K as K. apply Nat.eqb_eq in K. subst m.
        exists v. simpl. auto.
      + apply IH in H.
        * destruct H as (w & Hw & K'). exists w. simpl. auto.
        * intros C. rewrite C in K. cbn in K. rewrite Nat.eqb_refl in K. discriminate.
      + apply IH in H.
        * destruct H as (w & Hw & K'). exists w. simpl. auto.
        * destruct (anchor (vs s v)); [discriminate|congruence].
    - apply IH in H; [|exact N]. destruct H as (w & Hw & K'). exists w. simpl. auto.
  Qed.
End C35.

Theorem C35_stop_kvertices :
  forall (A : Arith) (E : Env A) V step now pos s n new s',
  stop_kvertices V step now pos s = Ok ((n, new), s') ->
  NoDup V -> (forall v, In v V -> proper (vs s v)) ->
  (forall v, In v V -> k_stop_node (vs s' v) = Some n /\ k_stops (vs s' v) = Some now) /\
  (new = true <-> forall v, In v V -> ~ has_node_at now (vs s v)) /\
  (new = true -> n = nn s /\ sn_step (ns s' n) = step /\
     match pos with
     | Some p => sn_pos (ns s' n) = p
     | None => exists ps, Forall2 (fun v p => position_at s v now = Ok p) V ps /\
         pdiv (fold_left nadd (map fst ps) n0) (nofnat (length V)) = Ok (fst (sn_pos (ns s' n))) /\
         pdiv (fold_left nadd (map snd ps) n0) (nofnat (length V)) = Ok (snd (sn_pos (ns s' n)))
     end) /\
  (new = false -> exists v, In v V /\ has_node_at now (vs s v) /\
     (k_stops (vs s v) <> None -> k_stop_node (vs s v) = Some n) /\
     (k_stops (vs s v) = None -> k_start_node (vs s v) = Some n)) /\
  (forall m, m < nn s -> ns s' m = ns s m) /\
  (forall v, ~ In v V -> vs s' v = vs s v) /\
  (forall v, same_motion (vs s v) (vs s' v) /\ k_left (vs s' v) = k_left (vs s v) /\
     k_right (vs s' v) = k_right (vs s v)) /\
  (ts s' = ts s /\ es s' = es s /\ sk_nodes s' = sk_nodes s /\ sk_vertices s' = sk_vertices s /\
   queue s' = queue s /\ immediate s' = immediate s).
Proof.
  intros A E V step now pos s n new s' H N P.
  apply stop_kvertices_spec in H. destruct H as (_ & HL & H). specialize (HL N).
  assert (NEW : new = true <-> forall v, In v V -> ~ has_node_at now (vs s v)).
  { split.
    - intros ->. apply last_anchor_none in HL; [|exact P]. destruct HL as [_ HL].
      intros v Hv C. apply anchored_iff in C. rewrite HL in C by exact Hv. discriminate.
    - intros Hn. destruct new; [reflexivity|]. rewrite last_anchor_not in HL; [discriminate|].
      intros v Hv. destruct (anchored now (vs s v)) eqn:An; [|reflexivity].
      apply anchored_iff in An. exfalso. eapply Hn; eauto. }
  destruct new.
  - destruct H as (-> & p & f & -> & F & Ft & Fp).
    assert (An : forall v, In v V -> anchored now (vs s v) = false).
    { intros v Hv. apply last_anchor_none in HL; [|exact P]. apply HL, Hv. }
    assert (Fv : forall v, In v V -> f v = kv_stop_node (kv_stops (vs s v) (Some now)) (Some (nn s))).
    { intros v Hv. rewrite F. apply mem_In in Hv as Hm. rewrite Hm. unfold scanned. rewrite Hm, (An v Hv). reflexivity. }
    assert (Fo : forall v, ~ In v V -> f v = vs s v).
    { intros v Hv. rewrite F. destruct (mem Nat.eqb v V) eqn:Mv; [|reflexivity]. apply mem_In in Mv. contradiction. }
    split; [intros v Hv; cbn; rewrite (Fv v Hv); auto|].
    split; [exact NEW|]. split; [|split; [discriminate|split; [|split; [exact Fo|split]]]].
    + intros _. split; [reflexivity|]. cbn. rewrite upd_same. split; [reflexivity|]. cbn.
      destruct pos; [exact Fp|]. destruct Fp as (f' & Ff & Fp). unfold mean_position in Fp.
      apply rbind_ok in Fp. destruct Fp as (ps & Hps & Fp).
      apply rbind_ok in Fp. destruct Fp as (x & Hx & Fp). apply rbind_ok in Fp. destruct Fp as (y & Hy & Fp).
      injection Fp as <-. exists ps.
      assert (LF : Forall2 (fun v p => position_at s v now = Ok p) V ps).
      { assert (PP : forall v, position_at (with_vs s f') v now = position_at s v now).
        { intros v. unfold position_at. cbn. rewrite Ff. unfold scanned. destruct (_ && _); reflexivity. }
        clear - Hps PP. revert ps Hps. induction V as [|v V IH]; intros ps H; cbn in H.
        - injection H as <-. constructor.
        - apply rbind_ok in H. destruct H as (q & Hq & H). apply rbind_ok in H. destruct H as (qs & Hqs & H).
          injection H as <-. constructor; [rewrite <- PP; exact Hq|auto]. }
      split; [exact LF|].
      assert (Ll : length ps = length V) by (clear - LF; induction LF; simpl; congruence).
      assert (FM : forall (g : pt -> num) l a, fold_left nadd (map g l) a = fold_left (fun a p => nadd a (g p)) l a).
      { intros g. induction l as [|q l IH]; intros a; cbn; auto. }
      rewrite !FM, <- Ll. cbn. auto.
    + intros m Hm. cbn. apply upd_other. lia.
    + intros v. cbn. rewrite F. unfold scanned.
      destruct (mem Nat.eqb v V); cbn; [destruct (negb _)|]; repeat split.
    + repeat split.
  - destruct H as (f & -> & _ & F).
    assert (Fv : forall v, In v V -> f v = stopped_kv (vs s v) n now).
    { intros v Hv. rewrite F. apply mem_In in Hv. rewrite Hv. reflexivity. }
    assert (Fo : forall v, ~ In v V -> f v = vs s v).
    { intros v Hv. rewrite F. destruct (mem Nat.eqb v V) eqn:Mv; [|reflexivity]. apply mem_In in Mv. contradiction. }
    split; [intros v Hv; cbn; rewrite (Fv v Hv); auto|].
    split; [exact NEW|]. split; [discriminate|]. split; [|split; [reflexivity|split; [exact Fo|split]]].
    + intros _. apply last_anchor_some in HL; [|discriminate]. destruct HL as (v & Hv & K1 & K2).
      exists v. split; [exact Hv|]. split; [apply anchored_iff, K1|]. unfold anchor in K2.
      destruct (k_stops (vs s v)); cbn in K2; split; intros; congruence.
    + intros v. cbn. rewrite F. destruct (mem Nat.eqb v V); repeat split.
    + repeat split.
Qed.
Print Assumptions C35_stop_kvertices.

(** over the reals: the mean *)
Theorem C35_mean :
  forall (E : Env RA) V step (now : R) s n s',
  stop_kvertices V step (now : @num RA) None s = Ok ((n, true), s') ->
  NoDup V -> (forall v, In v V -> proper (vs s v)) ->
  exists ps : list (R * R), Forall2 (fun v p => position_at s v (now : @num RA) = Ok p) V ps /\
    (fst (sn_pos (ns s' n)) * INR (length V) = fold_right Rplus 0 (map fst ps) /\
     snd (sn_pos (ns s' n)) * INR (length V) = fold_right Rplus 0 (map snd ps))%R.
Proof.
  intros E V step now s n s' H N P. apply (C35_stop_kvertices RA E) in H; [|exact N|exact P].
  destruct H as (_ & _ & H & _). destruct (H eq_refl) as (_ & _ & ps & HF & Hx & Hy). clear H.
  exists ps. split; [exact HF|].
  assert (FL : forall l a, fold_left Rplus l a = (a + fold_right Rplus 0 l)%R).
  { induction l as [|x l IH]; intros a; cbn; [lra|]. rewrite IH. lra. }
  assert (Pd : forall x y z : R, pdiv (A:=RA) x y = Ok z -> (y <> 0 /\ z = x / y)%R).
  { intros x y z. unfold pdiv. destruct (neqb (Arith:=RA) y n0) eqn:Q; [discriminate|].
    apply Reqb_false in Q. intros K. injection K as <-. split; [|reflexivity].
    intros ->. apply Q. unfold n0, lit. cbn. unfold Q2R. cbn. lra. }
  apply Pd in Hx, Hy. destruct Hx as [H0 Hx], Hy as [_ Hy].
  assert (nofnat (A:=RA) (length V) = INR (length V)) as Q by (cbn; unfold Q2R; cbn; rewrite INR_IZR_INZ; lra).
  rewrite Q in *. rewrite Hx, Hy. ra_simp. rewrite !FL, q0. split; field; exact H0.
Qed.
Print Assumptions C35_mean.

(** no vertices and no position: the mean divides by zero *)
Theorem C35_empty :
  forall (A : Arith) (E : Env A) step now s, neqb (nofnat 0) n0 = true ->
  stop_kvertices [] step now None s = Err ZeroDivisionError.
Proof.
  intros A E step now s H. unfold stop_kvertices, bind, rd, mean_position. cbn. unfold pdiv. rewrite H. reflexivity.
Qed.
Print Assumptions C35_empty.
Example C35_empty_example : neqb (nofnat (A:=QA) 0) n0 = true.
Proof. reflexivity. Qed.

(** three vertices of the right triangle meet at (1,1) at time 1: a new node at
    the mean; with the reflex corner started at now, its node is reused *)
Example C35_example :
  match stop_kvertices [0; 1; 2] 1 (1%Q : @num QA) None rt2 with
  | Ok ((n, new), s') => new && (n =? 3) && Qeq_bool (fst (sn_pos (ns s' n))) 1 && Qeq_bool (snd (sn_pos (ns s' n))) 1
      && forallb (fun v => onat_eqb (k_stop_node (vs s' v)) (Some 3)) [0; 1; 2]
  | Err _ => false
  end
  && match stop_kvertices [0; 1] 1 (0%Q : @num QA) None rt2 with
     | Ok ((n, new), s') => negb new && (n =? 1) && forallb (fun v => onat_eqb (k_stop_node (vs s' v)) (Some 1)) [0; 1]
     | Err _ => false
     end = true.
Proof. vm_compute. reflexivity. Qed.
Example C35_example_proper : forall v, In v [0; 1; 2] -> proper (vs rt2 v).
Proof. intros v [<-|[<-|[<-|[]]]]; (split; [split; reflexivity|discriminate]). Qed.

(** NoDup is needed: a vertex given twice hides the node found before it *)
Example C35_duplicates :
  let node V := match stop_kvertices V 1 (2%Q : @num QA) (Some (5, 5)%Q)
                        (with_vs rt2 (upd (vs rt2) 0 (stopped_kv (vs rt2 0) 0 (2%Q : @num QA)))) with
                | Ok ((n, new), _) => Some (n, new) | Err _ => None end in
  (node [0; 1], node [0; 1; 1]) = (Some (0, false), Some (3, true)).
Proof. vm_compute. reflexivity. Qed.

(** ** C41 *)
Section C41.
  Context {A : Arith}.
  (** [r] is the value in force at time [t] after the assignments [l] *)
  Definition in_force (l : list (option nat * num)) (t : num) (r : option nat) : Prop :=
    (exists before a after, l = before ++ a :: after /\ fst a = r /\ nleb (snd a) t = true /\
       forall b, In b after -> nltb t (snd b) = true) \/
    (r = None /\ forall b, In b l -> nltb t (snd b) = true).
End C41.

Theorem C41_history :
  forall (A : Arith), OrdArith A -> forall (l : list (option nat * num)),
  StronglySorted (fun a b => nleb (snd a) (snd b) = true) l ->
  let h := fold_left (fun h a => hist_set h (fst a) (snd a)) l [] in
  (forall t, in_force l t (hist_at h t)) /\
  hist_last h = match l with [] => None | _ => fst (last l (None, n0)) end.
Proof.
  intros A O l S h.
  assert (C : h = chain l) by (apply hist_of_chain). split.
  - intros t. rewrite C. clear h C. induction l as [|a l IH]; [right; split; [reflexivity|intros b []]|].
    inversion S as [|? ? S1 F]; subst. specialize (IH S1). cbn [chain hist_at].
    rewrite Forall_forall in F.
    assert (LT : nleb (snd a) t = false -> nltb t (snd a) = true) by (intros K; rewrite (oa_ltb A O), K; reflexivity).
    destruct (nleb (snd a) t) eqn:La; cbn [andb orb].
    + destruct l as [|b l]; cbn [is_none orb].
      * left. exists [], a, []. repeat split; auto.
      * inversion S1 as [|? ? _ F1]; subst. rewrite Forall_forall in F1.
        rewrite orb_false_r. destruct (nltb t (snd b)) eqn:Lb.
        -- left. exists [], a, (b :: l). repeat split; auto. intros c [<-|Hc]; [exact Lb|].
           eapply (nltb_leb_trans O); [exact Lb|]. apply F1, Hc.
        -- destruct IH as [(x & c & y & -> & K)|[_ K]].
           ++ left. exists (a :: x), c, y. auto.
           ++ rewrite K in Lb by (simpl; auto). discriminate.
    + destruct IH as [(x & c & y & -> & K1 & K2 & K3)|[K1 K2]].
      * assert (nleb (snd a) t = true); [|congruence].
        eapply (oa_trans A O); [|exact K2]. apply F, in_app_iff. simpl. auto.
      * right. split; [exact K1|]. intros b [<-|Hb]; auto.
  - subst h. destruct l as [|a l _] using rev_ind; [reflexivity|]. rewrite fold_left_app. cbn [fold_left].
    rewrite hist_last_set, last_last. destruct l; reflexivity.
Qed.
Print Assumptions C41_history.

(** the history answers for a time in the past do not change *)
Theorem C41_past_kept :
  forall (A : Arith), OrdArith A -> forall (l later : list (option nat * num)) (t : num),
  (forall a, In a later -> nltb t (snd a) = true) ->
  let set h a := hist_set h (fst a) (snd a) in
  hist_at (fold_left set (l ++ later) []) t = hist_at (fold_left set l []) t.
Proof.
  intros A O l later t H set. rewrite fold_left_app.
  assert (Op : open_ended (fold_left set l [])).
  { destruct l as [|a l _] using rev_ind; [left; reflexivity|]. rewrite fold_left_app. apply open_set. }
  revert Op. generalize (fold_left set l []) as h. induction later as [|a later IH]; intros h Op; [reflexivity|].
  cbn [fold_left]. rewrite IH; [|intros; apply H; simpl; auto|apply open_set].
  apply (hist_at_set O); [exact Op|]. apply H. simpl. auto.
Qed.
Print Assumptions C41_past_kept.

(** assignments at times 0, 1, 1, 3; the second is overridden at once *)
Example C41_example :
  let l := [(Some 7, 0%Q); (Some 8, 1%Q); (Some 9, 1%Q); (None, 3%Q)] : list (option nat * @num QA) in
  let h := fold_left (fun h a => hist_set h (fst a) (snd a)) l [] in
  map (hist_at h) [(-1)%Q; 0%Q; (1#2)%Q; 1%Q; 2%Q; 3%Q; 5%Q] = [None; Some 7; Some 7; Some 9; Some 9; None; None].
Proof. vm_compute. reflexivity. Qed.
Example C41_example_sorted :
  StronglySorted (fun a b : option nat * @num QA => nleb (snd a) (snd b) = true)
    [(Some 7, 0%Q); (Some 8, 1%Q); (Some 9, 1%Q); (None, 3%Q)].
Proof. repeat constructor. Qed.

(** ** C42 *)
Theorem C42_update_circ :
  forall (A : Arith) (E : Env A), OrdArith A -> forall (l r : nat) (now : num) (s s' : state),
  update_circ (Some l) (Some r) now s = Ok (tt, s') ->
  open_ended (k_right (vs s l)) -> open_ended (k_left (vs s r)) ->
  kright (vs s' l) = Some r /\ kleft (vs s' r) = Some l /\
  (l <> r -> k_left (vs s' l) = k_left (vs s l) /\ k_right (vs s' r) = k_right (vs s r)) /\
  (forall v, v <> l -> v <> r -> vs s' v = vs s v) /\
  (forall v, same_motion (vs s v) (vs s' v) /\ k_stops (vs s' v) = k_stops (vs s v) /\
     k_stop_node (vs s' v) = k_stop_node (vs s v)) /\
  (forall t, nltb t now = true ->
     hist_at (k_right (vs s' l)) t = hist_at (k_right (vs s l)) t /\
     hist_at (k_left (vs s' r)) t = hist_at (k_left (vs s r)) t) /\
  (nv s' = nv s /\ ts s' = ts s /\ ns s' = ns s /\ es s' = es s /\ sk_nodes s' = sk_nodes s /\
   sk_vertices s' = sk_vertices s /\ queue s' = queue s /\ immediate s' = immediate s).
Proof.
  intros A E O l r now s s' H Ol Or. unfold update_circ in H.
  apply bind_ok in H. destruct H as ([] & s1 & H & K).
  apply modv_spec in H. destruct H as [_ ->]. apply modv_spec in K. destruct K as [_ ->]. cbn.
  destruct (Nat.eq_dec l r) as [->|N].
  - rewrite !upd_same. unfold kright, kleft. cbn. rewrite !hist_last_set.
    split; [reflexivity|]. split; [reflexivity|]. split; [congruence|]. split.
    { intros v Hv _. rewrite !upd_other by auto. reflexivity. }
    split.
    { intros v. destruct (Nat.eq_dec r v) as [<-|Nv]; [rewrite !upd_same|rewrite !upd_other by auto]; repeat split. }
    split; [|repeat split].
    intros t Ht. split; apply (hist_at_set O); auto.
  - rewrite !upd_same. rewrite (upd_other _ r _ l) by auto. rewrite upd_same. rewrite (upd_other _ l _ r) by auto.
    unfold kright, kleft. cbn. rewrite !hist_last_set.
    split; [reflexivity|]. split; [reflexivity|]. split; [auto|]. split.
    { intros v Hl Hr. rewrite !upd_other by auto. reflexivity. }
    split.
    { intros v. destruct (Nat.eq_dec r v) as [<-|Nv]; [rewrite upd_same; repeat split|rewrite (upd_other _ r) by auto].
      destruct (Nat.eq_dec l v) as [<-|Nw]; [rewrite upd_same; repeat split|rewrite upd_other by auto; repeat split]. }
    split; [|repeat split].
    intros t Ht. split; apply (hist_at_set O); auto.
Qed.
Print Assumptions C42_update_circ.

(** histories are made by assignments only, so that the last item is open *)
Theorem C42_open :
  forall (A : Arith) (h : list hitem) r t, open_ended (A:=A) [] /\ open_ended (hist_set h r t).
Proof. intros A h r t. split; [left; reflexivity|apply open_set]. Qed.
Print Assumptions C42_open.

(** with one side missing only the other is set; the call succeeds unless a
    vertex is infinite *)
Theorem C42_one_side :
  forall (A : Arith) (E : Env A) (v : nat) (now : num) (s : state), k_inf (vs s v) = false ->
  (exists s', update_circ (Some v) None now s = Ok (tt, s') /\ kright (vs s' v) = None /\
     k_left (vs s' v) = k_left (vs s v) /\ forall w, w <> v -> vs s' w = vs s w) /\
  (exists s', update_circ None (Some v) now s = Ok (tt, s') /\ kleft (vs s' v) = None /\
     k_right (vs s' v) = k_right (vs s v) /\ forall w, w <> v -> vs s' w = vs s w).
Proof.
  intros A E v now s H. unfold update_circ, set_right, set_left, modv, bind, gets, ret. cbn. rewrite H.
  split; eexists; (split; [reflexivity|]); cbn; rewrite upd_same; unfold kright, kleft; cbn; rewrite hist_last_set;
    (split; [reflexivity|]); (split; [reflexivity|]); intros w Hw; apply upd_other; auto.
Qed.
Print Assumptions C42_one_side.

Example C42_example :
  match update_circ (Some 0) (Some 2) (1%Q : @num QA) quad with
  | Ok (_, s') => onat_eqb (kright (vs s' 0)) (Some 2) && onat_eqb (kleft (vs s' 2)) (Some 0)
      && onat_eqb (hist_at (k_right (vs s' 0)) (1#2)%Q) (Some 1) && onat_eqb (kleft (vs s' 0)) (Some 3)
  | Err _ => false
  end = true.
Proof. vm_compute. reflexivity. Qed.

(** ** C46 *)
Section C46.
  Context {A : Arith}.
  (** the segments reported for the vertices [V], in order; [f] maps positions of
      nodes back to input coordinates *)
  Inductive reported (s : state) (f : pt -> pt) : list nat -> list (segment (A:=A)) -> Prop :=
  | rp_nil : reported s f [] []
  | rp_skip v V l x n : k_inf (vs s v) = false -> k_stops (vs s v) = Some x ->
      k_start_node (vs s v) = n -> k_stop_node (vs s v) = n ->
      reported s f V l -> reported s f (v :: V) l
  | rp_stopped v V l x a b : k_inf (vs s v) = false -> k_stops (vs s v) = Some x ->
      k_start_node (vs s v) = Some a -> k_stop_node (vs s v) = Some b -> a <> b ->
      reported s f V l ->
      reported s f (v :: V) (((f (sn_pos (ns s a)), f (sn_pos (ns s b))), (sn_info (ns s a), sn_info (ns s b))) :: l)
  | rp_alive v V l a p : k_inf (vs s v) = false -> k_stops (vs s v) = None ->
      k_start_node (vs s v) = Some a -> position_at s v (lit 1000) = Ok p ->
      reported s f V l ->
      reported s f (v :: V) (((sn_pos (ns s a), p), (sn_info (ns s a), None)) :: l).
End C46.

Theorem C46_segments :
  forall (A : Arith) (s : state) (back : option (pt -> pt)) (l : list segment),
  segments s back = Ok l ->
  reported s (match back with Some f => f | None => fun p => p end) (sk_vertices s) l.
Proof.
  intros A s back l H. unfold segments in H. apply rbind_ok in H. destruct H as (o & H & K). injection K as <-.
  revert o H. induction (sk_vertices s) as [|v V IH]; intros o H; cbn in H.
  { injection H as <-. constructor. }
  apply rbind_ok in H. destruct H as (x & Hx & H). apply rbind_ok in H. destruct H as (o' & Ho & H).
  injection H as <-. specialize (IH _ Ho). unfold segment_of in Hx.
  destruct (k_inf (vs s v)) eqn:Hi; [discriminate|]. destruct (k_stops (vs s v)) as [z|] eqn:Hz.
  - destruct (onat_eqb (k_start_node (vs s v)) (k_stop_node (vs s v))) eqn:Hn.
    + injection Hx as <-. cbn. eapply rp_skip; eauto.
      destruct (k_start_node (vs s v)), (k_stop_node (vs s v)); try discriminate; [|reflexivity].
      cbn in Hn. apply Nat.eqb_eq in Hn. congruence.
    + apply rbind_ok in Hx. destruct Hx as (a & Ha & Hx). apply rbind_ok in Hx. destruct Hx as (b & Hb & Hx).
      injection Hx as <-. cbn. unfold start_of in Ha.
      destruct (k_start_node (vs s v)) as [na|] eqn:Ea; [|discriminate].
      destruct (k_stop_node (vs s v)) as [nb|] eqn:Eb; [|discriminate].
      injection Ha as <-. injection Hb as <-. eapply rp_stopped; eauto.
      intros ->. cbn in Hn. rewrite Nat.eqb_refl in Hn. discriminate.
  - apply rbind_ok in Hx. destruct Hx as (a & Ha & Hx). apply rbind_ok in Hx. destruct Hx as (p & Hp & Hx).
    injection Hx as <-. cbn. unfold start_of in Ha. destruct (k_start_node (vs s v)) as [na|] eqn:Ea; [|discriminate].
    injection Ha as <-. apply rp_alive; auto.
Qed.
Print Assumptions C46_segments.

(** one entry per vertex, except those stopped at their own start node *)
Theorem C46_count :
  forall (A : Arith) (s : state) (back : option (pt -> pt)) (l : list segment),
  segments s back = Ok l ->
  length l = length (filter (fun v => negb (is_some (k_stops (vs s v)) &&
                onat_eqb (k_start_node (vs s v)) (k_stop_node (vs s v)))) (sk_vertices s)).
Proof.
  intros A s back l H. apply C46_segments in H.
  induction H as [|v V l x n H1 H2 H3 H4 H IH|v V l x a b H1 H2 H3 H4 H5 H IH|v V l a p H1 H2 H3 H4 H IH]; cbn; [reflexivity|..].
  - rewrite H2, H3, H4. cbn. destruct n; cbn; rewrite ?Nat.eqb_refl; exact IH.
  - rewrite H2, H3, H4. cbn. destruct (Nat.eqb_spec a b); [contradiction|]. cbn. rewrite IH. reflexivity.
  - rewrite H2. cbn. rewrite IH. reflexivity.
Qed.
Print Assumptions C46_count.

(** segments never fails on a skeleton whose vertices are finite, have a start
    node, and have a stop node when stopped (C36, C37: every run makes such) *)
Theorem C46_total :
  forall (A : Arith) (s : state) (back : option (pt -> pt)),
  (forall v, In v (sk_vertices s) -> k_inf (vs s v) = false /\ k_start_node (vs s v) <> None /\
     (k_stops (vs s v) <> None -> k_stop_node (vs s v) <> None)) ->
  exists l, segments s back = Ok l.
Proof.
  intros A s back H. unfold segments. induction (sk_vertices s) as [|v V IH]; [eexists; reflexivity|].
  destruct IH as (l & Hl); [intros w Hw; apply H; simpl; auto|].
  apply rbind_ok in Hl. destruct Hl as (o & Ho & _).
  assert (exists x, segment_of s back v = Ok x) as (x & Hx).
  { destruct (H v) as (H1 & H2 & H3); [simpl; auto|]. unfold segment_of, start_of, position_at. rewrite H1.
    destruct (k_start_node (vs s v)) as [a|]; [|congruence].
    destruct (k_stops (vs s v)).
    - destruct (k_stop_node (vs s v)) as [b|]; [|exfalso; apply H3; congruence].
      destruct (onat_eqb _ _); eexists; reflexivity.
    - destruct (k_inf_fast (vs s v)); eexists; reflexivity. }
  cbn [rmapl]. rewrite Hx. cbn. rewrite Ho. eexists; reflexivity.
Qed.
Print Assumptions C46_total.

(** after the run of [quad] the five vertices give five segments *)
Example C46_example :
  match run quad with
  | Ok (_, s') =>
      match segments s' None with
      | Ok l => (length l =? 5) && match l with
          | ((p, q), _) :: _ => Qeq_bool (fst p) (3#4) && Qeq_bool (snd p) 0 && Qeq_bool (fst q) (3#2) && Qeq_bool (snd q) (3#2)
          | [] => false end
      | Err _ => false
      end
  | Err _ => false
  end = true.
Proof. vm_compute. reflexivity. Qed.

(** ** C47 *)

(** the claim: end points of every segment are positions mapped back *)
Definition all_mapped_back {A : Arith} (s : state (A:=A)) (f : pt -> pt) : Prop :=
  forall l, segments s (Some f) = Ok l ->
  Forall2 (fun v (g : segment) => exists a, k_start_node (vs s v) = Some a /\ fst (fst g) = f (sn_pos (ns s a)))
    (sk_vertices s) l.

Theorem C47_segments_refuted :
  exists (s : state (A:=QA)) (t : transform (A:=QA)),
    t = get_transform ((0, 0), (4, 3))%Q /\ ~ all_mapped_back s (backward t).
Proof.
  exists rt2, (get_transform (A:=QA) ((0, 0), (4, 3))%Q). split; [reflexivity|].
  intros H.
  assert (B : match segments rt2 (Some (backward (A:=QA) (get_transform (A:=QA) ((0, 0), (4, 3))%Q))) with
              | Ok (((p, _), _) :: _) =>
                  negb (Qeq_bool (fst p) (fst (backward (A:=QA) (get_transform (A:=QA) ((0, 0), (4, 3))%Q) (sn_pos (ns rt2 0)))))
              | _ => false end = true) by (vm_compute; reflexivity).
  unfold all_mapped_back in H.
  destruct (segments rt2 _) as [l|] eqn:G; [|discriminate]. specialize (H l eq_refl).
  destruct l as [|[[p q] i] l]; [discriminate|].
  inversion H as [|v g V l' (a & Ha & Hp) _]; subst.
  assert (a = 0) as -> by (cbn in Ha; injection Ha as <-; reflexivity).
  cbn [fst] in Hp. rewrite Hp in B.
  rewrite Qeq_bool_refl in B. discriminate.
Qed.
Print Assumptions C47_segments_refuted.

(** for vertices that do stop, the claim holds *)
Theorem C47_segments_stopped :
  forall (A : Arith) (s : state) (f : pt -> pt) (l : list segment),
  segments s (Some f) = Ok l -> (forall v, In v (sk_vertices s) -> k_stops (vs s v) <> None) ->
  Forall (fun g : segment => exists a b : nat, fst g = (f (sn_pos (ns s a)), f (sn_pos (ns s b)))) l.
Proof.
  intros A s f l H N. apply C46_segments in H.
  induction H as [|v V l x n H1 H2 H3 H4 H IH|v V l x a b H1 H2 H3 H4 H5 H IH|v V l a p H1 H2 H3 H4 H IH].
  - constructor.
  - apply IH. intros; apply N; simpl; auto.
  - constructor; [exists a, b; reflexivity|apply IH; intros; apply N; simpl; auto].
  - exfalso. apply (N v); [simpl; auto|exact H2].
Qed.
Print Assumptions C47_segments_stopped.

(** ** C58 *)

(** the claim: handling the event that schedule_immediately has just made never
    ends in the ValueError of the loop's dispatch *)
Definition immediate_accepted {A : Arith} {E : Env A} (s : state) : Prop :=
  forall t now s1 e i step, t_stops (ts s t) = None ->
  schedule_immediately t now s = Ok (tt, s1) -> immediate s1 = i ++ [e] ->
  handle_event e step s1 <> Err ValueError.

(** an isosceles triangle with one wavefront side, legs 5 and base 6 *)
Definition isosceles : state (A:=QA) :=
  st [mv (0, 0)%Q (0, 0)%Q 0 0 0; mv (6, 0)%Q (0, 0)%Q 1 0 1; mv (3, 4)%Q (0, 0)%Q 2 1 0]
     [tr 0 1 2 (Some 1%nat) (Some 2%nat) None] [nd 0 0; nd 6 0; nd 3 4] [] [wf (0, 1)%Q 0; wf (0, 1)%Q 0] [] [].
Theorem C58_immediate_refuted : exists s : state (A:=QA), ~ immediate_accepted s.
Proof.
  exists isosceles. intros H.
  assert (B : match schedule_immediately 0 (0%Q : @num QA) isosceles with
              | Ok (_, s1) => match immediate s1 with
                  | [e] => match handle_event e 1 s1 with Err ValueError => true | _ => false end
                  | _ => false end
              | Err _ => false end = true) by (vm_compute; reflexivity).
  destruct (schedule_immediately 0 _ isosceles) as [[[] s1]|] eqn:S; [|discriminate].
  destruct (immediate s1) as [|e [|]] eqn:I; try discriminate.
  destruct (handle_event e 1 s1) as [|x] eqn:D; [discriminate|]. destruct x; try discriminate.
  exact (H 0 _ s1 e [] 1%Z eq_refl S I D).
Qed.
Print Assumptions C58_immediate_refuted.

(** what is true: the event made names at least one side, and it is accepted by
    the dispatch unless it names exactly two *)
Theorem C58_accepted_unless_two :
  forall (A : Arith) (E : Env A) (t : nat) (now : num) (s s1 : state),
  schedule_immediately t now s = Ok (tt, s1) ->
  exists e i, immediate s1 = i ++ [e] /\ ev_tri (es s1 e) = t /\ ev_time (es s1 e) = now /\
    ev_tp (es s1 e) = Edge /\ ev_side (es s1 e) <> [] /\ t_event (ts s1 t) = Some e /\
    (tri_type (ts s t) = 3 -> ev_side (es s1 e) = sides) /\
    (length (ev_side (es s1 e)) <> 2 -> forall step, 
       handle_event e step s1 = (if is_some (t_stops (ts s1 t)) then Ok (tt, s1)
         else if Nat.eqb (length (ev_side (es s1 e))) 3 then handle_edge_event_3sides (es s1 e) step s1
         else if Nat.eqb (tri_type (ts s1 t)) 3 && Nat.eqb (length (ev_side (es s1 e))) 1 then handle_edge_event_1side (es s1 e) step s1
         else handle_edge_event (es s1 e) step s1)).
Proof.
  intros A E t now s s1 H. apply sched_spec in H.
  destruct H as (e & He & Hs & _ & _ & _ & _ & _ & _ & Hne & _ & _ & _ & _ & _ & Hi & Ht & Hes).
  assert (W : ev_tri e = t /\ ev_time e = now /\ ev_tp e = Edge).
  { unfold new_edge_collapse_event in He. apply rbind_ok in He. destruct He as (ds & _ & He).
    injection He as <-. repeat split. }
  destruct W as (W1 & W2 & W3). exists (ne s), (immediate (forget s (t_event (ts s t)))).
  rewrite Hes, upd_same.
  assert (F : ev_tri (sched_event s t e) = t /\ ev_time (sched_event s t e) = now /\ ev_tp (sched_event s t e) = Edge)
    by (unfold sched_event; destruct (Nat.eqb _ 3); cbn; auto).
  destruct F as (F1 & F2 & F3).
  split; [exact Hi|]. split; [exact F1|]. split; [exact F2|]. split; [exact F3|]. split; [exact Hs|].
  split. { rewrite Ht, upd_same. reflexivity. }
  split. { intros T3. unfold sched_event. rewrite T3. reflexivity. }
  intros N2 step. unfold handle_event, eget, tget, bind, gets. rewrite Hes, upd_same, F1, F3.
  destruct (is_some (t_stops (ts s1 t))); [reflexivity|].
  destruct (Nat.eqb (length _) 3) eqn:L3; [reflexivity|].
  rewrite andb_comm. destruct (Nat.eqb (tri_type (ts s1 t)) 3 && Nat.eqb (length _) 1); [reflexivity|].
  apply Nat.eqb_neq in N2. rewrite N2. reflexivity.
Qed.
Print Assumptions C58_accepted_unless_two.

(** in the run of the square the second event is an immediate one, and is handled *)
Example C58_example :
  exists s0 now tr s', started square s0 /\ reach s0 now tr s' /\ length tr = 2 /\
  match tr with [h1; h2] => h_queue h1 && negb (h_queue h2) && Qeq_bool (h_time h2) 1 | _ => false end = true.
Proof. apply (example_k 2 square). vm_compute. reflexivity. Qed.
