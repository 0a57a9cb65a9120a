(** Proofs about split_star (initialize.py 116-155). *)
From Verif Require Import Base Arith Calc VectorOps Line2d Primitives Initialize.

(** the state of a loop that runs over [rmapl] *)
Lemma rmapl_all {X Y} (f : X -> res Y) l ys :
  rmapl f l = Ok ys <-> Forall2 (fun x y => f x = Ok y) l ys.
Proof.
  revert ys. induction l as [|x r IH]; intros ys; cbn [rmapl].
  - split. { intros H. injection H as <-. constructor. } intros H. inversion H. reflexivity.
  - split.
    + intros H. destruct (f x) eqn:E; [|discriminate]. cbn [rbind] in H.
      destruct (rmapl f r) eqn:F; [|discriminate]. cbn [rbind] in H. injection H as <-.
      constructor; [exact E|]. apply IH. reflexivity.
    + intros H. inversion H as [|? y ? ys' H1 H2]; subst. rewrite H1. cbn [rbind].
      apply IH in H2. rewrite H2. reflexivity.
Qed.
Lemma rmapl_tt {X} (f : X -> res unit) l : (forall x, In x l -> f x = Ok tt) -> exists ys, rmapl f l = Ok ys.
Proof.
  induction l as [|x r IH]; intros H; [eexists; reflexivity|].
  destruct IH as [ys E]. { intros y Hy. apply H. right. exact Hy. }
  cbn [rmapl]. rewrite (H x (or_introl eq_refl)). cbn [rbind]. rewrite E. eexists. reflexivity.
Qed.
Lemma rmapl_In {X Y} (f : X -> res Y) l ys x : rmapl f l = Ok ys -> In x l -> exists y, f x = Ok y /\ In y ys.
Proof.
  intros H. apply rmapl_all in H. induction H as [|a b l ys H1 H2 IH]; [intros []|].
  intros [<-|K]; [exists b; split; [exact H1|left; reflexivity]|].
  destruct (IH K) as (y & K1 & K2). exists y. split; [exact K1|right; exact K2].
Qed.

Section Star.
  Context {A : Arith}.
  Variable d : dtriang (A:=A).
  Notation edge := (nat * side)%type.

  (** the edges of the star that bound the triangle of [e]: the one behind (where
      the rotation enters) and the one ahead (where it leaves) *)
  Definition ahead (e : edge) : bool := constrained d (fst e) (ccw (snd e)).
  Definition behind (e : edge) : bool := constrained d (fst e) (cw (snd e)).

  (** the triangles of the star form a ring: the edge ahead of each is the edge
      behind the next one, and the last is followed by the first *)
  Definition ring (star : list edge) : Prop :=
    (forall l1 e f l2, star = l1 ++ e :: f :: l2 -> ahead e = behind f) /\
    (forall e l, star = e :: l -> ahead (last l e) = behind e).

  (** a group as split_star should deliver it *)
  Definition good_group (g : list edge) : Prop :=
    (exists e l, g = e :: l /\ behind e = true /\ ahead (last l e) = true) /\
    (forall l1 e f l2, g = l1 ++ e :: f :: l2 -> ahead e = false /\ behind f = false).

  (** the number of constrained edges of the star *)
  Definition constrained_edges (star : list edge) : nat := length (filter ahead star).

  (** *** the groups before the merge *)
  Definition closed (g : list edge) : Prop :=
    exists m e, g = m ++ [e] /\ ahead e = true /\ Forall (fun x => ahead x = false) m.

  Lemma star_groups_spec r : forall g, Forall (fun x => ahead x = false) g ->
    exists cs o, star_groups d r g = cs ++ o /\ Forall closed cs /\
      (o = [] \/ exists g', o = [g'] /\ g' <> [] /\ Forall (fun x => ahead x = false) g') /\
      concat (star_groups d r g) = g ++ r /\ length cs = constrained_edges r.
  Proof.
    induction r as [|[t s] r IH]; intros g Hg.
    - exists []. cbn [star_groups]. destruct g as [|e g].
      + exists []. repeat split; auto.
      + exists [e :: g]. repeat split; auto.
        { right. exists (e :: g). repeat split; auto. discriminate. }
    - cbn [star_groups]. unfold constrained_edges. cbn [filter]. change (ahead (t, s)) with (constrained d t (ccw s)).
      destruct (constrained d t (ccw s)) eqn:E.
      + destruct (IH [] (Forall_nil _)) as (cs & o & H1 & H2 & H3 & H4 & H5).
        exists ((g ++ [(t, s)]) :: cs), o. rewrite H1. cbn [app concat length].
        repeat split; auto.
        * constructor; [|exact H2]. exists g, (t, s). auto.
        * rewrite H1 in H4. rewrite H4. rewrite <- app_assoc. reflexivity.
      + destruct (IH (g ++ [(t, s)])) as (cs & o & H1 & H2 & H3 & H4 & H5).
        { apply Forall_app. split; [exact Hg|]. constructor; [exact E|constructor]. }
        exists cs, o. repeat split; auto. rewrite H4, <- app_assoc. reflexivity.
  Qed.

  (** *** chains: what is behind an edge is ahead of the previous one *)
  Fixpoint chain (p : bool) (l : list edge) : Prop :=
    match l with [] => True | e :: r => behind e = p /\ chain (ahead e) r end.
  Definition last_ahead (p : bool) (l : list edge) : bool := fold_left (fun _ e => ahead e) l p.

  Lemma chain_app p l1 l2 : chain p (l1 ++ l2) <-> chain p l1 /\ chain (last_ahead p l1) l2.
  Proof.
    revert p. induction l1 as [|e r IH]; intros p; cbn [app chain].
    - cbn. tauto.
    - rewrite IH. cbn. tauto.
  Qed.
  Lemma last_ahead_app p l1 l2 : last_ahead p (l1 ++ l2) = last_ahead (last_ahead p l1) l2.
  Proof. apply fold_left_app. Qed.
  Lemma last_ahead_last p e l : last_ahead p (e :: l) = ahead (last l e).
  Proof.
    revert p e. induction l as [|f r IH]; intros p e; [reflexivity|].
    cbn [last_ahead fold_left]. change (last_ahead (ahead e) (f :: r) = ahead (last (f :: r) e)).
    rewrite IH. f_equal. destruct r as [|g r]; [reflexivity|]. change (last (f :: g :: r) e) with (last (g :: r) e).
    clear. revert g. induction r as [|h r IH]; intros g; [reflexivity|]. apply (IH h).
  Qed.

  Lemma ring_chain star : ring star -> star <> [] ->
    exists p, p = last_ahead p star /\ chain p star.
  Proof.
    intros [H1 H2] N. destruct star as [|e l]; [congruence|]. exists (ahead (last l e)). split.
    - symmetry. apply last_ahead_last.
    - cbn [chain]. split; [symmetry; apply H2; reflexivity|]. clear H2 N.
      revert e H1. induction l as [|f r IH]; intros e H1; [exact I|]. cbn [chain]. split.
      + symmetry. apply (H1 [] e f r). reflexivity.
      + apply IH. intros l1 a b l2 K. apply (H1 (e :: l1) a b l2). rewrite K. reflexivity.
  Qed.

  Lemma chain_open l : chain false l -> Forall (fun x => ahead x = false) l -> Forall (fun x => behind x = false) l.
  Proof.
    induction l as [|e r IH]; intros H1 H2; [constructor|]. destruct H1 as [H1 H1']. inversion H2; subst.
    constructor; [exact H1|]. apply IH; [congruence|assumption].
  Qed.
  Lemma closed_last p g : closed g -> last_ahead p g = true.
  Proof. intros (m & e & -> & He & _). rewrite last_ahead_app. exact He. Qed.

  Lemma closed_good g : closed g -> chain true g -> good_group g.
  Proof.
    intros (m & e & -> & He & Hm) C. split.
    - destruct m as [|x m]; cbn [app] in *.
      + exists e, []. destruct C as [C _]. auto.
      + exists x, (m ++ [e]). destruct C as [C _]. repeat split; auto. rewrite last_last. exact He.
    - intros l1 a b l2 K.
      assert (Ha : ahead a = false).
      { rewrite Forall_forall in Hm. apply Hm.
        destruct l2 as [|y l2] using rev_ind.
        - change (l1 ++ [a; b]) with (l1 ++ [a] ++ [b]) in K. rewrite app_assoc in K. apply app_inj_tail in K.
          destruct K as [-> _]. apply in_or_app. right. left. reflexivity.
        - change (l1 ++ a :: b :: l2 ++ [y]) with (l1 ++ (a :: b :: l2) ++ [y]) in K. rewrite app_assoc in K.
          apply app_inj_tail in K. destruct K as [-> _]. apply in_or_app. right. left. reflexivity. }
      split; [exact Ha|]. rewrite K in C. apply chain_app in C. destruct C as [_ (_ & C & _)]. congruence.
  Qed.

  Lemma good_check g : closed g -> chain true g -> star_check d g = Ok tt.
  Proof.
    intros (m & e & -> & He & Hm) C. destruct m as [|x m]; cbn [app] in *.
    - destruct C as [C _]. unfold star_check. cbn [last]. unfold ahead, behind in *. rewrite He, C. reflexivity.
    - destruct C as [C1 C2]. inversion Hm as [|? ? H1 H2]; subst. unfold star_check.
      change (last (x :: m ++ [e]) x) with (last ((x :: m) ++ [e]) x). rewrite last_last.
      cbn [tl]. rewrite removelast_last. unfold ahead, behind in He, C1. rewrite He, C1. cbn [rassert rbind].
      rewrite H1 in C2. apply chain_app in C2. destruct C2 as [C2 _]. pose proof (chain_open m C2 H2) as H3.
      rewrite Forall_forall in H2, H3.
      destruct (rmapl_tt (fun m => rbind (rassert (negb (constrained d (fst m) (cw (snd m)))))
        (fun _ => rassert (negb (constrained d (fst m) (ccw (snd m)))))) m) as [ys E].
      { intros y Hy. specialize (H2 y Hy). specialize (H3 y Hy). unfold ahead, behind in H2, H3. rewrite H2, H3. reflexivity. }
      rewrite E. reflexivity.
  Qed.

  Lemma closed_groups gs : Forall closed gs -> chain true (concat gs) ->
    Forall good_group gs /\ forall g, In g gs -> star_check d g = Ok tt.
  Proof.
    induction gs as [|g r IH]; intros H C; [split; [constructor|intros g []]|].
    inversion H as [|? ? H1 H2]; subst. cbn [concat] in C. apply chain_app in C. destruct C as [C1 C2].
    rewrite (closed_last true g H1) in C2. destruct (IH H2 C2) as [G1 G2]. split.
    - constructor; [apply closed_good; assumption|exact G1].
    - intros y [<-|Hy]; [apply good_check; assumption|apply G2, Hy].
  Qed.

  (** *** the merge *)
  (** the rotations of a list *)
  Definition rotation {X} (l l' : list X) : Prop := exists a b, l = a ++ b /\ l' = b ++ a.

  (** what split_star delivers before its checks *)
  Definition unchecked (star : list edge) : res (list (list edge)) :=
    let groups := star_groups d star [] in
    if Nat.leb (length groups) 1 then Ok groups else star_merge d groups.

  Lemma removelast_snoc {X} (l : list X) x : removelast (l ++ [x]) = l.
  Proof. apply removelast_last. Qed.

  Lemma unchecked_spec star : ring star -> 1 <= constrained_edges star ->
    exists gs, unchecked star = Ok gs /\ Forall closed gs /\ length gs = constrained_edges star /\
      rotation star (concat gs) /\ chain true (concat gs).
  Proof.
    intros R N. destruct (star_groups_spec star [] (Forall_nil _)) as (cs & o & H1 & H2 & H3 & H4 & H5).
    cbn [app] in H4. assert (star <> []) as NE. { intros ->. cbn in N. lia. }
    destruct (ring_chain star R NE) as (p & P1 & P2). unfold unchecked.
    destruct H3 as [->|(g' & -> & G1 & G2)].
    - (* the star starts at a constrained edge *)
      rewrite app_nil_r in H1. rewrite H1 in *.
      assert (p = true) as ->.
      { rewrite P1, <- H4. destruct cs as [|c cs] using rev_ind; [cbn in H5; lia|].
        rewrite concat_app, last_ahead_app. cbn [concat]. rewrite app_nil_r.
        apply closed_last. apply Forall_app in H2. destruct H2 as [_ H2]. inversion H2; assumption. }
      assert (forall k, length cs = k -> (if Nat.leb k 1 then Ok cs else star_merge d cs) = Ok cs) as ->; [|
        exists cs; repeat split; auto; [exists [], star; cbn; rewrite app_nil_r; auto|rewrite H4; auto]|reflexivity].
      intros k _. destruct (Nat.leb k 1); [reflexivity|].
      destruct cs as [|c cs]; [cbn in H5; lia|]. inversion H2 as [|? ? K1 K2]; subst.
      destruct c as [|[t s] c]. { destruct K1 as (m & e & K & _). destruct m; discriminate. }
      cbn [star_merge]. cbn [concat app] in P2. destruct P2 as [P2 _].
      unfold behind in P2. cbn [fst snd] in P2. rewrite P2. reflexivity.
    - (* the last group is merged with the first *)
      assert (p = false) as ->.
      { rewrite P1, <- H4, H1, concat_app, last_ahead_app. cbn [concat]. rewrite app_nil_r.
        destruct g' as [|e l]; [congruence|]. rewrite last_ahead_last. rewrite Forall_forall in G2. apply G2.
        destruct l as [|f l]; [left; reflexivity|]. right. clear. revert f. induction l as [|g l IH]; intros f; [left; reflexivity|].
        right. apply IH. }
      destruct cs as [|c cs]; [cbn in H5; lia|].
      assert (Nat.leb (length (star_groups d star [])) 1 = false) as ->.
      { rewrite H1, app_length. cbn [length]. apply Nat.leb_gt. lia. }
      rewrite H1. cbn [app]. inversion H2 as [|? ? K1 K2]; subst.
      assert (K1' := K1). destruct K1' as (m & e & K & Ke & Km).
      destruct c as [|[t s] c]. { destruct m; discriminate. }
      cbn [star_merge]. assert (C := P2). rewrite <- H4, H1 in C. cbn [app concat chain] in C.
      destruct C as [C _]. unfold behind in C. cbn [fst snd] in C. rewrite C.
      rewrite last_last, removelast_snoc. eexists. split; [reflexivity|].
      assert (F : Forall closed ((g' ++ (t, s) :: c) :: cs)).
      { constructor; [|exact K2]. rewrite K. exists (g' ++ m), e. rewrite app_assoc. repeat split; auto.
        apply Forall_app. auto. }
      assert (Rt : star = ((t, s) :: c ++ concat cs) ++ g').
      { rewrite <- H4, H1. cbn [app concat]. rewrite concat_app. cbn [concat]. rewrite app_nil_r, app_assoc. reflexivity. }
      repeat split; auto.
      + exists ((t, s) :: c ++ concat cs), g'. split; [exact Rt|]. cbn [concat]. rewrite <- app_assoc. reflexivity.
      + cbn [concat]. rewrite <- app_assoc. cbn [app].
        rewrite Rt in P2. apply chain_app in P2. destruct P2 as [Q1 Q2].
        assert (T : last_ahead false ((t, s) :: c ++ concat cs) = true).
        { destruct cs as [|x cs] using rev_ind. { cbn [concat]. rewrite app_nil_r. apply closed_last. exact K1. }
          change ((t, s) :: c ++ concat (cs ++ [x])) with (((t, s) :: c) ++ concat (cs ++ [x])).
          rewrite last_ahead_app, concat_app, last_ahead_app. cbn [concat]. rewrite app_nil_r.
          apply closed_last. apply Forall_app in K2. destruct K2 as [_ K2]. inversion K2; assumption. }
        rewrite T in Q2. apply chain_app. split; [exact Q2|].
        assert (Z : last_ahead true g' = false).
        { destruct g' as [|x l]; [congruence|]. rewrite last_ahead_last. rewrite Forall_forall in G2. apply G2.
          destruct l as [|f l]; [left; reflexivity|]. right. clear. revert f. induction l as [|g l IH]; intros f; [left; reflexivity|].
          right. apply IH. }
        rewrite Z. exact Q1.
  Qed.

  Lemma split_star_unchecked v gs : unchecked (dt_star d v) = Ok gs ->
    (forall g, In g gs -> star_check d g = Ok tt) -> split_star d v = Ok gs.
  Proof.
    unfold unchecked, split_star. destruct (Nat.leb _ 1); [auto|]. intros H C. rewrite H. cbn [rbind].
    destruct (rmapl_tt (star_check d) gs C) as [ys E]. rewrite E. reflexivity.
  Qed.

  Lemma split_star_spec v : ring (dt_star d v) -> 1 <= constrained_edges (dt_star d v) ->
    exists gs, split_star d v = Ok gs /\ rotation (dt_star d v) (concat gs) /\
      length gs = constrained_edges (dt_star d v) /\ Forall good_group gs.
  Proof.
    intros R N. destruct (unchecked_spec _ R N) as (gs & H1 & H2 & H3 & H4 & H5).
    destruct (closed_groups gs H2 H5) as [G1 G2]. exists gs.
    split; [apply split_star_unchecked; assumption|]. auto.
  Qed.
  Lemma split_star_none v : constrained_edges (dt_star d v) = 0 -> dt_star d v <> [] -> split_star d v = Ok [dt_star d v].
  Proof.
    intros N NE. destruct (star_groups_spec (dt_star d v) [] (Forall_nil _)) as (cs & o & H1 & H2 & H3 & H4 & H5).
    rewrite N in H5. destruct cs; [|discriminate]. cbn [app] in H1, H4. unfold split_star. rewrite H1 in *.
    destruct H3 as [->|(g' & -> & _)]; [cbn in H4; congruence|]. cbn [length Nat.leb].
    cbn in H4. rewrite app_nil_r in H4. rewrite H4. reflexivity.
  Qed.
  Lemma split_star_empty v : dt_star d v = [] -> split_star d v = Ok [].
  Proof. intros H. unfold split_star. rewrite H. reflexivity. Qed.
End Star.
