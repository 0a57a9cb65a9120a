(** Outcomes of runs: no artificial exception, at most [max_events] events *)
From Coq Require Import Permutation.
From Verif Require Import Base Arith Calc VectorOps Line2d Primitives Collapse CollapseProofs EventsLib
  FlipEvent ParallelEvent EdgeEvent SplitEvent EventLoop Pass OpSpec Order StopSpec RunBase RunTimed RunLoop
  Decent Total.

(** the only exception that may occur in unordered arithmetic besides Python's *)
Definition not_fuel (e : exn) : bool := match e with OutOfFuel => false | _ => true end.

Section TotalRun.
  Context {A : Arith} {E : Env A}.

  Lemma riq_not_fuel t now s e : replace_in_queue t now s = Err e -> not_fuel e = true.
  Proof.
    unfold replace_in_queue. unfold bind at 1, tget, gets at 1.
    assert (S1 : exists s1, (match t_event (ts s t) with
                  | Some e => bind (queue_discard (Some e)) (fun _ => immediate_remove (Some e))
                  | None => ret tt end) s = Ok (tt, s1)).
    { destruct (t_event (ts s t)); eexists; reflexivity. }
    destruct S1 as [s1 S1]. unfold bind at 1. rewrite S1. unfold compute_collapse_time, bind, rd.
    destruct (collapse_event s1 t now FindGte) as [[ev|]|e'] eqn:Ec.
    - unfold queue_add, bind, gets. cbn -[q_has q_add].
      destruct (q_has _ _ _); [intros H; injection H as <-; reflexivity|discriminate].
    - discriminate.
    - intros H. injection H as <-. apply pdec_collapse_event in Ec. destruct e'; try reflexivity; discriminate.
  Qed.
  Lemma not_fuel_py e : python_exn e = true -> not_fuel e = true.
  Proof. destruct e; auto. Qed.

  (** the checks made before the loop *)
  Lemma pdec_rforall {X} (f : X -> res unit) l : (forall x, pdec (f x)) -> pdec (rforall f l).
  Proof. intros H. induction l; simpl; [apply pdec_ok|]. apply pdec_bind; [apply H|intros; exact IHl]. Qed.
  Lemma pdec_check_bisectors s now : pdec (check_bisectors s now).
  Proof.
    apply pdec_rforall. intros t. destruct (is_none _); [|apply pdec_ok]. apply pdec_rforall. intros sd.
    destruct (is_none _); [|apply pdec_ok]. unfold check_bisector_direction. destruct (edge_segment _ _).
    apply pdec_bind; [apply pdec_position_at|intros]. apply pdec_bind; [apply pdec_position_at|intros]. apply pdec_rassert.
  Qed.
  Lemma pdec_check_orient s now : pdec (check_active_triangles_orientation s now).
  Proof.
    apply pdec_rforall. intros t. destruct (is_none _); [|apply pdec_ok].
    do 3 (apply pdec_bind; [apply pdec_position_at|intros]). cbv zeta. destruct (is_finite s t); apply pdec_rassert.
  Qed.

  Lemma walk_ends fuel : forall t v newv now d s,
    (forall t sd n, get3 (t_n (ts s t)) sd = Some n -> n < nt s) ->
    v <> newv -> (forall n, t = Some n -> n < nt s) -> occ (ts s) v (nt s) < fuel ->
    forall e, replace_walk fuel t v newv now d s = Err e -> not_fuel e = true.
  Proof.
    induction fuel as [|fuel IH]; intros t v newv now d s H N T C e; [lia|].
    cbn [replace_walk]. destruct t as [t|]; [|discriminate]. specialize (T t eq_refl).
    unfold bind at 1, tget, gets. unfold bind at 1, rdr, rd.
    destruct (vindex (ts s t) v) as [sd|e1] eqn:V.
    2:{ intros K. injection K as <-. apply not_fuel_py. eapply pdec_vindex; eauto. }
    apply vindex_get in V. unfold bind at 1.
    destruct (set_tv t sd newv s) as [[[] s1]|] eqn:D; [|discriminate]. apply modt_spec in D.
    assert (C1 : occ (ts s1) v (nt s1) < fuel).
    { subst s1. cbn.
      assert (occ (upd (ts s) t (tri_v (ts s t) (set3 (t_v (ts s t)) sd newv))) v (nt s) < occ (ts s) v (nt s)); [|lia].
      apply occ_upd; [exact T|]. eapply corners_set; eauto. }
    assert (H1 : forall t sd n, get3 (t_n (ts s1 t)) sd = Some n -> n < nt s1).
    { subst s1. cbn. intros u i n.
      destruct (upd_case (ts s) t (tri_v (ts s t) (set3 (t_v (ts s t)) sd newv)) u) as [[_ ->]|[_ ->]]; cbn; apply H. }
    assert (NT : nt s1 = nt s) by (subst s1; reflexivity). clear D.
    unfold bind at 1, vattr, rd. destruct (kattr _ _) as [fast|e1] eqn:F.
    2:{ intros K. injection K as <-. apply not_fuel_py. eapply pdec_kattr; eauto. }
    unfold bind at 1.
    destruct (match (if fast then t_event (ts s t) else None) with
              | Some e => bind (queue_discard (Some e)) (fun _ => immediate_remove (Some e))
              | None => replace_in_queue t now end s1) as [[u s2]|e1] eqn:D.
    2:{ intros K. injection K as <-. destruct (if fast then _ else None); [discriminate|]. eapply riq_not_fuel; eauto. }
    assert (M2 : same_mesh s1 s2 /\ nt s2 = nt s1).
    { destruct (if fast then _ else None).
      - split; [apply (mesh_forget _ _ _ _ D)|]. apply forget_spec in D. subst s2. reflexivity.
      - split; [apply (mesh_riq _ _ _ _ _ D)|]. apply riq_spec in D.
        destruct D as [[_ ->]|(x & _ & ->)]; cbn; destruct (t_event _); reflexivity. }
    destruct M2 as [M2 N2].
    assert (H2 : forall t sd n, get3 (t_n (ts s2 t)) sd = Some n -> n < nt s2).
    { intros w i n. destruct (M2 w) as [_ ->]. rewrite N2. apply H1. }
    unfold bind at 1. cbv beta iota. unfold bind.
    destruct (replace_walk fuel _ v newv now d s2) as [[fan s3]|e1] eqn:D2; [discriminate|].
    intros K. injection K as <-. eapply IH; [exact H2|exact N| |  |exact D2].
    - intros n Hn. eapply H2, Hn.
    - rewrite N2, (occ_ext (ts s2) (ts s1)); [exact C1|]. intros w. apply M2.
  Qed.

  (** ** Runs *)
  Lemma shaped_qi s q i : shaped s -> shaped (with_qi s q i).
  Proof. intros [S1 S2]. constructor; assumption. Qed.

  Lemma steps_shaped now0 tr0 s0 now tr s :
    registered s0 -> shaped s0 -> steps now0 tr0 s0 now tr s -> shaped s.
  Proof.
    intros R0 S0 H. induction H as [|now tr s e now' s1 s' R IH T H]; [exact S0|].
    destruct (steps_base _ _ _ _ _ _ R0 R) as [RS _].
    assert (C : registered s1 /\ shaped s1).
    { apply take_next_ok in T. destruct T as [(r & _ & _ & ->)|(r & _ & _ & _ & ->)];
        (split; [destruct RS; constructor; auto|apply shaped_qi, IH]). }
    pose proof (fine_handle_event base_sound not_fuel not_fuel_py (fun t now s e _ => riq_not_fuel t now s e)
      e (Z.of_nat (S (length tr))) s1 C) as F.
    apply fine_okp in F. apply (F tt s' H).
  Qed.

  Lemma take_next_total now s : queue s ++ immediate s <> [] -> exists e now' s1, take_next now s = Ok ((e, now'), s1).
  Proof.
    intros H. unfold take_next, bind, gets. destruct (immediate s) as [|x r].
    - destruct (queue s) as [|y q]; [contradiction|]. do 3 eexists. reflexivity.
    - do 3 eexists. reflexivity.
  Qed.

  (** how the loop ends *)
  Inductive outcome (s0 : state) (tr : list handled) (guard : nat) : res (num * state) -> Prop :=
  | out_ok now tr' s' : reach s0 now (tr ++ tr') s' -> length tr' <= guard ->
      queue s' = [] -> immediate s' = [] -> outcome s0 tr guard (Ok (now, s'))
  | out_guard now tr' s' : reach s0 now (tr ++ tr') s' -> length tr' = guard ->
      queue s' ++ immediate s' <> [] -> outcome s0 tr guard (Err ValueError)
  | out_raise now tr' s' e now1 s1 x : reach s0 now (tr ++ tr') s' -> length tr' < guard ->
      take_next now s' = Ok ((e, now1), s1) ->
      handle_event e (Z.of_nat (S (length (tr ++ tr')))) s1 = Err x -> outcome s0 tr guard (Err x).

  Lemma loop_outcome s0 : forall guard now tr s,
    reach s0 now tr s -> outcome s0 tr guard (loop guard (Z.of_nat (length tr)) now s).
  Proof.
    induction guard as [|guard IH]; intros now tr s R.
    - cbn [loop]. unfold bind, gets.
      destruct (immediate s) eqn:I; [destruct (queue s) eqn:Q|].
      + apply (out_ok s0 tr 0 now [] s); rewrite ?app_nil_r; auto.
      + apply (out_guard s0 tr 0 now [] s); rewrite ?app_nil_r, ?Q; auto. discriminate.
      + apply (out_guard s0 tr 0 now [] s); rewrite ?app_nil_r; auto. rewrite I. destruct (queue s); discriminate.
    - cbn [loop]. unfold bind at 1, gets at 1. unfold bind at 1, gets at 1.
      assert (C : (immediate s = [] /\ queue s = []) \/ queue s ++ immediate s <> []).
      { destruct (immediate s); [destruct (queue s); [auto|]|]; right; [discriminate|destruct (queue s); discriminate]. }
      destruct C as [[I Q]|C].
      + rewrite I, Q. apply (out_ok s0 tr _ now [] s); rewrite ?app_nil_r; auto; simpl; lia.
      + assert (EQ : match immediate s, queue s with
                     | [], [] => ret now
                     | _, _ => bind (take_next now) (fun en => bind (handle_event (fst en) (Z.of_nat (length tr) + 1)%Z)
                         (fun _ => loop guard (Z.of_nat (length tr) + 1)%Z (snd en))) end
                = bind (take_next now) (fun en => bind (handle_event (fst en) (Z.of_nat (length tr) + 1)%Z)
                         (fun _ => loop guard (Z.of_nat (length tr) + 1)%Z (snd en)))).
        { destruct (immediate s); [destruct (queue s); [contradiction|]|]; reflexivity. }
        rewrite EQ. clear EQ. destruct (take_next_total now s C) as (e & now' & s1 & T).
        unfold bind at 1. rewrite T. cbn [fst snd].
        replace (Z.of_nat (length tr) + 1)%Z with (Z.of_nat (S (length tr))) by lia.
        unfold bind at 1. destruct (handle_event e _ s1) as [[[] s2]|x] eqn:Hh.
        * pose proof (reach_step _ _ _ _ _ _ _ _ _ _ R T Hh) as R'. set (h := mkH _ _ _) in R'.
          replace (S (length tr)) with (length (tr ++ [h])) by (rewrite app_length; simpl; lia).
          specialize (IH _ _ _ R'). destruct IH as [n2 tr' s' R2 L Q I|n2 tr' s' R2 L Q|n2 tr' s' e2 n3 s3 x R2 L T2 H2];
            rewrite <- app_assoc in R2; simpl in R2.
          -- eapply (out_ok s0 tr _ n2 (h :: tr')); eauto. simpl. lia.
          -- eapply (out_guard s0 tr _ n2 (h :: tr')); eauto. simpl. lia.
          -- rewrite <- app_assoc in H2. simpl in H2.
             apply (out_raise s0 tr _ n2 (h :: tr') s' e2 n3 s3 x R2); [simpl; lia|exact T2|exact H2].
        * apply (out_raise s0 tr _ now [] s e now' s1 x); rewrite ?app_nil_r; [exact R|simpl; lia|exact T|exact Hh].
  Qed.

  Section Ordered.
  Context (O : OrdArith A).
  Context (addr_inj : forall t u : nat, addr t = addr u -> t = u).

  Lemma handle_event_err e step s x : timed (ev_time (es s e)) s -> shaped s ->
    handle_event e step s = Err x -> python_exn x = true.
  Proof.
    intros T S H.
    pose proof (fine_handle_event (timed_sound O addr_inj) python_exn (fun _ h => h)
      (fun t now s e Tm => riq_err O addr_inj t now s e (proj2 (proj2 Tm))) e step s (conj T S)) as F.
    unfold fine in F. rewrite H in F. exact F.
  Qed.

  Lemma init_err_loop : forall tris s x,
    NoDup tris -> (forall t, In t tris -> t_event (ts s t) = None) -> timed n0 s -> immediate s = [] ->
    forM tris (fun t => bind (compute_collapse_time t n0 FindGt)
      (fun e => match e with Some e => queue_add e | None => ret tt end)) s = Err x -> python_exn x = true.
  Proof.
    induction tris as [|t tris IH]; intros s x N NE T I H; [discriminate|].
    cbn [forM] in H. unfold bind at 1 in H.
    destruct (bind (compute_collapse_time t n0 FindGt)
       (fun e => match e with Some e => queue_add e | None => ret tt end) s) as [[[] s1]|e] eqn:D.
    - inversion N as [|? ? Nt Nr]; subst.
      assert (K : forM [t] (fun t => bind (compute_collapse_time t n0 FindGt)
        (fun e => match e with Some e => queue_add e | None => ret tt end)) s = Ok (tt, s1)).
      { cbn [forM]. unfold bind at 1. rewrite D. reflexivity. }
      apply (init_loop O addr_inj) in K; auto.
      2:{ constructor; [simpl; tauto|constructor]. }
      2:{ intros u [<-|[]]. apply NE. simpl. auto. }
      destruct K as (K1 & _ & K3 & _). eapply IH; [exact Nr| |exact K1|exact K3|exact H].
      intros u Hu. apply init_tri in D. destruct D as [[_ ->]|(ev & _ & ->)]; [apply NE; simpl; auto|].
      cbn. rewrite upd_other; [apply NE; simpl; auto|]. congruence.
    - injection H as <-. unfold compute_collapse_time, bind, rd in D.
      destruct (collapse_event s t n0 FindGt) as [[ev|]|e'] eqn:Ec.
      + assert (W := collapse_event_good O _ _ _ _ _ Ec). destruct W as [W _].
        unfold queue_add, bind, gets in D. cbn -[q_has q_add] in D.
        match type of D with context [q_has ?a ?b ?c] =>
          change (q_has a b c) with (q_has (with_event s t ev) (ne s) (queue (with_event s t ev))) in D end.
        rewrite (add_no_dup O addr_inj n0) in D; [discriminate| | |apply (wf_tri _ _ _ W)].
        * apply T.
        * intros y Hy Ht. destruct T as (_ & _ & P).
          assert (Y : t_event (ts s (ev_tri (es s y))) = Some y) by (apply (pe_cur _ _ P), in_app_iff; auto).
          rewrite Ht, NE in Y by (simpl; auto). discriminate.
      + discriminate.
      + injection D as <-. eapply pdec_collapse_event, Ec.
  Qed.

  Lemma init_err s x : fresh s -> init_event_list s = Err x -> python_exn x = true.
  Proof.
    intros F H. unfold init_event_list in H.
    unfold bind at 1 in H. cbn [setq] in H. unfold bind at 1, gets in H.
    set (s2 := mkSt _ _ _ _ _ _ _ _ _ _ _ _ _ _) in H. cbn [sk_triangles] in H.
    destruct F as [F1 F2 F3 F4 F5 F6 F7].
    assert (T : timed n0 s2).
    { split; [destruct F7; constructor; auto|]. split.
      - constructor; cbn; intros v *; rewrite ?F3, ?F4; try reflexivity; try discriminate. apply F5.
      - constructor; cbn; rewrite ?F6; try constructor; intros; try contradiction; rewrite F2 in *; discriminate. }
    eapply init_err_loop in H; eauto.
  Qed.

  Lemma started_shaped s s0 : fresh s -> shaped s -> started s s0 -> shaped s0.
  Proof.
    intros F S St. destruct (init_timed O addr_inj s s0 F St) as (_ & Fo & _ & K & _ & Hv & _).
    apply (shaped_ext s); auto; [|lia|apply Fo]. intros t. destruct (K t) as (? & ? & _). auto.
  Qed.

  Theorem reach_err s s0 now tr s' e now' s1 x :
    fresh s -> shaped s -> started s s0 -> reach s0 now tr s' ->
    take_next now s' = Ok ((e, now'), s1) ->
    forall step, handle_event e step s1 = Err x -> python_exn x = true.
  Proof.
    intros F S St R T step H.
    destruct (init_timed O addr_inj s s0 F St) as [T0 _].
    pose proof (reach_timed O addr_inj _ _ _ _ T0 R) as TM.
    pose proof (steps_shaped _ _ _ _ _ _ (proj1 T0) (started_shaped _ _ F S St) R) as SH.
    apply take_next_ok in T. destruct T as [(r & I & -> & ->)|(r & I & Q & -> & ->)].
    - destruct (timed_take_imm addr_inj _ _ _ _ TM I) as [C1 C2]. eapply handle_event_err; [|apply shaped_qi, SH|exact H].
      cbn. rewrite C1. exact C2.
    - destruct (timed_take_queue O addr_inj _ _ _ _ TM I Q) as [C1 C2].
      eapply handle_event_err; [|apply shaped_qi, SH|exact H]. exact C2.
  Qed.
  End Ordered.
End TotalRun.
