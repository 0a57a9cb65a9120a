(** The graph of the skeleton along a run (any arithmetic) *)
From Verif Require Import Base Arith Calc VectorOps Line2d Primitives Collapse EventsLib
  FlipEvent ParallelEvent EdgeEvent SplitEvent EventLoop Pass OpSpec StopSpec RunBase RunLoop Decent Total FanProofs TotalRun
  Mesh MeshEvents MeshEdge MeshRun Effects Listed Properties_effects Graph.
Local Close Scope Q_scope.
Local Open Scope nat_scope.

Section GraphRun.
  Context {A : Arith} {E : Env A}.
  Local Open Scope M_scope.

  (** the vertices the event ends run, and began earlier *)
  Definition plain (s : state) (e : nat) : Prop :=
    let now := ev_time (es s e) in let c i := vs s (corner s (ev_tri (es s e)) i) in
    match ev_tp (es s e) with
    | Flip => True
    | Split => exists i, ev_side (es s e) = [i] /\ anchored now (c i) = false
    | Edge => (length (ev_side (es s e)) = 3 /\ forall i, anchored now (c i) = false) \/
        exists i, ev_side (es s e) = [i] /\ tri_type (ts s (ev_tri (es s e))) <> 3 /\
          anchored now (c (ccw i)) = false /\ anchored now (c (cw i)) = false
    end.

  Record tally (s0 s : state) (N : list nat) : Prop := {
    ta_nodes : sk_nodes s = sk_nodes s0 ++ N;
    ta_fresh : NoDup N /\ forall n, In n N -> nn s0 <= n < nn s;
    ta_verts : NoDup (sk_vertices s);
    ta_stop : forall v, v < nv s -> k_stops (vs s v) = None -> k_stop_node (vs s v) = None;
    ta_listed : forall u i, active s u -> k_inf (vs s (corner s u i)) = false -> In (corner s u i) (sk_vertices s);
    ta_three : forall n, In n N -> degree s n = 3;
    ta_old : forall n, n < nn s0 -> degree s n = degree s0 n;
    ta_gone : gone s = gone s0 + length N;
    ta_ended : length (sk_vertices s) + ended s = length (sk_vertices s0) + ended s0 + 3 * length N }.

  Lemma tally_joins s0 s s' N t now V W : registered s -> shaped s -> nn s0 <= nn s -> follows s s' -> tally s0 s N -> NoDup (sk_triangles s) ->
    active s t -> (forall v, In v V -> exists i, v = corner s t i) -> joins s s' t now V W -> nn s < nn s' ->
    (forall u i, active s' u -> nv s <= corner s' u i < nv s' \/ exists w j, active s w /\ corner s' u i = corner s w j) ->
    tally s0 s' (N ++ [nn s]).
  Proof.
    intros R SH LN FO TA NT At HV J NN CO.
    assert (IV : incl V (sk_vertices s)).
    { intros v Hv. destruct (HV v Hv) as [i ->]. apply (ta_listed _ _ _ TA); [exact At|]. apply (jo_old _ _ _ _ _ _ J _ Hv). }
    assert (DG := joins_degree s s' t now V W R (ta_verts _ _ _ TA) (ta_stop _ _ _ TA) IV J).
    destruct (ta_fresh _ _ _ TA) as [FN FR].
    constructor.
    - rewrite (jo_nodes _ _ _ _ _ _ J), (ta_nodes _ _ _ TA), app_assoc. reflexivity.
    - split.
      + apply nodup_app; [exact FN|repeat constructor; intros []|]. intros n Hn [<-|[]]. apply FR in Hn. lia.
      + intros n Hn. apply in_app_iff in Hn. destruct Hn as [Hn|[<-|[]]]; [apply FR in Hn; lia|lia].
    - eapply joins_nodup; eauto. apply TA.
    - eapply joins_stop_node; eauto. apply TA.
    - intros u i Hu KI. rewrite (jo_verts _ _ _ _ _ _ J). apply in_app_iff.
      destruct (CO u i Hu) as [Q|(w & j & Hw & Q)].
      + right. destruct (jo_new _ _ _ _ _ _ J) as [[-> K]|[[-> K]|[-> K]]]; cbn; lia.
      + left. rewrite Q in *. apply (ta_listed _ _ _ TA _ _ Hw).
        pose proof (sm_inf _ _ (fo_motion _ _ FO _ (sh_v _ SH w j))) as Z. change (get3 (t_v (ts s w)) j) with (corner s w j) in Z. congruence.
    - intros n Hn. rewrite DG. apply in_app_iff in Hn. destruct Hn as [Hn|[<-|[]]]; [|rewrite Nat.eqb_refl; reflexivity].
      destruct (Nat.eqb_spec n (nn s)); [reflexivity|]. apply (ta_three _ _ _ TA), Hn.
    - intros n Hn. rewrite DG. rewrite (proj2 (Nat.eqb_neq _ _)) by lia. apply (ta_old _ _ _ TA), Hn.
    - rewrite (joins_gone s s' t now V W J NT (fo_tris _ _ FO) (proj1 At) (proj2 At)), (ta_gone _ _ _ TA), app_length. cbn [length]. lia.
    - rewrite (joins_ended s s' t now V W R (ta_verts _ _ _ TA) (ta_stop _ _ _ TA) IV J), (jo_verts _ _ _ _ _ _ J), !app_length.
      pose proof (ta_ended _ _ _ TA). pose proof (jo_three _ _ _ _ _ _ J). cbn [length]. lia.
  Qed.

  Theorem event_tally s0 s e step s' N : registered s -> shaped s -> linked (active s) s -> regular s e ->
    (t_stops (ts s (ev_tri (es s e))) = None -> plain s e) -> handle_event e step s = Ok (tt, s') ->
    (forall v, nv s <= v < nv s' -> k_inf_fast (vs s' v) = false) ->
    nn s0 <= nn s -> NoDup (sk_triangles s) -> tally s0 s N -> exists M, tally s0 s' (N ++ M).
  Proof.
    intros R SH L RG PL H NF LN NT TA. pose proof (event_corners s e step s' R SH L RG H NF) as CO.
    pose proof (keeps_handle_event base_sound e step s R tt s' H) as [R' FO].
    destruct (t_stops (ts s (ev_tri (es s e)))) eqn:ST.
    { assert (s' = s) as ->.
      { unfold handle_event in H. apply bind_ok in H. destruct H as (evt & s9 & H1 & H). apply gets_ok in H1. destruct H1 as [-> ->].
        apply bind_ok in H. destruct H as (x & s9 & H1 & H). apply gets_ok in H1. destruct H1 as [-> ->].
        rewrite ST in H. cbn [is_some] in H. apply ret_ok in H. apply H. }
      exists []. rewrite app_nil_r. exact TA. }
    specialize (PL eq_refl). unfold plain in PL.
    assert (At : active s (ev_tri (es s e))) by (split; [apply (re_tri _ _ RG)|exact ST]).
    pose proof (re_distinct _ _ RG _ At) as DI.
    assert (NNR : forall V W t now, joins s s' t now V W -> nn s < nn s').
    { intros V W t now J. apply (rg_nodes _ R'). rewrite (jo_nodes _ _ _ _ _ _ J). apply in_app_iff. right. left. reflexivity. }
    destruct (ev_tp (es s e)) eqn:TP.
    - destruct PL as [[SE AN]|(i & SE & TY & A1 & A2)].
      + pose proof (three_joins s e step s' R SH TP SE ST DI AN H) as J. exists [nn s].
        eapply tally_joins; eauto. cbn. intros v [<-|[<-|[<-|[]]]]; [exists S0|exists S1|exists S2]; reflexivity.
      + assert (NE : corner s (ev_tri (es s e)) (ccw i) <> corner s (ev_tri (es s e)) (cw i)).
        { intros Q. apply DI in Q. destruct i; discriminate. }
        pose proof (opposite_apart (active s) s _ L (re_distinct _ _ RG) At (re_opposite _ _ RG)) as AP.
        assert (LV : nv s < nv s').
        { assert (HE : handle_edge_event (es s e) step s = Ok (tt, s')).
          { unfold handle_event in H. apply bind_ok in H. destruct H as (evt & s9 & H1 & H). apply gets_ok in H1. destruct H1 as [-> ->].
            apply bind_ok in H. destruct H as (x & s9 & H1 & H). apply gets_ok in H1. destruct H1 as [-> ->].
            rewrite ST, TP, SE in H. cbn [is_some length Nat.eqb andb] in H. rewrite (proj2 (Nat.eqb_neq _ _) TY) in H. exact H. }
          destruct (edge_effect (active s) s (es s e) step i s' R SH L (re_distinct _ _ RG) At AP SE HE NF) as (kv & _ & _ & KV & _). lia. }
        pose proof (edge_joins s e i step s' R SH TP SE TY ST NE A1 A2 H ltac:(apply NF; lia)) as J.
        exists [nn s]. eapply tally_joins; eauto. cbn. intros v [<-|[<-|[]]]; eexists; reflexivity.
    - destruct (C65_flip s e step s' TP ST H) as (Q1 & Q2 & Q3 & Q4 & Q5 & Q6). exists []. rewrite app_nil_r.
      assert (KV : forall v, v < nv s -> k_stop_node (vs s' v) = k_stop_node (vs s v) /\ k_stops (vs s' v) = k_stops (vs s v)).
      { intros v Hv. apply Q1; auto. }
      assert (VL : forall v, In v (sk_vertices s) -> v < nv s) by apply (rg_verts _ R).
      assert (DG : forall n, degree s' n = degree s n).
      { intros n. unfold degree. rewrite Q3. f_equal; apply count_ext; intros v Hv; apply VL in Hv.
        - rewrite (sm_start_node _ _ (fo_motion _ _ FO v Hv)). reflexivity.
        - rewrite (proj1 (KV v Hv)). reflexivity. }
      destruct TA. constructor; auto.
      + congruence.
      + split; [apply ta_fresh0|]. intros n Hn. apply ta_fresh0 in Hn. pose proof (fo_nn _ _ FO). lia.
      + congruence.
      + intros v Hv. rewrite Q2 in Hv. destruct (KV v Hv) as [-> ->]. auto.
      + intros u i Hu KI. destruct (CO u i Hu) as [Q|(w & j & Hw & Q)]; [lia|]. rewrite Q in *. rewrite Q3. apply ta_listed0; auto.
        pose proof (sm_inf _ _ (fo_motion _ _ FO _ (sh_v _ SH w j))) as Z. change (get3 (t_v (ts s w)) j) with (corner s w j) in Z. congruence.
      + intros n Hn. rewrite DG. auto.
      + intros n Hn. rewrite DG. auto.
      + rewrite <- ta_gone0. unfold gone. rewrite (fo_tris _ _ FO). apply count_ext. intros u _. rewrite Q6. reflexivity.
      + rewrite <- ta_ended0. rewrite Q3. f_equal. unfold ended. rewrite Q3. apply count_ext. intros v Hv. apply VL in Hv.
        rewrite (proj1 (KV v Hv)). reflexivity.
    - destruct PL as (i & SE & A1).
      assert (NN2 : S (nv s) < nv s').
      { pose proof (opposite_apart (active s) s _ L (re_distinct _ _ RG) At (re_opposite _ _ RG)) as AP.
        assert (HE : handle_split_event (es s e) step s = Ok (tt, s')).
        { unfold handle_event in H. apply bind_ok in H. destruct H as (evt & s9 & H1 & H). apply gets_ok in H1. destruct H1 as [-> ->].
          apply bind_ok in H. destruct H as (x & s9 & H1 & H). apply gets_ok in H1. destruct H1 as [-> ->].
          rewrite ST, TP in H. exact H. }
        destruct (split_effect (active s) s (es s e) step i s' R SH L (re_distinct _ _ RG) At AP SE HE NF) as (vb & va & _ & _ & B1 & B2 & B3 & _). lia. }
      pose proof (split_joins s e i step s' R SH TP SE ST A1 H ltac:(apply NF; lia) ltac:(apply NF; lia)) as J. exists [nn s].
      eapply tally_joins; eauto. cbn. intros v [<-|[]]. eexists; reflexivity.
  Qed.

  Theorem run_tally s0 now tr s : registered s0 -> shaped s0 -> linked (active s0) s0 -> NoDup (sk_triangles s0) -> tally s0 s0 [] ->
    reach s0 now tr s ->
    (forall now1 tr1 s1 e now2 s2, reach s0 now1 tr1 s1 -> length tr1 < length tr ->
       take_next now1 s1 = Ok ((e, now2), s2) -> regular s2 e /\ (t_stops (ts s2 (ev_tri (es s2 e))) = None -> plain s2 e)) ->
    (forall v, nv s0 <= v < nv s -> k_inf_fast (vs s v) = false) ->
    exists N, tally s0 s N.
  Proof.
    intros R0 SH0 L0 NT TA0 H. induction H as [|now tr s e now' s1 s' R IH T H]; intros RG NF; [eauto|].
    rewrite app_length in RG. cbn [length] in RG.
    destruct (steps_base _ _ _ _ _ _ R0 R) as [Rs Fs].
    pose proof (steps_shaped _ _ _ _ _ _ R0 SH0 R) as Ss.
    assert (C : registered s1 /\ shaped s1 /\ nv s1 = nv s /\ nn s1 = nn s /\ sk_triangles s1 = sk_triangles s /\ ts s1 = ts s /\ vs s1 = vs s /\
                sk_nodes s1 = sk_nodes s /\ sk_vertices s1 = sk_vertices s).
    { apply take_next_ok in T. destruct T as [(r & _ & _ & ->)|(r & _ & _ & _ & ->)];
        (split; [destruct Rs; constructor; auto|split; [destruct Ss; constructor; auto|cbn; repeat split; auto]]). }
    destruct C as (R1 & SH1 & N1 & M1 & T1 & TS & VS & SN & SV).
    pose proof (keeps_handle_event base_sound e (Z.of_nat (S (length tr))) s1 R1 tt s' H) as [R2 F2].
    assert (NFs : forall v, nv s0 <= v < nv s -> k_inf_fast (vs s v) = false).
    { intros v Hv. pose proof (fo_nv _ _ F2) as O2.
      assert (K : v < nv s1) by (rewrite N1; apply Hv). pose proof (sm_fast _ _ (fo_motion _ _ F2 v K)) as Q.
      rewrite VS in Q. rewrite <- Q. apply NF. split; [apply Hv|]. apply (Nat.lt_le_trans _ _ _ K O2). }
    assert (RGs : forall now1 tr1 s3 e1 now2 s2, reach s0 now1 tr1 s3 -> length tr1 < length tr ->
       take_next now1 s3 = Ok ((e1, now2), s2) -> regular s2 e1 /\ (t_stops (ts s2 (ev_tri (es s2 e1))) = None -> plain s2 e1)).
    { intros now1 tr1 s3 e1 now2 s2 Q1 Q2. apply (RG now1 tr1 s3 e1 now2 s2 Q1). clear -Q2. lia. }
    destruct (IH RGs NFs) as [N TA].
    pose proof (run_mesh s0 now tr s R0 SH0 L0 R (fun a b c d f g h i j => proj1 (RGs a b c d f g h i j)) NFs) as Ls.
    destruct (RG now tr s e now' s1 R ltac:(clear; lia) T) as [G1 G2].
    assert (L1 : linked (active s1) s1) by (unfold linked, active, shares, corner, link in *; rewrite T1, TS; exact Ls).
    assert (TA1 : tally s0 s1 N).
    { destruct TA. constructor; unfold degree, gone, ended, active, corner in *; rewrite ?SN, ?SV, ?N1, ?M1, ?T1, ?TS, ?VS; auto. }
    destruct (event_tally s0 s1 e _ s' N R1 SH1 L1 G1 G2 H) as [M TM]; auto.
    - intros v Hv. apply NF. pose proof (fo_nv _ _ Fs) as Q. rewrite N1 in Hv. split; [apply (Nat.le_trans _ _ _ Q), Hv|apply Hv].
    - rewrite M1. apply (fo_nn _ _ Fs).
    - rewrite T1, (fo_tris _ _ Fs). exact NT.
    - eauto.
  Qed.
End GraphRun.
