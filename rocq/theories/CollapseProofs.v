(** Facts about the model of collapse.py. *)
From Coq Require Import Reals Lra Psatz Permutation Sorting.Sorted.
From Verif Require Import Base Arith ArithR Calc CalcProofs VectorOps Line2d Line2dProofs Primitives Collapse.

Ltac rinv H :=
  repeat match type of H with
  | rbind _ _ = Ok _ =>
      let x := fresh "x" in let Hx := fresh "Hx" in
      apply rbind_ok in H; destruct H as (x & Hx & H)
  end.

Lemma find3_get {X} (f : X -> bool) t sd : find3 f t = Some sd -> f (get3 t sd) = true.
Proof.
  unfold find3. destruct (f (x0 t)) eqn:E0; [intros H; injection H as <-; exact E0|].
  destruct (f (x1 t)) eqn:E1; [intros H; injection H as <-; exact E1|].
  destruct (f (x2 t)) eqn:E2; [intros H; injection H as <-; exact E2|discriminate].
Qed.
Lemma find3_none {X} (f : X -> bool) t : find3 f t = None -> forall sd, f (get3 t sd) = false.
Proof.
  unfold find3. destruct (f (x0 t)) eqn:E0; [discriminate|].
  destruct (f (x1 t)) eqn:E1; [discriminate|].
  destruct (f (x2 t)) eqn:E2; [discriminate|]. intros _ []; assumption.
Qed.
Lemma index3_get {X} (f : X -> bool) t sd : index3 f t = Ok sd -> f (get3 t sd) = true.
Proof.
  unfold index3. destruct (find3 f t) eqn:E; [|discriminate].
  intros H; injection H as <-. eapply find3_get; eauto.
Qed.
Lemma index3_some {X} (f : X -> bool) t sd : f (get3 t sd) = true -> exists i, index3 f t = Ok i.
Proof.
  intros H. unfold index3. destruct (find3 f t) eqn:E; [eauto|].
  rewrite (find3_none _ _ E) in H. discriminate.
Qed.

Lemma where3_NoDup {X} (f : X -> bool) t : NoDup (where3 f t).
Proof.
  apply NoDup_filter. repeat constructor; simpl; intuition discriminate.
Qed.
Lemma where3_In {X} (f : X -> bool) t sd : In sd (where3 f t) <-> f (get3 t sd) = true.
Proof.
  unfold where3. rewrite filter_In. split; [tauto|]. intros H. split; [|exact H].
  destruct sd; simpl; auto.
Qed.
Lemma where3_length {X} (f : X -> bool) t : length (where3 f t) = count3 f t.
Proof.
  unfold where3, count3. simpl. destruct (f (x0 t)), (f (x1 t)), (f (x2 t)); reflexivity.
Qed.
Lemma where3_cases {X} (f : X -> bool) t : length (where3 f t) <= 3.
Proof. rewrite where3_length. unfold count3. destruct (f (x0 t)), (f (x1 t)), (f (x2 t)); lia. Qed.
Lemma side_eqb_eq a b : side_eqb a b = true <-> a = b.
Proof. destruct a, b; simpl; split; congruence. Qed.

Section Generic.
  Context {A : Arith}.

  (** ** find_gt, find_gte *)
  Definition clearly_after (x w : num) : Prop := nltb x w = true /\ near_zero (nsub w x) = false.

  Section Ord.
  Context (O : OrdArith A).

  Lemma find_first_sorted {P : num -> bool} l v :
    StronglySorted (leP nleb) l -> find P l = Some v ->
    In v l /\ P v = true /\ forall w, In w l -> P w = true -> nleb v w = true.
  Proof.
    induction 1 as [|y r Hs IH Hf]; simpl; [discriminate|].
    destruct (P y) eqn:E.
    - intros H; injection H as <-. repeat split; auto.
      intros w [<-|Hw] _; [apply (nleb_refl O)|].
      rewrite Forall_forall in Hf. apply Hf, Hw.
    - intros H. destruct (IH H) as (H1 & H2 & H3). repeat split; auto.
      intros w [<-|Hw] Hp; [congruence|auto].
  Qed.

  Lemma isort_nleb_sorted l : StronglySorted (leP nleb) (isort nleb l).
  Proof.
    apply isort_sorted; [apply (oa_total A O)|apply (oa_trans A O)].
  Qed.

  Lemma find_gte_some a x v : find_gte a x = Some v ->
    In (Some v) a /\ nleb x v = true /\
    forall w, In (Some w) a -> nleb x w = true -> nleb v w = true.
  Proof.
    intros H. apply find_first_sorted in H; [|apply isort_nleb_sorted].
    destruct H as (H1 & H2 & H3). rewrite In_isort, In_somes in H1.
    rewrite negb_true_iff, (nltb_false_leb O) in H2. repeat split; auto.
    intros w Hw Hx. apply H3; [rewrite In_isort, In_somes; exact Hw|].
    rewrite negb_true_iff, (nltb_false_leb O). exact Hx.
  Qed.
  Lemma find_gte_none a x : find_gte a x = None <-> forall w, In (Some w) a -> nltb w x = true.
  Proof.
    unfold find_gte. split; intros H.
    - intros w Hw. apply find_none with (x := w) in H; [|rewrite In_isort, In_somes; exact Hw].
      apply negb_false_iff in H. exact H.
    - destruct (find _ _) eqn:E; [|reflexivity].
      apply find_some in E. destruct E as [E1 E2]. rewrite In_isort, In_somes in E1.
      rewrite H in E2 by exact E1. discriminate.
  Qed.

  Lemma find_gt_some a x v : find_gt a x = Some v ->
    In (Some v) a /\ clearly_after x v /\
    forall w, In (Some w) a -> clearly_after x w -> nleb v w = true.
  Proof.
    intros H. apply find_first_sorted in H; [|apply isort_nleb_sorted].
    destruct H as (H1 & H2 & H3). rewrite In_isort, filter_In, In_somes in H1.
    destruct H1 as [H1 Hn]. apply negb_true_iff in Hn.
    repeat split; auto.
    intros w Hw [Hx1 Hx2]. apply H3; [|exact Hx1].
    rewrite In_isort, filter_In, In_somes. rewrite Hx2. auto.
  Qed.
  Lemma find_gt_none a x : find_gt a x = None <-> forall w, In (Some w) a -> ~ clearly_after x w.
  Proof.
    unfold find_gt. split; intros H.
    - intros w Hw [H1 H2]. apply find_none with (x := w) in H.
      + congruence.
      + rewrite In_isort, filter_In, In_somes. rewrite H2. auto.
    - destruct (find _ _) eqn:E; [|reflexivity].
      apply find_some in E. destruct E as [E1 E2].
      rewrite In_isort, filter_In, In_somes in E1. destruct E1 as [E1 E3].
      exfalso. apply (H n); [exact E1|]. split; [exact E2|].
      apply negb_true_iff. exact E3.
  Qed.
  End Ord.

  (** what [sieve] promises about a time it returns *)
  Definition after (sv : sieve) (now time : num) : Prop :=
    match sv with
    | FindGt => clearly_after now time
    | FindGte => nltb time now = false
    end.
  Lemma run_sieve_after sv a now time : run_sieve sv a now = Some time -> after sv now time.
  Proof.
    destruct sv; simpl; intros H; apply find_some in H; destruct H as [H1 H2].
    - split; [exact H2|]. rewrite In_isort, filter_In in H1. apply negb_true_iff, H1.
    - apply negb_true_iff, H2.
  Qed.
  Lemma run_sieve_In sv a now time : run_sieve sv a now = Some time -> In (Some time) a.
  Proof.
    destruct sv; simpl; intros H; apply find_some in H; destruct H as [H1 H2];
      rewrite In_isort in H1; [apply filter_In in H1; destruct H1 as [H1 _]|]; apply In_somes, H1.
  Qed.
  Lemma truthy_some (o : option num) x : truthy o = Some x -> o = Some x /\ neqb x n0 = false.
  Proof.
    destruct o; simpl; [|discriminate]. destruct (neqb n n0) eqn:E; [discriminate|].
    intros H; injection H as <-. auto.
  Qed.

  (** an allowed event time: now itself or what the sieve lets through *)
  Definition time_ok (sv : sieve) (now time : num) : Prop := time = now \/ after sv now time.

  (** ** Shape of the computed events *)
  Record wf_event (s : state) (t : nat) (e : event) : Prop := {
    wf_tri : ev_tri e = t;
    wf_tritp : ev_tritp e = count3 is_none (t_n (ts s t));
    wf_nodup : NoDup (ev_side e);
    wf_len : length (ev_side e) = 1 \/ length (ev_side e) = 3;
    wf_three : length (ev_side e) = 3 -> ev_tp e = Edge;
    wf_split : ev_tp e = Split ->
      is_finite s t = true /\ tri_type (ts s t) = 1 /\
      exists i, ev_side e = [i] /\ get3 (t_n (ts s t)) i = None }.

  Lemma wf_one_edge s t time i : wf_event s t (mkevent s t time [i] Edge).
  Proof.
    constructor; simpl; auto; try discriminate; repeat constructor; auto.
  Qed.
  Lemma wf_one_flip s t time i : wf_event s t (mkevent s t time [i] Flip).
  Proof.
    constructor; simpl; auto; try discriminate; repeat constructor; auto.
  Qed.
  Lemma wf_three_edge s t time : wf_event s t (mkevent s t time [S0; S1; S2] Edge).
  Proof.
    constructor; simpl; auto; try discriminate.
    repeat constructor; simpl; intuition discriminate.
  Qed.
  Lemma wf_one_split s t time i : is_finite s t = true -> tri_type (ts s t) = 1 ->
    get3 (t_n (ts s t)) i = None -> wf_event s t (mkevent s t time [i] Split).
  Proof.
    intros Hf H1 H. constructor; simpl; auto; try discriminate; repeat constructor; auto.
    exists i. auto.
  Qed.

  Local Hint Resolve wf_one_edge wf_one_flip wf_three_edge : wfe.

  Definition good (s : state) (t : nat) (now : num) (sv : sieve) (e : event) : Prop :=
    wf_event s t e /\ time_ok sv now (ev_time e).

  Ltac dw H := match type of H with context [where3 ?f ?z] =>
    destruct (where3 f z) as [|?i [|?j [|?k [|]]]] end.
  Ltac inj H := injection H as <-.
  Ltac now_ok := left; reflexivity.
  Ltac sv_ok := right; eapply run_sieve_after; eassumption.

  Lemma event0_degenerate_good s t o d a now sv times e :
    event0_degenerate s t o d a now times = Ok (Some e) -> good s t now sv e.
  Proof.
    induction times as [|time r IH]; simpl; [discriminate|].
    destruct (near_zero _); [|exact IH]. intros H. rinv H.
    destruct (where3 near_zero x0) as [|i [|j [|k [|]]]]; rinv H; try discriminate; inj H;
      (split; [auto with wfe|now_ok]).
  Qed.

  Lemma event0_edge_good s t time z now sv e :
    event0_edge s t time z = Ok (Some e) -> time_ok sv now time -> good s t now sv e.
  Proof.
    unfold event0_edge. intros H K.
    destruct (where3 _ z) as [|i [|j [|k [|]]]]; try discriminate; inj H; split; auto with wfe.
  Qed.

  Lemma event0_good s t now sv e :
    compute_event_0triangle s t now sv = Ok (Some e) -> good s t now sv e.
  Proof.
    unfold compute_event_0triangle. intros H. rinv H.
    destruct x1 as [e'|]; [inj H; eapply event0_degenerate_good; eauto|].
    rinv H.
    destruct (run_sieve sv (map _ (where3 _ _)) now) as [te|] eqn:Ee;
      destruct (run_sieve sv (map Some _) now) as [ta|] eqn:Ea; try discriminate.
    - destruct (near_zero _).
      + rinv H. dw H; rinv H; inj H;
          (split; [auto with wfe|sv_ok]).
      + destruct (nltb ta te).
        * rinv H. inj H. split; [auto with wfe|sv_ok].
        * rinv H. eapply event0_edge_good; [exact H|sv_ok].
    - rinv H. eapply event0_edge_good; [exact H|sv_ok].
    - rinv H. inj H. split; [auto with wfe|sv_ok].
  Qed.

  Lemma index3_none_nb s t i : index3 is_none (t_n (ts s t)) = Ok i -> get3 (t_n (ts s t)) i = None.
  Proof.
    intros H. apply index3_get in H. destruct (get3 _ i); [discriminate|reflexivity].
  Qed.

  Lemma event1_good s t now sv e : is_finite s t = true ->
    compute_event_1triangle s t now sv = Ok (Some e) -> good s t now sv e.
  Proof.
    intros Hf. unfold compute_event_1triangle. intros H. rinv H.
    destruct x. apply rassert_ok, Nat.eqb_eq in Hx.
    rename x0 into wf. pose proof (index3_none_nb _ _ _ Hx0) as Hw.
    rename x1 into crash.
    destruct x2 as [e'|].
    { inj H. unfold event1_degenerate in Hx2. destruct crash as [tv|]; [|discriminate].
      destruct (near_zero _); [|discriminate]. rinv Hx2.
      destruct (where3 near_zero x) as [|i [|j l]]; rinv Hx2; inj Hx2;
        (split; [|now_ok]); auto with wfe;
      match goal with |- context [side_eqb ?i wf] => destruct (side_eqb i wf) eqn:Es end;
        auto with wfe; apply side_eqb_eq in Es; subst; apply wf_one_split; auto. }
    rinv H.
    destruct (run_sieve sv [Some _] now) as [te|] eqn:Ee;
      destruct (run_sieve sv [crash] now) as [tv|] eqn:Ev.
    - unfold event1_caseD in H. destruct (_ || _).
      + rinv H. inj H. split; [auto with wfe|sv_ok].
      + destruct (nltb tv te); [|discriminate]. rinv H. dw H; rinv H; inj H;
          (split; [|sv_ok]); auto with wfe;
        match goal with |- context [is_none ?o] => destruct o eqn:Es end; simpl; auto with wfe;
          apply wf_one_split; auto.
    - inj H. split; [auto with wfe|sv_ok].
    - unfold event1_caseB in H.
      set (time := match run_sieve sv (map Some _) now with Some _ => _ | None => _ end) in H.
      assert (Ht : time_ok sv now time).
      { unfold time. destruct (run_sieve sv (map Some _) now) as [ta|] eqn:Ea; [|sv_ok].
        destruct (nltb ta tv); sv_ok. }
      clearbody time. rinv H.
      destruct (match where3 _ _ with [] => false | _ => _ end).
      + inj H. split; [apply wf_one_split; auto|sv_ok].
      + destruct (Nat.eqb _ 1); rinv H; inj H; split; auto with wfe.
    - unfold event1_caseA in H. destruct (area_collapse_time_coeff _ _ _) as [[ca cb] cc].
      rinv H. destruct (run_sieve sv (map Some _) now) as [time|] eqn:Et; [|discriminate].
      destruct (near_zero _).
      + inj H. split; [apply wf_one_split; auto|now_ok].
      + rinv H. inj H. split; [auto with wfe|sv_ok].
  Qed.

  Lemma event2_good s t now sv e :
    compute_event_2triangle s t now sv = Ok (Some e) -> good s t now sv e.
  Proof.
    unfold compute_event_2triangle. intros H. rinv H.
    destruct x4 as [time|] eqn:E4; [|discriminate]. subst.
    assert (Ht : time_ok sv now time).
    { destruct (run_sieve sv (map Some _) now) as [ta|] eqn:Ea.
      - injection Hx4 as <-. sv_ok.
      - rinv Hx4. injection Hx4 as Hx4. sv_ok. }
    unfold event2_at in H. rinv H.
    destruct (count3 _ _) as [|[|[|[|]]]]; try discriminate; rinv H; inj H; split; auto with wfe.
  Qed.

  Lemma event3_good s t now sv e :
    compute_event_3triangle s t now sv = Ok (Some e) -> good s t now sv e.
  Proof.
    unfold compute_event_3triangle. intros H. rinv H.
    destruct (truthy (run_sieve sv [_; _; _] now)) as [te|] eqn:Ee.
    - apply truthy_some in Ee. destruct Ee as [Ee _].
      pose proof (where3_NoDup near_zero x5) as Hn. pose proof (where3_cases near_zero x5) as Hl.
      destruct (where3 _ _) as [|i [|j [|k [|]]]]; inj H; (split; [|sv_ok]); auto with wfe.
      + constructor; simpl; auto; discriminate.
      + simpl in Hl. lia.
    - destruct (truthy (run_sieve sv (map Some _) now)) as [ta|] eqn:Ea; [|discriminate].
      apply truthy_some in Ea. destruct Ea as [Ea _]. inj H. split; [auto with wfe|sv_ok].
  Qed.

  Lemma clearly_after_after (O : OrdArith A) sv now time : clearly_after now time -> after sv now time.
  Proof.
    destruct sv; simpl; [auto|]. intros [H _].
    apply (nltb_false_leb O), (nltb_leb O), H.
  Qed.

  Lemma event_inf_good (O : OrdArith A) s t now sv e :
    compute_event_inftriangle s t now sv = Ok (Some e) -> good s t now sv e.
  Proof.
    unfold compute_event_inftriangle. intros H.
    destruct (is_none _).
    - rinv H. destruct (truthy (find_gt _ now)) as [time|] eqn:E; [|discriminate].
      apply truthy_some in E. destruct E as [E _].
      apply (run_sieve_after FindGt) in E. rinv H.
      destruct (near_zero _); [|discriminate]. inj H. split; [auto with wfe|].
      right. apply (clearly_after_after O), E.
    - rinv H. destruct (truthy (run_sieve sv _ now)) as [time|] eqn:E; [|discriminate].
      apply truthy_some in E. destruct E as [E _]. rinv H.
      destruct (near_zero _); [inj H; split; [auto with wfe|sv_ok]|].
      destruct (edge_segment _ (cw _)), (edge_segment _ (ccw _)). rinv H.
      inj H. split; [auto with wfe|sv_ok].
  Qed.

  Lemma collapse_event_good (O : OrdArith A) s t now sv e :
    collapse_event s t now sv = Ok (Some e) -> good s t now sv e.
  Proof.
    unfold collapse_event. destruct (is_some _); [discriminate|].
    destruct (is_finite s t) eqn:Hf; [|apply (event_inf_good O)].
    intros H. rinv H. destruct x as [e'|]; [|rinv H; discriminate].
    inj H. destruct (tri_type (ts s t)) as [|[|[|]]].
    - apply event0_good, Hx.
    - apply event1_good; assumption.
    - apply event2_good, Hx.
    - apply event3_good, Hx.
  Qed.

  Lemma collapse_event_active s t now sv e :
    collapse_event s t now sv = Ok (Some e) -> t_stops (ts s t) = None.
  Proof.
    unfold collapse_event. destruct (t_stops (ts s t)); [discriminate|auto].
  Qed.
End Generic.
