(** Property theorems about runs of the event loop (events/loop.py and the
    handlers it calls).

    Vocabulary (RunLoop.v): [fresh s] a skeleton before the first event;
    [started s s0] init_event_list turned [s] into [s0]; [reach s0 now tr s']
    from [s0] at time 0 the events [tr] were taken and handled without an
    exception, the clock is [now], the state [s'].  Every number of handled
    events, every order in which events arise is covered. *)
From Coq Require Import Sorting.Sorted Permutation.
From Verif Require Import Base Arith ArithQ Calc VectorOps Line2d Primitives Collapse CollapseProofs EventsLib
  EventLoop Pass OpSpec Order StopSpec RunBase RunTimed RunLoop Scenario ScenarioRun.

(** ** C29 *)
Section C29.
  Context {A : Arith} {E : Env A}.

  (** the order in words: time first, then higher triangle type first, then address *)
  Definition comes_before (a b : event) : Prop :=
    nltb (ev_time a) (ev_time b) = true \/
    neqb (ev_time a) (ev_time b) = true /\
      (ev_tritp a > ev_tritp b \/
       ev_tritp a = ev_tritp b /\ (addr (ev_tri a) < addr (ev_tri b))%Z).
End C29.

Theorem C29_event_order :
  forall (A : Arith) (E : Env A), OrdArith A ->
  (forall t u : nat, addr t = addr u -> t = u) ->
  let cmp := compare_event_by_time in
  (forall a b, cmp a b = Lt <-> comes_before a b) /\
  (forall a b, cmp a b = Eq <->
     neqb (ev_time a) (ev_time b) = true /\ ev_tritp a = ev_tritp b /\ ev_tri a = ev_tri b) /\
  (forall a b, cmp b a = CompOpp (cmp a b)) /\
  (forall a b c, cmp a b = Lt -> cmp b c = Lt -> cmp a c = Lt) /\
  (forall a b c, cmp a b = Eq -> cmp b c = Eq -> cmp a c = Eq) /\
  (forall a b c, cmp a b = Eq -> cmp b c = Lt -> cmp a c = Lt).
Proof.
  intros A E O inj cmp.
  assert (L : forall a b, cmp a b = Lt <-> comes_before a b).
  { intros a b. unfold cmp. rewrite (cmp_lt O). unfold comes_before, gt. reflexivity. }
  assert (Q : forall a b, cmp a b = Eq <->
     neqb (ev_time a) (ev_time b) = true /\ ev_tritp a = ev_tritp b /\ ev_tri a = ev_tri b)
    by (intros; apply (cmp_eq O inj)).
  split; [exact L|]. split; [exact Q|]. split; [|split; [|split]].
  - intros a b. destruct (cmp a b) eqn:H; simpl.
    + apply Q in H. apply Q. rewrite (neqb_sym O). intuition.
    + apply (cmp_gt O). exact H.
    + apply (cmp_gt O) in H. exact H.
  - intros a b c. apply (cmp_trans O).
  - intros a b c H K. apply Q in H, K. apply Q. destruct H as (H1 & H2 & H3), K as (K1 & K2 & K3).
    split; [|split; congruence]. rewrite (oa_eqb A O), andb_true_iff in *.
    destruct H1, K1. split; eapply (oa_trans A O); eauto.
  - intros a b c H K. apply Q in H. apply L in K. apply L. destruct H as (H1 & H2 & H3).
    unfold comes_before in *. rewrite H2, H3.
    rewrite (oa_eqb A O), andb_true_iff in H1. destruct H1 as [H1 H1']. destruct K as [K|[K1 K2]].
    + left. rewrite (oa_ltb A O), negb_true_iff in *. destruct (nleb (ev_time c) (ev_time a)) eqn:F; [|reflexivity].
      rewrite <- K. symmetry. eapply (oa_trans A O); eauto.
    + right. split; [|exact K2]. rewrite (oa_eqb A O), andb_true_iff in *. destruct K1.
      split; eapply (oa_trans A O); eauto.
Qed.
Print Assumptions C29_event_order.

Definition ex_ev (t : Q) (tri tp : nat) : event (A:=QA) := mkEv t tri [S0] Edge tp.
Example C29_example :
  let cmp := compare_event_by_time (A:=QA) in
  (cmp (ex_ev 1 5 0) (ex_ev (3#2) 4 3), cmp (ex_ev 1 5 3) (ex_ev (2#2) 4 1),
   cmp (ex_ev 1 5 1) (ex_ev 1 4 1), cmp (ex_ev 1 5 1) (ex_ev (2#2) 5 1)) = (Lt, Lt, Gt, Eq).
Proof. vm_compute. reflexivity. Qed.

(** ** C30 *)
Theorem C30_pending_events :
  forall (A : Arith) (E : Env A), OrdArith A ->
  (forall t u : nat, addr t = addr u -> t = u) ->
  forall s s0 now tr s', fresh s -> started s s0 -> reach s0 now tr s' ->
  let pend := queue s' ++ immediate s' in
  NoDup (map (fun e => ev_tri (es s' e)) pend) /\
  (forall e, In e pend -> t_event (ts s' (ev_tri (es s' e))) = Some e) /\
  StronglySorted (fun a b => compare_event_by_time (es s' a) (es s' b) = Lt) (queue s').
Proof.
  intros A E O inj s s0 now tr s' F S R pend.
  destruct (init_timed O inj s s0 F S) as [T _].
  pose proof (reach_timed O inj _ _ _ _ T R) as (_ & _ & P).
  split; [|split].
  - pose proof (pe_nodup _ _ P) as N. pose proof (pe_cur _ _ P) as C. fold pend in N, C.
    clearbody pend. clear - N C. induction N as [|e l Ne N IH]; simpl; constructor.
    + intros K. apply in_map_iff in K. destruct K as (x & Hx & K). apply Ne.
      pose proof (C e (or_introl eq_refl)) as C1. pose proof (C x (or_intror K)) as C2.
      rewrite Hx in C2. congruence.
    + apply IH. intros x Hx. apply C. simpl. auto.
  - apply P.
  - apply (pe_sorted _ _ P).
Qed.
Print Assumptions C30_pending_events.

(** in the middle of the run of [notch], two events are pending *)
Example C30_example :
  exists s0 now tr s', started notch s0 /\ reach s0 now tr s' /\ length tr = 1 /\
  (length (queue s') =? 2) && (length (queue s' ++ immediate s') =? 2) = true.
Proof. apply (example_k 1 notch). vm_compute. reflexivity. Qed.

(** ** C31 *)
Theorem C31_clock :
  forall (A : Arith) (E : Env A), OrdArith A ->
  (forall t u : nat, addr t = addr u -> t = u) ->
  forall s s0 now tr s', fresh s -> started s s0 -> reach s0 now tr s' ->
  StronglySorted (fun a b => nleb a b = true) (n0 :: map h_time tr ++ [now]) /\
  (forall e, In e (queue s') -> nleb now (ev_time (es s' e)) = true) /\
  (forall e, In e (immediate s') -> ev_time (es s' e) = now).
Proof.
  intros A E O inj s s0 now tr s' F S R.
  destruct (init_timed O inj s s0 F S) as [T _].
  pose proof (reach_timed O inj _ _ _ _ T R) as (_ & _ & P).
  split; [exact (reach_times O inj _ _ _ _ T R)|]. split; apply P.
Qed.
Print Assumptions C31_clock.

Example C31_example :
  exists s0 now tr s', started notch s0 /\ reach s0 now tr s' /\ length tr = 2 /\
  match tr with [h1; h2] => Qeq_bool (h_time h1) (4#3) && Qeq_bool (h_time h2) 2 | _ => false end
  && Qeq_bool now 2 && (length (queue s') =? 1) = true.
Proof. apply (example_k 2 notch). vm_compute. reflexivity. Qed.

(** ** C33: whatever the arithmetic, whatever the skeleton *)
Theorem C33_normal_return :
  forall (A : Arith) (E : Env A) (s : state) (now : num) (s' : state),
  bind init_event_list (fun _ => event_loop) s = Ok (now, s') ->
  queue s' = [] /\ immediate s' = [] /\
  (forall t, In t (sk_triangles s') ->
     (forall v, In v (list3 (t_v (ts s' t))) -> k_internal (vs s' v) = true) ->
     exists stop, t_stops (ts s' t) = Some stop) /\
  exists s0 tr, started s s0 /\ reach s0 now tr s' /\ length tr <= max_events /\
    (forall before h after, tr = before ++ h :: after -> h_queue h = true ->
       (forall h', In h' after -> h_queue h' = false) -> now = h_time h) /\
    ((forall h, In h tr -> h_queue h = false) -> now = n0).
Proof.
  intros A E s now s' H.
  apply bind_ok in H. destruct H as ([] & s1 & H & K). unfold event_loop in K.
  apply bind_ok in K. destruct K as ([] & s2 & K1 & K). injection K1 as <-.
  apply bind_ok in K. destruct K as ([] & s3 & K1 & K). apply rd_ok in K1. destruct K1 as [_ ->].
  apply bind_ok in K. destruct K as ([] & s3 & K1 & K). apply rd_ok in K1. destruct K1 as [_ ->].
  apply bind_ok in K. destruct K as (now1 & s3 & K1 & K).
  apply bind_ok in K. destruct K as (bad & s4 & K2 & K). apply gets_ok in K2. destruct K2 as [-> ->].
  destruct (not_stopped_tris s3) as [|] eqn:B; [|discriminate]. apply ret_ok in K. destruct K as [-> ->].
  set (s0 := mkSt _ _ _ _ _ _ _ _ _ _ _ _ _ _) in K1.
  assert (K1' : loop max_events (Z.of_nat (length (@nil handled))) n0 s0 = Ok (now1, s3)) by exact K1.
  apply (loop_reach s0) in K1'; [|constructor].
  destruct K1' as (tr & R & L & Q & I). simpl in R.
  split; [exact Q|]. split; [exact I|]. split.
  { intros t Ht Hi. destruct (t_stops (ts s3 t)) as [x|] eqn:Et; [eauto|]. exfalso.
    assert (In t (not_stopped_tris s3)).
    { apply filter_In. split; [exact Ht|]. rewrite Et, andb_true_r. apply forallb_forall. exact Hi. }
    rewrite B in *. contradiction. }
  exists s0, tr. split; [exists s1; split; [exact H|reflexivity]|]. split; [exact R|]. split; [exact L|].
  pose proof (reach_clock _ _ _ _ R) as C.
  assert (Z : forall l c, (forall h, In h l -> h_queue h = false) ->
              fold_left (fun c h => if h_queue h then h_time h else c) l c = c).
  { induction l as [|h l IH]; intros c Hl; [reflexivity|]. simpl. rewrite (Hl h) by (simpl; auto).
    apply IH. intros; apply Hl; simpl; auto. }
  split.
  - intros before h after -> Hh Ha. rewrite C. unfold clock. rewrite fold_left_app. simpl. rewrite Hh.
    rewrite Z; auto.
  - intros Ha. rewrite C. apply Z, Ha.
Qed.
Print Assumptions C33_normal_return.

Example C33_example :
  match bind (init_event_list (A:=QA)) (fun _ => event_loop) notch with
  | Ok (now, s') => Qeq_bool now 2 && (length (sk_triangles s') =? 3)
  | Err _ => false
  end = true.
Proof. vm_compute. reflexivity. Qed.

(** ** C34: whatever the arithmetic *)
Theorem C34_stopped_triangles :
  forall (A : Arith) (E : Env A),
  (forall now tr s now' tr' s', registered s -> steps now tr s now' tr' s' ->
     forall t x, t_stops (ts s t) = Some x -> exists y, t_stops (ts s' t) = Some y) /\
  (forall s t x now sv, t_stops (ts s t) = Some x -> compute_collapse_time t now sv s = Ok (None, s)) /\
  (forall now s e now' s1 k s' x, take_next now s = Ok ((e, now'), s1) ->
     t_stops (ts s (ev_tri (es s e))) = Some x -> handle_event e k s1 = Ok (tt, s') ->
     vs s' = vs s /\ nv s' = nv s /\ ts s' = ts s /\ nt s' = nt s /\ ns s' = ns s /\ nn s' = nn s /\
     es s' = es s /\ ne s' = ne s /\ wfs s' = wfs s /\ sk_nodes s' = sk_nodes s /\
     sk_vertices s' = sk_vertices s /\ sk_triangles s' = sk_triangles s /\
     (queue s = e :: queue s' /\ immediate s = [] /\ immediate s' = [] \/
      queue s' = queue s /\ immediate s = e :: immediate s')) /\
  (forall now s e now' s1 k x, take_next now s = Ok ((e, now'), s1) ->
     t_stops (ts s (ev_tri (es s e))) = Some x -> handle_event e k s1 = Ok (tt, s1)).
Proof.
  intros A E.
  assert (Sk : forall now s e now' s1 k x, take_next now s = Ok ((e, now'), s1) ->
     t_stops (ts s (ev_tri (es s e))) = Some x -> handle_event e k s1 = Ok (tt, s1)).
  { intros now s e now' s1 k x T H. apply take_next_ok in T.
    unfold handle_event, bind, eget, tget, gets. 
    destruct T as [(r & _ & _ & ->)|(r & _ & _ & _ & ->)]; cbn; rewrite H; reflexivity. }
  split; [|split; [|split]].
  - intros now tr s now' tr' s' R T t x H. apply steps_base in T; [|exact R]. destruct T as [_ F].
    pose proof (fo_tstops _ _ F t) as K. rewrite H in K. specialize (K eq_refl).
    destruct (t_stops (ts s' t)); [eauto|discriminate].
  - intros s t x now sv H. unfold compute_collapse_time, bind, rd, collapse_event. rewrite H. reflexivity.
  - intros now s e now' s1 k s' x T H K. rewrite (Sk _ _ _ _ _ k _ T H) in K. injection K as <-.
    apply take_next_ok in T. destruct T as [(r & I & _ & ->)|(r & I & Q & _ & ->)]; cbn; repeat (split; [reflexivity|]).
    + right. auto.
    + left. auto.
  - exact Sk.
Qed.
Print Assumptions C34_stopped_triangles.

(** after the split of [notch] its first triangle is stopped, the others are not *)
Example C34_example :
  exists s0 now tr s', started notch s0 /\ reach s0 now tr s' /\ length tr = 1 /\
  is_some (t_stops (ts s' 0)) && is_none (t_stops (ts s' 1)) && is_none (t_stops (ts s' 2)) = true.
Proof. apply (example_k 1 notch). vm_compute. reflexivity. Qed.
(** a pending event of a stopped triangle exists: flagging triangle 1 of [notch]
    after initialisation, its event is still taken and skipped *)
Example C34_example_skip :
  match init_event_list notch with
  | Ok (_, s1) =>
      let s2 := with_ts s1 (upd (ts s1) 0 (tri_stops (ts s1 0) (Some (1#2)%Q))) in
      match take_next (A:=QA) 0%Q s2 with
      | Ok ((e, now'), s3) =>
          (ev_tri (es s2 e) =? 0) && is_ok (handle_event e 1 s3) && (length (queue s3) =? 2)
      | Err _ => false
      end
  | Err _ => false
  end = true.
Proof. vm_compute. reflexivity. Qed.

(** ** C36 *)
Theorem C36_life_spans :
  forall (A : Arith) (E : Env A), OrdArith A ->
  (forall t u : nat, addr t = addr u -> t = u) ->
  forall s s0 now tr s', fresh s -> started s s0 -> reach s0 now tr s' ->
  (forall v a z, k_starts (vs s' v) = Some a -> k_stops (vs s' v) = Some z -> nleb a z = true) /\
  (forall v, k_stops (vs s' v) = None <-> k_stop_node (vs s' v) = None) /\
  (forall v z, k_stops (vs s' v) = Some z -> nleb z now = true) /\
  (forall v a, k_starts (vs s' v) = Some a -> nleb a now = true) /\
  (forall now2 tr2 s2, steps now tr s' now2 tr2 s2 -> forall v, v < nv s' ->
     k_stops (vs s' v) <> None -> k_stops (vs s2 v) <> None /\ k_stop_node (vs s2 v) <> None).
Proof.
  intros A E O inj s s0 now tr s' F S R.
  destruct (init_timed O inj s s0 F S) as [T _].
  pose proof (reach_timed O inj _ _ _ _ T R) as (G & L & P).
  split; [apply L|]. split; [|split; [apply L|split; [apply L|]]].
  - intros v. pose proof (li_both _ _ L v) as B.
    destruct (k_stops (vs s' v)), (k_stop_node (vs s' v)); try discriminate; split; congruence.
  - intros now2 tr2 s2 R2 v Hv Hs. apply steps_base in R2; [|exact G]. destruct R2 as [_ F2].
    pose proof (fo_stops _ _ F2 v Hv) as K1. pose proof (fo_stopped _ _ F2 v Hv) as K2.
    rewrite <- (li_both _ _ L v) in K2.
    destruct (k_stops (vs s' v)); [|congruence]. specialize (K1 eq_refl). specialize (K2 eq_refl).
    split; intros C; rewrite C in *; discriminate.
Qed.
Print Assumptions C36_life_spans.

(** in the middle of [quad] two vertices are stopped at 3/2 and a new one starts there *)
Example C36_example :
  exists s0 now tr s', started quad s0 /\ reach s0 now tr s' /\ length tr = 1 /\
  match k_stops (vs s' 0), k_stops (vs s' 3), k_starts (vs s' 4), k_stops (vs s' 4) with
  | Some a, Some b, Some c, None => Qeq_bool a (3#2) && Qeq_bool b (3#2) && Qeq_bool c (3#2)
  | _, _, _, _ => false
  end = true.
Proof. apply (example_k 1 quad). vm_compute. reflexivity. Qed.

(** ** C37: whatever the arithmetic *)
Theorem C37_nodes_registered :
  forall (A : Arith) (E : Env A) now tr s now' tr' s',
  registered s -> steps now tr s now' tr' s' ->
  (forall v n, k_start_node (vs s' v) = Some n \/ k_stop_node (vs s' v) = Some n -> In n (sk_nodes s')) /\
  (forall v, nv s <= v < nv s' -> exists n, k_start_node (vs s' v) = Some n /\ In n (sk_nodes s')) /\
  (exists new, sk_nodes s' = sk_nodes s ++ new) /\
  (forall n, In n (sk_nodes s) -> ns s' n = ns s n) /\
  (exists new, sk_vertices s' = sk_vertices s ++ new).
Proof.
  intros A E now tr s now' tr' s' R T. apply steps_base in T; [|exact R]. destruct T as [R' F].
  split; [intros v n [H|H]; [apply (rg_start _ R' _ _ H)|apply (rg_stop _ R' _ _ H)]|].
  split; [|split; [apply F|split; [|apply F]]].
  - intros v Hv. apply F in Hv. destruct Hv as [Hv _].
    destruct (k_start_node (vs s' v)) eqn:K; [|discriminate]. eexists. split; [reflexivity|]. apply (rg_start _ R' _ _ K).
  - intros n Hn. apply F. apply R, Hn.
Qed.
Print Assumptions C37_nodes_registered.

(** init_event_list makes such a state *)
Theorem C37_initially :
  forall (A : Arith) (E : Env A) s s0, OrdArith A -> (forall t u : nat, addr t = addr u -> t = u) ->
  fresh s -> started s s0 -> registered s0 /\ sk_nodes s0 = sk_nodes s /\ sk_vertices s0 = sk_vertices s.
Proof.
  intros A E s s0 O inj F S. destruct (init_timed O inj s s0 F S) as ((R & _) & _ & _ & _ & _ & _ & N & V). auto.
Qed.
Print Assumptions C37_initially.

Example C37_example :
  exists s0 now tr s', started notch s0 /\ reach s0 now tr s' /\ length tr = 3 /\
  (length (sk_nodes s0) =? 5) && (length (sk_nodes s') =? 8) && (length (sk_vertices s') =? 7) = true.
Proof.
  destruct (example_k 3 notch (fun _ _ s' => (length (sk_nodes s') =? 8) && (length (sk_vertices s') =? 7)))
    as (s0 & now & tr & s' & S & R & L & H); [vm_compute; reflexivity|].
  exists s0, now, tr, s'. split; [exact S|]. split; [exact R|]. split; [exact L|].
  destruct (C37_initially QA QE _ _ QA_ord QE_addr notch_fresh S) as (_ & -> & _). exact H.
Qed.

(** ** C38: whatever the arithmetic *)
Theorem C38_motion_fixed :
  forall (A : Arith) (E : Env A) now tr s now' tr' s',
  registered s -> steps now tr s now' tr' s' ->
  forall v, v < nv s ->
  k_origin (vs s' v) = k_origin (vs s v) /\ k_velocity (vs s' v) = k_velocity (vs s v) /\
  k_starts (vs s' v) = k_starts (vs s v) /\ k_start_node (vs s' v) = k_start_node (vs s v) /\
  k_ul (vs s' v) = k_ul (vs s v) /\ k_ur (vs s' v) = k_ur (vs s v) /\
  k_inf_fast (vs s' v) = k_inf_fast (vs s v) /\ wfs s' = wfs s /\
  forall t, position_at s' v t = position_at s v t.
Proof.
  intros A E now tr s now' tr' s' R T v Hv. apply steps_base in T; [|exact R]. destruct T as [R' F].
  destruct (fo_motion _ _ F v Hv) as [M1 M2 M3 M4 M5 M6 M7 M8 M9 M10].
  repeat (split; [assumption|]). split; [apply F|].
  intros t. unfold position_at. rewrite M1, M2, M3, M5, M8.
  destruct (k_inf (vs s v)); [reflexivity|]. destruct (k_inf_fast (vs s v)); [|reflexivity].
  destruct (k_start_node (vs s v)) as [n|] eqn:N; [|reflexivity].
  rewrite (fo_ns _ _ F); [reflexivity|]. apply R. apply (rg_start _ R _ _ N).
Qed.
Print Assumptions C38_motion_fixed.

(** the corner (12,0) of [quad]: at (9,1) at time 1, asked after the run, too *)
Example C38_example :
  exists s0 now tr s', started quad s0 /\ reach s0 now tr s' /\ length tr = 2 /\
  match position_at s' 1 (1%Q : @num QA) with Ok p => Qeq_bool (fst p) 9 && Qeq_bool (snd p) 1 | Err _ => false end = true.
Proof. apply (example_k 2 quad). vm_compute. reflexivity. Qed.
