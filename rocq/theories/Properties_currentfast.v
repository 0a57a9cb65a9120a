(** The events that wait are up to date also after infinitely fast vertices have been handled (C84), so that the clock never
    passes the collapse of a triangle in such runs either (C85, exact reals) *)
From Coq Require Import QArith Reals Lra.
From Verif Require Import Base Arith ArithR ArithQ Calc CalcProofs VectorOps Line2d Line2dProofs Primitives Collapse CollapseProofs CollapseR
  EventsLib FlipEvent ParallelEvent EdgeEvent SplitEvent EventLoop Pass OpSpec Order StopSpec RunBase RunTimed RunLoop
  Decent Total FanProofs TotalRun Properties_geometry Mesh MeshEvents MeshEdge MeshRun Scenario ScenarioRun Properties_loop Properties_total Properties_mesh
  EventGeom EventFirst Properties_effects Current MeshFast CurrentFast Properties_current Properties_fast
  Initialize StarProofs InitProofs InitState InitCirc Main Properties_init InitMesh TriExample Properties_main Properties_start Properties_meshfast.
Local Close Scope Q_scope.
Local Close Scope R_scope.
Local Open Scope nat_scope.

(** ** Specification *)
Section Spec.
  Context {A : Arith} {E : Env A}.

  (** every neighbour of a triangle at vertex [v] has stopped or has an event *)
  Definition besides (s : state) (v : nat) : Prop :=
    forall u i j n, active s u -> corner s u i = v -> link s u j = Some n ->
    t_stops (ts s n) <> None \/ t_event (ts s n) <> None.

  (** so it is for the triangle across the collapsing side, and whenever in the course of the event an infinitely
      fast vertex is about to be handled ([legs]: after any number of legs) *)
  Record attentive (s : state) (e : nat) (step : Z) : Prop := {
    an_across : watched s e;
    an_edge : ev_tp (es s e) = Edge -> forall s1 v v1 s2,
      handle_edge_event_with no_fans (es s e) step s = Ok (tt, s1) -> nv s <= v < nv s1 ->
      k_inf_fast (vs s1 v) = true -> legs (ev_time (es s e)) step v s1 v1 s2 -> besides s2 v1;
    an_split : ev_tp (es s e) = Split -> forall s1 v v1 s2,
      handle_split_event_with no_fans (es s e) step s = Ok (tt, s1) -> nv s <= v < nv s1 ->
      k_inf_fast (vs s1 v) = true -> legs (ev_time (es s e)) step v s1 v1 s2 -> besides s2 v1 }.

  (** the first [k] events of the run from [s0] *)
  Definition in_order (s0 : state) (k : nat) : Prop := forall now1 tr1 s1 e now2 s2,
    reach s0 now1 tr1 s1 -> length tr1 < k -> take_next now1 s1 = Ok ((e, now2), s2) ->
    steady s2 e (Z.of_nat (S (length tr1))) /\ attentive s2 e (Z.of_nat (S (length tr1))).

  Lemma besides_watchful Y s v : besides s v -> watchful Y s v.
  Proof.
    intros H u i j n A1 A2 A3. destruct (H u i j n A1 A2 A3) as [S|S]; [left|right; left].
    - destruct (t_stops (ts s n)); [reflexivity|congruence].
    - destruct (t_event (ts s n)); [reflexivity|congruence].
  Qed.
  Lemma attentive_watching Y s e step : attentive s e step -> watching Y s e step.
  Proof.
    intros [W1 W2 W3]. constructor.
    - intros Q i n Hi Hn. destruct (W1 Q i n Hi Hn) as [S|S]; [left|right; left].
      + destruct (t_stops (ts s n)); [reflexivity|congruence].
      + destruct (t_event (ts s n)); [reflexivity|congruence].
    - intros. eapply besides_watchful, W2; eauto.
    - intros. eapply besides_watchful, W3; eauto.
  Qed.
End Spec.

(** ** C84 *)
(** one event, in any state in which the other triangles are up to date *)
Theorem C84_event :
  forall (A : Arith) (E : Env A), OrdArith A -> (forall t u : nat, addr t = addr u -> t = u) ->
  forall s e step s', let now := ev_time (es s e) in let t := ev_tri (es s e) in
  nleb n0 now = true -> timed now s -> shaped s -> linked (active s) s -> steady s e step -> attentive s e step ->
  (forall u, ~ In u (sk_triangles s) -> t_event (ts s u) = None) ->
  (forall u, In u (sk_triangles s) -> u <> t -> up_to_date now s u) ->
  handle_event e step s = Ok (tt, s') ->
  forall u, In u (sk_triangles s) -> up_to_date now s' u.
Proof.
  intros A E O addr_inj s e step s' now t N T SH L SY AT OUT B H u Hu.
  pose proof (keeps_handle_event (timed_sound O addr_inj) e step s T tt s' H) as [T' _].
  set (Y := fun t => ~ In t (sk_triangles s)).
  eapply (settled_current O Y); [apply T'|exact N|unfold Y; tauto|].
  eapply (event_fast_settles O addr_inj Y s e step s'); eauto.
  - split; [exact T|intros x i; apply (sh_v _ SH)].
  - apply attentive_watching, AT.
  - intros x Nx. unfold only in Nx. destruct (in_dec Nat.eq_dec x (sk_triangles s)) as [I|I].
    + apply current_settled; [apply T|]. apply B; [exact I|exact Nx].
    + right. left. split; [apply OUT, I|left; exact I].
Qed.
Print Assumptions C84_event.

Lemma any_settles {A : Arith} {E : Env A} (O : OrdArith A) (addr_inj : forall t u : nat, addr t = addr u -> t = u) s s0 now tr s' :
  fresh s -> shaped s -> started s s0 -> linked (active s0) s0 -> reach s0 now tr s' -> in_order s0 (length tr) ->
  timed now s' /\ nleb n0 now = true /\ forall t, In t (sk_triangles s) -> up_to_date now s' t.
Proof.
  intros F SH ST L R OR.
  set (Y := fun t => ~ In t (sk_triangles s)).
  destruct (start_settles O addr_inj Y s s0 (fun _ H => H) F SH ST) as (G & SH0 & B).
  destruct (run_fast_settles O addr_inj Y s0 now tr s' G B SH0 L R) as (G' & N & B').
  - intros now1 tr1 s1 e now2 s2 Q1 Q2 Q3. destruct (OR _ _ _ _ _ _ Q1 Q2 Q3) as [SY AT]. split; [exact SY|apply attentive_watching, AT].
  - split; [apply G'|]. split; [exact N|]. intros t Ht. eapply settled_current; [exact O|apply G'|exact N| |apply (B' t)]. unfold Y. tauto.
Qed.

(** runs of any length, whether or not there are infinitely fast vertices *)
Theorem C84_run :
  forall (A : Arith) (E : Env A), OrdArith A -> (forall t u : nat, addr t = addr u -> t = u) ->
  forall s s0 now tr s', fresh s -> shaped s -> started s s0 -> linked (active s0) s0 -> reach s0 now tr s' ->
  in_order s0 (length tr) -> forall t, In t (sk_triangles s) -> up_to_date now s' t.
Proof. intros A E O addr_inj s s0 now tr s' F SH ST L R OR. eapply (any_settles O addr_inj s s0); eauto. Qed.
Print Assumptions C84_run.

(** from the triangulation on *)
Theorem C84_runs :
  forall (A : Arith) (E : Env A), OrdArith A -> (forall t u : nat, addr t = addr u -> t = u) ->
  forall (d : dtriang) s0 io s1 now tr s,
  triangulation d -> (io = true -> regions d) -> init_skeleton d = Ok s0 ->
  started (start_of io s0) s1 -> reach s1 now tr s -> in_order s1 (length tr) ->
  forall t, In t (sk_triangles (start_of io s0)) -> up_to_date now s t.
Proof.
  intros A E OA inj d s0 io s1 now tr s TG RG HI ST RE RU.
  destruct (C64_start A E d s0 io TG RG HI) as [L _]. set (st := start_of io s0) in *.
  assert (F : fresh st) by (apply start_fresh, (init_fresh d s0 HI), (nleb_refl OA)).
  assert (SH : shaped st) by (apply start_shaped, (init_shaped d s0 HI)).
  destruct (init_timed OA inj _ _ F ST) as (_ & FO & _ & M & _ & NV & _).
  assert (L1 : linked (active s1) s1).
  { assert (AC : forall u, active s1 u <-> active st u).
    { intros u. unfold active. rewrite (fo_tris _ _ FO). destruct (M u) as (_ & _ & ->). tauto. }
    intros t i n Ht H. apply AC in Ht. rewrite (mesh_same_link st s1) in H by exact M.
    destruct (L t i n Ht H) as (Hn & j & J1 & J2). split; [apply AC, Hn|]. exists j.
    rewrite (mesh_same_link st s1) by exact M. split; [exact J1|].
    unfold shares. rewrite !(mesh_same_corner st s1) by exact M. exact J2. }
  apply (C84_run A E OA inj st s1 now tr s F SH ST L1 RE RU).
Qed.
Print Assumptions C84_runs.

(** *** Cases *)
Section Decide.
  Context {A : Arith} {E : Env A}.
  Definition besidesb (s : state) (v : nat) : bool :=
    forallb (fun u => negb (activeb s u) || negb (existsb (fun i => corner s u i =? v) sides) ||
      forallb (fun j => match link s u j with Some n => is_some (t_stops (ts s n)) || is_some (t_event (ts s n)) | None => true end) sides)
      (sk_triangles s).
  Lemma besidesb_ok s v : besidesb s v = true -> besides s v.
  Proof.
    unfold besidesb. rewrite forallb_forall. intros H u i j n Hu C L. specialize (H u (proj1 Hu)). apply activeb_ok in Hu. rewrite Hu in H.
    assert (X : existsb (fun i => corner s u i =? v) sides = true) by (apply existsb_exists; exists i; split; [apply side_in|apply Nat.eqb_eq, C]).
    rewrite X in H. cbn [negb orb] in H. rewrite forallb_forall in H. specialize (H j (side_in j)). rewrite L in H.
    apply Bool.orb_true_iff in H. destruct H as [H|H]; [left|right]; intros Q; rewrite Q in H; discriminate.
  Qed.
  (** all sequences of at most [k] legs *)
  Fixpoint watchb (k : nat) (now : num) (step : Z) (v : nat) (s : state) : bool :=
    besidesb s v &&
    match k with
    | 0 => false
    | S k => forallb (fun t => negb (activeb s t) || forallb (fun e => is_some (link s t e) ||
        match handle_parallel_edge_event_shorter_leg no_fans t e v now step s with
        | Ok (_, s1) => watchb k now step (nv s) s1
        | Err _ => true
        end) sides) (sk_triangles s)
    end.
  Lemma watchb_ok k now step v s : watchb k now step v s = true -> forall v1 s1, legs now step v s v1 s1 -> besides s1 v1.
  Proof.
    revert v s. induction k as [|k IH]; intros v s H v1 s1 L; cbn [watchb] in H; apply Bool.andb_true_iff in H; destruct H as [H1 H2]; [discriminate|].
    destruct L as [v s|v s t e s2 v' s' At Ne K L]; [apply besidesb_ok, H1|].
    rewrite forallb_forall in H2. specialize (H2 t (proj1 At)). apply activeb_ok in At. rewrite At in H2. cbn [negb orb] in H2.
    rewrite forallb_forall in H2. specialize (H2 e (side_in e)). rewrite Ne in H2. cbn [is_some orb] in H2. rewrite K in H2.
    apply (IH _ _ H2 _ _ L).
  Qed.
  Definition neww (k : nat) (now : num) (step : Z) (s : state) (r : res (unit * state)) : bool :=
    match r with
    | Ok (_, s1) => forallb (fun v => negb (k_inf_fast (vs s1 v)) || watchb k now step v s1) (seq (nv s) (nv s1 - nv s))
    | Err _ => true
    end.
  Lemma neww_ok k now step s s1 v v1 s2 : neww k now step s (Ok (tt, s1)) = true -> nv s <= v < nv s1 ->
    k_inf_fast (vs s1 v) = true -> legs now step v s1 v1 s2 -> besides s2 v1.
  Proof.
    unfold neww. rewrite forallb_forall. intros H V F L. specialize (H v). rewrite in_seq in H. specialize (H ltac:(lia)).
    rewrite F in H. cbn [negb orb] in H. apply (watchb_ok _ _ _ _ _ H _ _ L).
  Qed.
  Definition attentiveb (k : nat) (s : state) (e : nat) (step : Z) : bool :=
    watchedb s e &&
    match ev_tp (es s e) with
    | Edge => neww k (ev_time (es s e)) step s (handle_edge_event_with no_fans (es s e) step s)
    | Flip => true
    | Split => neww k (ev_time (es s e)) step s (handle_split_event_with no_fans (es s e) step s)
    end.
  Lemma attentiveb_ok k s e step : attentiveb k s e step = true -> attentive s e step.
  Proof.
    unfold attentiveb. rewrite Bool.andb_true_iff. intros [H1 H2]. constructor; [apply watchedb_ok, H1| |].
    - intros TP s1 v v1 s2 K V F L. rewrite TP, K in H2. eapply neww_ok; eauto.
    - intros TP s1 v v1 s2 K V F L. rewrite TP, K in H2. eapply neww_ok; eauto.
  Qed.
End Decide.

Definition attentive_at (s0 : state (A := QA)) (j : nat) : bool :=
  match go j 0%Q [] s0 with
  | Ok (now, tr, s1) => match take_next now s1 with Ok ((e, _), s2) => attentiveb 5 s2 e (Z.of_nat (S (length tr))) | Err _ => true end
  | Err _ => true
  end.
Lemma in_order_run s0 k : forallb (steady_at s0) (seq 0 k) = true -> forallb (attentive_at s0) (seq 0 k) = true -> in_order s0 k.
Proof.
  intros H1 H2 now1 tr1 s1 e now2 s2 R L T. split; [eapply (steady_run s0 k); eauto|].
  rewrite forallb_forall in H2. specialize (H2 (length tr1)). rewrite in_seq in H2. specialize (H2 ltac:(lia)). unfold attentive_at in H2.
  rewrite (reach_go _ _ _ _ R), T in H2. apply (attentiveb_ok 5), H2.
Qed.
(** the hypotheses of [C84_run] hold for the first [k] events, triangle [t] is one of the skeleton's and [P] holds at the end *)
Lemma currentfast_example k t s P : fresh s -> shaped s ->
  holds_k k s (fun now _ s' => match init_event_list s with
     | Ok (_, s1) => let s0 := with_qi s1 (queue s1) [] in linkedb s0 && forallb (steady_at s0) (seq 0 k) && forallb (attentive_at s0) (seq 0 k)
     | Err _ => false end && mem Nat.eqb t (sk_triangles s) && P now s') = true ->
  exists s0 now tr s', started s s0 /\ reach s0 now tr s' /\ length tr = k /\ up_to_date now s' t /\ P now s' = true.
Proof.
  intros F SH H. apply example_k in H. destruct H as (s0 & now & tr & s' & S & R & L & H).
  exists s0, now, tr, s'. split; [exact S|]. split; [exact R|]. split; [exact L|].
  pose proof S as (s1 & I & ->). rewrite I in H. cbv zeta in H.
  rewrite !Bool.andb_true_iff in H. destruct H as [[[[H1 H2] H3] H4] H5].
  split; [|exact H5]. apply (C84_run QA QE QA_ord QE_addr s _ now tr s' F SH S (linkedb_ok _ H1) R).
  - rewrite L. apply in_order_run; assumption.
  - apply mem_nat, H4.
Qed.
(** an L-shaped polygon: a room of 10 by 6 with a corridor of 10 by 2.  When the end of the corridor has vanished, the vertex
    between its two walls is infinitely fast; it runs along the corridor to the room, whose two triangles go on *)
Definition ell : state (A:=QA) :=
  st [lnk (mv (0, 0) (1, 1) 0 5 0) 5 1; lnk (mv (10, 0) (-1, 1) 1 0 1) 0 2; lnk (mv (10, 4) (-1, 1) 2 1 2) 1 3;
      lnk (mv (20, 4) (-1, 1) 3 2 3) 2 4; lnk (mv (20, 6) (-1, -1) 4 3 4) 3 5; lnk (mv (0, 6) (1, -1) 5 4 5) 4 0]%Q
     [tr 2 3 4 None (Some 1%nat) None; tr 2 4 5 None (Some 2%nat) (Some 0%nat);
      tr 2 5 0 None (Some 3%nat) (Some 1%nat); tr 2 0 1 None None (Some 2%nat)]
     [nd 0 0; nd 10 0; nd 10 4; nd 20 4; nd 20 6; nd 0 6]%Q []
     [wf (0, 1) 0; wf (-1, 0) 10; wf (0, 1) (-4); wf (-1, 0) 20; wf (0, -1) 6; wf (1, 0) 0]%Q [] [].
Lemma ell_fresh : fresh ell. Proof. apply st_fresh; fresh_list. Qed.
Lemma ell_shaped : shaped ell. Proof. apply st_shaped; [discriminate| |]; shape_list. Qed.
(** triangle [t] goes on and its event is to come at time [x] *)
Definition due (s : state (A := QA)) (t : nat) (x : Q) : bool :=
  is_none (t_stops (ts s t)) && existsb (fun e => (ev_tri (es s e) =? t) && Qeq_bool (ev_time (es s e)) x) (queue s).
Example C84_case : forall t, In t [2; 3] -> exists s0 now tr s', started ell s0 /\ reach s0 now tr s' /\ length tr = 1 /\
  up_to_date now s' t /\ k_inf_fast (vs s' 6) && Qeq_bool now 1 && due s' t 3 = true.
Proof.
  intros t [<-|[<-|[]]].
  - apply (currentfast_example 1 2 ell (fun now s => k_inf_fast (vs s 6) && Qeq_bool now 1 && due s 2 3)%bool ell_fresh ell_shaped). vm_compute. reflexivity.
  - apply (currentfast_example 1 3 ell (fun now s => k_inf_fast (vs s 6) && Qeq_bool now 1 && due s 3 3)%bool ell_fresh ell_shaped). vm_compute. reflexivity.
Qed.
(** the first event of triangle 3 that was found, before the corridor vanished, was another one *)
Example C84_case_before : exists s1, init_event_list ell = Ok (tt, s1) /\ due s1 3 3 = false.
Proof.
  destruct (init_event_list ell) as [[[] s1]|] eqn:H.
  - exists s1. split; [reflexivity|].
    assert (K : match init_event_list ell with Ok (_, s1) => negb (due s1 3 3) | Err _ => true end = true) by (vm_compute; reflexivity).
    rewrite H in K. destruct (due s1 3 3); [discriminate|reflexivity].
  - assert (K : match init_event_list ell with Ok _ => true | Err _ => false end = true) by (vm_compute; reflexivity).
    rewrite H in K. discriminate.
Qed.
(** and the room vanishes with a second infinitely fast vertex *)
Example C84_case_end : exists s0 now tr s', started ell s0 /\ reach s0 now tr s' /\ length tr = 2 /\
  up_to_date now s' 3 /\ k_inf_fast (vs s' 8) && Qeq_bool now 3 && (length (queue s' ++ immediate s') =? 0) = true.
Proof.
  apply (currentfast_example 2 3 ell (fun now s => k_inf_fast (vs s 8) && Qeq_bool now 3 && (length (queue s ++ immediate s) =? 0))%bool ell_fresh ell_shaped).
  vm_compute. reflexivity.
Qed.

Lemma start_no_event {A : Arith} {E : Env A} s s0 : started s s0 -> forall t, ~ In t (sk_triangles s) -> t_event (ts s0 t) = t_event (ts s t).
Proof.
  intros (s1 & H & ->) t N. cbn [ts with_qi]. unfold init_event_list in H.
  apply bind_ok in H. destruct H as ([] & s2 & H & K). injection H as <-.
  apply bind_ok in K. destruct K as (tris & s2 & H & K). injection H as <- <-.
  match type of K with forM _ _ ?x = _ => set (s2 := x) in K; change (ts s) with (ts s2) end.
  clearbody s2. revert s2 K N. generalize (sk_triangles s). clear.
  induction l as [|x r IH]; intros s2 K N; cbn [forM] in K; [apply ret_ok in K; destruct K as [_ ->]; reflexivity|].
  apply bind_ok in K. destruct K as ([] & s3 & K1 & K2). rewrite (IH s3 K2 ltac:(intros Q; apply N; simpl; auto)).
  apply init_tri in K1. destruct K1 as [[_ ->]|(e & _ & ->)]; [reflexivity|]. cbn. rewrite upd_other; [reflexivity|].
  intros ->. apply N. simpl. auto.
Qed.
(** the hypotheses of [C84_event] are met by the first event of [ell], where the infinitely fast vertex is made *)
Lemma start_meets {A : Arith} {E : Env A} (O : OrdArith A) (addr_inj : forall t u : nat, addr t = addr u -> t = u) s s0 e now s1 :
  fresh s -> shaped s -> started s s0 -> (forall t, In t (sk_triangles s) \/ t_event (ts s0 t) = None) ->
  take_next n0 s0 = Ok ((e, now), s1) ->
  ev_time (es s1 e) = now /\ nleb n0 now = true /\ timed now s1 /\ shaped s1 /\
  (forall u, ~ In u (sk_triangles s) -> t_event (ts s1 u) = None) /\
  (forall u, In u (sk_triangles s) -> u <> ev_tri (es s1 e) -> up_to_date now s1 u).
Proof.
  intros F SH ST OUT T.
  set (Y := fun t => ~ In t (sk_triangles s)).
  destruct (start_settles O addr_inj Y s s0 (fun _ H => H) F SH ST) as (G & SH0 & B).
  destruct (take_settles O addr_inj Y n0 s0 e now s1 (nleb_refl O _) G B T) as (G1 & B1 & T1 & LE).
  assert (C : shaped s1 /\ ts s1 = ts s0).
  { apply take_next_ok in T. destruct T as [(r & _ & _ & ->)|(r & _ & _ & _ & ->)]; (split; [destruct SH0; constructor; auto|auto]). }
  destruct C as [SH1 TS].
  split; [exact T1|]. split; [exact LE|]. split; [apply G1|]. split; [exact SH1|]. split.
  - intros u Hu. rewrite TS. destruct (OUT u); [contradiction|assumption].
  - intros u Hu Nu. eapply (settled_current O Y); [apply G1|exact LE|unfold Y; tauto|]. apply B1. exact Nu.
Qed.
Lemma ell_events : forall t, In t (sk_triangles ell) \/ t_event (ts ell t) = None.
Proof. intros t. right. destruct t as [|[|[|[|[|t]]]]]; reflexivity. Qed.
Example C84_event_case : exists s0 e now s1 s', started ell s0 /\ take_next 0%Q s0 = Ok ((e, now), s1) /\
  ev_time (es s1 e) = now /\ nleb (Arith:=QA) 0%Q now = true /\ timed now s1 /\ shaped s1 /\ linked (active s1) s1 /\
  steady s1 e 1 /\ attentive s1 e 1 /\
  (forall u, ~ In u (sk_triangles s1) -> t_event (ts s1 u) = None) /\
  (forall u, In u (sk_triangles s1) -> u <> ev_tri (es s1 e) -> up_to_date now s1 u) /\
  handle_event e 1 s1 = Ok (tt, s') /\ k_inf_fast (vs s' 6) = true.
Proof.
  destruct (init_event_list ell) as [[[] si]|] eqn:I.
  2:{ assert (K : match init_event_list ell with Ok _ => true | Err _ => false end = true) by (vm_compute; reflexivity). rewrite I in K. discriminate. }
  set (s0 := with_qi si (queue si) []).
  assert (ST : started ell s0) by (exists si; split; [exact I|reflexivity]).
  assert (K : match init_event_list ell with Ok (_, si) => let s0 := with_qi si (queue si) [] in
     match take_next 0%Q s0 with
     | Ok ((e, now), s1) => linkedb s1 && steadyb 5 s1 e 1 && attentiveb 5 s1 e 1 &&
         match handle_event e 1 s1 with Ok (_, s') => k_inf_fast (vs s' 6) | Err _ => false end
     | Err _ => false end | Err _ => false end = true) by (vm_compute; reflexivity).
  rewrite I in K. cbv zeta in K. fold s0 in K.
  destruct (take_next 0%Q s0) as [[[e now] s1]|] eqn:T; [|discriminate].
  rewrite !Bool.andb_true_iff in K. destruct K as [[[K1 K2] K3] K4].
  destruct (handle_event e 1 s1) as [[[] s']|] eqn:H; [|discriminate].
  destruct (init_timed QA_ord QE_addr _ _ ell_fresh ST) as (_ & FO & _).
  destruct (start_meets QA_ord QE_addr ell s0 e now s1 ell_fresh ell_shaped ST) as (M1 & M2 & M3 & M4 & M5 & M6); [|exact T|].
  { intros t. destruct (in_dec Nat.eq_dec t (sk_triangles ell)) as [Q|Q]; [left; exact Q|right].
    pose proof (start_no_event ell s0 ST t Q) as Z. rewrite Z. destruct (ell_events t) as [Z'|Z']; [contradiction|exact Z']. }
  assert (TR : sk_triangles s1 = sk_triangles ell).
  { rewrite <- (fo_tris _ _ FO). apply take_next_ok in T. destruct T as [(r & _ & _ & ->)|(r & _ & _ & _ & ->)]; reflexivity. }
  exists s0, e, now, s1, s'. rewrite TR.
  split; [exact ST|]. split; [exact T|]. split; [exact M1|]. split; [exact M2|]. split; [exact M3|]. split; [exact M4|].
  split; [apply linkedb_ok, K1|]. split; [apply (steadyb_ok 5), K2|]. split; [apply (attentiveb_ok 5), K3|].
  split; [exact M5|]. split; [exact M6|]. split; [exact H|exact K4].
Qed.

(** ** C85 *)
(** [any_run s now s']: from [s] the loop has come to [s'] at time [now], through events as in [C84_run] *)
Definition any_run {A : Arith} {E : Env A} (s : state) (now : num) (s' : state) : Prop :=
  fresh s /\ shaped s /\ exists s0 tr, started s s0 /\ linked (active s0) s0 /\ reach s0 now tr s' /\ in_order s0 (length tr).

(** an event that is found from every earlier moment is not passed *)
Lemma any_never_passes {A : Arith} {E : Env A} (O : OrdArith A) (addr_inj : forall t u : nat, addr t = addr u -> t = u) s now s' t b :
  any_run s now s' -> In t (sk_triangles s) -> t_stops (ts s' t) = None -> nleb now b = true ->
  (forall w sv r, nleb n0 w = true -> nleb w now = true -> collapse_event s' t w sv = Ok r ->
     exists e, r = Some e /\ nleb (ev_time e) b = true) ->
  next_by now s' b.
Proof.
  intros (F & SH & s0 & tr & ST & L & R & OR) Ht NS N H.
  destruct (any_settles O addr_inj s s0 now tr s' F SH ST L R OR) as ((_ & _ & P) & N0 & U). specialize (U t Ht).
  destruct U as [U|[(e & w & _ & K1 & K2 & KC)|(_ & w & sv & K1 & K2 & K)]].
  - congruence.
  - pose proof (computed_waits _ _ _ _ KC) as W. destruct KC as [(_ & sv & K)|(_ & ev & K & K3)].
    + destruct (H w sv _ K1 K2 K) as (e1 & Q & B). injection Q as <-. eapply next_waits; eauto.
    + apply (next_waits O now s' e b P W); [|exact N]. rewrite K3. unfold new_edge_collapse_event in K.
      destruct (dists _ _ _ _ _); [|discriminate]. cbn [rbind] in K. injection K as <-.
      unfold OpSpec.sched_event. destruct (Nat.eqb _ _); (eapply (oa_trans A O); [exact K2|exact N]).
  - destruct (H w sv _ K1 K2 K) as (e1 & Q & _). discriminate.
Qed.

(** Whatever has happened so far, infinitely fast vertices included: if a triangle that is still there is going to have
    no area at a time [x], the loop takes its next event no later than that (up to the tolerances of collapse.py). *)
Theorem C85_no_front :
  forall (E : Env RA), (forall t u : nat, addr (A:=RA) t = addr (A:=RA) u -> t = u) ->
  forall (s : state (A:=RA)) (now : R) s' t (x : R), any_run s now s' -> In t (sk_triangles s) ->
  ordinary s' t -> tri_type (ts s' t) = 0 -> t_stops (ts s' t) = None -> clear_area s' t ->
  (x > now + 2 / 10^5 -> area s' t x = 0 -> next_by now s' (x + 2 / 10^5)%R)%R.
Proof.
  intros E addr_inj s now s' t x RUN TRI ORD TY NS CA X FLAT.
  apply (any_never_passes RA_ord addr_inj s now s' t); auto; [apply le_R; lra|].
  intros w sv r W1 W2 H. apply le_R in W1, W2.
  destruct (C68_no_front s' t w sv r x ORD CA TY NS H) as (e & -> & L); [lra|exact FLAT|].
  exists e. split; [reflexivity|]. apply le_R, L.
Qed.
Print Assumptions C85_no_front.

Theorem C85_one_front :
  forall (E : Env RA), (forall t u : nat, addr (A:=RA) t = addr (A:=RA) u -> t = u) ->
  forall (s : state (A:=RA)) (now : R) s' t w l (x : R), any_run s now s' -> In t (sk_triangles s) ->
  ordinary s' t -> on_front s' t w l -> tri_type (ts s' t) = 1 -> get3 (t_n (ts s' t)) w = None ->
  t_stops (ts s' t) = None -> clear_front s' t w l -> opens s' t ->
  (x > now + / 10^10 -> area s' t x = 0 -> next_by now s' x)%R.
Proof.
  intros E addr_inj s now s' t w l x RUN TRI ORD F TY NB NS CF OP X FLAT.
  apply (any_never_passes RA_ord addr_inj s now s' t); auto; [apply le_R; lra|].
  intros v sv r W1 W2 H. apply le_R in W1, W2. rewrite zero_R in W1.
  destruct (C68_one_front s' t w l v sv ORD F TY NB NS) as (r' & H' & K). rewrite H' in H. injection H as <-.
  destruct (K x CF OP W1) as (e & -> & L); [lra|exact FLAT|].
  exists e. split; [reflexivity|]. apply le_R, L.
Qed.
Print Assumptions C85_one_front.

Theorem C85_two_fronts :
  forall (E : Env RA), (forall t u : nat, addr (A:=RA) t = addr (A:=RA) u -> t = u) ->
  forall (s : state (A:=RA)) (now : R) s' t i j li lj (x : R), any_run s now s' -> In t (sk_triangles s) ->
  ordinary s' t -> i <> j -> on_front s' t i li -> on_front s' t j lj ->
  tri_type (ts s' t) = 2 -> get3 (t_n (ts s' t)) i = None -> get3 (t_n (ts s' t)) j = None ->
  t_stops (ts s' t) = None -> clear_two s' t i j -> opens s' t ->
  (x > now + 2 / 10^5 -> area s' t x = 0 -> next_by now s' (x + 2 / 10^5)%R)%R.
Proof.
  intros E addr_inj s now s' t i j li lj x RUN TRI ORD IJ Fi Fj TY Ni Nj NS CT OP X FLAT.
  apply (any_never_passes RA_ord addr_inj s now s' t); auto; [apply le_R; lra|].
  intros w sv r W1 W2 H. apply le_R in W1, W2. rewrite zero_R in W1.
  destruct (C68_two_fronts s' t i j li lj w sv r x ORD IJ Fi Fj TY Ni Nj NS CT OP W1 H) as (e & -> & L); [lra|exact FLAT|].
  exists e. split; [reflexivity|]. apply le_R, L.
Qed.
Print Assumptions C85_two_fronts.

Theorem C85_three_fronts :
  forall (E : Env RA), (forall t u : nat, addr (A:=RA) t = addr (A:=RA) u -> t = u) ->
  forall (s : state (A:=RA)) (now : R) s' t l (x : R), any_run s now s' -> In t (sk_triangles s) ->
  ordinary s' t -> (forall w, on_front s' t w (l w)) -> (forall i j, i <> j -> lw (l i) <> lw (l j)) ->
  (forall w, (spread s' t w > / 10^10)%R) -> tri_type (ts s' t) = 3 -> t_stops (ts s' t) = None -> opens s' t ->
  (x > now + / 10^10 -> area s' t x = 0 -> next_by now s' x)%R.
Proof.
  intros E addr_inj s now s' t l x RUN TRI ORD F ND SP TY NS OP X FLAT.
  apply (any_never_passes RA_ord addr_inj s now s' t); auto; [apply le_R; lra|].
  intros w sv r W1 W2 H. apply le_R in W1, W2. rewrite zero_R in W1.
  destruct (C68_three_fronts s' t l w sv r x ORD F ND SP TY NS OP W1 H) as (e & -> & L); [lra|exact FLAT|].
  exists e. split; [reflexivity|]. apply le_R, L.
Qed.
Print Assumptions C85_three_fronts.

(** *** Cases: the start of the right triangle of [C70_case], over the reals *)
Example C85_case : forall (E : Env RA), (forall t u : nat, addr (A:=RA) t = addr (A:=RA) u -> t = u) ->
  any_run Properties_current.right_triangle 0%R right_started /\ area right_started 0 1%R = 0%R /\ next_by 0%R right_started 1%R.
Proof.
  intros E addr_inj.
  assert (R : any_run Properties_current.right_triangle 0%R right_started).
  { split; [exact right_fresh|]. split; [exact right_shaped|]. exists right_started, [].
    split; [apply right_starts|]. split; [intros t [] n _ H; destruct t; discriminate H|].
    rewrite <- zero_R. split; [constructor|]. intros ? ? ? ? ? ? _ H; inversion H. }
  assert (Ar : area right_started 0 1%R = 0%R) by (change (area ex_three 0 1%R = 0%R); unfold ex_three; in_R; lra).
  split; [exact R|]. split; [exact Ar|].
  destruct C67_case_three as (C1 & C2 & C3 & C4 & C5 & C6 & C7 & C8).
  apply (C85_three_fronts E addr_inj Properties_current.right_triangle 0%R right_started 0 three_lines 1%R R); auto; [left; reflexivity|lra].
Qed.
