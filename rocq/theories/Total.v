(** The handlers never run out of fuel and never add an event to the queue that
    compares equal to one already there *)
From Coq Require Import Permutation.
From Verif Require Import Base Arith Calc VectorOps Line2d Primitives Collapse CollapseProofs EventsLib
  FlipEvent ParallelEvent EdgeEvent SplitEvent EventLoop Pass OpSpec Order StopSpec RunBase RunTimed RunLoop Decent.

Section Total.
  Context {A : Arith} {E : Env A}.

  (** corners and links of triangles are allocated *)
  Record shaped (s : state) : Prop := {
    sh_v : forall t sd, get3 (t_v (ts s t)) sd < nv s;
    sh_n : forall t sd n, get3 (t_n (ts s t)) sd = Some n -> n < nt s }.

  Definition same_mesh (s s' : state) : Prop :=
    forall t, t_v (ts s' t) = t_v (ts s t) /\ t_n (ts s' t) = t_n (ts s t).

  Lemma shaped_ext s s' : same_mesh s s' -> nv s <= nv s' -> nt s' = nt s -> shaped s -> shaped s'.
  Proof.
    intros H K L [S1 S2]. constructor.
    - intros t sd. destruct (H t) as [-> _]. specialize (S1 t sd). lia.
    - intros t sd n. destruct (H t) as [_ ->]. rewrite L. apply S2.
  Qed.
  Lemma same_mesh_refl s : same_mesh s s. Proof. split; reflexivity. Qed.
  Lemma same_mesh_ts s s' : ts s' = ts s -> same_mesh s s'.
  Proof. intros H t. rewrite H. auto. Qed.
  Lemma same_mesh_trans a b c : same_mesh a b -> same_mesh b c -> same_mesh a c.
  Proof. intros H K t. destruct (H t), (K t). split; congruence. Qed.

  (** the operations that leave the mesh alone *)
  Lemma mesh_stop V step now pos s : okp (stop_and_register V step now pos) s (fun _ s' => same_mesh s s').
  Proof. intros n s' H. apply stop_same in H. apply same_mesh_ts, H. Qed.
  Lemma mesh_stop_at v n now s : okp (stop_at v n now) s (fun _ s' => same_mesh s s').
  Proof. intros u s' H. apply stop_at_spec in H. destruct H as [_ ->]. apply same_mesh_ts; reflexivity. Qed.
  Lemma mesh_newv ul ur now n info int s :
    okp (compute_new_kvertex ul ur now n info int) s (fun _ s' => same_mesh s s').
  Proof. intros u s' H. apply newv_spec in H. destruct H as (kv & _ & _ & ->). apply same_mesh_ts; reflexivity. Qed.
  Lemma mesh_wf v l r s : okp (set_wf v l r) s (fun _ s' => same_mesh s s').
  Proof. intros u s' H. apply modv_spec in H. destruct H as [_ ->]. apply same_mesh_ts; reflexivity. Qed.
  Lemma mesh_addv v s : okp (add_vertex v) s (fun _ s' => same_mesh s s').
  Proof. intros u s' H. injection H as _ <-. apply same_mesh_ts; reflexivity. Qed.
  Lemma mesh_circ l r now s : okp (update_circ l r now) s (fun _ s' => same_mesh s s').
  Proof. intros u s' H. apply circ_spec in H. destruct H as (f & -> & _). apply same_mesh_ts; reflexivity. Qed.
  Lemma same_mesh_upd s t x s' : ts s' = upd (ts s) t x -> t_v x = t_v (ts s t) -> t_n x = t_n (ts s t) ->
    same_mesh s s'.
  Proof.
    intros P K L u. rewrite P. destruct (upd_case (ts s) t x u) as [[<- ->]|[_ ->]]; auto.
  Qed.
  Lemma mesh_tstops t now s : okp (set_tstops t now) s (fun _ s' => same_mesh s s').
  Proof. intros u s' H. apply modt_spec in H. subst s'. eapply same_mesh_upd; [reflexivity|reflexivity|reflexivity]. Qed.
  Lemma mesh_forget e s :
    okp (bind (queue_discard (Some e)) (fun _ => immediate_remove (Some e))) s (fun _ s' => same_mesh s s').
  Proof. intros u s' H. apply forget_spec in H. subst s'. apply same_mesh_ts; reflexivity. Qed.
  Lemma mesh_forget_fun s o : same_mesh s (forget s o).
  Proof. apply same_mesh_ts. destruct o; reflexivity. Qed.
  Lemma mesh_riq t now s : okp (replace_in_queue t now) s (fun _ s' => same_mesh s s').
  Proof.
    intros u s' H. apply riq_spec in H. eapply same_mesh_trans; [apply (mesh_forget_fun s (t_event (ts s t)))|].
    destruct H as [[_ ->]|(e & _ & ->)]; [apply same_mesh_ts; reflexivity|].
    eapply same_mesh_upd; [reflexivity|reflexivity|reflexivity].
  Qed.
  Lemma mesh_sched t now s : okp (schedule_immediately t now) s (fun _ s' => same_mesh s s').
  Proof.
    intros u s' H. apply sched_spec in H.
    destruct H as (e & _ & _ & _ & _ & _ & _ & _ & _ & _ & _ & _ & _ & _ & _ & _ & Ht & _).
    eapply same_mesh_upd; [exact Ht|reflexivity|reflexivity].
  Qed.

  Section Ordered.
  Context (O : OrdArith A).
  Context (addr_inj : forall t u : nat, addr t = addr u -> t = u).

  (** a new event is never equal to one in the queue *)
  Lemma add_no_dup now s t e : pending now s -> (forall x, In x (queue s) -> ev_tri (es s x) <> t) -> ev_tri e = t ->
    q_has (with_event s t e) (ne s) (queue (with_event s t e)) = false.
  Proof.
    intros P N Te. unfold q_has. destruct (existsb _ _) eqn:D; [exfalso|reflexivity].
    apply existsb_exists in D. destruct D as (x & Hx & C). cbn in Hx.
    destruct (compare_event_by_time _ _) eqn:D; try discriminate. apply (cmp_eq O addr_inj) in D.
    destruct D as (_ & _ & D). cbn in D. rewrite upd_same in D.
    rewrite upd_other in D. { apply (N x Hx). congruence. }
    assert (x < ne s) by (apply (pe_lt _ _ _ P), in_app_iff; auto). lia.
  Qed.

  Lemma riq_err t now s e : pending now s -> replace_in_queue t now s = Err e -> python_exn e = true.
  Proof.
    intros P. unfold replace_in_queue. unfold bind at 1, tget, gets at 1.
    set (s1 := forget s (t_event (ts s t))).
    assert (S1 : (match t_event (ts s t) with
                  | Some e => bind (queue_discard (Some e)) (fun _ => immediate_remove (Some e))
                  | None => ret tt end) s = Ok (tt, s1)).
    { unfold s1. destruct (t_event (ts s t)); reflexivity. }
    unfold bind at 1. rewrite S1. unfold compute_collapse_time, bind, rd.
    destruct (collapse_event s1 t now FindGte) as [[ev|]|e'] eqn:Ec.
    - assert (P1 : pending now s1) by (apply pending_forget, P).
      assert (W := collapse_event_good O _ _ _ _ _ Ec). destruct W as [W _].
      assert (D := add_no_dup now s1 t ev P1).
      destruct (forget_fields s (t_event (ts s t))) as (F1 & F2 & F3 & F4). fold s1 in F1, F2, F3, F4.
      unfold queue_add, bind, gets. cbn -[q_has q_add].
      match goal with |- context [q_has ?a ?b ?c] =>
        change (q_has a b c) with (q_has (with_event s1 t ev) (ne s1) (queue (with_event s1 t ev))) end.
      rewrite D; [discriminate| |apply (wf_tri _ _ _ W)].
      intros x Hx. rewrite F1. apply (forget_none O now s t P). apply in_app_iff. left. exact Hx.
    - discriminate.
    - intros H. injection H as <-. eapply pdec_collapse_event, Ec.
  Qed.
  End Ordered.

  (** ** The pass over the handlers, for an invariant [I] of the generic pass and
      a set [okx] of admissible exceptions *)
  Context {I : num -> state -> Prop} (TS : Sound I follows).
  Context (okx : exn -> bool) (okx_py : forall e, python_exn e = true -> okx e = true).
  Context (riq_okx : forall t now s e, I now s -> replace_in_queue t now s = Err e -> okx e = true).

  (** [fine m s Q]: [m] raises at most admissible exceptions in [s]; if it returns, [Q] *)
  Definition fine {X} (m : M X) (s : state) (Q : X -> state -> Prop) : Prop :=
    match m s with Ok (x, s') => Q x s' | Err e => okx e = true end.
  Lemma fine_bind {X Y} (m : M X) (k : X -> M Y) s Q :
    fine m s (fun x s' => fine (k x) s' Q) -> fine (bind m k) s Q.
  Proof. unfold fine, bind. destruct (m s) as [[x s']|]; auto. Qed.
  Lemma fine_dec {X} (m : M X) s Q : dec m -> okp m s Q -> fine m s Q.
  Proof.
    intros D H. unfold fine. destruct (m s) as [[x s']|e] eqn:K; [apply H, K|apply okx_py, (D s e K)].
  Qed.
  Lemma fine_mono {X} (m : M X) s (P Q : X -> state -> Prop) :
    (forall x s', m s = Ok (x, s') -> P x s' -> Q x s') -> fine m s P -> fine m s Q.
  Proof. unfold fine. destruct (m s) as [[x s']|]; auto. Qed.
  Lemma fine_okp {X} (m : M X) s Q : fine m s Q -> okp m s Q.
  Proof. unfold fine. intros H x s' K. rewrite K in H. exact H. Qed.

  Definition whole (now : num) (s : state) : Prop := I now s /\ shaped s.
  Definition tp {X} (now : num) (s0 : state) (m : M X) (s : state) : Prop :=
    fine m s (fun _ s' => whole now s' /\ follows s0 s').
  Definition tfine {X} (now : num) (m : M X) : Prop := forall s, whole now s -> tp now s m s.

  (** an operation of the generic pass that leaves the mesh alone *)
  Lemma whole_same now s s' : I now s' -> follows s s' -> same_mesh s s' -> whole now s -> whole now s'.
  Proof.
    intros T F Mm [_ S]. split; [exact T|]. eapply shaped_ext; eauto; apply F.
  Qed.

  Lemma tp_intro {X} now s0 (m : M X) s : whole now s -> follows s0 s -> tfine now m -> tp now s0 m s.
  Proof.
    intros H K L. specialize (L s H). eapply fine_mono; [|exact L]. cbv beta. intros x s' _ [W F].
    split; [exact W|]. eapply follows_trans; eauto.
  Qed.
  Lemma tp_bind {X Y} now s0 (m : M X) (k : X -> M Y) s :
    whole now s -> follows s0 s -> tfine now m ->
    (forall x s', whole now s' -> follows s0 s' -> follows s s' -> tp now s0 (k x) s') ->
    tp now s0 (bind m k) s.
  Proof.
    intros H K L C. apply fine_bind. specialize (L s H). eapply fine_mono; [|exact L]. cbv beta.
    intros x s' _ [W F]. apply C; auto. eapply follows_trans; eauto.
  Qed.
  Lemma tp_bind_ro {X Y} now s0 (m : M X) (k : X -> M Y) s :
    ro m -> dec m -> (forall x, m s = Ok (x, s) -> tp now s0 (k x) s) -> tp now s0 (bind m k) s.
  Proof.
    intros R D C. apply fine_bind. apply fine_dec; [exact D|]. intros x s' K.
    pose proof (R _ _ _ K). subst s'. apply C, K.
  Qed.
  Lemma tp_ro {X} now s0 (m : M X) s : whole now s -> follows s0 s -> ro m -> dec m -> tp now s0 m s.
  Proof. intros H K R D. apply fine_dec; [exact D|]. intros x s' L. rewrite (R _ _ _ L). auto. Qed.
  Lemma tfine_ro {X} now (m : M X) : ro m -> dec m -> tfine now m.
  Proof. intros R D s H. apply tp_ro; auto. apply follows_refl. Qed.
  Lemma tfine_bind {X Y} now (m : M X) (k : X -> M Y) :
    tfine now m -> (forall x, tfine now (k x)) -> tfine now (bind m k).
  Proof.
    intros H K s Hs. apply tp_bind; auto. { apply follows_refl. } intros. apply tp_intro; auto.
  Qed.
  Lemma tfine_whenM now b m : tfine now m -> tfine now (whenM b m).
  Proof. destruct b; auto. intros _. apply (tfine_ro now (ret tt)); auto with ro dec. Qed.
  Lemma tfine_forM {X} now (l : list X) f : (forall x, tfine now (f x)) -> tfine now (forM l f).
  Proof.
    intros H. induction l; simpl; [apply tfine_ro; auto with ro dec|apply tfine_bind; auto].
  Qed.

  Lemma tp_from {X} now s0 (m : M X) s : follows s0 s -> tp now s m s -> tp now s0 m s.
  Proof.
    intros K L. eapply fine_mono; [|exact L]. cbv beta. intros x s' _ [W F].
    split; [exact W|]. eapply follows_trans; eauto.
  Qed.
  Lemma tp_assoc {X Y Z} now s0 (m : M X) (f : X -> M Y) (k : Y -> M Z) s :
    tp now s0 (bind m (fun x => bind (f x) k)) s -> tp now s0 (bind (bind m f) k) s.
  Proof. unfold tp, fine, bind. destruct (m s) as [[x s1]|]; auto. Qed.

  (** reading a triangle *)
  Definition tri_ok (s : state) (x : ktri) : Prop :=
    (forall sd, get3 (t_v x) sd < nv s) /\ (forall sd n, get3 (t_n x) sd = Some n -> n < nt s).
  Lemma tp_bind_tget {Y} now s0 t (k : ktri -> M Y) s :
    whole now s -> (forall x, tri_ok s x -> tp now s0 (k x) s) -> tp now s0 (bind (tget t) k) s.
  Proof.
    intros [_ [S1 S2]] C. apply fine_bind. unfold fine, tget, gets. apply C. split; [apply S1|apply S2].
  Qed.
  Lemma tp_bind_nindex {Y} now s0 x t (k : side -> M Y) s :
    whole now s -> tri_ok s x -> (forall i, t < nt s -> tp now s0 (k i) s) ->
    tp now s0 (bind (rdr (nindex x t)) k) s.
  Proof.
    intros _ [_ SN] C. apply tp_bind_ro; auto with ro dec. intros i K. apply C.
    unfold rdr, rd, nindex, index3 in K. destruct (find3 _ _) as [sd|] eqn:D; [|discriminate].
    unfold find3 in D.
    assert (exists i, get3 (t_n x) i = Some t) as [j Hj].
    { destruct (x0 (t_n x)) as [m|] eqn:E0; [destruct (Nat.eqb_spec t m); [exists S0; cbn; congruence|]|];
      (destruct (x1 (t_n x)) as [m1|] eqn:E1; [destruct (Nat.eqb_spec t m1); [exists S1; cbn; congruence|]|]);
      (destruct (x2 (t_n x)) as [m2|] eqn:E2; [destruct (Nat.eqb_spec t m2); [exists S2; cbn; congruence|]|]);
      discriminate. }
    apply SN in Hj. exact Hj.
  Qed.

  Lemma tp_bind_stop {Y} now s0 V step pos (k : nat -> M Y) s :
    whole now s -> follows s0 s ->
    (forall n s', whole now s' -> follows s0 s' -> follows s s' -> In n (sk_nodes s') -> tp now s0 (k n) s') ->
    tp now s0 (bind (stop_and_register V step now pos) k) s.
  Proof.
    intros H K C. apply fine_bind, fine_dec; [auto with dec|]. intros n s' D.
    destruct (s_stop TS now s V step pos (proj1 H) n s' D) as (? & ? & ?).
    pose proof (mesh_stop _ _ _ _ _ _ _ D). apply C; auto; [eapply whole_same; eauto|eapply follows_trans; eauto].
  Qed.
  Lemma tp_bind_newv {Y} now s0 ul ur n info int (k : nat -> M Y) s :
    whole now s -> follows s0 s -> In n (sk_nodes s) ->
    (forall v s', whole now s' -> follows s0 s' -> follows s s' -> nv s <= v < nv s' -> tp now s0 (k v) s') ->
    tp now s0 (bind (compute_new_kvertex ul ur now n info int) k) s.
  Proof.
    intros H K R C. apply fine_bind, fine_dec; [auto with dec|]. intros v s' D.
    destruct (s_newv TS now s ul ur n info int (proj1 H) R v s' D) as (? & ? & ?).
    pose proof (mesh_newv _ _ _ _ _ _ _ _ _ D). apply newv_spec in D. destruct D as (kv & _ & -> & _).
    apply C; auto; [eapply whole_same; eauto|eapply follows_trans; eauto].
  Qed.
  Lemma tp_bind_stop_at {Y} now s0 v n (k : unit -> M Y) s :
    whole now s -> follows s0 s -> In n (sk_nodes s) ->
    (forall s', whole now s' -> follows s0 s' -> follows s s' -> tp now s0 (k tt) s') ->
    tp now s0 (bind (stop_at v n now) k) s.
  Proof.
    intros H K R C. apply fine_bind, fine_dec; [auto with dec|]. intros [] s' D.
    destruct (s_stop_at TS now s v n (proj1 H) R tt s' D) as (? & ?).
    pose proof (mesh_stop_at _ _ _ _ _ _ D). apply C; auto; [eapply whole_same; eauto|eapply follows_trans; eauto].
  Qed.
  Lemma tp_bind_addv {Y} now s0 v (k : unit -> M Y) s :
    whole now s -> follows s0 s -> v < nv s ->
    (forall s', whole now s' -> follows s0 s' -> follows s s' -> tp now s0 (k tt) s') ->
    tp now s0 (bind (add_vertex v) k) s.
  Proof.
    intros H K R C. apply fine_bind, fine_dec; [auto with dec|]. intros [] s' D.
    destruct (s_addv TS now s v (proj1 H) R tt s' D) as (? & ?).
    pose proof (mesh_addv _ _ _ _ D). apply C; auto; [eapply whole_same; eauto|eapply follows_trans; eauto].
  Qed.

  Lemma tfine_wf now v l r : tfine now (set_wf v l r).
  Proof.
    intros s H. apply fine_dec; [auto with dec|]. intros u s' D.
    destruct (s_wf TS now s v l r (proj1 H) u s' D). split; [|auto].
    eapply whole_same; eauto. apply (mesh_wf _ _ _ _ _ _ D).
  Qed.
  Lemma tfine_circ now l r : tfine now (update_circ l r now).
  Proof.
    intros s H. apply fine_dec; [auto with dec|]. intros u s' D.
    destruct (s_circ TS now s l r (proj1 H) u s' D). split; [|auto].
    eapply whole_same; eauto. apply (mesh_circ _ _ _ _ _ _ D).
  Qed.
  Lemma tfine_tstops now t : tfine now (set_tstops t now).
  Proof.
    intros s H. apply fine_dec; [apply dec_modt|]. intros u s' D.
    destruct (s_tstops TS now s t (proj1 H) u s' D). split; [|auto].
    eapply whole_same; eauto. apply (mesh_tstops _ _ _ _ _ D).
  Qed.
  Lemma tfine_forget now e : tfine now (bind (queue_discard (Some e)) (fun _ => immediate_remove (Some e))).
  Proof.
    intros s H. apply fine_dec; [apply dec_bind; [apply dec_queue_discard|intros; apply dec_immediate_remove]|].
    intros u s' D. destruct (s_forget TS now s e (proj1 H) u s' D). split; [|auto].
    eapply whole_same; eauto. apply (mesh_forget _ _ _ _ D).
  Qed.
  Lemma tfine_sched now t : tfine now (schedule_immediately t now).
  Proof.
    intros s H. apply fine_dec; [auto with dec|]. intros u s' D.
    destruct (s_sched TS now s t (proj1 H) u s' D). split; [|auto].
    eapply whole_same; eauto. apply (mesh_sched _ _ _ _ _ D).
  Qed.

  Lemma tfine_riq now t : tfine now (replace_in_queue t now).
  Proof.
    intros s H. unfold tp, fine. destruct (replace_in_queue t now s) as [[u s']|e] eqn:D.
    - destruct (s_riq TS now s t (proj1 H) u s' D). split; [|auto].
      eapply whole_same; eauto. apply (mesh_riq _ _ _ _ _ D).
    - eapply riq_okx; [apply H|exact D].
  Qed.

  (** changes of the mesh *)
  Lemma tp_mesh now s t f : whole now s -> mesh_change f -> tri_ok s (f (ts s t)) -> tp now s (modt t f) s.
  Proof.
    intros H F [K1 K2]. apply fine_dec; [apply dec_modt|]. intros u s' D.
    destruct (s_mesh TS now s t f (proj1 H) F u s' D) as [T Fo]. split; [|exact Fo]. split; [exact T|].
    apply modt_spec in D. subst s'. destruct H as [_ [S1 S2]]. constructor; cbn.
    - intros w sd. destruct (upd_case (ts s) t (f (ts s t)) w) as [[_ ->]|[_ ->]]; auto.
    - intros w sd n. destruct (upd_case (ts s) t (f (ts s t)) w) as [[_ ->]|[_ ->]]; eauto.
  Qed.
  Lemma tp_bind_mesh {Y} now s0 t f (k : unit -> M Y) s :
    whole now s -> follows s0 s -> mesh_change f -> tri_ok s (f (ts s t)) ->
    (forall s', whole now s' -> follows s0 s' -> follows s s' -> tp now s0 (k tt) s') ->
    tp now s0 (bind (modt t f) k) s.
  Proof.
    intros H K F T C. apply fine_bind. eapply fine_mono; [|apply tp_mesh; eauto]. cbv beta.
    intros [] s' _ [W Fo]. apply C; auto. eapply follows_trans; eauto.
  Qed.

  Definition opt_ok (s : state) (o : option nat) : Prop := forall n, o = Some n -> n < nt s.
  Lemma opt_ok_follows s s' o : follows s s' -> opt_ok s o -> opt_ok s' o.
  Proof. intros F H n K. rewrite (fo_nt _ _ F). auto. Qed.
  Lemma tri_ok_follows s s' x : follows s s' -> tri_ok s x -> tri_ok s' x.
  Proof.
    intros F [H K]. split; [intros sd; specialize (H sd); pose proof (fo_nv _ _ F); lia|].
    intros sd n. rewrite (fo_nt _ _ F). apply K.
  Qed.
  Lemma get3_set3 {X} (t : triple X) a x b : get3 (set3 t a x) b = if side_eqb a b then x else get3 t b.
  Proof. destruct a, b; reflexivity. Qed.

  Lemma tp_bind_set_tn {Y} now s0 t sd o (k : unit -> M Y) s :
    whole now s -> follows s0 s -> opt_ok s o ->
    (forall s', whole now s' -> follows s0 s' -> follows s s' -> tp now s0 (k tt) s') ->
    tp now s0 (bind (set_tn t sd o) k) s.
  Proof.
    intros H K T C. apply tp_bind_mesh; auto; [repeat split|]. destruct H as [_ [S1 S2]].
    split; cbn; [apply S1|]. intros i n. rewrite get3_set3. destruct (side_eqb sd i); [apply T|apply S2].
  Qed.
  Lemma tp_relink now s n t x : whole now s -> opt_ok s x -> tp now s (relink n t x) s.
  Proof.
    intros H K. unfold relink. apply tp_bind_tget; [exact H|]. intros y Hy.
    apply tp_bind_nindex; [exact H|exact Hy|]. intros i Hi.
    apply tp_mesh; [exact H|repeat split|]. destruct H as [_ [S1 S2]].
    split; cbn; [apply S1|]. intros j m. rewrite get3_set3. destruct (side_eqb i j); [apply K|apply S2].
  Qed.
  Lemma tp_bind_relink {Y} now s0 n t x (k : unit -> M Y) s :
    whole now s -> follows s0 s -> opt_ok s x ->
    (forall s', whole now s' -> follows s0 s' -> follows s s' -> tp now s0 (k tt) s') ->
    tp now s0 (bind (relink n t x) k) s.
  Proof.
    intros H K T C. apply fine_bind. eapply fine_mono; [|apply tp_relink; eauto]. cbv beta.
    intros [] s' _ [W Fo]. apply C; auto. eapply follows_trans; eauto.
  Qed.
  Lemma opt_ok_None s : opt_ok s None. Proof. intros n H. discriminate. Qed.
  Lemma opt_ok_tri s x sd : tri_ok s x -> opt_ok s (get3 (t_n x) sd).
  Proof. intros [_ H] n. apply H. Qed.
  Lemma tfine_unlink now n t : tfine now (unlink_and_schedule n t now).
  Proof.
    intros s H. unfold unlink_and_schedule. destruct n; [|apply tp_ro; auto using follows_refl with ro dec].
    apply tp_bind_relink; auto using follows_refl, opt_ok_None. intros.
    apply tp_bind_ro; auto with ro dec. intros. apply tp_intro; auto. apply tfine_whenM, tfine_sched.
  Qed.

  (** ** The walk of replace_kvertex *)

  (** corners equal to [v] *)
  Definition corners (v : nat) (x : ktri) : nat := count3 (Nat.eqb v) (t_v x).
  Fixpoint occ (f : nat -> ktri) (v n : nat) : nat :=
    match n with O => 0 | S n => corners v (f n) + occ f v n end.
  Lemma corners_le v x : corners v x <= 3.
  Proof. unfold corners, count3. do 3 destruct (Nat.eqb _ _); lia. Qed.
  Lemma occ_le f v n : occ f v n <= 3 * n.
  Proof. induction n; cbn [occ]; [lia|]. pose proof (corners_le v (f n)). lia. Qed.
  Lemma occ_ext f g v n : (forall t, t_v (f t) = t_v (g t)) -> occ f v n = occ g v n.
  Proof. intros H. induction n; cbn [occ]; [reflexivity|]. unfold corners. rewrite IHn, (H n). reflexivity. Qed.
  Lemma occ_upd f v n t x : t < n -> corners v x < corners v (f t) -> occ (upd f t x) v n < occ f v n.
  Proof.
    induction n; intros H K; [lia|]. cbn [occ]. destruct (Nat.eq_dec t n) as [->|D].
    - rewrite upd_same. assert (occ (upd f n x) v n = occ f v n); [|lia].
      clear IHn H. assert (G : forall m, m <= n -> occ (upd f n x) v m = occ f v m).
      { induction m; intros L; cbn [occ]; [reflexivity|]. rewrite IHm, upd_other by lia. reflexivity. }
      apply G. lia.
    - rewrite (upd_other f t x n D). assert (occ (upd f t x) v n < occ f v n) by (apply IHn; [lia|exact K]). lia.
  Qed.
  Lemma corners_set v newv x sd y : v <> newv -> get3 (t_v x) sd = v -> t_v y = set3 (t_v x) sd newv ->
    corners v y < corners v x.
  Proof.
    intros N H K. unfold corners, count3. rewrite K. subst v.
    destruct sd; cbn in *; rewrite Nat.eqb_refl;
      match goal with |- context [Nat.eqb ?a newv] => destruct (Nat.eqb_spec a newv); [contradiction|] end;
      repeat match goal with |- context [Nat.eqb ?a ?b] => destruct (Nat.eqb a b) end; lia.
  Qed.
  Lemma vindex_get x v sd : vindex x v = Ok sd -> get3 (t_v x) sd = v.
  Proof.
    unfold vindex, index3, find3.
    destruct (Nat.eqb_spec v (x0 (t_v x))) as [->|]; [intros H; injection H as <-; reflexivity|].
    destruct (Nat.eqb_spec v (x1 (t_v x))) as [->|]; [intros H; injection H as <-; reflexivity|].
    destruct (Nat.eqb_spec v (x2 (t_v x))) as [->|]; [intros H; injection H as <-; reflexivity|]. discriminate.
  Qed.

  Lemma walk_fine fuel : forall t v newv now d s,
    whole now s -> newv < nv s -> v <> newv -> opt_ok s t -> occ (ts s) v (nt s) < fuel ->
    tp now s (replace_walk fuel t v newv now d) s.
  Proof.
    induction fuel as [|fuel IH]; intros t v newv now d s H L N T C; [lia|].
    cbn [replace_walk]. destruct t as [t|]; [|apply tp_ro; auto using follows_refl with ro dec].
    specialize (T t eq_refl).
    apply fine_bind. unfold fine, tget, gets. fold (tget t).
    apply tp_bind_ro; auto with ro dec. intros sd K.
    assert (V : get3 (t_v (ts s t)) sd = v).
    { unfold rdr, rd in K. destruct (vindex _ _) as [i|] eqn:D; [|discriminate]. injection K as <-. apply vindex_get, D. }
    clear K.
    set (x := ts s t) in *.
    apply fine_bind. eapply fine_mono; [|apply tp_mesh; [exact H|repeat split|]].
    2:{ destruct H as [_ [S1 S2]]. split; cbn; [|apply S2]. intros i. rewrite get3_set3. destruct (side_eqb sd i); [exact L|apply S1]. }
    cbv beta. intros [] s1 D [W1 F1].
    assert (C1 : occ (ts s1) v (nt s1) < fuel).
    { rewrite (fo_nt _ _ F1). apply modt_spec in D. subst s1. cbn.
      assert (occ (upd (ts s) t (tri_v (ts s t) (set3 (t_v (ts s t)) sd newv))) v (nt s) < occ (ts s) v (nt s)); [|lia].
      apply occ_upd; [exact T|]. eapply corners_set; eauto. }
    clear D. apply tp_bind_ro; auto with ro dec. intros fast _.
    apply fine_bind.
    assert (Q : fine (match (if fast then t_event x else None) with
                      | Some e => bind (queue_discard (Some e)) (fun _ => immediate_remove (Some e))
                      | None => replace_in_queue t now end) s1
                (fun _ s' => (whole now s' /\ follows s1 s') /\ same_mesh s1 s')).
    { destruct (if fast then t_event x else None) as [e|].
      - eapply fine_mono; [|apply (tfine_forget now e s1 W1)]. cbv beta. intros u s' D P. split; [exact P|].
        apply (mesh_forget _ _ _ _ D).
      - eapply fine_mono; [|apply (tfine_riq now t s1 W1)]. cbv beta. intros u s' D P. split; [exact P|].
        apply (mesh_riq _ _ _ _ _ D). }
    eapply fine_mono; [|exact Q]. cbv beta. intros _ s2 _ [[W2 F2] M2]. clear Q.
    apply tp_bind_tget; [exact W2|]. intros y Hy.
    assert (F02 : follows s s2) by (eapply follows_trans; eauto).
    apply fine_bind. eapply fine_mono; [|apply IH; auto].
    - cbv beta. intros fan s3 _ [W3 F3]. apply tp_ro; auto with ro dec. eapply follows_trans; eauto.
    - pose proof (fo_nv _ _ F02). lia.
    - apply opt_ok_tri, Hy.
    - rewrite (fo_nt _ _ F2). rewrite (occ_ext (ts s2) (ts s1)); [exact C1|]. intros w. apply M2.
  Qed.
  Lemma tp_bind_replace {Y} now s0 t v newv d (k : list nat -> M Y) s :
    whole now s -> follows s0 s -> newv < nv s -> v <> newv -> t < nt s ->
    (forall fan s', whole now s' -> follows s0 s' -> follows s s' -> tp now s0 (k fan) s') ->
    tp now s0 (bind (replace_kvertex t v newv now d) k) s.
  Proof.
    intros H K L N T C. apply fine_bind. unfold replace_kvertex. apply fine_bind. unfold fine at 1, gets.
    eapply fine_mono; [|apply walk_fine; auto].
    - cbv beta. intros fan s' _ [W F]. apply C; auto. eapply follows_trans; eauto.
    - intros n Hn. injection Hn as <-. exact T.
    - pose proof (occ_le (ts s) v (nt s)). lia.
  Qed.
  (** ** The handlers *)
  Lemma dec_rd_position v now : dec (rd (fun s => position_at s v now)).
  Proof. apply dec_rd. auto with dec. Qed.
  Lemma dec_rd_distance2 v w now : dec (rd (fun s => distance2_at s v w now)).
  Proof. apply dec_rd. auto with dec. Qed.
  Hint Resolve dec_rd_position dec_rd_distance2 : dec.

  Ltac raised := solve [apply dec_raise; reflexivity | auto with dec].
  Ltac tlift := match goal with
    | K : follows ?s ?s', L : follows ?s0 ?s', W : whole _ ?s' |- tp _ ?s0 _ ?s' =>
        pose proof (fo_nv _ _ K); pose proof (fo_nt _ _ K);
        repeat match goal with
        | R : In ?n (sk_nodes s) |- _ =>
            lazymatch goal with
            | _ : In n (sk_nodes s') |- _ => fail
            | _ => pose proof (G_reg TS _ _ _ K R)
            end
        | R : tri_ok s ?x |- _ =>
            lazymatch goal with
            | _ : tri_ok s' x |- _ => fail
            | _ => pose proof (tri_ok_follows _ _ _ K R)
            end
        end; clear K
    end.
  Ltac corner := match goal with
    | H : tri_ok ?s ?x |- get3 (t_v ?x) ?sd <> ?v => pose proof (proj1 H sd); lia
    end.
  Ltac allocated := match goal with
    | H : tri_ok ?s ?x, K : get3 (t_n ?x) ?sd = Some ?n |- ?n < nt _ => pose proof (proj2 H sd n K); lia
    | _ => lia
    end.
  Ltac linkok := first [apply opt_ok_None | match goal with
    | H : tri_ok ?s ?x |- opt_ok ?s (get3 (t_n ?x) _) => exact (opt_ok_tri _ _ _ H)
    | K : get3 (t_n ?x) ?sd = ?o, H : tri_ok ?s ?x |- opt_ok ?s ?o => rewrite <- K; exact (opt_ok_tri _ _ _ H)
    | |- opt_ok ?s (Some ?t) => let n := fresh in let E := fresh in intros n E; injection E as <-; allocated
    end].
  Ltac tstep := lazymatch goal with
    | |- tp _ _ (bind _ _) _ => first
      [ apply tp_bind_tget; [assumption|intros]
      | apply tp_bind_nindex; [assumption|assumption|intros]
      | apply tp_bind_ro; [solve [auto with ro]|raised|let x := fresh "x" in let K := fresh "K" in intros x K; clear K]
      | apply tp_bind_stop; [assumption|assumption|intros; tlift]
      | apply tp_bind_newv; [assumption|assumption|assumption|intros; tlift]
      | apply tp_bind_stop_at; [assumption|assumption|assumption|intros; tlift]
      | apply tp_bind_addv; [assumption|assumption|lia|intros; tlift]
      | apply tp_bind_relink; [assumption|assumption|linkok|intros; tlift]
      | apply tp_bind_replace; [assumption|assumption|lia|corner|allocated|intros; tlift]
      | apply tp_bind; [assumption|assumption|
          first [apply tfine_wf|apply tfine_circ|apply tfine_tstops|apply tfine_unlink|apply tfine_sched|apply tfine_riq]
          |intros; tlift] ]
    | |- tp _ _ _ _ => first
      [ apply tp_ro; [assumption|assumption|solve [auto with ro]|raised]
      | apply tp_intro; [assumption|assumption|
          first [apply tfine_wf|apply tfine_circ|apply tfine_tstops|apply tfine_unlink|apply tfine_sched|apply tfine_riq]] ]
    end.
  Ltac tstart := let s := fresh "s" in intros s ?; pose proof (follows_refl s).

  Lemma tfine_even t e p now step : tfine now (handle_parallel_edge_event_even_legs t e p now step).
  Proof. tstart. unfold handle_parallel_edge_event_even_legs. repeat tstep. Qed.

  Lemma tfine_3tri t e p now step : tfine now (handle_parallel_edge_event_3tri t e p now step).
  Proof.
    tstart. unfold handle_parallel_edge_event_3tri. cbv zeta. do 12 tstep.
    assert (K : forall a b (k : nat -> M unit),
      (forall n s', whole now s' -> follows s s' -> In n (sk_nodes s') -> tp now s (k n) s') ->
      tp now s (bind (bind (stop_and_register [a] step now None) (fun n => bind (stop_at b n now) (fun _ => ret n))) k) s).
    { intros a b k C. unfold tp. apply fine_bind. apply fine_bind.
      apply fine_dec; [auto with dec|]. intros n s1 D.
      destruct (s_stop TS now s [a] step None (proj1 H) n s1 D) as (T1 & F1 & R1).
      pose proof (mesh_stop _ _ _ _ _ _ _ D) as M1.
      apply fine_bind. apply fine_dec; [auto with dec|]. intros [] s2 D2.
      destruct (s_stop_at TS now s1 b n T1 R1 tt s2 D2) as (T2 & F2).
      pose proof (mesh_stop_at _ _ _ _ _ _ D2) as M2.
      unfold fine at 1. unfold ret. apply C.
      - apply (whole_same now s); [exact T2|eapply follows_trans; eauto|exact (same_mesh_trans _ _ _ M1 M2)|exact H].
      - eapply follows_trans; eauto.
      - eapply (G_reg TS); eauto. }
    match goal with |- context [if ?b then _ else _] => destruct b end.
    all: apply K; clear K; intros; repeat tstep.
    all: apply tp_ro; auto; [apply ro_forM; intros; apply ro_bind; auto with ro
                            |apply dec_forM; intros; apply dec_bind; auto with dec].
  Qed.

  Definition fan_fine (rec : list nat -> nat -> num -> turn -> Z -> M unit) : Prop :=
    forall fan v now d step, tfine now (rec fan v now d step).

  Lemma tfine_fan_of rec fa fb kv now step :
    fan_fine rec -> tfine now (parallel_fan_of rec fa fb kv now step).
  Proof. intros R. destruct fa, fb; simpl; try apply R. apply tfine_ro; auto with ro dec. Qed.

  Lemma tfine_shorter rec t e p now step :
    fan_fine rec -> tfine now (handle_parallel_edge_event_shorter_leg rec t e p now step).
  Proof.
    intros R. tstart. unfold handle_parallel_edge_event_shorter_leg. cbv zeta.
    do 7 tstep. tstep.
    match goal with |- tp _ _ (bind (if ?b then _ else _) _) _ => destruct b end.
    all: [> apply tp_assoc|].
    all: repeat first [tstep | match goal with
      | |- tp _ _ (bind (match ?o with Some _ => _ | None => _ end) _) _ => destruct o eqn:?
      | |- tp _ _ (bind (bind _ _) _) _ => apply tp_assoc end].
    all: apply tp_intro; auto; apply tfine_whenM, tfine_fan_of; exact R.
  Qed.

  Lemma tp_bind_link_around {Y} now s0 n sd t (k : unit -> M Y) s :
    whole now s -> follows s0 s -> t < nt s ->
    (forall s', whole now s' -> follows s0 s' -> follows s s' -> tp now s0 (k tt) s') ->
    tp now s0 (bind (link_around n sd t) k) s.
  Proof.
    intros H K T C. unfold link_around.
    destruct n; [destruct sd|]; [apply tp_bind_set_tn; auto; linkok|..];
      (apply tp_bind_ro; auto with ro dec; intros [] _; apply C; auto using follows_refl).
  Qed.
  Lemma tp_flip now s t0 s0 t1 s1 : whole now s -> t0 < nt s -> t1 < nt s -> tp now s (flip t0 s0 t1 s1) s.
  Proof.
    intros H L0 L1. pose proof (follows_refl s). unfold flip. cbv zeta.
    apply tp_bind_tget; [assumption|intros x Hx]. apply tp_bind_tget; [assumption|intros y Hy].
    do 8 tstep.
    do 4 (apply tp_bind_link_around; [assumption|assumption|lia|intros; tlift]).
    apply tp_bind_mesh; [assumption|assumption|repeat split| |intros; tlift].
    { match goal with W : whole now ?st |- tri_ok ?st _ => destruct W as [_ [V1 V2]] end.
      split; cbn; [|apply V2].
      intros []; cbn; (match goal with H : tri_ok ?st ?x |- get3 (t_v ?x) _ < nv ?st => apply H end). }
    apply tp_bind_mesh; [assumption|assumption|repeat split| |intros; tlift].
    { match goal with W : whole now ?st |- tri_ok ?st _ => destruct W as [_ [V1 V2]] end.
      split; cbn; [apply V1|].
      intros [] n0; cbn; intros E0; try (injection E0 as <-; lia);
      (match goal with H : tri_ok ?st ?x, K : get3 (t_n ?x) ?sd = _ |- _ < nt ?st => exact (proj2 H _ _ K) end). }
    apply tp_bind_mesh; [assumption|assumption|repeat split| |intros; tlift].
    { match goal with W : whole now ?st |- tri_ok ?st _ => destruct W as [_ [V1 V2]] end.
      split; cbn; [|apply V2].
      intros []; cbn; (match goal with H : tri_ok ?st ?x |- get3 (t_v ?x) _ < nv ?st => apply H end). }
    apply tp_from; [assumption|].
    apply tp_mesh; [assumption|repeat split|].
    { match goal with W : whole now ?st |- tri_ok ?st _ => destruct W as [_ [V1 V2]] end.
      split; cbn; [apply V1|].
      intros [] n0; cbn; intros E0; try (injection E0 as <-; lia);
      (match goal with H : tri_ok ?st ?x, K : get3 (t_n ?x) ?sd = _ |- _ < nt ?st => exact (proj2 H _ _ K) end). }
  Qed.
  Lemma tp_bind_flip {Y} now s0 t0 e0 t1 e1 (k : unit -> M Y) s :
    whole now s -> follows s0 s -> t0 < nt s -> t1 < nt s ->
    (forall s', whole now s' -> follows s0 s' -> follows s s' -> tp now s0 (k tt) s') ->
    tp now s0 (bind (flip t0 e0 t1 e1) k) s.
  Proof.
    intros H K T0 T1 C. apply fine_bind. eapply fine_mono; [|apply tp_flip; eauto]. cbv beta.
    intros [] s' _ [W Fo]. apply C; auto. eapply follows_trans; eauto.
  Qed.

  Lemma tfine_even_at t p now step : tfine now (even_legs_at t p now step).
  Proof. tstart. unfold even_legs_at. repeat tstep. apply tp_intro; auto. apply tfine_even. Qed.

  Lemma tfine_flip_then t0 t1 p now step : tfine now (flip_then_even_legs t0 t1 p now step).
  Proof.
    tstart. unfold flip_then_even_legs. do 4 tstep.
    apply tp_bind_flip; [assumption|assumption|lia|lia|intros; tlift].
    do 2 (apply tp_bind_ro; [auto with ro|apply dec_rd; intros; apply pdec_rmapl; auto with dec|intros]).
    apply tp_bind; auto; [apply tfine_whenM, tfine_even_at|intros].
    apply tp_intro; auto. apply tfine_whenM, tfine_even_at.
  Qed.

  Lemma tfine_isolated t p now step : tfine now (parallel_fan_isolated t p now step).
  Proof.
    tstart. unfold parallel_fan_isolated. do 3 tstep. cbv zeta.
    match goal with |- context [where3 ?f ?z] => destruct (where3 f z) as [|sd [|sd2 r]] end.
    - repeat tstep. apply tp_intro; auto. apply tfine_3tri.
    - match goal with |- context [if ?b then _ else _] => destruct b end.
      + tstep. apply tp_intro; auto. apply tfine_even_at.
      + repeat tstep. apply tp_intro; auto. apply tfine_3tri.
    - repeat tstep. apply tp_intro; auto. apply tfine_3tri.
  Qed.

  Lemma tfine_parallel_fan fuel : fan_fine (handle_parallel_fan fuel).
  Proof.
    induction fuel as [|fuel IH]; intros fan p now d step; simpl.
    { apply tfine_ro; [auto with ro|raised]. }
    destruct fan as [|first rest]; [apply tfine_ro; [auto with ro|raised]|].
    tstart. do 3 tstep.
    match goal with |- context [if Nat.eqb (tri_type ?x) 3 then _ else _] => destruct (Nat.eqb (tri_type x) 3) end.
    { tstep. apply tp_intro; auto. apply tfine_isolated. }
    tstep. destruct d; cbv iota beta.
    all: do 6 tstep.
    all: cbv zeta; repeat match goal with |- context [near_zero ?x] => destruct (near_zero x) end.
    all: try (apply tp_intro; [assumption|assumption|]; apply tfine_shorter; exact IH).
    all: try (solve [apply tp_ro; [assumption|assumption|auto with ro|raised]]).
    all: destruct rest as [|t1 [|t2 r]];
      [ apply tp_intro; [assumption|assumption|]; apply tfine_bind; [apply tfine_even_at|intros; apply tfine_ro; auto with ro dec]
      | | apply tp_ro; [assumption|assumption|auto with ro|raised] ].
    all: tstep; match goal with |- tp _ _ (if ?b then _ else _) _ => destruct b end;
      [|apply tp_intro; [assumption|assumption|]; apply tfine_flip_then].
    all: apply tp_intro; [assumption|assumption|]; repeat (apply tfine_bind; [first [apply tfine_even_at|apply tfine_ro; auto with ro dec]|intros]); apply tfine_ro; auto with ro dec.
  Qed.

  Lemma tfine_tiny fan kv now d : tfine now (schedule_if_tiny fan kv now d).
  Proof.
    unfold schedule_if_tiny. destruct (rev fan); [apply tfine_ro; auto with ro dec|].
    tstart. do 2 tstep. destruct (edge_segment _ (d _)). do 2 tstep.
    apply tp_intro; auto. apply tfine_whenM, tfine_sched.
  Qed.

  Lemma tfine_edge evt step : tfine (ev_time evt) (handle_edge_event evt step).
  Proof.
    unfold handle_edge_event, handle_edge_event_with. destruct (ev_side evt) as [|e [|]]; try (solve [apply tfine_ro; [auto with ro|raised]]).
    tstart. cbv zeta.
    repeat first [tstep | apply tp_bind; [assumption|assumption|apply tfine_tiny|intros; tlift]
      | match goal with
      | |- tp _ _ (bind (match ?o with Some _ => _ | None => _ end) _) _ => destruct o eqn:?
      | |- tp _ _ (bind (bind _ _) _) _ => apply tp_assoc end].
    all: apply tp_intro; auto; apply tfine_whenM, tfine_fan_of, tfine_parallel_fan.
  Qed.

  Lemma tfine_schedule_neighbour t now sd : tfine now (schedule_neighbour t now sd).
  Proof.
    unfold schedule_neighbour. tstart. tstep. destruct (get3 (t_n _) sd) eqn:?; [|apply tp_ro; auto with ro dec].
    tstep. match goal with |- context [whenM ?b _] => destruct b end; cbn [whenM];
      repeat tstep.
  Qed.

  Lemma tfine_3sides evt step : tfine (ev_time evt) (handle_edge_event_3sides evt step).
  Proof.
    unfold handle_edge_event_3sides. tstart. repeat tstep.
    apply tp_bind; auto; [apply tfine_forM; intros; apply tfine_schedule_neighbour|intros].
    repeat tstep.
  Qed.

  Lemma tfine_1side evt step : tfine (ev_time evt) (handle_edge_event_1side evt step).
  Proof.
    unfold handle_edge_event_1side. destruct (ev_side evt) as [|e [|]]; try (solve [apply tfine_ro; [auto with ro|raised]]).
    tstart. repeat tstep.
  Qed.

  Lemma tfine_flip_event evt : tfine (ev_time evt) (handle_flip_event evt).
  Proof.
    unfold handle_flip_event. destruct (ev_side evt) as [|e [|]]; try (solve [apply tfine_ro; [auto with ro|raised]]).
    tstart. tstep. destruct (get3 (t_n _) e) eqn:?; [|apply tp_ro; [assumption|assumption|auto with ro|raised]].
    do 2 tstep. apply tp_bind_flip; [assumption|assumption|lia|allocated|intros; tlift]. repeat tstep.
  Qed.

  Lemma tfine_split evt step : tfine (ev_time evt) (handle_split_event evt step).
  Proof.
    unfold handle_split_event, handle_split_event_with. destruct (ev_side evt) as [|e [|]]; try (solve [apply tfine_ro; [auto with ro|raised]]).
    tstart. cbv zeta.
    repeat first [tstep | match goal with
      | |- tp _ _ (match get3 (t_n ?x) ?sd with Some _ => _ | None => _ end) _ => destruct (get3 (t_n x) sd) eqn:?
      end].
    apply tp_bind; auto; [apply tfine_whenM, tfine_parallel_fan|intros]. repeat tstep.
    apply tp_intro; auto; apply tfine_whenM, tfine_parallel_fan.
  Qed.

  Theorem fine_handle_event e step s :
    whole (ev_time (es s e)) s ->
    fine (handle_event e step) s (fun _ s' => whole (ev_time (es s e)) s' /\ follows s s').
  Proof.
    intros H. unfold handle_event.
    apply fine_bind. unfold fine at 1, eget, gets. apply fine_bind. unfold fine at 1, tget, gets.
    destruct (is_some (t_stops _)). { split; [exact H|apply follows_refl]. }
    destruct (ev_tp (es s e)).
    - destruct (Nat.eqb _ 3); [apply tfine_3sides; exact H|].
      destruct (_ && _); [apply tfine_1side; exact H|].
      destruct (Nat.eqb _ 2); [apply okx_py; reflexivity|]. apply tfine_edge; exact H.
    - apply tfine_flip_event; exact H.
    - apply tfine_split; exact H.
  Qed.
End Total.
