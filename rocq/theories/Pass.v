(** A generic pass over the event handlers: a predicate [I] and a preorder [G]
    on states that the elementary steps of the handlers keep are kept by every
    handler and by the event loop. *)
From Verif Require Import Base Arith Calc VectorOps Line2d Primitives Collapse EventsLib
  FlipEvent ParallelEvent EdgeEvent SplitEvent EventLoop.

Section Okp.
  Context {A : Arith}.
  (** partial correctness: every normal result satisfies [Q] *)
  Definition okp {X} (m : M X) (s : state) (Q : X -> state -> Prop) : Prop :=
    forall x s', m s = Ok (x, s') -> Q x s'.
  (** read-only computations *)
  Definition ro {X} (m : M X) : Prop := forall s x s', m s = Ok (x, s') -> s' = s.

  Lemma okp_ret {X} (x : X) s (Q : X -> state -> Prop) : Q x s -> okp (ret x) s Q.
  Proof. intros H y s' K. injection K as <- <-. exact H. Qed.
  Lemma okp_raise {X} e s (Q : X -> state -> Prop) : okp (raise e) s Q.
  Proof. intros y s' K. discriminate. Qed.
  Lemma okp_bind {X Y} (m : M X) (k : X -> M Y) s (Q : Y -> state -> Prop) :
    okp m s (fun x s' => okp (k x) s' Q) -> okp (bind m k) s Q.
  Proof.
    intros H y s' K. unfold bind in K. destruct (m s) as [[x t]|] eqn:E; [|discriminate].
    eapply H; eauto.
  Qed.
  Lemma okp_bind_ro {X Y} (m : M X) (k : X -> M Y) s (Q : Y -> state -> Prop) :
    ro m -> (forall x, m s = Ok (x, s) -> okp (k x) s Q) -> okp (bind m k) s Q.
  Proof.
    intros R H. apply okp_bind. intros x s' K. pose proof (R _ _ _ K). subst s'. apply H, K.
  Qed.
  Lemma okp_ro {X} (m : M X) s (Q : X -> state -> Prop) : ro m -> (forall x, Q x s) -> okp m s Q.
  Proof. intros R H x s' K. rewrite (R _ _ _ K). apply H. Qed.
  Lemma okp_mono {X} (m : M X) s (Q Q' : X -> state -> Prop) :
    okp m s Q -> (forall x s', Q x s' -> Q' x s') -> okp m s Q'.
  Proof. unfold okp. eauto. Qed.

  Lemma ro_ret {X} (x : X) : ro (ret x).
  Proof. intros s y s' K. injection K as _ <-. reflexivity. Qed.
  Lemma ro_raise {X} e : ro (raise (X := X) e).
  Proof. intros s y s' K. discriminate. Qed.
  Lemma ro_bind {X Y} (m : M X) (k : X -> M Y) : ro m -> (forall x, ro (k x)) -> ro (bind m k).
  Proof.
    intros H K s y s' L. unfold bind in L. destruct (m s) as [[x t]|] eqn:D; [|discriminate].
    rewrite (K _ _ _ _ L). apply (H _ _ _ D).
  Qed.
  Lemma ro_rd {X} (f : state -> res X) : ro (rd f).
  Proof. intros s y s' K. unfold rd in K. destruct (f s); [|discriminate]. injection K as _ <-. reflexivity. Qed.
  Lemma ro_gets {X} (f : state -> X) : ro (gets f).
  Proof. intros s y s' K. injection K as _ <-. reflexivity. Qed.
  Lemma ro_assertM b : ro (assertM b).
  Proof. destruct b; [apply ro_ret|apply ro_raise]. Qed.
  Lemma ro_whenM b m : ro m -> ro (whenM b m).
  Proof. destruct b; simpl; auto using ro_ret. Qed.
  Lemma ro_forM {X} (l : list X) f : (forall x, ro (f x)) -> ro (forM l f).
  Proof. intros H. induction l; simpl; [apply ro_ret|apply ro_bind; auto]. Qed.

  Context {E : Env A}.
  Lemma ro_vget v : ro (vget v). Proof. apply ro_gets. Qed.
  Lemma ro_tget v : ro (tget v). Proof. apply ro_gets. Qed.
  Lemma ro_eget v : ro (eget v). Proof. apply ro_gets. Qed.
  Lemma ro_vattr {X} v (f : kvertex -> X) : ro (vattr v f). Proof. apply ro_rd. Qed.
  Lemma ro_rdr {X} (r : res X) : ro (rdr r). Proof. apply ro_rd. Qed.
  Lemma ro_deref {X} (o : option X) : ro (deref o).
  Proof. destruct o; [apply ro_ret|apply ro_raise]. Qed.
  Lemma ro_left_wfr v : ro (left_wfr v).
  Proof. apply ro_bind; [apply ro_vget|]; intros; apply ro_bind; [apply ro_deref|]; intros; apply ro_vattr. Qed.
  Lemma ro_right_wfl v : ro (right_wfl v).
  Proof. apply ro_bind; [apply ro_vget|]; intros; apply ro_bind; [apply ro_deref|]; intros; apply ro_vattr. Qed.
  Lemma ro_wfline o : ro (wfline o).
  Proof. apply ro_bind; [apply ro_deref|]; intros; apply ro_gets. Qed.
  Lemma ro_wf_bisector a b : ro (wf_bisector a b).
  Proof.
    apply ro_bind; [apply ro_wfline|]; intros; apply ro_bind; [apply ro_wfline|]; intros; apply ro_rdr.
  Qed.
  Lemma ro_wf_intersection_at a b now : ro (wf_intersection_at a b now).
  Proof.
    apply ro_bind; [apply ro_wfline|]; intros; apply ro_bind; [apply ro_wfline|]; intros.
    destruct get_intersection_at_t as [?|[]]; auto using ro_ret, ro_raise.
  Qed.
  Lemma ro_leg_length t sd now : ro (leg_length t sd now). Proof. apply ro_rd. Qed.
  Lemma ro_legs_even t p now : ro (legs_even t p now).
  Proof.
    repeat (apply ro_bind; [first [apply ro_tget|apply ro_rdr|apply ro_leg_length]|]; intros).
    apply ro_ret.
  Qed.
  Lemma ro_all_legs_even t0 t1 p now : ro (all_legs_even t0 t1 p now).
  Proof.
    repeat (apply ro_bind; [apply ro_legs_even|]; intros). apply ro_ret.
  Qed.
  Lemma ro_edge_precheck x e v1 v2 : ro (edge_precheck x e v1 v2).
  Proof.
    repeat (apply ro_bind; [first [apply ro_vget|apply ro_vattr]|]; intros).
    apply ro_whenM. repeat (apply ro_bind; [apply ro_assertM|]; intros). apply ro_assertM.
  Qed.
  Lemma ro_split_precheck v v1 v2 now : ro (split_precheck v v1 v2 now).
  Proof.
    repeat (apply ro_bind; [first [apply ro_vattr|apply ro_assertM|apply ro_wf_bisector|apply ro_wf_intersection_at]|]; intros).
    apply ro_ret.
  Qed.
  Lemma ro_apex_around n c : ro (apex_around n c).
  Proof.
    destruct n; [|apply ro_ret]. simpl.
    repeat (apply ro_bind; [first [apply ro_tget|apply ro_rdr]|]; intros). apply ro_ret.
  Qed.
  Lemma ro_assert_stopped t : ro (assert_stopped t).
  Proof. apply ro_bind; [apply ro_tget|]; intros; apply ro_assertM. Qed.
End Okp.

#[global] Hint Resolve ro_ret ro_raise ro_rd ro_gets ro_assertM ro_vget ro_tget ro_eget ro_vattr
  ro_rdr ro_deref ro_left_wfr ro_right_wfl ro_wfline ro_wf_bisector ro_wf_intersection_at
  ro_leg_length ro_legs_even ro_all_legs_even ro_edge_precheck ro_split_precheck ro_apex_around
  ro_assert_stopped : ro.

(** A change of a triangle's links only *)
Definition mesh_change {A : Arith} (f : ktri -> ktri) : Prop :=
  forall x, t_event (f x) = t_event x /\ t_info (f x) = t_info x /\
            t_stops (f x) = t_stops x /\ t_internal (f x) = t_internal x.

(** [Sound I G]: the elementary steps of the handlers at time [now] keep [I now]
    and follow [G].  A node argument is registered, a vertex added to the
    skeleton is allocated. *)
Record Sound {A : Arith} {E : Env A} (I : num -> state -> Prop) (G : state -> state -> Prop) : Prop := {
  G_refl : forall s, G s s;
  G_trans : forall s s' s'', G s s' -> G s' s'' -> G s s'';
  G_reg : forall s s' n, G s s' -> In n (sk_nodes s) -> In n (sk_nodes s');
  G_nv : forall s s', G s s' -> nv s <= nv s';
  s_stop : forall now s V step pos, I now s ->
    okp (stop_and_register V step now pos) s (fun n s' => I now s' /\ G s s' /\ In n (sk_nodes s'));
  s_stop_at : forall now s v n, I now s -> In n (sk_nodes s) ->
    okp (stop_at v n now) s (fun _ s' => I now s' /\ G s s');
  s_newv : forall now s ul ur n info int, I now s -> In n (sk_nodes s) ->
    okp (compute_new_kvertex ul ur now n info int) s (fun v s' => I now s' /\ G s s' /\ v < nv s');
  s_wf : forall now s v l r, I now s -> okp (set_wf v l r) s (fun _ s' => I now s' /\ G s s');
  s_addv : forall now s v, I now s -> v < nv s -> okp (add_vertex v) s (fun _ s' => I now s' /\ G s s');
  s_circ : forall now s l r, I now s -> okp (update_circ l r now) s (fun _ s' => I now s' /\ G s s');
  s_mesh : forall now s t f, I now s -> mesh_change f -> okp (modt t f) s (fun _ s' => I now s' /\ G s s');
  s_tstops : forall now s t, I now s -> okp (set_tstops t now) s (fun _ s' => I now s' /\ G s s');
  s_forget : forall now s e, I now s ->
    okp (bind (queue_discard (Some e)) (fun _ => immediate_remove (Some e))) s (fun _ s' => I now s' /\ G s s');
  s_riq : forall now s t, I now s -> okp (replace_in_queue t now) s (fun _ s' => I now s' /\ G s s');
  s_sched : forall now s t, I now s -> okp (schedule_immediately t now) s (fun _ s' => I now s' /\ G s s');
}.
Arguments G_refl {A E I G}. Arguments G_trans {A E I G}. Arguments G_reg {A E I G}. Arguments G_nv {A E I G}.
Arguments s_stop {A E I G}. Arguments s_stop_at {A E I G}. Arguments s_newv {A E I G}.
Arguments s_wf {A E I G}. Arguments s_addv {A E I G}. Arguments s_circ {A E I G}. Arguments s_mesh {A E I G}.
Arguments s_tstops {A E I G}. Arguments s_forget {A E I G}. Arguments s_riq {A E I G}. Arguments s_sched {A E I G}.

Section Pass.
  Context {A : Arith} {E : Env A} {I : num -> state -> Prop} {G : state -> state -> Prop}.
  Context (S : Sound I G).

  (** keeping [I now] and following [G] from [s0] *)
  Definition kp {X} (now : num) (s0 : state) (m : M X) (s : state) : Prop :=
    okp m s (fun _ s' => I now s' /\ G s0 s').
  Definition keeps {X} (now : num) (m : M X) : Prop := forall s, I now s -> kp now s m s.

  Lemma kp_intro {X} now s0 (m : M X) s :
    I now s -> G s0 s -> keeps now m -> kp now s0 m s.
  Proof.
    intros H K L x s' D. destruct (L s H x s' D). split; [assumption|]. eapply (G_trans S); eauto.
  Qed.
  Lemma kp_bind {X Y} now s0 (m : M X) (k : X -> M Y) s :
    I now s -> G s0 s -> keeps now m ->
    (forall x s', I now s' -> G s0 s' -> G s s' -> kp now s0 (k x) s') ->
    kp now s0 (bind m k) s.
  Proof.
    intros H K L C. apply okp_bind. intros x s' D. destruct (L s H x s' D).
    apply C; auto. eapply (G_trans S); eauto.
  Qed.
  Lemma kp_bind_ro {X Y} now s0 (m : M X) (k : X -> M Y) s :
    ro m -> (forall x, m s = Ok (x, s) -> kp now s0 (k x) s) -> kp now s0 (bind m k) s.
  Proof. apply okp_bind_ro. Qed.
  Lemma kp_ro {X} now s0 (m : M X) s : I now s -> G s0 s -> ro m -> kp now s0 m s.
  Proof. intros H K R x s' D. rewrite (R _ _ _ D). auto. Qed.

  Lemma keeps_ro {X} now (m : M X) : ro m -> keeps now m.
  Proof. intros R s H. apply kp_ro; auto. apply (G_refl S). Qed.
  Lemma keeps_bind {X Y} now (m : M X) (k : X -> M Y) :
    keeps now m -> (forall x, keeps now (k x)) -> keeps now (bind m k).
  Proof.
    intros H K s Hs. apply kp_bind; auto. { apply (G_refl S). }
    intros. apply kp_intro; auto.
  Qed.
  Lemma keeps_whenM now b m : keeps now m -> keeps now (whenM b m).
  Proof. destruct b; auto. intros _. exact (keeps_ro now _ (ro_ret tt)). Qed.
  Lemma keeps_forM {X} now (l : list X) f : (forall x, keeps now (f x)) -> keeps now (forM l f).
  Proof. intros H. induction l; simpl; [apply keeps_ro; auto with ro|apply keeps_bind; auto]. Qed.

  (** binding an operation that returns a registered node or an allocated vertex *)
  Lemma kp_bind_stop {Y} now s0 V step pos (k : nat -> M Y) s :
    I now s -> G s0 s ->
    (forall n s', I now s' -> G s0 s' -> G s s' -> In n (sk_nodes s') -> kp now s0 (k n) s') ->
    kp now s0 (bind (stop_and_register V step now pos) k) s.
  Proof.
    intros H K C. apply okp_bind. intros n s' D.
    destruct (s_stop S now s V step pos H n s' D) as (? & ? & ?). apply C; auto. eapply (G_trans S); eauto.
  Qed.
  Lemma kp_bind_newv {Y} now s0 ul ur n info int (k : nat -> M Y) s :
    I now s -> G s0 s -> In n (sk_nodes s) ->
    (forall v s', I now s' -> G s0 s' -> G s s' -> v < nv s' -> kp now s0 (k v) s') ->
    kp now s0 (bind (compute_new_kvertex ul ur now n info int) k) s.
  Proof.
    intros H K R C. apply okp_bind. intros v s' D.
    destruct (s_newv S now s ul ur n info int H R v s' D) as (? & ? & ?). apply C; auto. eapply (G_trans S); eauto.
  Qed.
  Lemma kp_bind_stop_at {Y} now s0 v n (k : unit -> M Y) s :
    I now s -> G s0 s -> In n (sk_nodes s) ->
    (forall s', I now s' -> G s0 s' -> G s s' -> kp now s0 (k tt) s') ->
    kp now s0 (bind (stop_at v n now) k) s.
  Proof.
    intros H K R C. apply okp_bind. intros u s' D.
    destruct (s_stop_at S now s v n H R u s' D) as (? & ?). destruct u. apply C; auto. eapply (G_trans S); eauto.
  Qed.
  Lemma kp_bind_addv {Y} now s0 v (k : unit -> M Y) s :
    I now s -> G s0 s -> v < nv s ->
    (forall s', I now s' -> G s0 s' -> G s s' -> kp now s0 (k tt) s') ->
    kp now s0 (bind (add_vertex v) k) s.
  Proof.
    intros H K R C. apply okp_bind. intros u s' D.
    destruct (s_addv S now s v H R u s' D) as (? & ?). destruct u. apply C; auto. eapply (G_trans S); eauto.
  Qed.

  Lemma keeps_stop now V step pos : keeps now (stop_and_register V step now pos).
  Proof. intros s H n s' D. destruct (s_stop S now s V step pos H n s' D) as (? & ? & ?). auto. Qed.
  Lemma keeps_wf now v l r : keeps now (set_wf v l r).
  Proof. intros s H. apply (s_wf S); auto. Qed.
  Lemma keeps_circ now l r : keeps now (update_circ l r now).
  Proof. intros s H. apply (s_circ S); auto. Qed.
  Lemma keeps_tstops now t : keeps now (set_tstops t now).
  Proof. intros s H. apply (s_tstops S); auto. Qed.
  Lemma keeps_mesh now t f : mesh_change f -> keeps now (modt t f).
  Proof. intros F s H. apply (s_mesh S); auto. Qed.
  Lemma keeps_set_tn now t sd n : keeps now (set_tn t sd n).
  Proof. apply keeps_mesh. repeat split. Qed.
  Lemma keeps_set_tv now t sd n : keeps now (set_tv t sd n).
  Proof. apply keeps_mesh. repeat split. Qed.
  Lemma keeps_set_tns now t n : keeps now (set_tns t n).
  Proof. apply keeps_mesh. repeat split. Qed.
  Lemma keeps_set_tvs now t n : keeps now (set_tvs t n).
  Proof. apply keeps_mesh. repeat split. Qed.
  Lemma keeps_forget now e : keeps now (bind (queue_discard (Some e)) (fun _ => immediate_remove (Some e))).
  Proof. intros s H. apply (s_forget S); auto. Qed.
  Lemma keeps_riq now t : keeps now (replace_in_queue t now).
  Proof. intros s H. apply (s_riq S); auto. Qed.
  Lemma keeps_sched now t : keeps now (schedule_immediately t now).
  Proof. intros s H. apply (s_sched S); auto. Qed.

  Lemma keeps_walk fuel : forall t v newv now d, keeps now (replace_walk fuel t v newv now d).
  Proof.
    induction fuel as [|fuel IH]; intros t v newv now d; simpl.
    { destruct t; apply keeps_ro; auto with ro. }
    destruct t as [t|]; [|apply keeps_ro; auto with ro].
    apply keeps_bind; [apply keeps_ro; auto with ro|intros x].
    apply keeps_bind; [apply keeps_ro; auto with ro|intros sd].
    apply keeps_bind; [apply keeps_set_tv|intros _].
    apply keeps_bind; [apply keeps_ro; auto with ro|intros fast].
    apply keeps_bind; [|intros _].
    { destruct (if fast then t_event x else None); [apply keeps_forget|apply keeps_riq]. }
    apply keeps_bind; [apply keeps_ro; auto with ro|intros y].
    apply keeps_bind; [apply IH|intros fan]. apply keeps_ro; auto with ro.
  Qed.
  Lemma keeps_replace_kvertex t v newv now d : keeps now (replace_kvertex t v newv now d).
  Proof.
    apply keeps_bind; [apply keeps_ro; auto with ro|intros]. apply keeps_walk.
  Qed.
  Lemma keeps_relink now n t x : keeps now (relink n t x).
  Proof.
    apply keeps_bind; [apply keeps_ro; auto with ro|intros].
    apply keeps_bind; [apply keeps_ro; auto with ro|intros]. apply keeps_set_tn.
  Qed.
  Lemma keeps_unlink now n t : keeps now (unlink_and_schedule n t now).
  Proof.
    unfold unlink_and_schedule. destruct n; [|apply keeps_ro; auto with ro].
    apply keeps_bind; [apply keeps_relink|intros].
    apply keeps_bind; [apply keeps_ro; auto with ro|intros].
    apply keeps_whenM, keeps_sched.
  Qed.

  Lemma keeps_link_around now n sd t : keeps now (link_around n sd t).
  Proof.
    unfold link_around. destruct n, sd; try (apply keeps_ro; solve [auto with ro]). apply keeps_set_tn.
  Qed.
  Lemma keeps_flip now t0 s0 t1 s1 : keeps now (flip t0 s0 t1 s1).
  Proof.
    unfold flip. cbv zeta.
    do 2 (apply keeps_bind; [apply keeps_ro, ro_tget|intros]).
    do 4 (apply keeps_bind; [apply keeps_ro, ro_assertM|intros]).
    do 4 (apply keeps_bind; [apply keeps_ro, ro_apex_around|intros]).
    do 4 (apply keeps_bind; [apply keeps_link_around|intros]).
    apply keeps_bind; [apply keeps_set_tvs|intros].
    apply keeps_bind; [apply keeps_set_tns|intros].
    apply keeps_bind; [apply keeps_set_tvs|intros].
    apply keeps_set_tns.
  Qed.

  (** one step of symbolic execution of a handler *)
  Ltac lift := match goal with
    | K : G ?s ?s' |- _ =>
        repeat match goal with
        | R : In ?n (sk_nodes s) |- _ =>
            lazymatch goal with
            | _ : In n (sk_nodes s') |- _ => fail
            | _ => pose proof (G_reg S _ _ _ K R)
            end
        | R : ?v < nv s |- _ =>
            lazymatch goal with
            | _ : v < nv s' |- _ => fail
            | _ => pose proof (Nat.lt_le_trans _ _ _ R (G_nv S _ _ K))
            end
        end; clear K
    end.
  Ltac kstep := lazymatch goal with
    | |- kp _ _ (bind _ _) _ => first
      [ apply kp_bind_ro; [solve [auto with ro]|let x := fresh "x" in let K := fresh "K" in intros x K; clear K]
      | apply kp_bind_stop; [assumption|assumption|intros; lift]
      | apply kp_bind_newv; [assumption|assumption|assumption|intros; lift]
      | apply kp_bind_stop_at; [assumption|assumption|assumption|intros; lift]
      | apply kp_bind_addv; [assumption|assumption|assumption|intros; lift]
      | apply kp_bind; [assumption|assumption|
          first [apply keeps_wf|apply keeps_circ|apply keeps_tstops|apply keeps_set_tn|apply keeps_set_tv
                |apply keeps_relink|apply keeps_unlink|apply keeps_replace_kvertex|apply keeps_sched
                |apply keeps_riq|apply keeps_flip]
          |intros; lift] ]
    | |- kp _ _ _ _ => first
      [ apply kp_ro; [assumption|assumption|solve [auto with ro]]
      | apply kp_intro; [assumption|assumption|
          first [apply keeps_wf|apply keeps_circ|apply keeps_tstops|apply keeps_unlink|apply keeps_sched|apply keeps_riq]] ]
    end.
  Ltac kstart := let s := fresh "s" in intros s ?; pose proof (G_refl S s).

  Lemma keeps_even t e p now step : keeps now (handle_parallel_edge_event_even_legs t e p now step).
  Proof. kstart. unfold handle_parallel_edge_event_even_legs. repeat kstep. Qed.

  Lemma keeps_3tri t e p now step : keeps now (handle_parallel_edge_event_3tri t e p now step).
  Proof.
    kstart. unfold handle_parallel_edge_event_3tri. cbv zeta. do 12 kstep.
    apply okp_bind. intros n s' D.
    assert (I now s' /\ G s s' /\ In n (sk_nodes s')) as (? & ? & ?).
    { revert n s' D.
      match goal with |- context [if ?b then _ else _] => destruct b end;
      (intros n s' D; unfold bind in D;
       match type of D with context [stop_and_register ?V ?st ?nw ?p ?s1] =>
         destruct (stop_and_register V st nw p s1) as [[m s2]|] eqn:D1; [|discriminate];
         destruct (s_stop S nw s1 V st p H m s2 D1) as (H1 & H2 & H3);
         match type of D with context [stop_at ?v m nw s2] =>
           destruct (stop_at v m nw s2) as [[u s3]|] eqn:D2; [|discriminate];
           destruct (s_stop_at S nw s2 v m H1 H3 u s3 D2) as (H4 & H5)
         end
       end; injection D as <- <-; split; [assumption|split; [eapply (G_trans S); eauto|eapply (G_reg S); eauto]]). }
    clear D. match goal with |- okp ?m ?s2 _ => change (kp now s m s2) end. repeat kstep.
    apply kp_ro; auto. apply ro_forM. intros. apply ro_bind; auto with ro.
  Qed.

  Definition fan_keeps (rec : list nat -> nat -> num -> turn -> Z -> M unit) : Prop :=
    forall fan v now d step, keeps now (rec fan v now d step).

  Lemma keeps_fan_of rec fa fb kv now step :
    fan_keeps rec -> keeps now (parallel_fan_of rec fa fb kv now step).
  Proof. intros R. destruct fa, fb; simpl; try apply R. apply keeps_ro; auto with ro. Qed.

  Lemma keeps_shorter rec t e p now step :
    fan_keeps rec -> keeps now (handle_parallel_edge_event_shorter_leg rec t e p now step).
  Proof.
    intros R. kstart. unfold handle_parallel_edge_event_shorter_leg. cbv zeta.
    do 7 kstep. kstep.
    apply okp_bind. intros u s2 D.
    assert (I now s2 /\ G s s2 /\ G s' s2) as (? & ? & ?).
    { destruct (is_none (k_stop_node x5)).
      - unfold bind in D. destruct (assertM (is_none (k_stops x5)) s') as [[? ?]|] eqn:D1; [|discriminate].
        pose proof (ro_assertM _ _ _ _ D1). subst s0.
        destruct (s_stop_at S now _ _ _ H1 H4 u s2 D) as (? & ?). split; [auto|]. split; [|assumption]. eapply (G_trans S); eauto.
      - injection D as _ <-. split; [auto|split;[auto|apply (G_refl S)]]. }
    clear D. match goal with |- okp ?m ?s2 _ => change (kp now s m s2) end. lift.
    repeat first [kstep | apply kp_bind; [assumption|assumption|
       match goal with |- keeps _ (match ?o with _ => _ end) => destruct o end;
       [apply keeps_bind; [apply keeps_relink|intros; apply keeps_replace_kvertex]|apply keeps_ro; auto with ro]|intros; lift]].
    apply kp_intro; auto. apply keeps_whenM. apply keeps_fan_of. exact R.
  Qed.

  Lemma keeps_even_at t p now step : keeps now (even_legs_at t p now step).
  Proof. kstart. unfold even_legs_at. repeat kstep. apply kp_intro; auto. apply keeps_even. Qed.

  Lemma keeps_flip_then t0 t1 p now step : keeps now (flip_then_even_legs t0 t1 p now step).
  Proof.
    kstart. unfold flip_then_even_legs. repeat kstep.
    apply kp_bind; auto; [apply keeps_whenM, keeps_even_at|intros].
    apply kp_intro; auto. apply keeps_whenM, keeps_even_at.
  Qed.

  Lemma keeps_isolated t p now step : keeps now (parallel_fan_isolated t p now step).
  Proof.
    kstart. unfold parallel_fan_isolated. do 3 kstep. cbv zeta.
    match goal with |- context [where3 ?f ?z] => destruct (where3 f z) as [|sd [|sd2 r]] end.
    - repeat kstep. apply kp_intro; auto. apply keeps_3tri.
    - match goal with |- context [if ?b then _ else _] => destruct b end.
      + kstep. apply kp_intro; auto. apply keeps_even_at.
      + repeat kstep. apply kp_intro; auto. apply keeps_3tri.
    - repeat kstep. apply kp_intro; auto. apply keeps_3tri.
  Qed.

  Lemma keeps_parallel_fan fuel : fan_keeps (handle_parallel_fan fuel).
  Proof.
    induction fuel as [|fuel IH]; intros fan p now d step; simpl.
    { apply keeps_ro; auto with ro. }
    destruct fan as [|first rest]; [apply keeps_ro; auto with ro|].
    kstart. do 3 kstep.
    match goal with |- context [if Nat.eqb (tri_type ?x) 3 then _ else _] => destruct (Nat.eqb (tri_type x) 3) end.
    { kstep. apply kp_intro; auto. apply keeps_isolated. }
    kstep. destruct d; cbv iota beta.
    all: do 6 kstep.
    all: cbv zeta; repeat match goal with |- context [near_zero ?x] => destruct (near_zero x) end.
    all: try (apply kp_intro; [assumption|assumption|]; apply keeps_shorter; exact IH).
    all: try (solve [apply kp_ro; auto with ro]).
    all: destruct rest as [|t1 [|t2 r]];
      [ apply kp_intro; [assumption|assumption|]; apply keeps_bind; [apply keeps_even_at|intros; apply keeps_ro; auto with ro]
      | | apply kp_ro; auto with ro ].
    all: kstep; match goal with |- kp _ _ (if ?b then _ else _) _ => destruct b end;
      [|apply kp_intro; [assumption|assumption|]; apply keeps_flip_then].
    all: apply kp_intro; [assumption|assumption|]; repeat (apply keeps_bind; [first [apply keeps_even_at|apply keeps_ro; auto with ro]|intros]); apply keeps_ro; auto with ro.
  Qed.

  Lemma keeps_tiny fan kv now d : keeps now (schedule_if_tiny fan kv now d).
  Proof.
    unfold schedule_if_tiny. destruct (rev fan); [apply keeps_ro; auto with ro|].
    kstart. do 2 kstep. destruct (edge_segment x (d x0)). do 2 kstep.
    apply kp_intro; auto. apply keeps_whenM, keeps_sched.
  Qed.

  Lemma keeps_edge evt step : keeps (ev_time evt) (handle_edge_event evt step).
  Proof.
    unfold handle_edge_event, handle_edge_event_with. destruct (ev_side evt) as [|e [|]]; try (solve [apply keeps_ro; auto with ro]).
    kstart. cbv zeta.
    repeat first [kstep | apply kp_bind; [assumption|assumption|
       match goal with |- keeps _ (match ?o with _ => _ end) => destruct o end;
       first [apply keeps_ro; solve [auto with ro]
             |apply keeps_ro; apply ro_bind; solve [auto with ro]
             |apply keeps_bind; [apply keeps_relink|intros]; apply keeps_bind; [apply keeps_replace_kvertex|intros];
              apply keeps_bind; [apply keeps_tiny|intros]; apply keeps_ro; solve [auto with ro]]|intros; lift]].
    apply kp_intro; auto. apply keeps_whenM, keeps_fan_of, keeps_parallel_fan.
  Qed.

  Lemma keeps_schedule_neighbour t now sd : keeps now (schedule_neighbour t now sd).
  Proof.
    unfold schedule_neighbour. kstart. kstep. destruct (get3 (t_n x) sd); [|apply kp_ro; auto with ro].
    kstep. apply kp_intro; auto. apply keeps_whenM, keeps_bind; [apply keeps_relink|intros; apply keeps_sched].
  Qed.

  Lemma keeps_3sides evt step : keeps (ev_time evt) (handle_edge_event_3sides evt step).
  Proof.
    unfold handle_edge_event_3sides. kstart. repeat kstep.
    apply kp_bind; auto; [apply keeps_forM; intros; apply keeps_schedule_neighbour|intros].
    repeat kstep.
  Qed.

  Lemma keeps_1side evt step : keeps (ev_time evt) (handle_edge_event_1side evt step).
  Proof.
    unfold handle_edge_event_1side. destruct (ev_side evt) as [|e [|]]; try (solve [apply keeps_ro; auto with ro]).
    kstart. repeat kstep.
  Qed.

  Lemma keeps_flip_event evt : keeps (ev_time evt) (handle_flip_event evt).
  Proof.
    unfold handle_flip_event. destruct (ev_side evt) as [|e [|]]; try (solve [apply keeps_ro; auto with ro]).
    kstart. kstep. destruct (get3 (t_n x) e); [|apply kp_ro; auto with ro]. repeat kstep.
  Qed.

  Lemma keeps_split evt step : keeps (ev_time evt) (handle_split_event evt step).
  Proof.
    unfold handle_split_event, handle_split_event_with. destruct (ev_side evt) as [|e [|]]; try (solve [apply keeps_ro; auto with ro]).
    kstart. repeat kstep.
    destruct (get3 (t_n _) (ccw e)) as [b|]; [|apply kp_ro; auto with ro]. repeat kstep.
    destruct (get3 (t_n _) (cw e)) as [a|]; [|apply kp_ro; auto with ro]. repeat kstep.
    apply kp_bind; auto; [apply keeps_whenM, keeps_parallel_fan|intros]. repeat kstep.
    apply kp_intro; auto; apply keeps_whenM, keeps_parallel_fan.
  Qed.

  Theorem keeps_handle_event e step s :
    I (ev_time (es s e)) s -> okp (handle_event e step) s (fun _ s' => I (ev_time (es s e)) s' /\ G s s').
  Proof.
    intros H. unfold handle_event.
    apply okp_bind. intros x s1 D1. injection D1 as <- <-.
    apply okp_bind. intros y s1 D1. injection D1 as <- <-.
    destruct (is_some (t_stops _)). { apply okp_ret. split; [exact H|apply (G_refl S)]. }
    destruct (ev_tp (es s e)).
    - destruct (Nat.eqb _ 3); [apply keeps_3sides; exact H|].
      destruct (_ && _); [apply keeps_1side; exact H|].
      destruct (Nat.eqb _ 2); [apply okp_raise|]. apply keeps_edge; exact H.
    - apply keeps_flip_event; exact H.
    - apply keeps_split; exact H.
  Qed.
End Pass.
