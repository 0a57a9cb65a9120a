(** Which computations can raise only genuine Python exceptions: not the two
    artificial ones, OutOfFuel and DuplicateKey *)
From Verif Require Import Base Arith Calc VectorOps Line2d Primitives Collapse EventsLib
  FlipEvent ParallelEvent EdgeEvent SplitEvent EventLoop.

Definition python_exn (e : exn) : bool :=
  match e with OutOfFuel | DuplicateKey => false | _ => true end.

Section Decent.
  Context {A : Arith} {E : Env A}.

  Definition pdec {X} (r : res X) : Prop := forall e, r = Err e -> python_exn e = true.
  Lemma pdec_ok {X} (x : X) : pdec (Ok x). Proof. intros e H. discriminate. Qed.
  Lemma pdec_err {X} e : python_exn e = true -> pdec (@Err X e).
  Proof. intros H e' K. injection K as <-. exact H. Qed.
  Lemma pdec_bind {X Y} (m : res X) (k : X -> res Y) :
    pdec m -> (forall x, pdec (k x)) -> pdec (rbind m k).
  Proof. intros H K e. destruct m; simpl; [apply K|]. intros L. injection L as <-. apply H. reflexivity. Qed.
  Lemma pdec_rmap {X Y} (f : X -> Y) (m : res X) : pdec m -> pdec (rmap f m).
  Proof. intros H e. destruct m; simpl; [discriminate|]. intros L. injection L as <-. apply H. reflexivity. Qed.
  Lemma pdec_rmapl {X Y} (f : X -> res Y) l : (forall x, pdec (f x)) -> pdec (rmapl f l).
  Proof.
    intros H. induction l; simpl; [apply pdec_ok|].
    apply pdec_bind; [apply H|intros]. apply pdec_bind; [exact IHl|intros; apply pdec_ok].
  Qed.

  Ltac pd := repeat first
    [ apply pdec_ok | apply pdec_err; reflexivity | solve [auto 1]
    | apply pdec_bind; [|intros] | apply pdec_rmap | apply pdec_rmapl; intros
    | match goal with
      | |- pdec (match ?x with _ => _ end) => destruct x eqn:?
      | |- pdec (Err ?e) => apply pdec_err
      | |- pdec (let '(_, _) := ?x in _) => destruct x
      end
    | progress cbv zeta ].

  Lemma pdec_pdiv a b : pdec (pdiv a b). Proof. unfold pdiv. pd. Qed.
  Lemma pdec_psqrt a : pdec (psqrt a). Proof. unfold psqrt. pd. Qed.
  Lemma pdec_pacos a : pdec (pacos a). Proof. unfold pacos. pd. Qed.
  Lemma pdec_rassert b : pdec (rassert b). Proof. unfold rassert. pd. Qed.
  Lemma pdec_index3 {X} f (t : triple X) : pdec (index3 f t). Proof. unfold index3. pd. Qed.
  Lemma pdec_kattr {X} kv (x : X) : pdec (kattr kv x). Proof. unfold kattr. pd. Qed.
  Hint Resolve pdec_pdiv pdec_psqrt pdec_pacos pdec_rassert pdec_index3 pdec_kattr : core.
  Lemma pdec_position_at s v t : pdec (position_at s v t). Proof. unfold position_at. pd. Qed.
  Hint Resolve pdec_position_at : core.
  Lemma pdec_distance2_at s v w t : pdec (distance2_at s v w t).
  Proof. unfold distance2_at. pd; auto. Qed.
  Lemma pdec_dist_2 p q : pdec (dist_2 p q).
  Proof. unfold dist_2, norm_2; pd; auto. Qed.
  Lemma pdec_norm_2 p : pdec (norm_2 p).
  Proof. unfold norm_2; pd; auto. Qed.
  Lemma pdec_div2s p x : pdec (div2s p x).
  Proof. unfold div2s; pd; auto. Qed.
  Hint Resolve pdec_distance2_at pdec_dist_2 pdec_norm_2 pdec_div2s : core.
  Lemma pdec_translated l v : pdec (translated l v).
  Proof. unfold translated, Line2, normalize, lunit, lnorm; pd; auto. Qed.
  Lemma pdec_intersection a b : pdec (intersection a b).
  Proof. unfold intersection; pd; auto. Qed.
  Hint Resolve pdec_translated pdec_intersection : core.
  Lemma pdec_get_bisector a b : pdec (get_bisector a b).
  Proof. unfold get_bisector; pd; auto. Qed.
  Lemma pdec_get_intersection_at_t a b t : pdec (get_intersection_at_t a b t).
  Proof. unfold get_intersection_at_t, at_time, Line2; pd; auto. Qed.
  Lemma pdec_angle_unit a b : pdec (angle_unit a b).
  Proof. unfold angle_unit, pacos; pd; auto. Qed.
  Hint Resolve pdec_get_bisector pdec_get_intersection_at_t pdec_angle_unit : core.
  Lemma pdec_new_kvertex s ul ur now n info int : pdec (new_kvertex s ul ur now n info int).
  Proof. unfold new_kvertex, new_velocity; pd; auto. Qed.
  Lemma pdec_mean s V now : pdec (mean_position s V now).
  Proof. unfold mean_position; pd; auto. Qed.

  Lemma pdec_dists s o d a t : pdec (dists s o d a t).
  Proof. unfold dists, dists2, sqrt3; pd; auto. Qed.
  Lemma pdec_dists2 s o d a t : pdec (dists2 s o d a t).
  Proof. unfold dists2, sqrt3; pd; auto. Qed.
  Lemma pdec_sqrt3 t : pdec (sqrt3 t).
  Proof. unfold sqrt3; pd; auto. Qed.
  Lemma pdec_cte s a b : pdec (collapse_time_edge s a b).
  Proof. unfold collapse_time_edge; pd; auto. Qed.
  Lemma pdec_areas s o d a : pdec (area_collapse_times s o d a).
  Proof. unfold area_collapse_times, solve_quadratic; pd; auto. Qed.
  Lemma pdec_solve a b c : pdec (solve_quadratic a b c).
  Proof. unfold area_collapse_times, solve_quadratic; pd; auto. Qed.
  Lemma pdec_argmax t : pdec (argmax3 t). Proof. unfold argmax3; auto. Qed.
  Lemma pdec_argmin t : pdec (argmin3 t). Proof. unfold argmin3; auto. Qed.
  Hint Resolve pdec_new_kvertex pdec_mean pdec_dists pdec_dists2 pdec_sqrt3 pdec_cte pdec_areas pdec_solve
    pdec_argmax pdec_argmin : core.
  Lemma pdec_event0 s t now sv : pdec (compute_event_0triangle s t now sv).
  Proof.
    unfold compute_event_0triangle. apply pdec_bind; auto; intros.
    apply pdec_bind; auto; intros. apply pdec_bind; [|intros].
    - match goal with |- context [event0_degenerate _ _ _ _ _ _ ?l] => induction l as [|y l IH]; simpl end; pd; auto.
    - unfold event0_edge. pd; auto.
  Qed.
  Lemma pdec_event1 s t now sv : pdec (compute_event_1triangle s t now sv).
  Proof.
    unfold compute_event_1triangle, event1_caseA, event1_caseB, event1_caseD, event1_degenerate, vertex_crash_time.
    pd; auto.
  Qed.
  Lemma pdec_unique l : pdec (get_unique_times l).
  Proof.
    unfold get_unique_times, clusters_of_sorted. destruct (isort _ _) as [|f r]; [pd|]. apply pdec_rmap.
    revert f. induction r; intros f; simpl; [pd|]. apply pdec_bind; [unfold is_close; pd|intros []; [apply IHr|]].
    apply pdec_rmap, IHr.
  Qed.
  Hint Resolve pdec_unique : core.
  Lemma pdec_event2 s t now sv : pdec (compute_event_2triangle s t now sv).
  Proof. unfold compute_event_2triangle, event2_at. pd; auto. Qed.
  Lemma pdec_event3 s t now sv : pdec (compute_event_3triangle s t now sv).
  Proof. unfold compute_event_3triangle. pd; auto. Qed.
  Lemma pdec_eventinf s t now sv : pdec (compute_event_inftriangle s t now sv).
  Proof. unfold compute_event_inftriangle. pd; auto. Qed.
  Hint Resolve pdec_event0 pdec_event1 pdec_event2 pdec_event3 pdec_eventinf : core.
  Lemma pdec_collapse_event s t now sv : pdec (collapse_event s t now sv).
  Proof. unfold collapse_event. pd; auto. Qed.
  Lemma pdec_new_edge s t now : pdec (new_edge_collapse_event s t now).
  Proof. unfold new_edge_collapse_event. pd; auto. Qed.

  (** ** Computations on the state *)
  Definition dec {X} (m : M X) : Prop := forall s, pdec (m s).
  Lemma dec_ret {X} (x : X) : dec (ret x). Proof. intros s. apply pdec_ok. Qed.
  Lemma dec_raise {X} e : python_exn e = true -> dec (@raise _ X e).
  Proof. intros H s. apply pdec_err, H. Qed.
  Lemma dec_bind {X Y} (m : M X) (k : X -> M Y) : dec m -> (forall x, dec (k x)) -> dec (bind m k).
  Proof.
    intros H K s e. unfold bind. destruct (m s) as [[x s']|e'] eqn:D; [apply K|].
    intros L. injection L as <-. apply (H s _ D).
  Qed.
  Lemma dec_rd {X} (f : state -> res X) : (forall s, pdec (f s)) -> dec (rd f).
  Proof. intros H s e. unfold rd. destruct (f s) eqn:D; [discriminate|]. intros L. injection L as <-. apply (H s _ D). Qed.
  Lemma dec_gets {X} (f : state -> X) : dec (gets f). Proof. intros s. apply pdec_ok. Qed.
  Lemma dec_assertM b : dec (assertM b).
  Proof. destruct b; [apply dec_ret|apply dec_raise; reflexivity]. Qed.
  Lemma dec_whenM b m : dec m -> dec (whenM b m).
  Proof. destruct b; simpl; auto using dec_ret. Qed.
  Lemma dec_forM {X} (l : list X) f : (forall x, dec (f x)) -> dec (forM l f).
  Proof. intros H. induction l; simpl; [apply dec_ret|apply dec_bind; auto]. Qed.
  Lemma dec_modv v f : dec (modv v f).
  Proof.
    apply dec_bind; [apply dec_gets|intros kv]. destruct (k_inf kv); [apply dec_raise; reflexivity|].
    intros s. apply pdec_ok.
  Qed.
  Lemma dec_modt v f : dec (modt v f).
  Proof. apply dec_bind; [apply dec_gets|intros kv]. intros s. apply pdec_ok. Qed.
  Lemma dec_vattr {X} v (f : kvertex -> X) : dec (vattr v f).
  Proof. apply dec_rd. auto. Qed.
  Lemma dec_rdr {X} (r : res X) : pdec r -> dec (rdr r).
  Proof. intros H. apply dec_rd. auto. Qed.
  Lemma dec_deref {X} (o : option X) : dec (deref o).
  Proof. destruct o; [apply dec_ret|apply dec_raise; reflexivity]. Qed.
  Lemma dec_alloc_v x : dec (alloc_v x). Proof. intros s. apply pdec_ok. Qed.
  Lemma dec_alloc_n x : dec (alloc_n x). Proof. intros s. apply pdec_ok. Qed.
  Lemma dec_alloc_e x : dec (alloc_e x). Proof. intros s. apply pdec_ok. Qed.
  Lemma dec_add_node x : dec (add_node x). Proof. intros s. apply pdec_ok. Qed.
  Lemma dec_add_vertex x : dec (add_vertex x). Proof. intros s. apply pdec_ok. Qed.
  Lemma dec_setq x : dec (setq x). Proof. intros s. apply pdec_ok. Qed.
  Lemma dec_seti x : dec (seti x). Proof. intros s. apply pdec_ok. Qed.
  Lemma dec_sete e x : dec (sete e x). Proof. intros s. apply pdec_ok. Qed.
  Lemma pdec_vindex t v : pdec (vindex t v). Proof. apply pdec_index3. Qed.
  Lemma pdec_nindex t v : pdec (nindex t v). Proof. apply pdec_index3. Qed.
  Hint Resolve dec_gets dec_assertM dec_modv dec_modt dec_vattr dec_rdr dec_deref dec_alloc_v dec_alloc_n
    dec_alloc_e dec_add_node dec_add_vertex dec_setq dec_seti dec_sete dec_ret pdec_vindex pdec_nindex : core.

  Ltac dc := repeat first
    [ solve [auto] | apply dec_raise; reflexivity
    | apply dec_bind; [|intros] | apply dec_rd; intros | apply dec_whenM | apply dec_forM; intros
    | match goal with
      | |- dec (match ?x with _ => _ end) => destruct x eqn:?
      end
    | progress cbv zeta ].

  Lemma dec_queue_discard o : dec (queue_discard o).
  Proof. unfold queue_discard. dc. Qed.
  Lemma dec_immediate_remove o : dec (immediate_remove o).
  Proof. unfold immediate_remove. dc. Qed.
  Lemma dec_stop_at v n now : dec (stop_at v n now).
  Proof. unfold stop_at, set_stop_node, set_stops. dc. Qed.
  Hint Resolve dec_queue_discard dec_immediate_remove dec_stop_at : core.
  Lemma dec_scan V now : forall acc, dec (stop_scan V now acc).
  Proof. unfold set_stops in *. induction V; intros acc; simpl; unfold set_stops; dc. Qed.
  Hint Resolve dec_scan : core.
  Lemma dec_stop V step now pos : dec (stop_and_register V step now pos).
  Proof. unfold stop_and_register, stop_kvertices, set_stop_node. dc. Qed.
  Lemma dec_newv ul ur now n info int : dec (compute_new_kvertex ul ur now n info int).
  Proof. unfold compute_new_kvertex. dc. Qed.
  Lemma dec_set_wf v l r : dec (set_wf v l r). Proof. unfold set_wf. auto. Qed.
  Lemma dec_circ l r now : dec (update_circ l r now).
  Proof. unfold update_circ, set_left, set_right. dc. Qed.
  Lemma dec_relink n t x : dec (relink n t x).
  Proof. unfold relink, set_tn, tget. dc. Qed.
  Lemma dec_sched t now : dec (schedule_immediately t now).
  Proof.
    unfold schedule_immediately, tget, eget, set_tevent, compute_new_edge_collapse_event. dc.
    apply pdec_new_edge.
  Qed.
  Lemma dec_vget v : dec (vget v). Proof. apply dec_gets. Qed.
  Lemma dec_tget v : dec (tget v). Proof. apply dec_gets. Qed.
  Lemma dec_eget v : dec (eget v). Proof. apply dec_gets. Qed.
  Hint Resolve dec_vget dec_tget dec_eget dec_stop dec_newv dec_set_wf dec_circ dec_relink dec_sched : core.
  Lemma dec_unlink n t now : dec (unlink_and_schedule n t now).
  Proof. unfold unlink_and_schedule. dc. Qed.
  Lemma dec_wfline o : dec (wfline o). Proof. unfold wfline. dc. Qed.
  Lemma dec_left_wfr v : dec (left_wfr v). Proof. unfold left_wfr. dc. Qed.
  Lemma dec_right_wfl v : dec (right_wfl v). Proof. unfold right_wfl. dc. Qed.
  Hint Resolve dec_unlink dec_wfline dec_left_wfr dec_right_wfl : core.
  Lemma dec_wf_bisector a b : dec (wf_bisector a b). Proof. unfold wf_bisector. dc. Qed.
  Lemma dec_wf_intersection_at a b now : dec (wf_intersection_at a b now).
  Proof.
    unfold wf_intersection_at. apply dec_bind; [auto|intros]. apply dec_bind; [auto|intros].
    destruct (get_intersection_at_t _ _ _) as [?|e] eqn:D; [auto|].
    apply pdec_get_intersection_at_t in D. destruct e; try discriminate D; auto; apply dec_raise; reflexivity.
  Qed.
  Lemma dec_leg_length t sd now : dec (leg_length t sd now).
  Proof. unfold leg_length. dc. pd; auto. Qed.
  Hint Resolve dec_wf_bisector dec_wf_intersection_at dec_leg_length : core.
  Lemma dec_edge_precheck x e v1 v2 : dec (edge_precheck x e v1 v2).
  Proof. unfold edge_precheck. dc. Qed.
  Lemma dec_split_precheck v v1 v2 now : dec (split_precheck v v1 v2 now).
  Proof. unfold split_precheck. dc. Qed.
  Lemma dec_apex_around n c : dec (apex_around n c).
  Proof. unfold apex_around. dc. Qed.
  Lemma dec_assert_stopped t : dec (assert_stopped t).
  Proof. unfold assert_stopped. dc. Qed.
  Lemma dec_legs_even t p now : dec (legs_even t p now).
  Proof. unfold legs_even. dc. Qed.
  Hint Resolve dec_legs_even : core.
  Lemma dec_all_legs_even t0 t1 p now : dec (all_legs_even t0 t1 p now).
  Proof. unfold all_legs_even. dc. Qed.
  Lemma dec_flip t0 s0 t1 s1 : dec (flip t0 s0 t1 s1).
  Proof.
    unfold flip, link_around, set_tn, set_tvs, set_tns.
    pose proof dec_apex_around. dc.
  Qed.
End Decent.
#[global] Hint Resolve pdec_pdiv pdec_psqrt pdec_rassert pdec_index3 pdec_kattr pdec_position_at
  pdec_distance2_at pdec_dist_2 pdec_norm_2 pdec_vindex pdec_nindex
  dec_gets dec_assertM dec_modv dec_modt dec_vattr dec_rdr dec_deref dec_add_vertex dec_ret
  dec_vget dec_tget dec_eget dec_stop dec_newv dec_set_wf dec_circ dec_relink dec_sched dec_stop_at
  dec_unlink dec_wfline dec_left_wfr dec_right_wfl dec_wf_bisector dec_wf_intersection_at dec_leg_length
  dec_edge_precheck dec_split_precheck dec_apex_around dec_assert_stopped dec_legs_even dec_all_legs_even
  dec_flip : dec.
