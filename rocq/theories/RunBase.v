(** What every run keeps, whatever the arithmetic: the motion of vertices, the
    nodes, stopped objects; nodes referred to are registered *)
From Verif Require Import Base Arith Calc VectorOps Line2d Primitives Collapse EventsLib
  EventLoop Pass OpSpec StopSpec.

Section RunBase.
  Context {A : Arith} {E : Env A}.

  (** the attributes fixed at birth *)
  Record same_motion (a b : kvertex) : Prop := {
    sm_inf : k_inf b = k_inf a;
    sm_origin : k_origin b = k_origin a;
    sm_velocity : k_velocity b = k_velocity a;
    sm_starts : k_starts b = k_starts a;
    sm_start_node : k_start_node b = k_start_node a;
    sm_ul : k_ul b = k_ul a;
    sm_ur : k_ur b = k_ur a;
    sm_fast : k_inf_fast b = k_inf_fast a;
    sm_info : k_info b = k_info a;
    sm_internal : k_internal b = k_internal a }.
  Lemma same_motion_refl a : same_motion a a.
  Proof. constructor; reflexivity. Qed.
  Lemma same_motion_trans a b c : same_motion a b -> same_motion b c -> same_motion a c.
  Proof. intros [] []; constructor; congruence. Qed.

  Record follows (s s' : state) : Prop := {
    fo_nv : nv s <= nv s';
    fo_motion : forall v, v < nv s -> same_motion (vs s v) (vs s' v);
    fo_stopped : forall v, v < nv s -> is_some (k_stop_node (vs s v)) = true ->
                 is_some (k_stop_node (vs s' v)) = true;
    fo_stops : forall v, v < nv s -> is_some (k_stops (vs s v)) = true ->
               is_some (k_stops (vs s' v)) = true;
    fo_nn : nn s <= nn s';
    fo_ns : forall n, n < nn s -> ns s' n = ns s n;
    fo_nodes : exists l, sk_nodes s' = sk_nodes s ++ l;
    fo_verts : exists l, sk_vertices s' = sk_vertices s ++ l;
    fo_tris : sk_triangles s' = sk_triangles s;
    fo_nt : nt s' = nt s;
    fo_wfs : wfs s' = wfs s;
    fo_tstops : forall t, is_some (t_stops (ts s t)) = true -> is_some (t_stops (ts s' t)) = true;
    fo_tinfo : forall t, t_info (ts s' t) = t_info (ts s t) /\ t_internal (ts s' t) = t_internal (ts s t);
    fo_ne : ne s <= ne s';
    fo_es : forall e, e < ne s -> es s' e = es s e;
    fo_new : forall v, nv s <= v < nv s' ->
             is_some (k_start_node (vs s' v)) = true /\ is_some (k_starts (vs s' v)) = true;
    fo_born : forall v, nv s <= v < nv s' -> exists s1 ul ur now n info int kv,
              new_kvertex s1 ul ur now n info int = Ok kv /\ wfs s1 = wfs s /\ same_motion kv (vs s' v) }.

  Lemma follows_refl s : follows s s.
  Proof.
    constructor; auto using same_motion_refl; try (exists []; rewrite app_nil_r; reflexivity); intros; lia.
  Qed.
  Lemma follows_trans s s' s'' : follows s s' -> follows s' s'' -> follows s s''.
  Proof.
    intros F G. constructor.
    - eapply Nat.le_trans; [apply F|apply G].
    - intros v H. eapply same_motion_trans; [apply F, H|apply G]. pose proof (fo_nv _ _ F). lia.
    - intros v H K. apply G; [pose proof (fo_nv _ _ F); lia|]. apply F; auto.
    - intros v H K. apply (fo_stops _ _ G); [pose proof (fo_nv _ _ F); lia|]. apply F; auto.
    - eapply Nat.le_trans; [apply F|apply G].
    - intros n H. rewrite (fo_ns _ _ G). { apply F, H. } pose proof (fo_nn _ _ F). lia.
    - destruct (fo_nodes _ _ F) as [l L], (fo_nodes _ _ G) as [m K]. exists (l ++ m). rewrite K, L, app_assoc. reflexivity.
    - destruct (fo_verts _ _ F) as [l L], (fo_verts _ _ G) as [m K]. exists (l ++ m). rewrite K, L, app_assoc. reflexivity.
    - rewrite (fo_tris _ _ G). apply F.
    - rewrite (fo_nt _ _ G). apply F.
    - rewrite (fo_wfs _ _ G). apply F.
    - intros t H. apply G, F, H.
    - intros t. destruct (fo_tinfo _ _ F t), (fo_tinfo _ _ G t). split; congruence.
    - eapply Nat.le_trans; [apply F|apply G].
    - intros e H. rewrite (fo_es _ _ G); [apply F, H|]. pose proof (fo_ne _ _ F). lia.
    - intros v H. destruct (Nat.lt_ge_cases v (nv s')) as [L|L].
      + destruct (fo_motion _ _ G v L) as [_ _ _ -> -> _ _ _ _ _]. apply F. lia.
      + apply G. lia.
    - intros v H. destruct (Nat.lt_ge_cases v (nv s')) as [L|L].
      + destruct (fo_born _ _ F v) as (s1 & ul & ur & now & n & info & int & kv & K1 & K2 & K3); [lia|].
        exists s1, ul, ur, now, n, info, int, kv. split; [exact K1|]. split; [exact K2|].
        eapply same_motion_trans; [exact K3|]. apply G, L.
      + destruct (fo_born _ _ G v) as (s1 & ul & ur & now & n & info & int & kv & K1 & K2 & K3); [lia|].
        exists s1, ul, ur, now, n, info, int, kv. split; [exact K1|]. split; [|exact K3].
        rewrite K2. apply F.
  Qed.

  (** the nodes referred to by vertices are registered *)
  Record registered (s : state) : Prop := {
    rg_start : forall v n, k_start_node (vs s v) = Some n -> In n (sk_nodes s);
    rg_stop : forall v n, k_stop_node (vs s v) = Some n -> In n (sk_nodes s);
    rg_nodes : forall n, In n (sk_nodes s) -> n < nn s;
    rg_verts : forall v, In v (sk_vertices s) -> v < nv s }.

  (** an update of vertices only *)
  Lemma follows_vs s f :
    (forall v, v < nv s -> same_motion (vs s v) (f v)) ->
    (forall v, v < nv s -> is_some (k_stop_node (vs s v)) = true -> is_some (k_stop_node (f v)) = true) ->
    (forall v, v < nv s -> is_some (k_stops (vs s v)) = true -> is_some (k_stops (f v)) = true) ->
    follows s (with_vs s f).
  Proof.
    intros H K L. constructor; cbn; auto; try (exists []; rewrite app_nil_r; reflexivity); intros; lia.
  Qed.
  Lemma follows_ts s f :
    (forall t, is_some (t_stops (ts s t)) = true -> is_some (t_stops (f t)) = true) ->
    (forall t, t_info (f t) = t_info (ts s t) /\ t_internal (f t) = t_internal (ts s t)) ->
    follows s (with_ts s f).
  Proof.
    intros H K. constructor; cbn; auto using same_motion_refl; try (exists []; rewrite app_nil_r; reflexivity); intros; lia.
  Qed.
  Lemma follows_qi s q i : follows s (with_qi s q i).
  Proof. constructor; cbn; auto using same_motion_refl; try (exists []; rewrite app_nil_r; reflexivity); intros; lia. Qed.
  Lemma follows_event s t e : follows s (with_event s t e).
  Proof.
    constructor; cbn; auto using same_motion_refl; try (exists []; rewrite app_nil_r; reflexivity).
    - intros u H. destruct (upd_case (ts s) t (tri_event (ts s t) (Some (ne s))) u) as [[<- U]|[_ U]]; rewrite U; auto.
    - intros u. destruct (upd_case (ts s) t (tri_event (ts s t) (Some (ne s))) u) as [[<- U]|[_ U]]; rewrite U; auto.
    - intros x H. apply upd_other. lia.
    - intros; lia.
    - intros; lia.
  Qed.
  Lemma follows_forget s o : follows s (forget s o).
  Proof. destruct o; [apply follows_qi|apply follows_refl]. Qed.

  Lemma registered_vs s f :
    (forall v, k_start_node (f v) = k_start_node (vs s v)) ->
    (forall v, k_stop_node (f v) = k_stop_node (vs s v)) ->
    registered s -> registered (with_vs s f).
  Proof.
    intros H K [R1 R2 R3 R4]. constructor; cbn; auto; intros v n.
    - rewrite H. apply R1.
    - rewrite K. apply R2.
  Qed.

  Lemma stop_follows V step now pos s n s' : stop_and_register V step now pos s = Ok (n, s') ->
    follows s s' /\ (registered s -> registered s' /\ In n (sk_nodes s')).
  Proof.
    intros H. apply stop_and_register_spec in H. destruct H as (new & s1 & H & ->).
    apply stop_kvertices_spec in H. destruct H as (Hi & _ & H). destruct new.
    - destruct H as (-> & p & f & -> & F & _ & _).
      assert (Sc : forall v, same_motion (vs s v) (f v) /\
                (is_some (k_stop_node (vs s v)) = true -> is_some (k_stop_node (f v)) = true) /\
                (is_some (k_stops (vs s v)) = true -> is_some (k_stops (f v)) = true) /\
                (k_stop_node (f v) = k_stop_node (vs s v) \/ k_stop_node (f v) = Some (nn s))).
      { intros v. rewrite F. unfold scanned. destruct (mem Nat.eqb v V); cbn.
        - destruct (negb (anchored now (vs s v))); cbn; repeat split; auto.
        - repeat split; auto. }
      split.
      + constructor; cbn; auto; try (exists []; rewrite app_nil_r; reflexivity).
        * intros v _. apply Sc.
        * intros v _. apply Sc.
        * intros v _. apply Sc.
        * intros m Hm. apply upd_other. lia.
        * eexists; reflexivity.
        * intros; lia.
        * intros; lia.
      + intros [R1 R2 R3 R4]. split; [|cbn; apply in_or_app; simpl; auto].
        constructor; cbn; auto.
        * intros v m. destruct (Sc v) as (M & _). rewrite (sm_start_node _ _ M). intros K. apply in_or_app. left. eapply R1; eauto.
        * intros v m K. apply in_or_app. destruct (Sc v) as (_ & _ & _ & [S|S]); rewrite S in K.
          -- left. eapply R2; eauto.
          -- right. injection K as <-. simpl. auto.
        * intros m K. apply in_app_iff in K. destruct K as [K|[<-|[]]]; [apply R3 in K; lia|lia].
    - destruct H as (f & -> & (w & Hw & Nw) & F).
      assert (Sc : forall v, same_motion (vs s v) (f v) /\
                (is_some (k_stop_node (vs s v)) = true -> is_some (k_stop_node (f v)) = true) /\
                (is_some (k_stops (vs s v)) = true -> is_some (k_stops (f v)) = true) /\
                (k_stop_node (f v) = k_stop_node (vs s v) \/ k_stop_node (f v) = Some n)).
      { intros v. rewrite F. destruct (mem Nat.eqb v V); repeat split; auto. }
      split.
      + apply follows_vs; intros v _; apply Sc.
      + intros [R1 R2 R3 R4].
        assert (In n (sk_nodes s)) by (destruct Nw; [eapply R2; eauto|eapply R1; eauto]).
        split; [|exact H]. constructor; cbn; auto.
        * intros v m. destruct (Sc v) as (M & _). rewrite (sm_start_node _ _ M). apply R1.
        * intros v m K. destruct (Sc v) as (_ & _ & _ & [S|S]); rewrite S in K; [eapply R2; eauto|congruence].
  Qed.

  Lemma stop_at_eff v n now s u s' : stop_at v n now s = Ok (u, s') ->
    exists f, s' = with_vs s f /\ forall w, f w = if Nat.eqb v w then stopped_kv (vs s v) n now else vs s w.
  Proof.
    intros H. apply stop_at_spec in H. destruct H as [_ ->]. eexists. split; [reflexivity|].
    intros w. unfold upd. destruct (Nat.eqb v w); reflexivity.
  Qed.

  Lemma newv_follows ul ur now n info int s v s' :
    compute_new_kvertex ul ur now n info int s = Ok (v, s') -> In n (sk_nodes s) ->
    follows s s' /\ (registered s -> registered s') /\ v < nv s'.
  Proof.
    intros H Hn. apply newv_spec in H. destruct H as (kv & H & -> & ->).
    pose proof (new_kvertex_fields _ _ _ _ _ _ _ _ H) as (_ & F0 & _ & F1 & F2 & _).
    split; [|split; [|cbn; lia]].
    - constructor; cbn; auto; try (exists []; rewrite app_nil_r; reflexivity);
        try (solve [intros v Hv; rewrite upd_other by lia; auto using same_motion_refl]).
      + intros v Hv. replace v with (nv s) by lia. rewrite upd_same, F0, F1. auto.
      + intros v Hv. replace v with (nv s) by lia. rewrite upd_same.
        exists s, ul, ur, now, n, info, int, kv. split; [exact H|]. split; [reflexivity|apply same_motion_refl].
    - intros [R1 R2 R3 R4]. constructor; cbn; auto.
      + intros v m. destruct (upd_case (vs s) (nv s) kv v) as [[<- U]|[_ U]]; rewrite U; [|apply R1]. congruence.
      + intros v m. destruct (upd_case (vs s) (nv s) kv v) as [[<- U]|[_ U]]; rewrite U; [|apply R2]. congruence.
      + intros v Hv. apply R4 in Hv. lia.
  Qed.

  Lemma wf_eff v l r s u s' : set_wf v l r s = Ok (u, s') ->
    exists f, s' = with_vs s f /\ forall w, f w = if Nat.eqb v w then kv_wf (vs s v) l r else vs s w.
  Proof. intros H. apply modv_spec in H. destruct H as [_ ->]. eexists. split; reflexivity. Qed.

  Theorem base_sound : Sound (fun _ => registered) follows.
  Proof.
    constructor.
    - exact follows_refl.
    - exact follows_trans.
    - intros s s' n F H. destruct (fo_nodes _ _ F) as [l ->]. apply in_or_app. auto.
    - intros s s' F. apply F.
    - intros now s V step pos R n s' H. apply stop_follows in H. destruct H as [F H]. destruct (H R). auto.
    - intros now s v n R Hn u s' H. apply stop_at_eff in H. destruct H as (f & -> & F). split.
      + destruct R as [R1 R2 R3 R4]. constructor; cbn; auto; intros w m; rewrite F.
        * destruct (Nat.eqb_spec v w); [subst; apply R1|apply R1].
        * destruct (Nat.eqb_spec v w); [cbn; congruence|apply R2].
      + apply follows_vs; intros w _; rewrite F; destruct (Nat.eqb_spec v w); try subst w; cbn; auto using same_motion_refl;
          constructor; reflexivity.
    - intros now s ul ur n info int R Hn v s' H. apply newv_follows in H; [|exact Hn]. destruct H as (? & ? & ?). auto.
    - intros now s v l r R u s' H. apply wf_eff in H. destruct H as (f & -> & F). split.
      + apply registered_vs; [| |exact R]; intros w; rewrite F; destruct (Nat.eqb_spec v w); try subst w; reflexivity.
      + apply follows_vs; intros w _; rewrite F; destruct (Nat.eqb_spec v w); try subst w; auto using same_motion_refl;
          constructor; reflexivity.
    - intros now s v R Hv u s' H. injection H as _ <-. split.
      + destruct R as [R1 R2 R3 R4]. constructor; cbn; auto. intros w Hw. apply in_app_iff in Hw.
        destruct Hw as [Hw|[<-|[]]]; auto.
      + constructor; cbn; auto using same_motion_refl; try (exists []; rewrite app_nil_r; reflexivity); [eexists; reflexivity|intros; lia|intros; lia].
    - intros now s l r R u s' H. apply circ_spec in H. destruct H as (f & -> & F). split.
      + apply registered_vs; [| |exact R]; intros w; destruct (F w) as (? & ? & ->); reflexivity.
      + apply follows_vs; intros w _; destruct (F w) as (? & ? & ->); auto. constructor; reflexivity.
    - intros now s t f R Hf u s' H. apply modt_spec in H. subst s'. split.
      + destruct R as [R1 R2 R3 R4]. constructor; auto.
      + destruct (Hf (ts s t)) as (_ & F1 & F2 & F3).
        apply follows_ts; intros w; destruct (upd_case (ts s) t (f (ts s t)) w) as [[<- U]|[_ U]]; rewrite U; auto. congruence.
    - intros now s t R u s' H. apply modt_spec in H. subst s'. split.
      + destruct R as [R1 R2 R3 R4]. constructor; auto.
      + apply follows_ts; intros w; destruct (upd_case (ts s) t (tri_stops (ts s t) (Some now)) w) as [[<- U]|[_ U]]; rewrite U; auto.
    - intros now s e R u s' H. apply forget_spec in H. subst s'. split; [|apply follows_qi].
      destruct R as [R1 R2 R3 R4]. constructor; auto.
    - intros now s t R u s' H. apply riq_spec in H.
      assert (R' : registered (forget s (t_event (ts s t)))) by (destruct R, (t_event (ts s t)); constructor; auto).
      destruct H as [[_ ->]|(e & _ & ->)]; split; auto using follows_forget.
      + destruct R'. constructor; auto.
      + eapply follows_trans; [apply follows_forget|]. eapply follows_trans; [apply follows_event|apply follows_qi].
    - intros now s t R u s' H. apply sched_spec in H.
      destruct H as (e & _ & _ & _ & H1 & H2 & H3 & H4 & H5 & H6 & H7 & H8 & H9 & H10 & _ & _ & H11 & H12).
      split.
      + destruct R as [R1 R2 R3 R4]. constructor; rewrite ?H1, ?H2, ?H5, ?H8, ?H9; auto.
      + constructor; rewrite ?H1, ?H2, ?H3, ?H4, ?H5, ?H6, ?H7, ?H8, ?H9, ?H10, ?H11; auto using same_motion_refl;
          try (exists []; rewrite app_nil_r; reflexivity).
        * intros w; destruct (upd_case (ts s) t (tri_event (ts s t) (Some (ne s))) w) as [[<- U]|[_ U]]; rewrite U; auto.
        * intros w; destruct (upd_case (ts s) t (tri_event (ts s t) (Some (ne s))) w) as [[<- U]|[_ U]]; rewrite U; auto.
        * intros x Hx. rewrite H12. apply upd_other. lia.
        * intros; lia.
        * intros; lia.
  Qed.
End RunBase.
