(** Exact effect of stop_kvertices *)
From Verif Require Import Base Arith Calc VectorOps Line2d Primitives Collapse EventsLib EventLoop Pass OpSpec.

Section StopSpec.
  Context {A : Arith} {E : Env A}.

  Lemma with_vs_id (s : state) : with_vs s (vs s) = s.
  Proof. destruct s; reflexivity. Qed.

  Lemma vattr_ok {X} v (f : kvertex -> X) s x s' : vattr v f s = Ok (x, s') ->
    k_inf (vs s v) = false /\ x = f (vs s v) /\ s' = s.
  Proof.
    unfold vattr, rd, kattr. destruct (k_inf (vs s v)); [discriminate|].
    intros H. injection H as <- <-. auto.
  Qed.
  Lemma gets_ok {X} (f : state -> X) s x s' : gets f s = Ok (x, s') -> x = f s /\ s' = s.
  Proof. intros H. injection H as <- <-. auto. Qed.
  Lemma rd_ok {X} (f : state -> res X) s x s' : rd f s = Ok (x, s') -> f s = Ok x /\ s' = s.
  Proof. unfold rd. destruct (f s); [|discriminate]. intros H. injection H as <- <-. auto. Qed.
  Lemma ret_ok {X} (x y : X) s s' : ret x s = Ok (y, s') -> y = x /\ s' = s.
  Proof. intros H. injection H as <- <-. auto. Qed.
  Lemma assertM_ok b s u s' : assertM b s = Ok (u, s') -> b = true /\ s' = s.
  Proof. destruct b; [|discriminate]. intros H. injection H as _ <-. auto. Qed.

  (** a vertex that already is at a node at time [now] *)
  Definition anchored (now : num) (kv : kvertex) : bool :=
    is_some (k_stops kv) || match k_starts kv with Some a => near_zero (nsub a now) | None => false end.
  Definition anchor (kv : kvertex) : option nat :=
    if is_some (k_stops kv) then k_stop_node kv else k_start_node kv.

  Definition scanned (V : list nat) (now : num) (s : state) (v : nat) : kvertex :=
    if mem Nat.eqb v V && negb (anchored now (vs s v)) then kv_stops (vs s v) (Some now) else vs s v.
  Definition last_anchor (now : num) (s : state) (V : list nat) (acc : option nat) : option nat :=
    fold_left (fun a v => if anchored now (vs s v) then anchor (vs s v) else a) V acc.

  Lemma last_anchor_ext now s s' V : forall acc, (forall v, In v V -> vs s' v = vs s v) ->
    last_anchor now s' V acc = last_anchor now s V acc.
  Proof.
    induction V as [|v V IH]; intros acc H; [reflexivity|]. cbn.
    rewrite (H v) by (simpl; auto). apply IH. intros; apply H; simpl; auto.
  Qed.

  Lemma stop_scan_spec now : forall V acc s o s', stop_scan V now acc s = Ok (o, s') ->
    exists f, s' = with_vs s f /\
      (forall v, f v = scanned V now s v) /\
      (forall v, In v V -> k_inf (vs s v) = false) /\
      (o = acc \/ exists v, In v V /\ (o = k_stop_node (vs s v) \/ o = k_start_node (vs s v))) /\
      (NoDup V -> o = last_anchor now s V acc).
  Proof.
    induction V as [|v V IH]; intros acc s o s' H.
    { injection H as <- <-. exists (vs s). rewrite with_vs_id. repeat split; auto. intros v []. }
    cbn [stop_scan] in H. apply bind_ok in H. destruct H as (st & s1 & H & K).
    apply vattr_ok in H. destruct H as (Hi & -> & ->).
    apply bind_ok in K. destruct K as (sa & s1 & H & K). apply vattr_ok in H. destruct H as (_ & Hsa & ->).
    destruct sa as [sa|]; [|discriminate].
    destruct (anchored now (vs s v)) eqn:An.
    { assert (exists n, (n = k_stop_node (vs s v) \/ n = k_start_node (vs s v)) /\ n = anchor (vs s v) /\
                stop_scan V now n s = Ok (o, s')) as (n & Hn & Hn' & K').
      { unfold anchored in An. rewrite <- Hsa in An. unfold anchor.
        destruct (is_some (k_stops (vs s v))).
        - apply bind_ok in K. destruct K as (n & s1 & H & K). apply vattr_ok in H. destruct H as (_ & -> & ->). eauto.
        - simpl in An. rewrite An in K.
          apply bind_ok in K. destruct K as (n & s1 & H & K). apply vattr_ok in H. destruct H as (_ & -> & ->). eauto. }
      clear K. apply IH in K'. destruct K' as (f & -> & F1 & F2 & F3 & F4). exists f. split; [reflexivity|]. split.
      { intros w. rewrite F1. unfold scanned. cbn. destruct (Nat.eqb_spec w v); [subst w; rewrite An, !andb_false_r; reflexivity|reflexivity]. }
      split. { intros w [<-|Hw]; auto. }
      split. { right. destruct F3 as [->|(w & Hw & F3)]; [exists v; simpl; auto|exists w; simpl; auto]. }
      intros N. inversion N; subst. rewrite F4 by auto. unfold last_anchor. cbn. rewrite An. reflexivity. }
    assert (exists s1, s1 = with_vs s (upd (vs s) v (kv_stops (vs s v) (Some now))) /\
              stop_scan V now acc s1 = Ok (o, s')) as (s1 & Hs1 & K').
    { unfold anchored in An. rewrite <- Hsa in An. apply orb_false_iff in An. destruct An as [A1 A2].
      rewrite A1, A2 in K. apply bind_ok in K. destruct K as ([] & s1 & H & K).
      apply modv_spec in H. destruct H as [_ ->]. eauto. }
    clear K. apply IH in K'. destruct K' as (f & -> & F1 & F2 & F3 & F4). subst s1.
    exists f. split; [reflexivity|]. split.
    { intros w. rewrite F1. unfold scanned. cbn.
      destruct (Nat.eqb_spec w v) as [->|N].
      - rewrite upd_same. cbn. rewrite An. rewrite andb_false_r. reflexivity.
      - rewrite upd_other by auto. reflexivity. }
    split. { intros w [<-|Hw]; [exact Hi|]. specialize (F2 w Hw). cbn in F2.
      destruct (upd_case (vs s) v (kv_stops (vs s v) (Some now)) w) as [[<- U]|[_ U]]; rewrite U in F2; auto. }
    split.
    { destruct F3 as [->|(w & Hw & F3)]; [auto|]. right. exists w. split; [simpl; auto|]. cbn in F3.
      destruct (upd_case (vs s) v (kv_stops (vs s v) (Some now)) w) as [[<- U]|[_ U]]; rewrite U in F3; auto. }
    intros N. inversion N; subst. rewrite F4 by auto.
    unfold last_anchor at 2. cbn. rewrite An.
    apply last_anchor_ext. cbn. intros w Hw. apply upd_other. congruence.
  Qed.

  (** folds of single-vertex assignments *)
  Lemma forM_modv (g : nat -> kvertex -> kvertex) : forall V s u s',
    (forall v kv, g v (g v kv) = g v kv) ->
    forM V (fun v => modv v (g v)) s = Ok (u, s') ->
    exists f, s' = with_vs s f /\ (forall v, f v = if mem Nat.eqb v V then g v (vs s v) else vs s v).
  Proof.
    induction V as [|v V IH]; intros s u s' Hg H.
    { injection H as _ <-. exists (vs s). rewrite with_vs_id. auto. }
    cbn [forM] in H. apply bind_ok in H. destruct H as ([] & s1 & H & K).
    apply modv_spec in H. destruct H as [_ ->].
    apply IH in K; [|exact Hg]. destruct K as (f & -> & F). exists f. split; [reflexivity|].
    intros w. rewrite F. cbn. destruct (Nat.eqb_spec w v) as [->|N].
    - rewrite upd_same. destruct (mem Nat.eqb v V); cbn; rewrite ?Hg; reflexivity.
    - rewrite upd_other by auto. reflexivity.
  Qed.

  Lemma forM_ext {X} (f g : X -> M unit) l : (forall x s, f x s = g x s) -> forall s, forM l f s = forM l g s.
  Proof.
    intros H. induction l as [|x l IH]; intros s; [reflexivity|]. cbn. unfold bind. rewrite H.
    destruct (g x s) as [[? ?]|]; auto.
  Qed.
  Lemma modv_modv v (g h : kvertex -> kvertex) s :
    (forall kv, k_inf (g kv) = k_inf kv) ->
    forall u s', bind (modv v g) (fun _ => modv v h) s = Ok (u, s') ->
    exists f, s' = with_vs s f /\ forall w, f w = upd (vs s) v (h (g (vs s v))) w.
  Proof.
    intros Hg u s' H. apply bind_ok in H. destruct H as ([] & s1 & H & K).
    apply modv_spec in H. destruct H as [_ ->]. apply modv_spec in K. destruct K as [_ ->].
    eexists. split; [reflexivity|]. intros w. cbn. rewrite upd_same. apply upd_upd.
  Qed.

  Definition stopped_kv (kv : kvertex) (n : nat) (t : num) : kvertex :=
    kv_stops (kv_stop_node kv (Some n)) (Some t).

  Lemma forM_stop_at n now : forall V s u s', forM V (fun v => stop_at v n now) s = Ok (u, s') ->
    exists f, s' = with_vs s f /\ (forall v, f v = if mem Nat.eqb v V then stopped_kv (vs s v) n now else vs s v).
  Proof.
    induction V as [|v V IH]; intros s u s' H.
    { injection H as _ <-. exists (vs s). rewrite with_vs_id. auto. }
    cbn [forM] in H. apply bind_ok in H. destruct H as ([] & s1 & H & K).
    unfold stop_at in H. apply (modv_modv v) in H; [|reflexivity]. destruct H as (f1 & -> & F1).
    apply IH in K. destruct K as (f & -> & F). exists f. split; [reflexivity|].
    intros w. rewrite F. cbn. rewrite F1. destruct (Nat.eqb_spec w v) as [->|N].
    - rewrite upd_same. destruct (mem Nat.eqb v V); reflexivity.
    - rewrite upd_other by auto. reflexivity.
  Qed.

  Lemma mem_In v V : mem Nat.eqb v V = true <-> In v V.
  Proof.
    unfold mem. rewrite existsb_exists. split.
    - intros (x & Hx & K). apply Nat.eqb_eq in K. subst. exact Hx.
    - intros H. exists v. split; [exact H|apply Nat.eqb_refl].
  Qed.

  (** the state with new vertex records and node heap *)
  Definition with_vn (s : state) (f : nat -> kvertex) (g : nat -> sknode) (k : nat) (l : list nat) : state :=
    mkSt f (nv s) (ts s) (nt s) g k (es s) (ne s) (wfs s)
      l (sk_vertices s) (sk_triangles s) (queue s) (immediate s).

  Lemma check_loop_spec now : forall V s u s',
    forM V (fun v => bind (vattr v k_stop_node) (fun n => bind (assertM (is_some n)) (fun _ =>
       bind (vattr v k_stops) (fun t => assertM (match t with Some t => neqb t now | None => false end))))) s = Ok (u, s') ->
    s' = s /\ (forall v, In v V -> k_inf (vs s v) = false /\ is_some (k_stop_node (vs s v)) = true /\
                exists t, k_stops (vs s v) = Some t /\ neqb t now = true).
  Proof.
    induction V as [|v V IH]; intros s u s' H.
    { injection H as _ <-. split; [reflexivity|]. intros v []. }
    cbn [forM] in H. apply bind_ok in H. destruct H as ([] & s1 & H & K).
    apply bind_ok in H. destruct H as (n & s2 & H & H1). apply vattr_ok in H. destruct H as (Hi & -> & ->).
    apply bind_ok in H1. destruct H1 as ([] & s2 & H & H1). apply assertM_ok in H. destruct H as [Hn ->].
    apply bind_ok in H1. destruct H1 as (t & s2 & H & H1). apply vattr_ok in H. destruct H as (_ & -> & ->).
    apply assertM_ok in H1. destruct H1 as [Ht ->].
    apply IH in K. destruct K as [-> K]. split; [reflexivity|]. intros w [<-|Hw]; [|auto].
    split; [exact Hi|split; [exact Hn|]]. destruct (k_stops (vs s v)); [eauto|discriminate].
  Qed.

  (** the two possible outcomes *)
  Lemma stop_kvertices_spec V step now pos s n new s' :
    stop_kvertices V step now pos s = Ok ((n, new), s') ->
    (forall v, In v V -> k_inf (vs s v) = false) /\
    (NoDup V -> last_anchor now s V None = if new then None else Some n) /\
    if new then
      n = nn s /\ exists p f, s' = with_vn s f (upd (ns s) (nn s) (mkNode p step None)) (S (nn s)) (sk_nodes s) /\
        (forall v, f v = if mem Nat.eqb v V then kv_stop_node (scanned V now s v) (Some n) else vs s v) /\
        (forall v, In v V -> exists t, k_stops (f v) = Some t /\ neqb t now = true) /\
        match pos with Some q => p = q | None => exists f', (forall v, f' v = scanned V now s v) /\ mean_position (with_vs s f') V now = Ok p end
    else
      exists f, s' = with_vs s f /\
        (exists v, In v V /\ (k_stop_node (vs s v) = Some n \/ k_start_node (vs s v) = Some n)) /\
        (forall v, f v = if mem Nat.eqb v V then stopped_kv (vs s v) n now else vs s v).
  Proof.
    unfold stop_kvertices. intros H. apply bind_ok in H. destruct H as ([] & s1 & H & K).
    assert (s1 = s) as ->.
    { revert H. apply (ro_forM V). intros v. apply ro_bind; auto with ro. }
    clear H. apply bind_ok in K. destruct K as (sk & s1 & H & K).
    apply stop_scan_spec in H. destruct H as (f & -> & F1 & F2 & F3 & F4). split; [exact F2|].
    apply bind_ok in K. destruct K as (r & s1 & H & K).
    apply bind_ok in K. destruct K as ([] & s2 & K1 & K). injection K as -> ->.
    apply check_loop_spec in K1. destruct K1 as [-> C].
    destruct sk as [m|].
    - apply bind_ok in H. destruct H as ([] & s2 & H & H1). injection H1 as <- <- <-.
      apply forM_stop_at in H. destruct H as (f2 & -> & G). split.
      { intros N. symmetry. apply F4, N. }
      exists f2. split; [reflexivity|]. split.
      { destruct F3 as [F3|(v & Hv & F3)]; [discriminate|]. exists v. split; [exact Hv|]. destruct F3; [left|right]; congruence. }
      intros v. rewrite G. cbn. rewrite F1. unfold scanned.
      destruct (mem Nat.eqb v V) eqn:Mv; [|reflexivity].
      cbn. destruct (negb _); reflexivity.
    - apply bind_ok in H. destruct H as (p & s2 & H & H1).
      assert (s2 = with_vs s f /\ match pos with Some q => p = q | None => mean_position (with_vs s f) V now = Ok p end) as [-> Hp].
      { destruct pos; [apply ret_ok in H; tauto|]. apply rd_ok in H. tauto. }
      apply bind_ok in H1. destruct H1 as (m & s2 & H2 & H1). injection H2 as <- <-.
      apply bind_ok in H1. destruct H1 as ([] & s2 & H2 & H1). injection H1 as <- <- <-.
      apply (forM_modv (fun _ kv => kv_stop_node kv (Some (nn s)))) in H2; [|reflexivity].
      destruct H2 as (f2 & -> & G). split. { intros N. symmetry. apply F4, N. }
      split; [reflexivity|]. exists p, f2. split; [reflexivity|]. split.
      { intros v. rewrite G. cbn. rewrite F1. destruct (mem Nat.eqb v V) eqn:Mv; [reflexivity|].
        unfold scanned. rewrite Mv. reflexivity. }
      split. { intros v Hv. apply C in Hv. destruct Hv as (_ & _ & Hv). exact Hv. }
      destruct pos; [exact Hp|]. exists f. auto.
  Qed.

  Lemma stop_and_register_spec V step now pos s n s' :
    stop_and_register V step now pos s = Ok (n, s') ->
    exists new s1, stop_kvertices V step now pos s = Ok ((n, new), s1) /\
      s' = if new then with_vn s1 (vs s1) (ns s1) (nn s1) (sk_nodes s1 ++ [n]) else s1.
  Proof.
    unfold stop_and_register. intros H. apply bind_ok in H. destruct H as ([m new] & s1 & H & K).
    apply bind_ok in K. destruct K as ([] & s2 & H2 & K). cbn in H2, K. injection K as -> ->.
    exists new, s1. split; [exact H|]. destruct new; cbn in H2; injection H2 as <-; reflexivity.
  Qed.
End StopSpec.
