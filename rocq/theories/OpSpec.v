(** Exact effect on the state of the elementary operations of the handlers. *)
From Verif Require Import Base Arith Calc VectorOps Line2d Primitives Collapse CollapseProofs
  EventsLib FlipEvent ParallelEvent EdgeEvent SplitEvent EventLoop Pass.

Section OpSpec.
  Context {A : Arith} {E : Env A}.

  Definition with_vs (s : state) (f : nat -> kvertex) : state :=
    mkSt f (nv s) (ts s) (nt s) (ns s) (nn s) (es s) (ne s) (wfs s)
      (sk_nodes s) (sk_vertices s) (sk_triangles s) (queue s) (immediate s).
  Definition with_ts (s : state) (f : nat -> ktri) : state :=
    mkSt (vs s) (nv s) f (nt s) (ns s) (nn s) (es s) (ne s) (wfs s)
      (sk_nodes s) (sk_vertices s) (sk_triangles s) (queue s) (immediate s).
  Definition with_qi (s : state) (q i : list nat) : state :=
    mkSt (vs s) (nv s) (ts s) (nt s) (ns s) (nn s) (es s) (ne s) (wfs s)
      (sk_nodes s) (sk_vertices s) (sk_triangles s) q i.
  (** a new event object, made the event of triangle [t] *)
  Definition with_event (s : state) (t : nat) (e : event) : state :=
    mkSt (vs s) (nv s) (upd (ts s) t (tri_event (ts s t) (Some (ne s)))) (nt s) (ns s) (nn s)
      (upd (es s) (ne s) e) (S (ne s)) (wfs s)
      (sk_nodes s) (sk_vertices s) (sk_triangles s) (queue s) (immediate s).

  Lemma upd_same {X} (f : nat -> X) i x : upd f i x i = x.
  Proof. unfold upd. rewrite Nat.eqb_refl. reflexivity. Qed.
  Lemma upd_other {X} (f : nat -> X) i x j : i <> j -> upd f i x j = f j.
  Proof. unfold upd. intros H. apply Nat.eqb_neq in H. rewrite H. reflexivity. Qed.
  Lemma upd_case {X} (f : nat -> X) i x j : (i = j /\ upd f i x j = x) \/ (i <> j /\ upd f i x j = f j).
  Proof.
    destruct (Nat.eq_dec i j); [left|right]; split; auto; subst; auto using upd_same, upd_other.
  Qed.

  Lemma modv_spec v f s u s' : modv v f s = Ok (u, s') ->
    k_inf (vs s v) = false /\ s' = with_vs s (upd (vs s) v (f (vs s v))).
  Proof.
    unfold modv, bind, gets. destruct (k_inf (vs s v)); [discriminate|].
    intros H. injection H as _ <-. auto.
  Qed.
  Lemma modt_spec t f s u s' : modt t f s = Ok (u, s') -> s' = with_ts s (upd (ts s) t (f (ts s t))).
  Proof. unfold modt, bind, gets. intros H. injection H as _ <-. reflexivity. Qed.

  Lemma bind_ok {X Y} (m : M X) (k : X -> M Y) s y s' :
    bind m k s = Ok (y, s') -> exists x s1, m s = Ok (x, s1) /\ k x s1 = Ok (y, s').
  Proof. unfold bind. destruct (m s) as [[x s1]|]; [|discriminate]. eauto. Qed.

  Lemma stop_at_spec v n now s u s' : stop_at v n now s = Ok (u, s') ->
    k_inf (vs s v) = false /\
    s' = with_vs s (upd (upd (vs s) v (kv_stop_node (vs s v) (Some n))) v
                      (kv_stops (kv_stop_node (vs s v) (Some n)) (Some now))).
  Proof.
    unfold stop_at. intros H. apply bind_ok in H. destruct H as ([] & s1 & H1 & H2).
    apply modv_spec in H1. destruct H1 as [H1 ->]. apply modv_spec in H2. destruct H2 as [_ ->].
    split; [exact H1|]. cbn. rewrite upd_same. reflexivity.
  Qed.

  Lemma forget_spec e s u s' :
    bind (queue_discard (Some e)) (fun _ => immediate_remove (Some e)) s = Ok (u, s') ->
    s' = with_qi s (q_discard s e (queue s)) (remove1 e (immediate s)).
  Proof. unfold bind, queue_discard, immediate_remove, gets. cbn. intros H. injection H as _ <-. reflexivity. Qed.

  Lemma queue_add_spec e s u s' : queue_add e s = Ok (u, s') ->
    s' = with_qi s (q_add s e (queue s)) (immediate s).
  Proof.
    unfold queue_add. intros H. apply bind_ok in H. destruct H as (b & s1 & H & K).
    injection H as <- <-. destruct (q_has s e (queue s)); [discriminate|].
    injection K as _ <-. reflexivity.
  Qed.

  (** forgetting a triangle's pending event *)
  Definition forget (s : state) (o : option nat) : state :=
    match o with
    | Some e => with_qi s (q_discard s e (queue s)) (remove1 e (immediate s))
    | None => s
    end.

  Lemma riq_spec t now s u s' : replace_in_queue t now s = Ok (u, s') ->
    let s1 := forget s (t_event (ts s t)) in
    (collapse_event s1 t now FindGte = Ok None /\ s' = s1) \/
    (exists e, collapse_event s1 t now FindGte = Ok (Some e) /\
       let s2 := with_event s1 t e in
       s' = with_qi s2 (q_add s2 (ne s) (queue s2)) (immediate s2)).
  Proof.
    intros H s1. unfold replace_in_queue in H. apply bind_ok in H. destruct H as (x & s0 & H & K).
    injection H as <- <-. apply bind_ok in K. destruct K as ([] & s2 & H & K).
    assert (s2 = s1) as ->.
    { unfold s1, forget. destruct (t_event (ts s t)); [apply forget_spec in H; exact H|]. injection H as <-. reflexivity. }
    clear H. apply bind_ok in K. destruct K as (r & s3 & H & K).
    unfold compute_collapse_time, bind, rd in H.
    destruct (collapse_event s1 t now FindGte) as [[e|]|] eqn:Ec; try discriminate.
    - right. exists e. split; [reflexivity|]. cbn in H. injection H as <- <-.
      assert (Hn : ne s1 = ne s) by (unfold s1, forget; destruct (t_event _); reflexivity).
      apply queue_add_spec in K. rewrite K. unfold with_qi, with_event. cbn. rewrite Hn. reflexivity.
    - left. split; [reflexivity|]. injection H as <- <-. injection K as _ <-. reflexivity.
  Qed.

  Definition sched_event (s : state) (t : nat) (e : event) : event :=
    if Nat.eqb (tri_type (ts s t)) 3 then mkEv (ev_time e) (ev_tri e) sides (ev_tp e) (ev_tritp e) else e.

  Lemma upd_upd {X} (f : nat -> X) i x y : forall j, upd (upd f i x) i y j = upd f i y j.
  Proof. intros j. unfold upd. destruct (Nat.eqb i j); reflexivity. Qed.

  Lemma sched_spec t now s u s' : schedule_immediately t now s = Ok (u, s') ->
    let s1 := forget s (t_event (ts s t)) in
    exists e, new_edge_collapse_event s1 t now = Ok e /\ ev_side (sched_event s t e) <> [] /\
      (t_event (ts s t) = None -> queue s = []) /\
      vs s' = vs s /\ nv s' = nv s /\ nt s' = nt s /\ ns s' = ns s /\ nn s' = nn s /\
      ne s' = S (ne s) /\ wfs s' = wfs s /\ sk_nodes s' = sk_nodes s /\ sk_vertices s' = sk_vertices s /\
      sk_triangles s' = sk_triangles s /\ queue s' = queue s1 /\ immediate s' = immediate s1 ++ [ne s] /\
      ts s' = upd (ts s) t (tri_event (ts s t) (Some (ne s))) /\
      (forall i, es s' i = upd (es s) (ne s) (sched_event s t e) i).
  Proof.
    intros H s1. unfold schedule_immediately in H. apply bind_ok in H. destruct H as (x & s0 & H & K).
    injection H as <- <-. apply bind_ok in K. destruct K as ([] & s2 & H & K).
    apply bind_ok in K. destruct K as ([] & s3 & H1 & K).
    assert (s3 = s1 /\ (t_event (ts s t) = None -> queue s = [])) as [-> Hq].
    { unfold s1, forget. destruct (t_event (ts s t)).
      - unfold queue_discard, immediate_remove, bind, gets in H, H1. cbn in H, H1.
        injection H as <-. cbn in H1. injection H1 as <-. split; [reflexivity|discriminate].
      - cbn in H, H1. injection H1 as <-.
        unfold bind, gets in H. destruct (queue s) eqn:Q; [|discriminate].
        injection H as <-. auto. }
    clear H H1 s2. apply bind_ok in K. destruct K as (n & s2 & H & K).
    unfold compute_new_edge_collapse_event, bind, rd in H.
    destruct (new_edge_collapse_event s1 t now) as [e|] eqn:Ec; [|discriminate].
    cbn in H. injection H as <- <-. exists e. split; [reflexivity|].
    assert (Hn : ne s1 = ne s) by (unfold s1, forget; destruct (t_event _); reflexivity).
    assert (Ht : ts s1 = ts s) by (unfold s1, forget; destruct (t_event _); reflexivity).
    assert (Hs : vs s1 = vs s /\ nv s1 = nv s /\ nt s1 = nt s /\ ns s1 = ns s /\ nn s1 = nn s /\ es s1 = es s /\
                 wfs s1 = wfs s /\ sk_nodes s1 = sk_nodes s /\ sk_vertices s1 = sk_vertices s /\ sk_triangles s1 = sk_triangles s)
      by (unfold s1, forget; destruct (t_event _); repeat split).
    destruct Hs as (Hv & Hnv & Hnt & Hns & Hnn & He & Hw & Hsn & Hsv & Hst).
    clearbody s1. apply bind_ok in K. destruct K as (x & s2 & H & K).
    apply modt_spec in H. subst s2. apply bind_ok in K. destruct K as (x1 & s2 & H & K).
    injection H as <- <-. apply bind_ok in K. destruct K as (x1 & s2 & H & K).
    injection H as <- <-. apply bind_ok in K. destruct K as ([] & s2 & H & K).
    apply bind_ok in K. destruct K as (ev & s3 & H1 & K). injection H1 as <- <-.
    apply bind_ok in K. destruct K as ([] & s3 & H1 & K). pose proof (ro_assertM _ _ _ _ H1). subst s3.
    unfold bind, gets in K. cbn in K. injection K as _ <-. cbn.
    cbn in H. rewrite upd_same in H. unfold tri_type in H. cbn in H. rewrite Ht, Hn in H. fold (tri_type (ts s t)) in H.
    unfold sched_event. rewrite upd_same in H.
    destruct (Nat.eqb (tri_type (ts s t)) 3) eqn:T.
    - injection H as <-. cbn in *. rewrite ?Hn, ?Ht. split; [discriminate|].
      repeat (split; [first [assumption|reflexivity]|]).
      intros i. rewrite upd_upd, He. reflexivity.
    - injection H as <-. cbn in *. rewrite ?Hn, ?Ht.
      split. { intros Hc. rewrite Hn, upd_same, Hc in H1. discriminate. }
      repeat (split; [first [assumption|reflexivity]|]). intros i. rewrite He. reflexivity.
  Qed.

  Lemma newv_spec ul ur now n info int s v s' : compute_new_kvertex ul ur now n info int s = Ok (v, s') ->
    exists kv, new_kvertex s ul ur now n info int = Ok kv /\ v = nv s /\
    s' = mkSt (upd (vs s) (nv s) kv) (S (nv s)) (ts s) (nt s) (ns s) (nn s) (es s) (ne s) (wfs s)
           (sk_nodes s) (sk_vertices s) (sk_triangles s) (queue s) (immediate s).
  Proof.
    unfold compute_new_kvertex, bind, rd. destruct (new_kvertex _ _ _ _ _ _ _) as [kv|]; [|discriminate].
    intros H. injection H as <- <-. eauto.
  Qed.

  (** the fields of a new vertex *)
  Lemma new_kvertex_fields s ul ur now n info int kv : new_kvertex s ul ur now n info int = Ok kv ->
    k_inf kv = false /\ k_starts kv = Some now /\ k_stops kv = None /\ k_start_node kv = Some n /\
    k_stop_node kv = None /\ k_ul kv = ul /\ k_ur kv = ur /\ k_left kv = [] /\ k_right kv = [] /\
    k_wfl kv = None /\ k_wfr kv = None /\ k_info kv = info /\ k_internal kv = int.
  Proof.
    unfold new_kvertex. destruct ul, ur; try discriminate. intros H.
    apply rbind_ok in H. destruct H as ([vel p] & _ & H). cbv beta iota in H.
    apply rbind_ok in H. destruct H as (_ & _ & H). apply rbind_ok in H. destruct H as ([f o] & _ & H).
    injection H as <-. repeat split.
  Qed.

  Lemma circ_spec l r now s u s' : update_circ l r now s = Ok (u, s') ->
    exists f, s' = with_vs s f /\
      (forall v, exists hl hr, f v = kv_right (kv_left (vs s v) hl) hr).
  Proof.
    unfold update_circ. intros H. apply bind_ok in H. destruct H as ([] & s1 & H & K).
    assert (P : forall kv, kv = kv_right (kv_left kv (k_left kv)) (k_right kv)) by (intros []; reflexivity).
    assert (PR : forall kv h, kv_right kv h = kv_right (kv_left kv (k_left kv)) h) by (intros [] ?; reflexivity).
    assert (PL : forall kv hl hr h, kv_left (kv_right (kv_left kv hl) hr) h = kv_right (kv_left kv h) hr)
      by (intros [] ? ? ?; reflexivity).
    assert (S1 : exists f, s1 = with_vs s f /\ forall v, exists hl hr, f v = kv_right (kv_left (vs s v) hl) hr).
    { destruct l as [l|].
      - apply modv_spec in H. destruct H as [_ ->]. eexists. split; [reflexivity|]. intros v.
        destruct (upd_case (vs s) l (kv_right (vs s l) (hist_set (k_right (vs s l)) r now)) v) as [[<- Hu]|[_ Hu]]; cbn; rewrite Hu.
        + do 2 eexists. apply PR.
        + do 2 eexists. apply P.
      - injection H as <-. exists (vs s). split; [destruct s; reflexivity|]. intros v. do 2 eexists. apply P. }
    destruct S1 as (f & -> & F).
    destruct r as [r|].
    - apply modv_spec in K. destruct K as [_ ->]. cbn. eexists. split; [reflexivity|]. intros v.
      destruct (upd_case f r (kv_left (f r) (hist_set (k_left (f r)) l now)) v) as [[<- Hu]|[_ Hu]]; rewrite Hu.
      + destruct (F r) as (hl & hr & ->). do 2 eexists. apply PL.
      + apply F.
    - injection K as _ <-. exists f. split; [reflexivity|]. apply F.
  Qed.
End OpSpec.
