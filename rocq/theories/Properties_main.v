(** Property theorems: __init__.py, internal_only_skeleton and output_offsets
    (C10, C48, C51, C55, C62) *)
From Coq Require Import QArith Reals Lra.
From Verif Require Import Base Arith ArithQ ArithR Calc VectorOps Transform TransformProofs Line2d Line2dProofs Primitives
  Collapse EventsLib FlipEvent ParallelEvent EdgeEvent SplitEvent EventLoop Pass OpSpec Order StopSpec RunBase RunTimed RunLoop
  Total ScenarioRun Properties_loop Bisect Initialize StarProofs InitProofs InitState InitCirc InitBisect Main Properties_init TriExample.
Local Open Scope nat_scope.

(** [picks P l l']: [l'] has, in the order of [l], one item [y] with [P x y] for each
    [x] of [l] that has one *)
Inductive picks {X Y} (P : X -> Y -> Prop) : list X -> list Y -> Prop :=
| picks_nil : picks P [] []
| picks_yes x y l l' : P x y -> picks P l l' -> picks P (x :: l) (y :: l')
| picks_no x l l' : (forall y, ~ P x y) -> picks P l l' -> picks P (x :: l) l'.
Arguments picks_nil {X Y P}. Arguments picks_yes {X Y P}. Arguments picks_no {X Y P}.

Lemma picks_app {X Y} (P : X -> Y -> Prop) l1 l2 m1 m2 : picks P l1 m1 -> picks P l2 m2 -> picks P (l1 ++ l2) (m1 ++ m2).
Proof. intros H K. induction H; cbn; [exact K|apply picks_yes|apply picks_no]; assumption. Qed.

(** ** C51 *)
Definition kept (P : nat -> Prop) : list nat -> list nat -> Prop := picks (fun x y => x = y /\ P x).
Lemma filter_kept f l : kept (fun x => f x = true) l (filter f l).
Proof.
  induction l as [|x l IH]; cbn; [constructor|]. destruct (f x) eqn:F; [apply picks_yes; auto|apply picks_no; auto].
  intros y [_ K]. congruence.
Qed.

Theorem C51_internal_only :
  forall (A : Arith) (sk : skeleton) , let sk' := internal_only_skeleton sk in
  sk_nodes (fst sk') = sk_nodes (fst sk) /\
  kept (fun v => k_internal (vs (fst sk) v) = true) (sk_vertices (fst sk)) (sk_vertices (fst sk')) /\
  kept (fun t => t_internal (ts (fst sk) t) = true) (sk_triangles (fst sk)) (sk_triangles (fst sk')) /\
  snd sk' = None /\ internal_only_skeleton sk' = sk' /\
  (* the objects are the same *)
  vs (fst sk') = vs (fst sk) /\ ts (fst sk') = ts (fst sk) /\ ns (fst sk') = ns (fst sk) /\ wfs (fst sk') = wfs (fst sk).
Proof.
  intros A [s tr]. cbv zeta. split; [reflexivity|]. split; [apply filter_kept|]. split; [apply filter_kept|].
  split; [reflexivity|]. split; [|repeat split].
  assert (FF : forall (f : nat -> bool) l, filter f (filter f l) = filter f l).
  { intros f l. induction l as [|x l IH]; [reflexivity|]. cbn. destruct (f x) eqn:F; cbn; rewrite ?F, IH; reflexivity. }
  unfold internal_only_skeleton. cbn. rewrite !FF. reflexivity.
Qed.
Print Assumptions C51_internal_only.

(** of the triangle and its three outer sides only the inner part is kept *)
Example C51_case :
  match init_skeleton rtri_dt with
  | Ok s => let s' := fst (internal_only_skeleton (s, None)) in
      Nat.eqb (length (sk_vertices s)) 6 && Nat.eqb (length (sk_vertices s')) 3 &&
      Nat.eqb (length (sk_triangles s)) 4 && Nat.eqb (length (sk_triangles s')) 1
  | Err _ => false
  end = true.
Proof. vm_compute. reflexivity. Qed.

(** ** C48 *)
Section C48.
  Context {A : Arith}.
  (** the entry [x] of a neighbour history is in force at [t] *)
  Definition covers (t : num) (x : hitem) : Prop :=
    nleb (fst (fst x)) t = true /\ forall b, snd (fst x) = Some b -> nltb t b = true.
  Definition neighbour_at (h : list hitem) (t : num) (n : nat) : Prop :=
    exists before a b after, h = before ++ (a, b, Some n) :: after /\ covers t (a, b, Some n) /\
      forall x, In x before -> ~ covers t x.
  Definition nobody_at (h : list hitem) (t : num) : Prop := forall n, ~ neighbour_at h t n.

  (** the item for vertex [v] at time [t] *)
  Definition item (s : state) (tv : num * nat) (o : offset) : Prop :=
    let '(t, v) := tv in
    alive s t v /\ exists l, neighbour_at (k_left (vs s v)) t l /\
    position_at s v t = Ok (o_p o) /\ position_at s l t = Ok (o_q o) /\ o_t o = t /\ o_v o = v /\ o_left o = l.

  Lemma covers_dec t (x : hitem) :
    ((nleb (fst (fst x)) t && match snd (fst x) with Some b => nltb t b | None => false end)
      || (nleb (fst (fst x)) t && is_none (snd (fst x))))%bool = true <-> covers t x.
  Proof.
    unfold covers. destruct x as [[a b] r]. cbn [fst snd]. rewrite orb_true_iff, !andb_true_iff.
    destruct b as [b|]; cbn [is_none]; split.
    - intros [[H K]|[_ K]]; [|discriminate]. split; [exact H|]. intros c Hc. injection Hc as <-. exact K.
    - intros [H K]. left. auto.
    - intros [[_ K]|[H _]]; [discriminate|]. split; [exact H|discriminate].
    - intros [H _]. right. auto.
  Qed.
  Lemma hist_at_spec h t : (forall n, hist_at h t = Some n <-> neighbour_at h t n).
  Proof.
    intros n. induction h as [|[[a b] r] h IH].
    - split; [discriminate|]. intros ([|? ?] & ? & ? & ? & K & _); discriminate.
    - cbn [hist_at]. pose proof (covers_dec t (a, b, r)) as C. cbn [fst snd] in C.
      destruct (_ || _)%bool.
      + assert (CV : covers t (a, b, r)) by (apply C; reflexivity). clear C. split.
        * intros ->. exists [], a, b, h. split; [reflexivity|]. split; [exact CV|intros x []].
        * intros ([|x bf] & a' & b' & af & K & _ & N).
          -- injection K as _ _ -> _. reflexivity.
          -- cbn in K. injection K as <- _. destruct (N _ (or_introl eq_refl)). exact CV.
      + assert (CV : ~ covers t (a, b, r)) by (intros K; apply C in K; discriminate). clear C. rewrite IH. split.
        * intros (bf & a' & b' & af & -> & K & N). exists ((a, b, r) :: bf), a', b', af. split; [reflexivity|]. split; [exact K|].
          intros x [<-|Hx]; [exact CV|apply N, Hx].
        * intros ([|x bf] & a' & b' & af & K & Q & N).
          -- cbn in K. injection K as -> -> -> ->. contradiction.
          -- cbn in K. injection K as <- ->. exists bf, a', b', af. split; [reflexivity|]. split; [exact Q|].
             intros y Hy. apply N. right. exact Hy.
  Qed.

  Lemma position_err s v t e : position_at s v t = Err e -> e = AttributeError.
  Proof.
    unfold position_at. destruct (k_inf (vs s v)); [discriminate|]. destruct (k_inf_fast (vs s v)); [|discriminate].
    destruct (k_start_node (vs s v)); [discriminate|]. intros H. injection H as <-. reflexivity.
  Qed.

  Lemma offset_item_spec s t v h : exists r, offset_item s t v (hist_at h t) = Ok r /\
    forall o, r = Some o <-> exists l, neighbour_at h t l /\
      position_at s v t = Ok (o_p o) /\ position_at s l t = Ok (o_q o) /\ o_t o = t /\ o_v o = v /\ o_left o = l.
  Proof.
    unfold offset_item. destruct (position_at s v t) as [p|e] eqn:P.
    2:{ apply position_err in P. subst e. exists None. split; [reflexivity|]. intros o. split; [discriminate|].
        intros (l & _ & K & _). discriminate. }
    destruct (hist_at h t) as [l|] eqn:H.
    2:{ exists None. split; [reflexivity|]. intros o. split; [discriminate|]. intros (l & K & _). apply hist_at_spec in K. congruence. }
    destruct (position_at s l t) as [q|e] eqn:Q.
    2:{ apply position_err in Q as Q'. subst e. exists None. split; [reflexivity|]. intros o. split; [discriminate|].
        intros (m & K & _ & K2 & _). apply hist_at_spec in K. rewrite K in H. injection H as ->. congruence. }
    exists (Some (mkOff p q t v l)). split; [reflexivity|]. intros o. split.
    - intros K. injection K as <-. exists l. cbn. split; [apply hist_at_spec, H|]. repeat split; assumption.
    - intros (m & K & K1 & K2 & K3 & K4 & K5). apply hist_at_spec in K. rewrite K in H. injection H as ->.
      destruct o as [op oq ot ov ol]. cbn in *. congruence.
  Qed.

  Definition dated (s : state) (v : nat) : Prop := k_inf (vs s v) = false /\ exists a, k_starts (vs s v) = Some a.

  Lemma started_spec s v t : (dated s v -> exists a, k_starts (vs s v) = Some a /\ started_at s v t = Ok (nleb a t)) /\
    (~ dated s v -> exists e, started_at s v t = Err e /\ (e = AttributeError \/ e = TypeError)).
  Proof.
    unfold dated, started_at. destruct (k_inf (vs s v)).
    - split; [intros [K _]; discriminate|]. intros _. exists AttributeError. auto.
    - destruct (k_starts (vs s v)) as [a|].
      + split; [intros _; exists a; auto|]. intros K. destruct K. split; [reflexivity|]. exists a. reflexivity.
      + split; [intros [_ [a K]]; discriminate|]. intros _. exists TypeError. auto.
  Qed.

  Lemma offset_at_spec s t v : dated s v -> exists r, offset_at s t v = Ok r /\ forall o, r = Some o <-> item s (t, v) o.
  Proof.
    intros D. destruct (proj1 (started_spec s v t) D) as (a & SA & K). unfold offset_at. rewrite K. cbn [rbind].
    pose proof (covers_dec t (a, k_stops (vs s v), None)) as C. cbn [fst snd] in C.
    destruct (_ || _)%bool.
    - assert (CV : covers t (a, k_stops (vs s v), None)) by (apply C; reflexivity). clear C.
      destruct (offset_item_spec s t v (k_left (vs s v))) as (r & R & RS). exists r. split; [exact R|]. intros o. rewrite RS.
      unfold item. split; [|intros [_ H]; exact H]. intros H. split; [|exact H]. exists a. destruct CV as [C1 C2]. auto.
    - exists None. split; [reflexivity|]. intros o. split; [discriminate|]. intros ((a' & K1 & K2 & K3) & _).
      rewrite SA in K1. injection K1 as <-. assert (X : false = true) by (apply C; split; assumption). discriminate.
  Qed.

  Lemma yields_picks {X Y} (f : X -> res (option Y)) (P : X -> Y -> Prop) l :
    (forall x, In x l -> exists r, f x = Ok r /\ forall y, r = Some y <-> P x y) ->
    exists ys, yields f l = (ys, None) /\ picks P l ys.
  Proof.
    induction l as [|x l IH]; intros H; [exists []; split; [reflexivity|constructor]|].
    destruct IH as (ys & E1 & E2); [intros y Hy; apply H; right; exact Hy|].
    destruct (H x (or_introl eq_refl)) as (r & F & R). cbn [yields]. rewrite F, E1. destruct r as [y|].
    - exists (y :: ys). split; [reflexivity|]. apply picks_yes; [apply R; reflexivity|exact E2].
    - exists ys. split; [reflexivity|]. apply picks_no; [|exact E2]. intros y K. apply R in K. discriminate.
  Qed.
  Lemma yields_err {X Y} (f : X -> res (option Y)) l e : (exists x, In x l /\ f x = Err e) ->
    (forall x e', In x l -> f x = Err e' -> e' = e) -> exists ys, yields f l = (ys, Some e).
  Proof.
    induction l as [|x l IH]; intros (y & Hy & F) H; [destruct Hy|]. cbn [yields]. destruct (f x) as [[z|]|e'] eqn:FX.
    - destruct IH as [ys Q]; [|intros; eapply H; [right|]; eauto|].
      + destruct Hy as [->|Hy]; [congruence|]. exists y. auto.
      + rewrite Q. eexists. reflexivity.
    - destruct IH as [ys Q]; [|intros; eapply H; [right|]; eauto|].
      + destruct Hy as [->|Hy]; [congruence|]. exists y. auto.
      + rewrite Q. eexists. reflexivity.
    - exists []. rewrite (H x e' (or_introl eq_refl) FX). reflexivity.
  Qed.
  Lemma picks_prod {T} (P : T * nat -> offset -> Prop) (times : list T) (vl : list nat) ys :
    picks P (list_prod times vl) ys ->
    exists rows, ys = concat rows /\ Forall2 (fun t row => picks (fun v => P (t, v)) vl row) times rows.
  Proof.
    revert ys. induction times as [|t times IH]; cbn [list_prod]; intros ys H.
    - inversion H; subst. exists []. split; [reflexivity|constructor].
    - assert (S : forall l1 l2 ys, picks P (l1 ++ l2) ys -> exists y1 y2, ys = y1 ++ y2 /\ picks P l1 y1 /\ picks P l2 y2).
      { clear. induction l1 as [|x l1 IH]; cbn [app]; intros l2 ys H.
        - exists [], ys. split; [reflexivity|]. split; [constructor|exact H].
        - inversion H as [|? y ? l' H1 H2|? ? l' H1 H2]; subst.
          + destruct (IH _ _ H2) as (y1 & y2 & -> & K1 & K2). exists (y :: y1), y2. split; [reflexivity|]. split; [apply picks_yes; auto|exact K2].
          + destruct (IH _ _ H2) as (y1 & y2 & -> & K1 & K2). exists y1, y2. split; [reflexivity|]. split; [apply picks_no; auto|exact K2]. }
      destruct (S _ _ _ H) as (y1 & y2 & -> & K1 & K2). destruct (IH _ K2) as (rows & -> & F).
      exists (y1 :: rows). split; [reflexivity|]. constructor; [|exact F].
      clear - K1. revert y1 K1. induction vl as [|v vl IH]; cbn; intros y1 H; inversion H; subst; [constructor|apply picks_yes|apply picks_no]; auto.
  Qed.
End C48.

Theorem C48_calc_offsets :
  forall (A : Arith) (s : state) now ct inc,
  pdiv now (nofnat ct) = Ok inc -> (forall v, In v (sk_vertices s) -> dated s v) ->
  exists rows, calc_offsets s now ct = (concat rows, None) /\
    Forall2 (fun k row => picks (fun v => item s (nmul (nofnat k) inc, v)) (sk_vertices s) row) (seq 0 ct) rows.
Proof.
  intros A s now ct inc HI D. unfold calc_offsets. rewrite HI.
  destruct (yields_picks (fun tv => offset_at s (fst tv) (snd tv)) (item s)
    (list_prod (map (fun k => nmul (nofnat k) inc) (seq 0 ct)) (sk_vertices s))) as (ys & E1 & E2).
  { intros [t v] H. apply in_prod_iff in H. apply (offset_at_spec s t v). apply D, H. }
  destruct (picks_prod (item s) _ _ _ E2) as (rows & -> & F). exists rows. split; [exact E1|].
  clear - F. revert rows F. generalize (seq 0 ct). induction l as [|k l IH]; cbn; intros rows F; inversion F; subst; constructor; auto.
Qed.
Print Assumptions C48_calc_offsets.

(** the division by the number of samples *)
Theorem C48_no_samples :
  forall (A : Arith) (s : state) now, neqb (nofnat 0) n0 = true -> calc_offsets s now 0 = ([], Some ZeroDivisionError).
Proof. intros A s now H. unfold calc_offsets, pdiv. rewrite H. reflexivity. Qed.
Print Assumptions C48_no_samples.

(** the right triangle, run to its end (last event at time 1), sampled four times:
    at time 0, 1/4, 1/2 and 3/4 the three vertices are alive; with now = 2 only the
    first two of the four times are in their life spans *)
Example C48_case :
  match run rt2 with
  | Ok (now, s) =>
      Nat.eqb (length (fst (calc_offsets s now 4))) 12 && Nat.eqb (length (fst (calc_offsets s 2%Q 4))) 6 &&
      forallb (fun v => negb (k_inf (vs s v)) && is_some (k_starts (vs s v))) (sk_vertices s) &&
      is_none (snd (calc_offsets s now 4)) && Nat.ltb 0 (length (sk_vertices s)) &&
      match pdiv now (nofnat 4) with Ok x => Qeq_bool x (1#4) | Err _ => false end
  | Err _ => false
  end = true.
Proof. vm_compute. reflexivity. Qed.

(** ** C55 *)

(** a vertex that started at or before a sampled time and never stops *)
Theorem C55_raises :
  forall (A : Arith) (s : state) now ct inc k v a,
  pdiv now (nofnat ct) = Ok inc -> (forall w, In w (sk_vertices s) -> dated s w) ->
  k < ct -> In v (sk_vertices s) -> k_stops (vs s v) = None ->
  k_starts (vs s v) = Some a -> nleb a (nmul (nofnat k) inc) = true ->
  exists lines, output_offsets s now ct = (lines, [], Some TypeError).
Proof.
  intros A s now ct inc k v a HI D Hk Hv HS HA L. unfold output_offsets. rewrite HI.
  destruct (yields_err (fun tv => output_offset s k_left (fst tv) (snd tv))
    (list_prod (map (fun k => nmul (nofnat k) inc) (seq 0 ct)) (sk_vertices s)) TypeError) as [ys Q].
  - exists (nmul (nofnat k) inc, v). split.
    + apply in_prod; [|exact Hv]. apply in_map_iff. exists k. split; [reflexivity|]. apply in_seq. lia.
    + cbn [fst snd]. unfold output_offset. destruct (proj1 (started_spec s v (nmul (nofnat k) inc)) (D v Hv)) as (b & K1 & K2).
      rewrite HA in K1. injection K1 as <-. rewrite K2, L. cbn [rbind]. rewrite HS. reflexivity.
  - intros [t w] e Hw. apply in_prod_iff in Hw. destruct Hw as [_ Hw]. cbn [fst snd]. unfold output_offset.
    destruct (proj1 (started_spec s w t) (D w Hw)) as (b & K1 & K2). rewrite K2. cbn [rbind].
    destruct (nleb b t); [|discriminate]. destruct (k_stops (vs s w)) as [z|]; [|intros H; injection H as <-; reflexivity].
    destruct (nltb t z); [|discriminate]. destruct (offset_item_spec s t w (k_left (vs s w))) as (r & -> & _). discriminate.
  - rewrite Q. eexists. reflexivity.
Qed.
Print Assumptions C55_raises.

(** the claim holds where every vertex is stopped: the first file gets what
    calc_offsets yields *)
Theorem C55_all_stopped :
  forall (A : Arith) (s : state) now ct inc,
  pdiv now (nofnat ct) = Ok inc -> (forall w, In w (sk_vertices s) -> dated s w /\ k_stops (vs s w) <> None) ->
  exists l r, output_offsets s now ct = (l, r, None) /\ calc_offsets s now ct = (l, None).
Proof.
  intros A s now ct inc HI D. unfold output_offsets, calc_offsets. rewrite HI.
  set (grid := list_prod _ _).
  assert (G : forall nb, exists ys, yields (fun tv => output_offset s nb (fst tv) (snd tv)) grid = (ys, None)).
  { intros nb. destruct (yields_picks (fun tv => output_offset s nb (fst tv) (snd tv))
      (fun tv o => output_offset s nb (fst tv) (snd tv) = Ok (Some o)) grid) as (ys & K & _); [|exists ys; exact K].
    intros [t w] Hw. apply in_prod_iff in Hw. destruct Hw as [_ Hw]. cbn [fst snd]. unfold output_offset.
    destruct (D w Hw) as [D1 D2]. destruct (proj1 (started_spec s w t) D1) as (b & K1 & K2). rewrite K2. cbn [rbind].
    destruct (nleb b t); [|exists None; split; [reflexivity|intros y; split; intros K; congruence]].
    destruct (k_stops (vs s w)) as [z|]; [|congruence].
    destruct (nltb t z); [|exists None; split; [reflexivity|intros y; split; intros K; congruence]].
    destruct (offset_item_spec s t w (nb (vs s w))) as (r & -> & _). exists r. split; [reflexivity|]. intros y. split; intros K; congruence. }
  assert (EQ : yields (fun tv => offset_at s (fst tv) (snd tv)) grid =
    yields (fun tv => output_offset s k_left (fst tv) (snd tv)) grid).
  { assert (EX : forall tv, In tv grid -> offset_at s (fst tv) (snd tv) = output_offset s k_left (fst tv) (snd tv)).
    { intros [t w] Hw. apply in_prod_iff in Hw. destruct Hw as [_ Hw]. cbn [fst snd]. unfold output_offset, offset_at.
      destruct (D w Hw) as [D1 D2]. destruct (started_at s w t) as [b|]; [|reflexivity]. cbn [rbind].
      destruct (k_stops (vs s w)) as [z|]; [|congruence]. destruct b; cbn [andb orb is_none]; [|reflexivity].
      destruct (nltb t z); reflexivity. }
    revert EX. generalize grid. induction grid0 as [|x g IH]; intros EX; [reflexivity|]. cbn [yields].
    rewrite (EX x (or_introl eq_refl)), IH by (intros y Hy; apply EX; right; exact Hy). reflexivity. }
  destruct (G k_left) as [l L]. destruct (G k_right) as [r R]. rewrite EQ, L. cbv iota beta zeta. rewrite R. exists l, r. auto.
Qed.
Print Assumptions C55_all_stopped.

Definition right_triangle : list (@num QA * @num QA) := [(0, 0); (4, 0); (0, 3)]%Q.

Theorem C55_output_offsets_refuted :
  exists (s : state (A:=QA)) tr, calc_skel tri_of right_triangle true false = Ok (s, tr) /\
  snd (output_offsets s 1%Q 4) = Some TypeError /\ snd (calc_offsets s 1%Q 4) = None.
Proof.
  assert (K : match calc_skel tri_of right_triangle true false with
    | Ok (s, _) => match snd (output_offsets s 1%Q 4), snd (calc_offsets s 1%Q 4) with Some TypeError, None => true | _, _ => false end
    | Err _ => false end = true) by (vm_compute; reflexivity).
  destruct (calc_skel tri_of right_triangle true false) as [[s tr]|]; [|discriminate]. exists s, tr. split; [reflexivity|].
  destruct (snd (output_offsets s 1%Q 4)) as [[]|]; try discriminate. destruct (snd (calc_offsets s 1%Q 4)); [discriminate|]. auto.
Qed.
Print Assumptions C55_output_offsets_refuted.

(** with internal_only every vertex of the result is stopped *)
Example C55_all_stopped_case :
  match calc_skel tri_of right_triangle true true with
  | Ok (s, _) => forallb (fun v => negb (k_inf (vs s v)) && is_some (k_starts (vs s v)) && is_some (k_stops (vs s v))) (sk_vertices s)
      && Nat.eqb (length (fst (fst (output_offsets s (1#2)%Q 4)))) 12 && is_none (snd (output_offsets s (1#2)%Q 4))
  | Err _ => false
  end = true.
Proof. vm_compute. reflexivity. Qed.

(** ** C10 and C62: the whole of calc_skel *)
Section Whole.
  Context {A : Arith} {E : Env A}.
  (** what the event loop starts with *)
  Definition start_of (io : bool) (s : state) : state := if io then fst (internal_only_skeleton (s, None)) else s.

  Lemma start_fresh io s : fresh s -> fresh (start_of io s).
  Proof.
    destruct io; [|auto]. intros [F1 F2 F3 F4 F5 F6 [R1 R2 R3 R4]]. constructor; cbn; auto.
    - apply NoDup_filter, F1.
    - constructor; cbn; auto. intros v Hv. apply filter_In in Hv. apply R4, Hv.
  Qed.
  Lemma start_shaped io s : shaped s -> shaped (start_of io s).
  Proof. destruct io; [|auto]. intros [S1 S2]. constructor; cbn; auto. Qed.
  Lemma start_vertices io s v : In v (sk_vertices (start_of io s)) -> In v (sk_vertices s).
  Proof. destruct io; [|auto]. cbn. intros H. apply filter_In in H. apply H. Qed.
  Lemma start_heap io s : vs (start_of io s) = vs s /\ ns (start_of io s) = ns s /\ nv (start_of io s) = nv s /\
    sk_nodes (start_of io s) = sk_nodes s /\ wfs (start_of io s) = wfs s.
  Proof. destruct io; repeat split. Qed.

  (** the transform and the points that are triangulated *)
  Definition shrunk (points : list pt) (shrink : bool) (tr : option transform) (pts : list pt) : Prop :=
    if shrink then exists box, get_box points = Ok box /\ tr = Some (get_transform box) /\
                     Forall2 (fun p q => forward (get_transform box) p = Ok q) points pts
    else tr = None /\ pts = points.

  Lemma calc_skel_ok check triangulate points shrink io s' tr :
    calc_skel_with check triangulate points shrink io = Ok (s', tr) ->
    exists pts d s0 now, shrunk points shrink tr pts /\ triangulate pts = Ok d /\ init_skeleton d = Ok s0 /\
      check (start_of io s0) = Ok tt /\
      bind init_event_list (fun _ => event_loop) (start_of io s0) = Ok (now, s').
  Proof.
    unfold calc_skel_with. intros H. cbv zeta in H. apply rbind_ok in H. destruct H as ([tr0 pts] & H1 & H).
    apply rbind_ok in H. destruct H as (d & H2 & H). apply rbind_ok in H. destruct H as (s0 & H3 & H). cbv zeta in H.
    apply rbind_ok in H. destruct H as ([] & H4 & H). apply rbind_ok in H. destruct H as ([[] s1] & H5 & H).
    apply rbind_ok in H. destruct H as ([now s2] & H6 & H).
    assert (H4' : check (start_of io s0) = Ok tt) by (destruct shrink, io; exact H4).
    assert (H5' : init_event_list (start_of io s0) = Ok (tt, s1)) by (destruct shrink, io; exact H5).
    assert (TR : Ok (s2, if shrink then tr0 else None) = Ok (s', tr)) by (destruct shrink, io; exact H).
    clear H4 H5 H. injection TR as <- <-. exists pts, d, s0, now.
    split; [|split; [exact H2|split; [exact H3|split; [exact H4'|]]]].
    - unfold shrunk. destruct shrink.
      + apply rbind_ok in H1. destruct H1 as (box & B & H1). apply rbind_ok in H1. destruct H1 as (ps & P & H1).
        injection H1 as <- <-. exists box. split; [exact B|]. split; [reflexivity|]. apply rmapl_all, P.
      + injection H1 as <- <-. auto.
    - unfold bind. rewrite H5'. exact H6.
  Qed.

  (** the vertices of the initial skeleton *)
  Lemma init_starts d s : init_skeleton d = Ok s -> forall k, In k (sk_vertices s) ->
    exists v n, v < dt_nv d /\ k_start_node (vs s k) = Some n /\ sn_pos (ns s n) = dv_pos (dt_v d v) /\
      k_origin (vs s k) = dv_pos (dt_v d v) /\ k_inf (vs s k) = false /\ k_starts (vs s k) = Some n0.
  Proof.
    intros HI k Hk. destruct (init_vertices_cases d s HI) as (cpos & ti & b & _ & _ & _ & C1 & C2 & C3 & C4).
    rewrite C2 in Hk. apply in_seq in Hk.
    destruct (nth_error (all_groups d) k) as [[v g]|] eqn:N; [|apply nth_error_None in N; lia].
    destruct (C4 k v g N) as (k' & (lw & rw & bi & node & info & _ & _ & _ & _ & _ & _ & K & EK) & _ & EV).
    assert (L : v < dt_nv d).
    { apply nth_error_In in N. unfold all_groups in N. apply in_flat_map in N. destruct N as (w & Hw & N).
      apply in_map_iff in N. destruct N as (g' & N & _). injection N as -> _. apply in_seq in Hw. lia. }
    destruct (init_sk_vertices d s HI v L) as (_ & gs & n & _ & _ & G3 & G4). cbn in K. rewrite K in G3. injection G3 as ->.
    exists v, n. rewrite EV, EK. cbn. auto 10.
  Qed.
End Whole.

(** the nodes of a state, by position *)
Definition positions {A : Arith} (s : state) : list pt := map (fun n => sn_pos (ns s n)) (sk_nodes s).

Theorem C62_calc_skel :
  forall (A : Arith) (E : Env A), OrdArith A -> (forall t u : nat, addr t = addr u -> t = u) ->
  forall triangulate points shrink io s' tr,
  calc_skel triangulate points shrink io = Ok (s', tr) ->
  (* nothing is left to do; triangles with internal corners are stopped *)
  queue s' = [] /\ immediate s' = [] /\
  (forall t, In t (sk_triangles s') -> (forall v, In v (list3 (t_v (ts s' t))) -> k_internal (vs s' v) = true) ->
     exists stop, t_stops (ts s' t) = Some stop) /\
  (* life spans are not negative, a vertex stops at a time iff at a node *)
  (forall v a z, k_starts (vs s' v) = Some a -> k_stops (vs s' v) = Some z -> nleb a z = true) /\
  (forall v, k_stops (vs s' v) = None <-> k_stop_node (vs s' v) = None) /\
  (* skeleton edges join nodes of the skeleton *)
  (forall v n, k_start_node (vs s' v) = Some n \/ k_stop_node (vs s' v) = Some n -> In n (sk_nodes s')) /\
  (* the first nodes are the points of the triangulation of the (shrunk) input *)
  exists pts d new, shrunk points shrink tr pts /\ triangulate pts = Ok d /\
    positions s' = map (fun v => dv_pos (dt_v d v)) (seq 0 (dt_nv d)) ++ new.
Proof.
  intros A E O inj tri points shrink io s' tr H. unfold calc_skel in H. apply calc_skel_ok in H.
  destruct H as (pts & d & s0 & now & H1 & H2 & H3 & _ & H4).
  destruct (C62_initial_state A E d s0 O H3) as (F & _ & _ & N).
  apply (start_fresh io) in F.
  destruct (C33_normal_return A E _ _ _ H4) as (Q & I & T & s1 & trc & S & R & _).
  destruct (C36_life_spans A E O inj _ _ _ _ _ F S R) as (L1 & L2 & _).
  destruct (init_timed O inj _ _ F S) as ((R1 & _) & FO & _ & _ & _ & _ & N1 & _).
  pose proof R as R'. apply steps_base in R'; [|exact R1]. destruct R' as [RG FO2].
  destruct (start_heap io s0) as (_ & P2 & _ & P4 & _).
  split; [exact Q|]. split; [exact I|]. split; [exact T|]. split; [exact L1|]. split; [exact L2|]. split.
  - intros v n [K|K]; [apply (rg_start _ RG _ _ K)|apply (rg_stop _ RG _ _ K)].
  - destruct (fo_nodes _ _ FO2) as [new2 E2]. exists pts, d, (map (fun n => sn_pos (ns s' n)) new2).
    split; [exact H1|]. split; [exact H2|]. unfold positions. rewrite E2, map_app. f_equal.
    rewrite N1, P4, <- N. apply map_ext_in. intros n Hn.
    assert (L : n < nn (start_of io s0)) by (apply (fr_reg _ F); rewrite P4; exact Hn).
    rewrite (fo_ns _ _ (follows_trans _ _ _ FO FO2) n L), P2. reflexivity.
Qed.
Print Assumptions C62_calc_skel.

Example C62_calc_skel_case :
  is_ok (calc_skel tri_of right_triangle true false) && is_ok (calc_skel tri_of right_triangle true true) &&
  match calc_skel tri_of right_triangle true false with
  | Ok (s, Some _) => Nat.eqb (length (sk_nodes s)) 4 && Nat.eqb (length (sk_vertices s)) 6
  | _ => false
  end = true.
Proof. vm_compute. reflexivity. Qed.

(** *** C10 *)
Section C10.
  Context {A : Arith}.
  (** the assertions hold for this position *)
  Definition inside (p : pt) : Prop :=
    nleb (nopp n2) (fst p) = true /\ nleb (fst p) n2 = true /\ nleb (nopp n2) (snd p) = true /\ nleb (snd p) n2 = true.
  Lemma in_range_inside p : in_range (fst p) = true /\ in_range (snd p) = true <-> inside p.
  Proof. unfold in_range, inside. rewrite !andb_true_iff. tauto. Qed.

  Lemma check_starts_spec (s : state) (pos : nat -> pt) :
    (forall k, In k (sk_vertices s) -> k_inf (vs s k) = false /\ exists n, k_start_node (vs s k) = Some n /\ sn_pos (ns s n) = pos k) ->
    ((exists k, In k (sk_vertices s) /\ ~ inside (pos k)) -> check_starts s = Err AssertionError) /\
    ((forall k, In k (sk_vertices s) -> inside (pos k)) -> check_starts s = Ok tt).
  Proof.
    intros H. unfold check_starts.
    assert (CS : forall k, In k (sk_vertices s) -> (inside (pos k) /\ check_start s k = Ok tt) \/
      (~ inside (pos k) /\ check_start s k = Err AssertionError)).
    { intros k Hk. destruct (H k Hk) as (I & n & K1 & K2). unfold check_start. rewrite I, K1, K2.
      pose proof (in_range_inside (pos k)) as R. destruct (in_range (fst (pos k))); cbn [rassert rbind].
      - destruct (in_range (snd (pos k))); cbn [rassert]; [left; tauto|right]. split; [|reflexivity].
        intros K. apply R in K. destruct K. discriminate.
      - right. split; [|reflexivity]. intros K. apply R in K. destruct K. discriminate. }
    assert (G : ((exists k, In k (sk_vertices s) /\ ~ inside (pos k)) -> rmapl (check_start s) (sk_vertices s) = Err AssertionError) /\
      ((forall k, In k (sk_vertices s) -> inside (pos k)) -> exists l, rmapl (check_start s) (sk_vertices s) = Ok l)).
    { clear H. revert CS. generalize (sk_vertices s). induction l as [|k l IH]; intros CS.
      - split; [intros (k & [] & _)|]. intros _. exists []. reflexivity.
      - destruct IH as [IH1 IH2]; [intros j Hj; apply CS; right; exact Hj|]. cbn [rmapl].
        destruct (CS k (or_introl eq_refl)) as [[I ->]|[I ->]]; cbn [rbind]; split.
        + intros (j & [<-|Hj] & N); [contradiction|]. rewrite IH1 by (exists j; auto). reflexivity.
        + intros K. destruct IH2 as [l' ->]; [intros j Hj; apply K; right; exact Hj|]. eexists. reflexivity.
        + intros _. reflexivity.
        + intros K. destruct I. apply K. left. reflexivity. }
    destruct G as [G1 G2]. split; intros K; [rewrite (G1 K); reflexivity|]. destruct (G2 K) as [l ->]. reflexivity.
  Qed.
End C10.

(** the assertions fail exactly if a kinetic vertex starts outside [-2,2] *)
Theorem C10_unshrunk :
  forall (A : Arith) (E : Env A) triangulate points io d s0,
  triangulate points = Ok d -> init_skeleton d = Ok s0 ->
  let st := start_of io s0 in
  (forall k, In k (sk_vertices st) -> exists v, v < dt_nv d /\ k_origin (vs st k) = dv_pos (dt_v d v)) /\
  ((exists k, In k (sk_vertices st) /\ ~ inside (k_origin (vs st k))) ->
     check_starts st = Err AssertionError /\ calc_skel triangulate points false io = Err AssertionError) /\
  ((forall k, In k (sk_vertices st) -> inside (k_origin (vs st k))) ->
     check_starts st = Ok tt /\
     calc_skel triangulate points false io = calc_skel_with (fun _ => Ok tt) triangulate points false io).
Proof.
  intros A E tri points io d s0 T HI st. pose proof (init_starts d s0 HI) as IS.
  destruct (start_heap io s0) as (P1 & P2 & _). fold st in P1, P2.
  destruct (check_starts_spec st (fun k => k_origin (vs st k))) as [CA CB].
  { intros k Hk. apply start_vertices in Hk. destruct (IS k Hk) as (v & n & L & K1 & K2 & K3 & K4 & _).
    rewrite P1, P2. split; [exact K4|]. exists n. split; [exact K1|]. congruence. }
  assert (CK : forall check, calc_skel_with check tri points false io =
    rbind (check st) (fun _ => rbind (init_event_list st) (fun '(_, s) => rbind (event_loop s) (fun '(_, s) => Ok (s, None))))).
  { intros check. unfold calc_skel_with. cbn [rbind]. rewrite T. cbn [rbind]. rewrite HI. cbn [rbind]. unfold st. destruct io; reflexivity. }
  split; [|split].
  - intros k Hk. apply start_vertices in Hk. destruct (IS k Hk) as (v & n & L & _ & _ & K3 & _). exists v. rewrite P1. auto.
  - intros K. split; [apply CA, K|]. unfold calc_skel. rewrite CK, (CA K). reflexivity.
  - intros K. split; [apply CB, K|]. unfold calc_skel. rewrite !CK, (CB K). reflexivity.
Qed.
Print Assumptions C10_unshrunk.

Example C10_unshrunk_case :
  match tri_of right_triangle with
  | Ok d => match init_skeleton d with
            | Ok s => negb (in_range (fst (k_origin (vs s 2)))) && Nat.eqb (length (sk_vertices s)) 6
            | Err _ => false
            end
  | Err _ => false
  end = true /\
  match calc_skel tri_of right_triangle false false with Err AssertionError => true | _ => false end = true /\
  is_ok (calc_skel tri_of [(0, 0); (1, 0); (0, 3#4)]%Q false false) = true.
Proof. split; [|split]; vm_compute; reflexivity. Qed.

(** with shrink the assertions never fail *)
Theorem C10_shrunk :
  forall (E : Env RA) triangulate points io,
  (* the vertices of the triangulation are the given points *)
  (forall pts d, triangulate pts = Ok d -> forall v, v < dt_nv d -> In (dv_pos (dt_v d v)) pts) ->
  calc_skel triangulate points true io = calc_skel_with (fun _ => Ok tt) triangulate points true io /\
  forall pts d s0 tr, shrunk points true tr pts -> triangulate pts = Ok d -> init_skeleton d = Ok s0 ->
    check_starts (start_of io s0) = Ok tt /\
    forall k, In k (sk_vertices s0) -> exists n, k_start_node (vs s0 k) = Some n /\
      (-1 <= fst (sn_pos (ns s0 n)) <= 1 /\ -1 <= snd (sn_pos (ns s0 n)) <= 1)%R.
Proof.
  intros E tri points io TV.
  assert (M : forall pts d s0 tr, shrunk points true tr pts -> tri pts = Ok d -> init_skeleton d = Ok s0 ->
    check_starts (start_of io s0) = Ok tt /\
    forall k, In k (sk_vertices s0) -> exists n, k_start_node (vs s0 k) = Some n /\
      (-1 <= fst (sn_pos (ns s0 n)) <= 1 /\ -1 <= snd (sn_pos (ns s0 n)) <= 1)%R).
  { intros pts d s0 tr SH T HI. pose proof (init_starts d s0 HI) as IS.
    assert (SQ : forall p, In p pts -> (-1 <= fst p <= 1 /\ -1 <= snd p <= 1)%R).
    { destruct SH as (box & B & _ & F). intros q Hq.
      assert (exists p, In p points /\ forward (get_transform box) p = Ok q) as (p & Hp & FP).
      { clear - F Hq. induction F as [|p q' l l' F1 F2 IH]; [destruct Hq|]. destruct Hq as [<-|Hq]; [exists p; simpl; auto|].
        destruct (IH Hq) as (p' & H1 & H2). exists p'. simpl. auto. }
      assert (TO : transform_of points (get_transform box)) by (exists box; auto).
      assert (NC : ~ all_coincide points).
      { intros C. apply (forward_fails_iff _ _ TO) with (p := p) in C. congruence. }
      destruct (forward_square _ _ p TO NC Hp) as (x & y & K & K1 & K2). rewrite K in FP. injection FP as <-. auto. }
    assert (PK : forall k, In k (sk_vertices s0) -> (-1 <= fst (k_origin (vs s0 k)) <= 1 /\ -1 <= snd (k_origin (vs s0 k)) <= 1)%R).
    { intros k Hk. destruct (IS k Hk) as (v & n & L & _ & _ & K3 & _). rewrite K3. apply SQ, (TV _ _ T v L). }
    split.
    - destruct (start_heap io s0) as (P1 & P2 & _).
      destruct (check_starts_spec (start_of io s0) (fun k => k_origin (vs s0 k))) as [_ CB].
      + intros k Hk. apply start_vertices in Hk. destruct (IS k Hk) as (v & n & L & K1 & K2 & K3 & K4 & _).
        rewrite P1, P2. split; [exact K4|]. exists n. split; [exact K1|]. congruence.
      + apply CB. intros k Hk. apply start_vertices in Hk. specialize (PK k Hk). unfold inside. ra_simp. qlit.
        rewrite !Rleb_true. lra.
    - intros k Hk. specialize (PK k Hk). destruct (IS k Hk) as (v & n & L & K1 & K2 & K3 & _). exists n. split; [exact K1|].
      rewrite K2, <- K3. exact PK. }
  split; [|exact M]. unfold calc_skel, calc_skel_with.
  destruct (get_box points) as [box|] eqn:B; [|reflexivity]. cbn [rbind].
  destruct (rmapl (forward (get_transform box)) points) as [pts|] eqn:F; [|reflexivity]. cbn [rbind].
  destruct (tri pts) as [d|] eqn:T; [|reflexivity]. cbn [rbind].
  destruct (init_skeleton d) as [s0|] eqn:HI; [|reflexivity]. cbn [rbind].
  destruct (M pts d s0 (Some (get_transform box))) as [CK _]; [|exact T|exact HI|].
  - exists box. split; [exact B|]. split; [reflexivity|]. apply rmapl_all, F.
  - unfold start_of in CK. destruct io; cbn [fst] in *; rewrite CK; reflexivity.
Qed.
Print Assumptions C10_shrunk.

(** three points in the plane: the hypotheses of C10_shrunk are met and a skeleton
    is built *)
Definition tri_of3 (pts : list (@num RA * @num RA)) : res (dtriang (A:=RA)) :=
  match pts with [_; _; _] => tri_of pts | _ => Err ValueError end.
Lemma tri_of3_points pts d : tri_of3 pts = Ok d -> forall v, v < dt_nv d -> In (dv_pos (dt_v d v)) pts.
Proof.
  destruct pts as [|p [|q [|r [|]]]]; try discriminate. intros H. injection H as <-. cbn. intros v L.
  destruct v as [|[|[|v]]]; cbn; auto. lia.
Qed.
Example C10_shrunk_case :
  (forall pts d, tri_of3 pts = Ok d -> forall v, v < dt_nv d -> In (dv_pos (dt_v d v)) pts) /\
  exists pts d s0 tr, shrunk [(0, 0); (4, 0); (0, 3)]%R true tr pts /\ tri_of3 pts = Ok d /\ init_skeleton d = Ok s0.
Proof.
  split; [exact tri_of3_points|].
  set (P := [(0, 0); (4, 0); (0, 3)]%R : list (@num RA * @num RA)).
  destruct (get_box P) as [box|] eqn:B; [|discriminate].
  assert (TO : transform_of P (get_transform box)) by (exists box; auto).
  assert (NC : ~ all_coincide P).
  { intros C. assert (K : ((0, 0) = (4, 0))%R) by (apply C; simpl; auto). injection K. lra. }
  destruct (transform_of_scale _ _ TO NC) as [SC SP].
  assert (FW : forall p, forward (get_transform box) p = Ok
    ((fst p - fst (tr_translate (get_transform box))) / fst (tr_scale (get_transform box)),
     (snd p - snd (tr_translate (get_transform box))) / snd (tr_scale (get_transform box)))%R) by (intros p; apply forward_R; lra).
  set (k := fst (tr_scale (get_transform box))) in *. set (u := fst (tr_translate (get_transform box))) in *.
  set (w := snd (tr_translate (get_transform box))) in *. rewrite <- SC in FW.
  set (f := fun p : R * R => ((fst p - u) / k, (snd p - w) / k)%R).
  assert (NE : forall a b : R * R, a <> b -> f a <> f b).
  { intros a b N K. apply N. unfold f in K. injection K as K1 K2. destruct a as [a1 a2], b as [b1 b2]. cbn [fst snd] in *.
    assert (X : forall x y z, ((x - z) / k = (y - z) / k -> x = y)%R).
    { intros x y z Q. apply (Rmult_eq_compat_r k) in Q. unfold Rdiv in Q. rewrite !Rmult_assoc, Rinv_l in Q by lra. lra. }
    f_equal; eauto. }
  destruct (triangle_init_R (f (0, 0)%R) (f (4, 0)%R) (f (0, 3)%R)) as (d & s & D & S);
    try (apply NE; intros K; injection K; lra).
  exists [f (0, 0)%R; f (4, 0)%R; f (0, 3)%R], d, s, (Some (get_transform box)).
  split; [|split; [exact D|exact S]]. exists box. split; [exact B|]. split; [reflexivity|].
  repeat constructor; apply FW.
Qed.

(** ** C62, geometry: from the start to the end every vertex is on both of its
    wavefronts *)
Theorem C62_tracks :
  forall (E : Env RA), (forall t u : nat, @addr RA E t = @addr RA E u -> t = u) ->
  forall triangulate points shrink io s' tr,
  calc_skel triangulate points shrink io = Ok (s', tr) ->
  (forall pts d, triangulate pts = Ok d -> stars_right d) ->
  forall v l r, v < nv s' -> k_inf (vs s' v) = false -> k_inf_fast (vs s' v) = false ->
  k_ul (vs s' v) = Some l -> k_ur (vs s' v) = Some r ->
  (Rabs (det (wf_line (wfs s' l)) (wf_line (wfs s' r))) > / 10^10)%R ->
  forall (t : R) p, position_at s' v t = Ok p ->
  signed_distance (wf_line (wfs s' l)) p = t /\ signed_distance (wf_line (wfs s' r)) p = t.
Proof.
  intros E inj tri points shrink io s' tr H SR v l r Hv I F Hl Hr D t p P. unfold calc_skel in H. apply calc_skel_ok in H.
  destruct H as (pts & d & s0 & now & H1 & H2 & H3 & _ & H4).
  pose proof (init_fresh d s0 H3 (nleb_refl RA_ord _)) as FR. apply (start_fresh io) in FR.
  destruct (C33_normal_return RA E _ _ _ H4) as (_ & _ & _ & s1 & trc & S & R & _).
  destruct (init_timed RA_ord inj _ _ FR S) as ((R1 & _) & FO & _ & _ & V1 & V2 & _ & _).
  destruct (start_heap io s0) as (P1 & P2 & P3 & P4 & P5).
  assert (U : units s1).
  { intros w. rewrite (fo_wfs _ _ FO), P5. apply (init_units d s0 H3). }
  assert (T : forall v, (v < nv s1)%nat -> tracks s1 v).
  { intros w _. pose proof (init_tracks d s0 H3 (SR _ _ H2) w) as K. unfold tracks, position_at in *.
    rewrite V1, P1, (fo_wfs _ _ FO), P5. intros I' F'. rewrite I', F' in *. apply K; reflexivity. }
  destruct (run_tracks E _ _ _ _ _ _ R1 U T R) as [U' T'].
  destruct (T' v Hv I F l r Hl Hr D t p P) as [A1 A2].
  rewrite !signed_distance_R. auto.
Qed.
Print Assumptions C62_tracks.

(** the same for the initial skeleton alone *)
Theorem C62_tracks_initially :
  forall (d : dtriang (A:=RA)) s, init_skeleton d = Ok s -> stars_right d ->
  forall v l r, k_inf (vs s v) = false -> k_ul (vs s v) = Some l -> k_ur (vs s v) = Some r ->
  (Rabs (det (wf_line (wfs s l)) (wf_line (wfs s r))) > / 10^10)%R ->
  forall (t : R) p, position_at s v t = Ok p ->
  signed_distance (wf_line (wfs s l)) p = t /\ signed_distance (wf_line (wfs s r)) p = t.
Proof.
  intros d s HI SR v l r I Hl Hr D t p P.
  assert (F : k_inf_fast (vs s v) = false).
  { destruct (init_vertices_cases d s HI) as (cpos & ti & b & _ & _ & _ & C1 & C2 & C3 & C4).
    destruct (nth_error (all_groups d) v) as [[w g]|] eqn:N.
    - destruct (C4 v w g N) as (k' & (lw' & rw & bi & node & info & _ & _ & _ & _ & _ & _ & _ & EK) & _ & ->). rewrite EK. reflexivity.
    - apply nth_error_None in N. rewrite (C3 _ N) in I. discriminate I. }
  destruct (init_tracks d s HI SR v I F l r Hl Hr D t p P) as [A1 A2]. rewrite !signed_distance_R. auto.
Qed.
Print Assumptions C62_tracks_initially.

Lemma tri_of_stars {A : Arith} pts (d : dtriang (A:=A)) : tri_of pts = Ok d -> stars_right d.
Proof.
  intros H. injection H as <-. intros v Hv. cbn in Hv.
  destruct v as [|[|[|v]]]; [| | |lia]; cbn; (split;
    [repeat (constructor; [intros K; cbn in K; repeat (destruct K as [K|K]; [discriminate K|]); destruct K|]); constructor|]);
    intros t sd H; repeat (destruct H as [H|H]; [injection H as <- <-; reflexivity|]); destruct H.
Qed.
Example C62_tracks_case :
  (forall pts d, tri_of3 pts = Ok d -> stars_right d) /\
  exists d s, tri_of3 [(0, 0); (4, 0); (0, 3)]%R = Ok d /\ init_skeleton d = Ok s /\ stars_right d.
Proof.
  assert (K : forall pts d, tri_of3 pts = Ok d -> stars_right d).
  { intros [|p [|q [|r [|]]]] d H; try discriminate. apply (tri_of_stars _ _ H). }
  split; [exact K|].
  destruct (triangle_init_R (0, 0)%R (4, 0)%R (0, 3)%R) as (d & s & D & S); try (intros Q; injection Q; lra).
  exists d, s. split; [exact D|]. split; [exact S|]. apply (tri_of_stars _ _ D).
Qed.
