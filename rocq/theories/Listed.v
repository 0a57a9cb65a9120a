(** The vertices that a run lists in the skeleton are kinetic vertices with a start node, never the infinite vertex
    (any arithmetic) *)
From Verif Require Import Base Arith Calc VectorOps Line2d Primitives Collapse EventsLib
  FlipEvent ParallelEvent EdgeEvent SplitEvent EventLoop Pass OpSpec StopSpec RunLoop RunBase Effects.
Local Open Scope nat_scope.

Section Listed.
  Context {A : Arith} {E : Env A}.
  Local Open Scope M_scope.
  Ltac peel H n s1 H1 := apply bind_ok in H; destruct H as (n & s1 & H1 & H).

  (** [v] is a kinetic vertex *)
  Definition fin (s : state) (v : nat) : Prop :=
    v < nv s /\ k_inf (vs s v) = false /\ is_some (k_start_node (vs s v)) = true /\ is_some (k_starts (vs s v)) = true.
  (** [v] is a kinetic vertex or an infinite vertex *)
  Definition known (s : state) (v : nat) : Prop := fin s v \/ k_inf (vs s v) = true.
  Record grow (s s' : state) : Prop := {
    gr_nv : nv s <= nv s';
    gr_fin : forall v, fin s v -> fin s' v;
    gr_inf : forall v, v < nv s -> k_inf (vs s' v) = k_inf (vs s v);
    gr_new : forall v, nv s <= v < nv s' -> fin s' v;
    gr_list : forall v, In v (sk_vertices s') -> In v (sk_vertices s) \/ fin s' v }.
  (** if the vertices [K] are kinetic vertices *)
  Definition lists (K : list nat) {X} (m : M X) : Prop :=
    forall s x s', (forall v, In v K -> fin s v) -> m s = Ok (x, s') -> grow s s'.

  Lemma grow_refl s : grow s s.
  Proof. constructor; auto. lia. Qed.
  Lemma grow_trans a b c : grow a b -> grow b c -> grow a c.
  Proof.
    intros [P1 P2 P3 P4 P5] [Q1 Q2 Q3 Q4 Q5]. constructor; [lia|auto| | |].
    - intros v H. rewrite Q3 by lia. auto.
    - intros v H. destruct (Nat.lt_ge_cases v (nv b)); [apply Q2, P4; lia|apply Q4; lia].
    - intros v H. apply Q5 in H. destruct H as [H|H]; [|auto]. apply P5 in H. destruct H; auto.
  Qed.
  Lemma fin_motion s s' v : nv s <= nv s' -> same_motion (vs s v) (vs s' v) -> fin s v -> fin s' v.
  Proof. intros N M (F1 & F2 & F3 & F4). unfold fin. rewrite (sm_inf _ _ M), (sm_start_node _ _ M), (sm_starts _ _ M). repeat split; auto; lia. Qed.

  (** an operation that makes no vertices and lists none *)
  Lemma grow_motion s s' : nv s' = nv s -> sk_vertices s' = sk_vertices s -> (forall v, same_motion (vs s v) (vs s' v)) -> grow s s'.
  Proof.
    intros N L M. constructor; [lia| | | |rewrite L; auto]; intros v H; [|apply (sm_inf _ _ (M v))|lia].
    apply (fin_motion s); [lia|apply M|exact H].
  Qed.

  Lemma lists_bind K {X Y} (m : M X) (k : X -> M Y) : lists K m -> (forall x, lists K (k x)) -> lists K (bind m k).
  Proof.
    intros H L s y s' F D. peel D x s1 D1. pose proof (H _ _ _ F D1) as G. eapply grow_trans; [exact G|].
    eapply L; [|exact D]. intros v Hv. apply G, F, Hv.
  Qed.
  Lemma lists_quiet K {X} (m : M X) : quiets m -> lists K m.
  Proof.
    intros H s x s' _ D. apply H in D. apply grow_motion; apply D.
  Qed.
  Lemma lists_ro K {X} (m : M X) : ro m -> lists K m.
  Proof. intros H. apply lists_quiet, quiets_ro, H. Qed.
  Lemma lists_whenM K b m : lists K m -> lists K (whenM b m).
  Proof. destruct b; simpl; auto. intros _. apply lists_ro. auto with ro. Qed.
  Lemma lists_forM K {X} (l : list X) f : (forall x, lists K (f x)) -> lists K (forM l f).
  Proof. intros H. induction l; simpl; [apply lists_ro; auto with ro|apply lists_bind; auto]. Qed.
  Lemma lists_stop K V step now pos : lists K (stop_and_register V step now pos).
  Proof.
    intros s n s' _ H. apply stop_and_register_spec in H. destruct H as (new & s1 & H & ->).
    apply stop_kvertices_spec in H. destruct H as (_ & _ & H). destruct new.
    - destruct H as (-> & p & f & -> & F & _). apply grow_motion; try reflexivity. intros v. cbn. rewrite F. unfold scanned.
      destruct (mem Nat.eqb v V); [|apply same_motion_refl]. destruct (_ && _)%bool; constructor; reflexivity.
    - destruct H as (f & -> & _ & F). apply grow_motion; try reflexivity. intros v. cbn. rewrite F.
      destruct (mem Nat.eqb v V); constructor; reflexivity.
  Qed.
  Lemma lists_stop_at K v n now : lists K (stop_at v n now).
  Proof.
    unfold stop_at. apply lists_bind; [|intros _]; intros s u s' _ H; apply modv_spec in H; destruct H as [_ ->];
      (apply grow_motion; try reflexivity); intros w; cbn;
      (destruct (Nat.eqb_spec v w) as [<-|N]; [rewrite upd_same; constructor; reflexivity|rewrite upd_other by auto; apply same_motion_refl]).
  Qed.
  Lemma lists_tstops K t now : lists K (set_tstops t now).
  Proof. intros s u s' _ H. injection H as _ <-. apply grow_motion; try reflexivity. intros v. apply same_motion_refl. Qed.
  Lemma lists_new K ul ur now n info int {Y} (k : nat -> M Y) : (forall v, lists (v :: K) (k v)) ->
    lists K (bind (compute_new_kvertex ul ur now n info int) k).
  Proof.
    intros L s y s' F D. peel D v s1 D1. apply newv_spec in D1. destruct D1 as (kv & HK & -> & ->).
    apply new_kvertex_fields in HK. destruct HK as (K1 & K2 & K3 & K4 & K5 & _).
    match goal with |- grow s s' => match type of D with k _ ?z = _ => set (s1 := z) in * end end.
    assert (NEW : fin s1 (nv s)).
    { split; [cbn; lia|]. cbn. rewrite upd_same, K1, K2, K4. auto. }
    assert (G : grow s s1).
    { constructor; [cbn; lia| | | |cbn; auto].
      - intros v (Q1 & Q2). split; [cbn; lia|]. cbn. rewrite upd_other by lia. exact Q2.
      - intros v L'. cbn. rewrite upd_other by lia. reflexivity.
      - intros v L'. cbn in L'. replace v with (nv s) by lia. exact NEW. }
    eapply grow_trans; [exact G|]. eapply L; [|exact D]. intros v [<-|Hv]; [exact NEW|apply G, F, Hv].
  Qed.
  Lemma lists_addv K v : In v K -> lists K (add_vertex v).
  Proof.
    intros I s u s' F H. injection H as _ <-. constructor; auto; [cbn; lia|].
    cbn. intros w H. apply in_app_iff in H. destruct H as [H|[<-|[]]]; [auto|]. right. apply (F _ I).
  Qed.

  Ltac prim := first
    [ apply lists_ro; solve [auto with ro] | apply lists_stop | apply lists_stop_at | apply lists_tstops | apply lists_addv; simpl; solve [auto]
    | apply lists_quiet; first [apply quiets_circ|apply quiets_wf|apply quiets_riq|apply quiets_sched|apply quiets_replace|apply quiets_relink
        |apply quiets_unlink|apply quiets_tiny|apply quiets_neighbour|apply quiets_flip|apply quiets_walk] ].
  Ltac li := repeat (cbv zeta; first
    [ apply lists_new; intros | prim | apply lists_bind; [|intros] | apply lists_whenM | apply lists_forM; intros
    | match goal with |- lists _ (match ?b with _ => _ end) => destruct b end ]).

  Lemma lists_even K t e p now step : lists K (handle_parallel_edge_event_even_legs t e p now step).
  Proof. unfold handle_parallel_edge_event_even_legs. li. Qed.
  Lemma lists_3tri K t e p now step : lists K (handle_parallel_edge_event_3tri t e p now step).
  Proof. unfold handle_parallel_edge_event_3tri. li. Qed.
  Lemma lists_even_at K t p now step : lists K (even_legs_at t p now step).
  Proof. unfold even_legs_at. li; apply lists_even. Qed.
  Lemma lists_isolated K t p now step : lists K (parallel_fan_isolated t p now step).
  Proof. unfold parallel_fan_isolated. li; first [apply lists_3tri|apply lists_even_at]. Qed.
  Lemma lists_flip_then K t0 t1 p now step : lists K (flip_then_even_legs t0 t1 p now step).
  Proof. unfold flip_then_even_legs. li; apply lists_even_at. Qed.
  Lemma lists_fan_of K rec fa fb kv now step : (forall K f p now d st, lists K (rec f p now d st)) ->
    lists K (parallel_fan_of rec fa fb kv now step).
  Proof. intros R. unfold parallel_fan_of. li; apply R. Qed.
  Lemma lists_shorter K rec t e p now step : (forall K f p now d st, lists K (rec f p now d st)) ->
    lists K (handle_parallel_edge_event_shorter_leg rec t e p now step).
  Proof. intros R. unfold handle_parallel_edge_event_shorter_leg. li; apply lists_fan_of, R. Qed.
  Lemma lists_fan fuel : forall K f p now d st, lists K (handle_parallel_fan fuel f p now d st).
  Proof.
    induction fuel as [|fuel IH]; intros; simpl; [li|]. destruct f; [li|].
    li; first [apply lists_fan_of, IH|apply lists_isolated|apply lists_even_at|apply lists_flip_then|apply lists_shorter, IH].
  Qed.
  Lemma lists_edge K evt step : lists K (handle_edge_event evt step).
  Proof. unfold handle_edge_event, handle_edge_event_with. li; apply lists_fan_of, lists_fan. Qed.
  Lemma lists_split K evt step : lists K (handle_split_event evt step).
  Proof. unfold handle_split_event, handle_split_event_with. li; apply lists_fan. Qed.
  Lemma lists_3sides K evt step : lists K (handle_edge_event_3sides evt step).
  Proof. unfold handle_edge_event_3sides. li. Qed.
  Lemma lists_1side K evt step : lists K (handle_edge_event_1side evt step).
  Proof. unfold handle_edge_event_1side. li. Qed.
  Lemma lists_flipe K evt : lists K (handle_flip_event evt).
  Proof. unfold handle_flip_event. li. Qed.
  Lemma lists_event K e step : lists K (handle_event e step).
  Proof. unfold handle_event. li; first [apply lists_edge|apply lists_split|apply lists_3sides|apply lists_1side|apply lists_flipe]. Qed.

  (** a run *)
  Theorem run_grow now0 tr0 s0 now tr s : steps now0 tr0 s0 now tr s -> grow s0 s.
  Proof.
    intros H. induction H as [|now tr s e now' s1 s' R IH T H]; [apply grow_refl|]. eapply grow_trans; [exact IH|].
    apply (grow_trans _ s1).
    - apply take_next_ok in T. destruct T as [(r & _ & _ & ->)|(r & _ & _ & _ & ->)];
        (apply grow_motion; try reflexivity; intros v; apply same_motion_refl).
    - eapply (lists_event []); [intros v []|exact H].
  Qed.
  Corollary grow_listed s s' : grow s s' -> (forall v, In v (sk_vertices s) -> fin s v) -> forall v, In v (sk_vertices s') -> fin s' v.
  Proof. intros G H v Hv. apply G in Hv. destruct Hv as [Hv|Hv]; [|exact Hv]. apply G, H, Hv. Qed.
  Corollary grow_known s s' : grow s s' -> (forall v, v < nv s -> known s v) -> forall v, v < nv s' -> known s' v.
  Proof.
    intros G H v Hv. destruct (Nat.lt_ge_cases v (nv s)) as [L|L]; [|left; apply (gr_new _ _ G); lia].
    destruct (H v L) as [K|K]; [left; apply G, K|right; rewrite (gr_inf _ _ G) by exact L; exact K].
  Qed.
End Listed.
