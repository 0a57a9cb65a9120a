(** Property theorems: the loop ends, no equal keys, fan walks (C30, C32, C43) *)
From Coq Require Import Permutation QArith.
From Verif Require Import Base Arith ArithQ Calc VectorOps Line2d Primitives Collapse CollapseProofs EventsLib
  FlipEvent ParallelEvent EdgeEvent SplitEvent EventLoop Pass OpSpec Order StopSpec RunBase RunTimed RunLoop
  Decent Total Fan FanProofs TotalRun Scenario ScenarioRun.

(** a state built from lists is shaped if its triangles are *)
Lemma st_shaped vl tl nl el wl q im : vl <> [] ->
  List.Forall (fun t => forall sd, get3 (t_v t) sd < length vl) tl ->
  List.Forall (fun t => forall sd n, get3 (t_n t) sd = Some n -> n < length tl) tl ->
  shaped (st vl tl nl el wl q im).
Proof.
  intros N V L. constructor.
  - intros t. apply (nth_all (fun t => forall sd, get3 (t_v t) sd < length vl)); [exact V|].
    destruct vl; [contradiction|]. intros []; simpl; lia.
  - intros t. apply (nth_all (fun t => forall sd n, get3 (t_n t) sd = Some n -> n < length tl)); [exact L|].
    intros []; discriminate.
Qed.
Ltac shape_list := repeat (apply List.Forall_cons; [intros []; simpl; try discriminate; try lia;
  intros n H; injection H as <-; lia|]); apply List.Forall_nil.
Lemma notch_shaped : shaped notch.
Proof. apply st_shaped; [discriminate| |]; shape_list. Qed.
Lemma quad_shaped : shaped quad.
Proof. apply st_shaped; [discriminate| |]; shape_list. Qed.

(** ** C30: no event is added that compares equal to one in the queue.
    [queue_add] is where the model would notice it. *)
Theorem C30_no_equal_keys :
  forall (A : Arith) (E : Env A), OrdArith A ->
  (forall t u : nat, addr t = addr u -> t = u) ->
  (forall s e, (queue_add e s = Err DuplicateKey <->
     exists x, In x (queue s) /\ compare_event_by_time (es s e) (es s x) = Eq)) /\
  forall s, fresh s -> shaped s ->
    init_event_list s <> Err DuplicateKey /\
    forall s0 now tr s' e now' s1 step, started s s0 -> reach s0 now tr s' ->
      take_next now s' = Ok ((e, now'), s1) -> handle_event e step s1 <> Err DuplicateKey.
Proof.
  intros A E O inj. split.
  - intros s e. unfold queue_add, bind, gets. cbn -[q_has q_add].
    destruct (q_has s e (queue s)) eqn:Q; unfold q_has in Q.
    + split; [intros _|reflexivity]. apply existsb_exists in Q. destruct Q as (x & Hx & K).
      exists x. split; [exact Hx|]. destruct (compare_event_by_time _ _); congruence.
    + split; [discriminate|]. intros (x & Hx & K). exfalso.
      assert (T : existsb (fun x => match compare_event_by_time (es s e) (es s x) with Eq => true | _ => false end) (queue s) = true).
      { apply existsb_exists. exists x. rewrite K. auto. }
      congruence.
  - intros s F S. split.
    + intros H. apply (init_err O inj) in H; [discriminate|exact F].
    + intros s0 now tr s' e now' s1 step St R T H.
      pose proof (reach_err O inj s s0 now tr s' e now' s1 _ F S St R T step H) as K. discriminate.
Qed.
Print Assumptions C30_no_equal_keys.

(** in the run of [notch] two triangles collapse at the same time: their events
    are both in the queue, one behind the other *)
Example C30_no_equal_keys_example :
  fresh notch /\ shaped notch /\
  exists s0 now tr s', started notch s0 /\ reach s0 now tr s' /\ length tr = 1 /\
  match queue s' with
  | [e; f] => Qeq_bool (ev_time (es s' e)) 2 && Qeq_bool (ev_time (es s' f)) 2
              && match compare_event_by_time (es s' e) (es s' f) with Lt => true | _ => false end
  | _ => false end = true.
Proof. split; [exact notch_fresh|]. split; [exact notch_shaped|]. apply (example_k 1 notch). vm_compute. reflexivity. Qed.

Lemma bind_err {A : Arith} {X Y} (m : M X) (k : X -> M Y) s e : bind m k s = Err e ->
  m s = Err e \/ exists x s', m s = Ok (x, s') /\ k x s' = Err e.
Proof. unfold bind. destruct (m s) as [[x s']|]; [right; eauto|left; congruence]. Qed.
Lemma rd_err {A : Arith} {X} (f : state -> res X) s e : rd f s = Err e -> f s = Err e.
Proof. unfold rd. destruct (f s); [discriminate|congruence]. Qed.

(** ** C32: whatever the arithmetic, the queue and the links *)
Theorem C32_event_loop_ends :
  forall (A : Arith) (E : Env A) (s : state), registered s -> shaped s ->
  let s0 := with_qi s (queue s) [] in
  match event_loop s with
  | Ok (now, s') => exists tr, reach s0 now tr s' /\ (Z.of_nat (length tr) <= 50000)%Z
  | Err x => x <> OutOfFuel /\
      (* a check at the start failed *)
      ((exists c, In c [check_bisectors s0 n0; check_active_triangles_orientation s0 n0] /\ c = Err x) \/
      exists now tr s', reach s0 now tr s' /\
      ((* 50000 events and more to do *)
       (Z.of_nat (length tr) = 50000)%Z /\ queue s' ++ immediate s' <> [] /\ x = ValueError \/
       (* the next event raises *)
       (Z.of_nat (length tr) < 50000)%Z /\ (exists e now1 s1, take_next now s' = Ok ((e, now1), s1) /\
          handle_event e (Z.of_nat (S (length tr))) s1 = Err x) \/
       (* all events are handled, and some internal triangle is not stopped *)
       (Z.of_nat (length tr) <= 50000)%Z /\ queue s' = [] /\ immediate s' = [] /\ x = ValueError /\
       exists t, In t (sk_triangles s') /\ t_stops (ts s' t) = None))
  end.
Proof.
  intros A E s RG SH s0.
  assert (M : Z.of_nat max_events = 50000%Z) by (unfold max_events; rewrite Z2Nat.id; lia).
  assert (R0 : registered s0) by (destruct RG; constructor; auto).
  assert (H0 : shaped s0) by (apply shaped_qi, SH).
  destruct (event_loop s) as [[now s']|x] eqn:EL.
  - unfold event_loop in EL.
    apply bind_ok in EL. destruct EL as ([] & s2 & K1 & K). injection K1 as <-.
    apply bind_ok in K. destruct K as ([] & s3 & K1 & K). apply rd_ok in K1. destruct K1 as [_ ->].
    apply bind_ok in K. destruct K as ([] & s3 & K1 & K). apply rd_ok in K1. destruct K1 as [_ ->].
    apply bind_ok in K. destruct K as (now1 & s3 & K1 & K).
    apply bind_ok in K. destruct K as (bad & s4 & K2 & K). apply gets_ok in K2. destruct K2 as [-> ->].
    destruct (not_stopped_tris s3) as [|]; [|discriminate]. apply ret_ok in K. destruct K as [-> ->].
    assert (K1' : loop max_events (Z.of_nat (length (@nil handled))) n0 s0 = Ok (now1, s3)) by exact K1.
    apply (loop_reach s0) in K1'; [|constructor].
    destruct K1' as (tr & R & L & _). exists tr. split; [exact R|lia].
  - unfold event_loop in EL.
    apply bind_err in EL. destruct EL as [EL|([] & s1' & K1 & EL)]; [discriminate|]. injection K1 as <-.
    change (mkSt _ _ _ _ _ _ _ _ _ _ _ _ _ _) with s0 in EL.
    assert (D : forall r e, In r [check_bisectors s0 n0; check_active_triangles_orientation s0 n0] ->
                r = Err e -> e <> OutOfFuel).
    { intros r e [<-|[<-|[]]] Hr ->; [apply pdec_check_bisectors in Hr|apply pdec_check_orient in Hr]; discriminate. }
    apply bind_err in EL. destruct EL as [EL|([] & s1' & K1 & EL)].
    { apply rd_err in EL. split; [apply (D _ _ (or_introl eq_refl) EL)|]. left. eexists. split; [left; reflexivity|exact EL]. }
    apply rd_ok in K1. destruct K1 as [_ ->].
    apply bind_err in EL. destruct EL as [EL|([] & s1' & K1 & EL)].
    { apply rd_err in EL. split; [apply (D _ _ (or_intror (or_introl eq_refl)) EL)|]. left.
      eexists. split; [right; left; reflexivity|exact EL]. }
    apply rd_ok in K1. destruct K1 as [_ ->].
    assert (OC := loop_outcome s0 max_events n0 [] s0 (reach_start n0 [] s0)).
    change (Z.of_nat (length [])) with 0%Z in OC.
    apply bind_err in EL. destruct EL as [EL|(now & s1 & K1 & EL)]; [rewrite EL in OC|rewrite K1 in OC]; swap 1 2.
    + inversion OC as [now' tr' s2 R L Q I K| |]; subst now' s2. rewrite app_nil_l in R.
      apply bind_err in EL. destruct EL as [EL|(bad & s2 & K2 & EL)]; [discriminate|]. apply gets_ok in K2. destruct K2 as [-> ->].
      destruct (not_stopped_tris s1) as [|t l] eqn:B; [discriminate|].
      injection EL as <-. split; [discriminate|]. right. exists now, tr', s1. split; [exact R|]. right. right.
      split; [lia|]. split; [exact Q|]. split; [exact I|]. split; [reflexivity|]. exists t.
      assert (G : In t (not_stopped_tris s1)) by (rewrite B; simpl; auto). unfold not_stopped_tris in G.
      apply filter_In in G. destruct G as [G1 G2]. apply andb_prop in G2. destruct G2 as [_ G2].
      destruct (t_stops (ts s1 t)); [discriminate|]. auto.
    + inversion OC as [|now' tr' s2 R L Q|now' tr' s2 e now1 s1 y R L T H]; subst.
      * split; [discriminate|]. right. exists now', tr', s2. split; [exact R|]. left. split; [lia|]. split; [exact Q|reflexivity].
      * rewrite app_nil_l in R, H. split.
        -- assert (SS := steps_shaped _ _ _ _ _ _ R0 H0 R). destruct (steps_base _ _ _ _ _ _ R0 R) as [RS _].
           assert (C : registered s1 /\ shaped s1).
           { apply take_next_ok in T. destruct T as [(r & _ & _ & ->)|(r & _ & _ & _ & ->)];
               (split; [destruct RS; constructor; auto|apply shaped_qi, SS]). }
           pose proof (fine_handle_event base_sound not_fuel not_fuel_py (fun t now s e _ => riq_not_fuel t now s e)
             e (Z.of_nat (S (length tr'))) s1 C) as F.
           unfold fine in F. rewrite H in F. intros ->. discriminate.
        -- right. exists now', tr', s2. split; [exact R|]. right. left. split; [lia|]. exists e, now1, s1. split; [exact T|exact H].
Qed.
Print Assumptions C32_event_loop_ends.

(** the fan walk, for any links between existing triangles *)
Theorem C32_fan_walk_ends :
  forall (A : Arith) (E : Env A) (s : state) t v newv now d,
  (forall t sd n, get3 (t_n (ts s t)) sd = Some n -> n < nt s) -> t < nt s -> v <> newv ->
  replace_kvertex t v newv now d s <> Err OutOfFuel /\
  (* the same result for any larger bound on the number of steps *)
  (forall fuel, S (3 * nt s) <= fuel ->
     replace_walk fuel (Some t) v newv now d s = replace_kvertex t v newv now d s) /\
  (* each corner at [v] is left at most once *)
  (forall fan s', replace_kvertex t v newv now d s = Ok (fan, s') ->
     forall u, count_occ Nat.eq_dec fan u <= length (filter (Nat.eqb v) (list3 (t_v (ts s u))))).
Proof.
  intros A E s t v newv now d L T N.
  assert (W : forall e, replace_walk (S (3 * nt s)) (Some t) v newv now d s = Err e -> not_fuel e = true).
  { apply walk_ends; auto; [intros n H; injection H as <-; exact T|]. pose proof (occ_le (ts s) v (nt s)). lia. }
  assert (U : replace_kvertex t v newv now d s = replace_walk (S (3 * nt s)) (Some t) v newv now d s) by reflexivity.
  rewrite U. split; [intros H; apply W in H; discriminate|]. split.
  - intros fuel F. apply walk_more; auto. intros e H -> . apply W in H. discriminate.
  - intros fan s' H u. apply walk_changes in H; auto. destruct H as (_ & H & _). specialize (H u).
    assert (K : corners v (ts s u) = length (filter (Nat.eqb v) (list3 (t_v (ts s u))))); [|lia].
    unfold corners, count3, list3. cbn [filter].
    destruct (Nat.eqb v (x0 (t_v (ts s u)))), (Nat.eqb v (x1 (t_v (ts s u)))), (Nat.eqb v (x2 (t_v (ts s u)))); reflexivity.
Qed.
Print Assumptions C32_fan_walk_ends.

(** a ring of three triangles around vertex 0, closed in itself behind the first:
    the walk leaves 0 at each triangle and then raises ValueError, because the
    triangle it comes back to has no corner 0 any more *)
Definition ring : state (A:=QA) :=
  st [mv (0, 0) (1, 1) 0 0 0; mv (4, 0) (-3, 1) 0 0 0; mv (0, 3) (1, -2) 0 0 0; mv (-4, 0) (1, 1) 0 0 0; mv (1, 1) (0, 1) 0 0 0]%Q
     [tr 0 1 2 (Some 2) (Some 1) (Some 2); tr 0 2 3 (Some 2) (Some 2) (Some 0); tr 0 3 1 (Some 0) (Some 1) (Some 1)]%nat
     [nd 0 0] [] [wf (0, 1) 0]%Q [] [].
Example C32_fan_walk_example :
  match replace_kvertex 0 0 4 0%Q ccw ring with Err ValueError => true | _ => false end = true /\
  match replace_kvertex 1 3 4 0%Q cw notch with Ok (fan, _) => Nat.eqb (length fan) 3 | _ => false end = true.
Proof. split; vm_compute; reflexivity. Qed.

(** get_fan (called nowhere): with consistent links it ends *)
Theorem C32_get_fan_ends :
  forall (A : Arith) (E : Env A) (s : state) t v d fuel,
  (forall t sd n, get3 (t_n (ts s t)) sd = Some n -> n < nt s) -> t < nt s -> nt s < fuel + 1 ->
  (* no triangle is entered from two triangles *)
  (forall a b i j w, get3 (t_v (ts s a)) i = v -> get3 (t_v (ts s b)) j = v ->
     get3 (t_n (ts s a)) (d i) = Some w -> get3 (t_n (ts s b)) (d j) = Some w -> a = b) ->
  get_fan fuel t v d s <> Err OutOfFuel /\
  (forall fan s', get_fan fuel t v d s = Ok (fan, s') -> s' = s /\ is_fan s v d (Some t) fan).
Proof.
  intros A E s t v d fuel L T F C. split.
  - intros H. apply (fan_walk_fuel s v d t L) with (path := []) in H; auto.
    + intros a b w Ha Hb. unfold next in *.
      destruct (vindex (ts s a) v) eqn:Va; [|discriminate]. destruct (vindex (ts s b) v) eqn:Vb; [|discriminate].
      apply vindex_get in Va, Vb. eapply C; eauto.
    + constructor; [simpl; tauto|constructor].
    + intros u l r K. destruct l; discriminate.
  - intros fan s' H. unfold get_fan in H. apply fan_walk_sound in H. exact H.
Qed.
Print Assumptions C32_get_fan_ends.
Example C32_get_fan_example :
  match get_fan 10 1 3 cw notch with Ok (fan, _) => Nat.eqb (length fan) 3 | _ => false end = true.
Proof. vm_compute; reflexivity. Qed.

(** [assert t is not start] does not prevent every infinite loop: from triangle 0
    of [rho] the walk goes to 1, 2, 1, 2, ... *)
Definition rho : state (A:=QA) :=
  st [mv (0, 0) (1, 1) 0 0 0; mv (4, 0) (-3, 1) 0 0 0; mv (0, 3) (1, -2) 0 0 0]%Q
     [tr 0 1 2 None (Some 1) None; tr 0 1 2 None (Some 2) None; tr 0 1 2 None (Some 1) None]%nat
     [nd 0 0] [] [wf (0, 1) 0]%Q [] [].
Theorem C32_get_fan_refuted :
  exists s : state (A:=QA), shaped s /\ forall fuel, get_fan fuel 0 0 ccw s = Err OutOfFuel.
Proof.
  exists rho. split; [apply st_shaped; [discriminate| |]; shape_list|].
  assert (H : forall fuel, fan_walk fuel 0 (Some 1) 0 ccw rho = Err OutOfFuel /\ fan_walk fuel 0 (Some 2) 0 ccw rho = Err OutOfFuel).
  { induction fuel as [|fuel [IH1 IH2]]; [split; reflexivity|]. split.
    - transitivity (match fan_walk fuel 0 (Some 2) 0 ccw rho with Ok (l, s') => Ok (1 :: l, s') | Err e => Err e end);
        [reflexivity|rewrite IH2; reflexivity].
    - transitivity (match fan_walk fuel 0 (Some 1) 0 ccw rho with Ok (l, s') => Ok (2 :: l, s') | Err e => Err e end);
        [reflexivity|rewrite IH1; reflexivity]. }
  intros [|fuel]; [reflexivity|]. unfold get_fan.
  transitivity (match fan_walk fuel 0 (Some 1) 0 ccw rho with Ok (l, s') => Ok (0 :: l, s') | Err e => Err e end);
    [reflexivity|]. destruct (H fuel) as [-> _]. reflexivity.
Qed.
Print Assumptions C32_get_fan_refuted.

(** ** C43 *)
Theorem C43_replace_kvertex :
  forall (A : Arith) (E : Env A) (s : state) t v newv now d fan s',
  v <> newv ->
  replace_kvertex t v newv now d s = Ok (fan, s') ->
  (* no visited triangle has [v] at two corners *)
  (forall u i j, In u fan -> get3 (t_v (ts s u)) i = v -> get3 (t_v (ts s u)) j = v -> i = j) ->
  NoDup fan /\ is_fan s v d (Some t) fan /\
  (forall u, In u fan -> exists i, get3 (t_v (ts s u)) i = v /\ t_v (ts s' u) = set3 (t_v (ts s u)) i newv) /\
  (forall u, ~ In u fan -> t_v (ts s' u) = t_v (ts s u)) /\
  (forall u, t_n (ts s' u) = t_n (ts s u)).
Proof.
  intros A E s t v newv now d fan s' N H C.
  unfold replace_kvertex in H. apply bind_ok in H. destruct H as (n & s1 & H1 & H). apply gets_ok in H1.
  destruct H1 as [-> ->]. apply walk_changes in H; auto. destruct H as (H1 & H2 & H3 & H4).
  assert (C1 : forall u, In u fan -> corners v (ts s u) <= 1).
  { intros u Hu. unfold corners, count3.
    pose proof (C u S0 S1 Hu) as A1. pose proof (C u S0 S2 Hu) as A2. pose proof (C u S1 S2 Hu) as A3. cbn in *.
    repeat match goal with |- context [Nat.eqb ?a ?b] => destruct (Nat.eqb_spec a b) end; try lia; exfalso;
      (discriminate A1; congruence) || (discriminate A2; congruence) || (discriminate A3; congruence). }
  assert (D : NoDup fan).
  { apply (NoDup_count_occ Nat.eq_dec). intros u. specialize (H2 u). specialize (C1 u).
    destruct (in_dec Nat.eq_dec u fan) as [K|K]; [specialize (C1 K); lia|].
    apply (count_occ_not_In Nat.eq_dec) in K. lia. }
  split; [exact D|]. split; [apply H4, C1|]. split; [|split; [|exact H1]].
  - intros u Hin. assert (Hu := Hin). apply (count_occ_In Nat.eq_dec) in Hu. specialize (H2 u). specialize (C1 u Hin).
    assert (K : exists i, get3 (t_v (ts s u)) i = v).
    { destruct (Nat.eq_dec (get3 (t_v (ts s u)) S0) v); [eauto|]. destruct (Nat.eq_dec (get3 (t_v (ts s u)) S1) v); [eauto|].
      destruct (Nat.eq_dec (get3 (t_v (ts s u)) S2) v); [eauto|]. exfalso.
      unfold corners, count3 in H2. cbn in *.
      repeat match goal with K : ?a <> v |- _ => rewrite (proj2 (Nat.eqb_neq v a)) in H2 by auto; clear K end. lia. }
    destruct K as [i Hi]. exists i. split; [exact Hi|].
    assert (Z : get3 (t_v (ts s' u)) i <> v) by (intros Z; apply corners_pos in Z; lia).
    assert (G : forall j, get3 (t_v (ts s' u)) j = get3 (set3 (t_v (ts s u)) i newv) j).
    { intros j. rewrite get_set3. destruct (side_eq_dec j i) as [->|Dj].
      - destruct (H3 u i) as [K|(_ & K & _)]; congruence.
      - destruct (H3 u j) as [K|(K & _)]; [exact K|]. exfalso. apply Dj. exact (C u j i Hin K Hi). }
    pose proof (G S0) as G0. pose proof (G S1) as G1. pose proof (G S2) as G2. cbn in G0, G1, G2.
    destruct (t_v (ts s' u)), (set3 (t_v (ts s u)) i newv). cbn in *. congruence.
  - intros u Hu. assert (G : forall j, get3 (t_v (ts s' u)) j = get3 (t_v (ts s u)) j).
    { intros j. destruct (H3 u j) as [K|(_ & _ & K)]; [exact K|contradiction]. }
    pose proof (G S0) as G0. pose proof (G S1) as G1. pose proof (G S2) as G2. cbn in G0, G1, G2.
    destruct (t_v (ts s' u)), (t_v (ts s u)). cbn in *. congruence.
Qed.
Print Assumptions C43_replace_kvertex.

(** the fan of vertex 3 of [notch] from triangle 1: all three triangles *)
Example C43_example :
  (forall u i j, In u [1; 0; 2] -> get3 (t_v (ts notch u)) i = 3 -> get3 (t_v (ts notch u)) j = 3 -> i = j) /\
  match replace_kvertex 1 3 4 0%Q cw notch with
  | Ok (fan, s') => match fan with [1; 0; 2] => true | _ => false end
      && forallb (fun t => negb (existsb (Nat.eqb 3) (list3 (t_v (ts s' t))))) [0; 1; 2]
  | Err _ => false end = true.
Proof.
  split; [|vm_compute; reflexivity].
  intros u [] [] [<-|[<-|[<-|[]]]]; cbn; congruence.
Qed.

(** A triangle with [v] at two corners is visited twice *)
Definition twice : state (A:=QA) :=
  st [mv (0, 0) (1, 1) 0 0 0; mv (4, 0) (-3, 1) 0 0 0; mv (0, 3) (1, -2) 0 0 0]%Q
     [tr 0 0 2 None (Some 0) None]%nat [nd 0 0] [] [wf (0, 1) 0]%Q [] [].
Theorem C43_distinct_refuted :
  exists (s : state (A:=QA)) fan s', shaped s /\ replace_kvertex 0 0 1 (0%Q : @num QA) ccw s = Ok (fan, s') /\ ~ NoDup fan.
Proof.
  assert (SH : shaped twice) by (apply st_shaped; [discriminate| |]; shape_list).
  destruct (replace_kvertex 0 0 1 (0%Q : @num QA) ccw twice) as [[fan s']|e] eqn:H.
  - exists twice, fan, s'. split; [exact SH|]. split; [exact H|].
    assert (K : match replace_kvertex 0 0 1 (0%Q : @num QA) ccw twice with Ok ([a; b], _) => Nat.eqb a b | _ => false end = true)
      by (vm_compute; reflexivity).
    rewrite H in K. clear H. destruct fan as [|a [|b [|]]]; try discriminate K. apply Nat.eqb_eq in K. subst b.
    intros D. apply NoDup_cons_iff in D. apply (proj1 D). simpl. auto.
  - exfalso. assert (K : is_ok (replace_kvertex 0 0 1 (0%Q : @num QA) ccw twice) = true) by (vm_compute; reflexivity).
    rewrite H in K. discriminate K.
Qed.
Print Assumptions C43_distinct_refuted.
