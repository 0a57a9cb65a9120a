(** C81: calc_skel(pause=True).  C82: the two functions check_direct of loop.py *)
From Coq Require Import Reals Lra Relations Permutation Sorted.
From Verif Require Import Base Arith ArithR ArithQ Calc CalcProofs VectorOps Line2d Line2dProofs Primitives Collapse CollapseProofs CollapseR
  EventsLib FlipEvent ParallelEvent EdgeEvent SplitEvent EventLoop Pass OpSpec Order StopSpec RunBase RunTimed RunLoop Bisect
  Decent Total TotalRun Scenario ScenarioRun Properties_loop RingSpec Initialize StarProofs InitProofs InitState InitCirc InitBisect InitChecks RSquared
  Properties_geometry Mesh MeshRun Properties_current Rings Properties_fronts Shared InitShared Main Properties_init TriExample InitMesh Properties_start
  InitRing Properties_ringstart Effects Properties_effects Properties_events Listed Output Properties_offsets Pause Properties_output Properties_main.
Local Close Scope Q_scope.
Local Open Scope nat_scope.

(** ** C81 *)
Section Steps.
  Context {A : Arith} {E : Env A}.
  Context (raw_input : Z -> num -> nat -> res answer) (paused_event : nat -> Z -> M (A:=A) unit).

  (** as long as the guard stops the loop before step 104700, the loop is the one without pause *)
  Lemma loop_pause_same : forall guard step now s, (step + Z.of_nat guard < STOP_AFTER)%Z ->
    match loop guard step now s with
    | Ok (now', s') => exists k, (step <= k <= step + Z.of_nat guard)%Z /\ loop_pause raw_input paused_event guard step now s = Ok ((now', k), s')
    | Err e => loop_pause raw_input paused_event guard step now s = Err e
    end.
  Proof.
    induction guard as [|guard IH]; intros step now s G.
    - cbn [loop loop_pause]. unfold bind, gets. destruct (immediate s), (queue s); try reflexivity. cbn. exists step. split; [lia|reflexivity].
    - set (X := bind (take_next now) (fun en => bind (handle_event (fst en) (step + 1)%Z) (fun _ => loop guard (step + 1)%Z (snd en)))).
      set (Y := bind (take_next now) (fun en => bind (if (STOP_AFTER <=? step + 1)%Z
              then bind (watch raw_input (fst en) (step + 1)%Z (snd en)) (fun _ => paused_event (fst en) (step + 1)%Z)
              else handle_event (fst en) (step + 1)%Z) (fun _ => loop_pause raw_input paused_event guard (step + 1)%Z (snd en)))).
      assert (L1 : loop (S guard) step now s = match immediate s, queue s with [], [] => Ok (now, s) | _, _ => X s end)
        by (subst X; cbn [loop]; unfold bind, gets, ret; destruct (immediate s), (queue s); reflexivity).
      assert (L2 : loop_pause raw_input paused_event (S guard) step now s = match immediate s, queue s with [], [] => Ok ((now, step), s) | _, _ => Y s end)
        by (subst Y; cbn [loop_pause]; unfold bind, gets, ret; destruct (immediate s), (queue s); reflexivity).
      rewrite L1, L2. clear L1 L2.
      assert (K : match X s with
        | Ok (now', s') => exists k, (step <= k <= step + Z.of_nat (S guard))%Z /\ Y s = Ok ((now', k), s')
        | Err e => Y s = Err e
        end).
      { subst X Y. replace (STOP_AFTER <=? step + 1)%Z with false by (symmetry; apply Z.leb_gt; lia).
        unfold bind. destruct (take_next now s) as [[[e n1] s1]|]; [|reflexivity]. cbn [fst snd].
        destruct (handle_event e (step + 1)%Z s1) as [[[] s2]|]; [|reflexivity].
        specialize (IH (step + 1)%Z n1 s2 ltac:(lia)). destruct (loop guard (step + 1)%Z n1 s2) as [[now' s']|]; [|exact IH].
        destruct IH as (k & L & IH). exists k. split; [lia|exact IH]. }
      destruct (immediate s), (queue s); try exact K. exists step. split; [lia|reflexivity].
  Qed.
End Steps.

(** the program never pauses inside the loop: the block for step >= 104700 (loop.py 307-353) is never executed, nor is any handler called with
    pause=True, for whatever these would do: the loop gives up after 50000 events.  Every arithmetic. *)
Theorem C81_never_inside :
  forall (A : Arith) (E : Env A) raw_input (paused_event : nat -> Z -> M unit) (s : state (A:=A)),
  match loop max_events 0 n0 s with
  | Ok (now, s') => exists k, (0 <= k <= 50000)%Z /\ loop_pause raw_input paused_event max_events 0 n0 s = Ok ((now, k), s')
  | Err e => loop_pause raw_input paused_event max_events 0 n0 s = Err e
  end.
Proof.
  intros A E ri pe s. assert (M50 : Z.of_nat max_events = 50000%Z) by (unfold max_events; rewrite Z2Nat.id; lia).
  pose proof (loop_pause_same ri pe max_events 0 n0 s) as K. rewrite M50 in K. apply K. reflexivity.
Qed.
Print Assumptions C81_never_inside.

Lemma bind_is {A : Arith} {X Y} (m : M (A:=A) X) (k : X -> M Y) s x s' : m s = Ok (x, s') -> bind m k s = k x s'.
Proof. intros H. unfold bind. rewrite H. reflexivity. Qed.
Lemma bind_err {A : Arith} {X Y} (m : M (A:=A) X) (k : X -> M Y) s e : m s = Err e -> bind m k s = Err e.
Proof. intros H. unfold bind. rewrite H. reflexivity. Qed.
Lemma bind_same {A : Arith} {X Y} (m : M (A:=A) X) (k k' : X -> M Y) s :
  (forall x s', m s = Ok (x, s') -> k x s' = k' x s') -> bind m k s = bind m k' s.
Proof. intros H. unfold bind. destruct (m s) as [[x s']|]; [apply H; reflexivity|reflexivity]. Qed.

Section Answers.
  Context {E : Env RA}.
  Context (inj : forall t u : nat, addr (A:=RA) t = addr (A:=RA) u -> t = u).
  Context (raw_input : Z -> R -> nat -> res answer) (answers : forall step now k, exists a, raw_input step now k = Ok a).

  Lemma interactive_fine (s0 : state (A:=RA)) (now : R) s q step x : fresh s0 -> run_state s0 now s ->
    interactive_visualize raw_input q s step x = Ok tt.
  Proof.
    intros FR RUN. pose proof (fun y => C80_visualize E inj s0 now s q y FR RUN) as V. unfold interactive_visualize.
    destruct (V x) as (p & -> & _). cbn [rbind]. destruct (answers step x 0) as [a ->]. cbn [rbind]. destruct a; [|reflexivity|reflexivity].
    destruct (V (n0 (A:=RA))) as (p0 & -> & _). cbn [rbind]. destruct (answers step x 1) as [a ->]. cbn [rbind]. destruct a; [reflexivity| |reflexivity].
    destruct (V (nsub (Arith:=RA) x (lit (Arith:=RA) (1#100)))) as (p1 & -> & _). cbn [rbind]. destruct (answers step x 2) as [a ->]. reflexivity.
  Qed.

  Lemma event_loop_pause_same paused_event (s0 s1 : state (A:=RA)) : fresh s0 -> outfit s0 -> init_event_list s0 = Ok (tt, s1) ->
    event_loop_pause raw_input paused_event s1 = event_loop s1.
  Proof.
    intros FR OF I. set (s2 := with_qi s1 (queue s1) []).
    assert (ST : started s0 s2) by (exists s1; auto).
    assert (RUN : run_state s0 (n0 (A:=RA)) s2) by (split; [exact OF|exists s2, []; split; [exact ST|constructor]]).
    assert (V : interactive_visualize raw_input (queue s1) s1 0 (n0 (A:=RA)) = Ok tt)
      by exact (interactive_fine s0 (n0 (A:=RA)) s2 (queue s1) 0%Z (n0 (A:=RA)) FR RUN).
    unfold event_loop_pause, event_loop. rewrite (bind_is _ _ s1 tt s1) by (unfold rd; rewrite V; reflexivity).
    rewrite !(bind_is (seti []) _ s1 tt s2) by reflexivity.
    apply bind_same. intros [] sa H. apply rd_ok in H. destruct H as [_ ->].
    apply bind_same. intros [] sa H. apply rd_ok in H. destruct H as [_ ->].
    pose proof (C81_never_inside RA E raw_input paused_event s2) as K.
    destruct (loop max_events 0 n0 s2) as [[now s3]|e] eqn:L; [|rewrite (bind_err _ _ s2 e K), (bind_err _ _ s2 e L); reflexivity].
    destruct K as (k & _ & K). rewrite (bind_is _ _ _ _ _ K), (bind_is _ _ _ _ _ L). cbn [fst snd].
    assert (L' : loop max_events (Z.of_nat (length (@nil (handled (A:=RA))))) (n0 (A:=RA)) s2 = Ok (now, s3)) by exact L.
    apply (loop_reach s2) in L'; [|constructor]. destruct L' as (tr & R3 & _ & _ & _).
    assert (RUN3 : run_state s0 now s3) by (split; [exact OF|exists s2, tr; auto]).
    destruct (C80_visualize E inj s0 now s3 (queue s3) now FR RUN3) as (p & V3 & _).
    rewrite (bind_is _ _ s3 p s3) by (unfold rd; rewrite V3; reflexivity).
    rewrite (bind_is _ _ s3 tt s3) by (unfold rd; rewrite (interactive_fine s0 now s3 (queue s3) k now FR RUN3); reflexivity). reflexivity.
  Qed.
End Answers.

(** with a raw_input that answers (Python 2), whatever the answers are, pausing changes nothing: none of the pictures raises, and calc_skel returns the
    same skeleton or raises the same exception.  Exact reals. *)
Theorem C81_same_result :
  forall (E : Env RA), (forall t u : nat, addr (A:=RA) t = addr (A:=RA) u -> t = u) ->
  forall (raw_input : Z -> R -> nat -> res answer) paused_event, (forall step now k, exists a, raw_input step now k = Ok a) ->
  forall triangulate (points : list (R * R)) shrink io,
  calc_skel_pause raw_input paused_event triangulate points shrink io = calc_skel (A:=RA) triangulate points shrink io.
Proof.
  intros E inj ri pe ANS tri points shrink io. unfold calc_skel_pause, calc_skel, calc_skel_with.
  destruct (if shrink then _ else _) as [[tr pts]|e]; [|reflexivity]. cbn [rbind].
  destruct (tri pts) as [d|e]; [|reflexivity]. cbn [rbind]. destruct (init_skeleton d) as [s0|e] eqn:HI; [|reflexivity]. cbn [rbind].
  cbv zeta. set (sk := if shrink then _ else _). assert (SK : fst sk = start_of io s0) by (subst sk; destruct shrink, io; reflexivity).
  rewrite SK. destruct (check_starts (start_of io s0)) as [[]|e]; [|reflexivity]. cbn [rbind].
  destruct (init_event_list (start_of io s0)) as [[[] s1]|e] eqn:I; [|reflexivity]. cbn [rbind].
  rewrite (event_loop_pause_same inj ri ANS pe (start_of io s0) s1); [reflexivity| | |exact I].
  - apply start_fresh, (init_fresh d s0 HI (nleb_refl RA_ord _)).
  - apply (C80_start RA d), HI.
Qed.
Print Assumptions C81_same_result.

(** without raw_input (Python 3, where reading the name raises) calc_skel(pause=True) never returns (every arithmetic) ... *)
Theorem C81_never_returns :
  forall (A : Arith) (E : Env A) (raw_input : Z -> num -> nat -> res answer) paused_event e, (forall step now k, raw_input step now k = Err e) ->
  forall triangulate (points : list pt) shrink io x, calc_skel_pause raw_input paused_event triangulate points shrink io <> Ok x.
Proof.
  intros A E ri pe e NO tri points shrink io x. unfold calc_skel_pause.
  destruct (if shrink then _ else _) as [[tr pts]|]; [|discriminate]. cbn [rbind].
  destruct (tri pts) as [d|]; [|discriminate]. cbn [rbind]. destruct (init_skeleton d) as [s0|]; [|discriminate]. cbn [rbind].
  cbv zeta. destruct (check_starts _) as [[]|]; [|discriminate]. cbn [rbind].
  destruct (init_event_list _) as [[[] s1]|]; [|discriminate]. cbn [rbind].
  unfold event_loop_pause. unfold bind at 1, rd at 1. unfold interactive_visualize. destruct (visualize _ _ _) as [p|]; [|discriminate]. cbn [rbind].
  rewrite NO. cbn [rbind]. discriminate.
Qed.
Print Assumptions C81_never_returns.

(** ... and when calc_skel would have returned, it is this exception that ends it (exact reals) *)
Theorem C81_name_error :
  forall (E : Env RA), (forall t u : nat, addr (A:=RA) t = addr (A:=RA) u -> t = u) ->
  forall (raw_input : Z -> R -> nat -> res answer) paused_event e, (forall step now k, raw_input step now k = Err e) ->
  forall triangulate (points : list (R * R)) shrink io x, calc_skel (A:=RA) triangulate points shrink io = Ok x ->
  calc_skel_pause raw_input paused_event triangulate points shrink io = Err e.
Proof.
  intros E inj ri pe e NO tri points shrink io x. unfold calc_skel_pause, calc_skel, calc_skel_with.
  destruct (if shrink then _ else _) as [[tr pts]|]; [|discriminate]. cbn [rbind].
  destruct (tri pts) as [d|]; [|discriminate]. cbn [rbind]. destruct (init_skeleton d) as [s0|] eqn:HI; [|discriminate]. cbn [rbind].
  cbv zeta. set (sk := if shrink then _ else _). assert (SK : fst sk = start_of io s0) by (subst sk; destruct shrink, io; reflexivity).
  rewrite SK. destruct (check_starts (start_of io s0)) as [[]|]; [|discriminate]. cbn [rbind].
  destruct (init_event_list (start_of io s0)) as [[[] s1]|] eqn:I; [|discriminate]. cbn [rbind]. intros _.
  set (s2 := with_qi s1 (queue s1) []).
  assert (FR : fresh (start_of io s0)) by apply start_fresh, (init_fresh d s0 HI (nleb_refl RA_ord _)).
  assert (RUN : run_state (start_of io s0) (n0 (A:=RA)) s2)
    by (split; [apply (C80_start RA d), HI|exists s2, []; split; [exists s1; auto|constructor]]).
  destruct (C80_visualize E inj _ _ s2 (queue s1) (n0 (A:=RA)) FR RUN) as (p & V & _).
  unfold event_loop_pause. unfold bind at 1, rd at 1. unfold interactive_visualize. change (visualize (queue s1) s1 n0) with (visualize (queue s1) s2 n0).
  rewrite V. cbn [rbind]. rewrite NO. reflexivity.
Qed.
Print Assumptions C81_name_error.

(** *** Cases *)
(** the right triangle, inside and outside: the user enters r, n, and anything: the same skeleton; and without raw_input *)
Definition user : Z -> Q -> nat -> res answer := fun _ _ k => Ok (match k with 0 => AnsR | 1 => AnsN | _ => AnsOther end).
Definition nobody {X} : Z -> Q -> nat -> res X := fun _ _ _ => Err KeyError.
Definition no_handler : nat -> Z -> M (A:=QA) unit := fun _ _ => raise NotImplementedError.
Example C81_same_result_case :
  match calc_skel_pause (A:=QA) user no_handler tri_of right_triangle true false, calc_skel (A:=QA) tri_of right_triangle true false with
  | Ok (s, _), Ok (s', _) => Nat.eqb (nv s) (nv s') && Nat.eqb (nn s) (nn s') && Nat.eqb (ne s) (ne s') && Nat.ltb 3 (nn s)
  | _, _ => false
  end = true.
Proof. vm_compute. reflexivity. Qed.
Example C81_name_error_case :
  match calc_skel_pause (A:=QA) nobody no_handler tri_of right_triangle true false, calc_skel (A:=QA) tri_of right_triangle true false with
  | Err KeyError, Ok _ => true
  | _, _ => false
  end = true.
Proof. vm_compute. reflexivity. Qed.
(** the loop itself, from the start of the notched polygon of Scenario: it handles more than one event *)
Example C81_never_inside_case :
  match bind init_event_list (fun _ => loop_pause (A:=QA) user no_handler max_events 0 (n0 (A:=QA))) notch with
  | Ok ((_, k), s) => (2 <=? k)%Z && (k <=? 50000)%Z && forallb (fun t => is_some (t_stops (ts s t))) (sk_triangles s)
  | Err _ => false
  end = true.
Proof. vm_compute. reflexivity. Qed.

(** ** C82 *)
(** *** Specification *)
(** triangle [n] is beside [t] and has an event at most 1e-10 away from [time] *)
Definition near_beside {A : Arith} (s : state (A:=A)) (time : num) (t n : nat) : Prop :=
  (exists i, get3 (t_n (ts s t)) i = Some n) /\ exists e, t_event (ts s n) = Some e /\ near_zero (nsub (ev_time (es s e)) time) = true.
(** one comes from [t] to [n] from triangle to triangle *)
Definition near_chain {A : Arith} (s : state (A:=A)) (time : num) : nat -> nat -> Prop := clos_refl_trans_1n nat (near_beside s time).

Lemma opt_nat_dec (x y : option nat) : {x = y} + {x <> y}.
Proof. decide equality. apply Nat.eq_dec. Defined.

Section Search.
  Context {A : Arith} {E : Env A}.
  Context (s : state (A:=A)) (time : @num A) (t0 : nat).
  Context (SH : forall t i n, get3 (t_n (ts s t)) i = Some n -> n < nt s).

  Definition near_event (n : nat) : Prop := exists e, t_event (ts s n) = Some e /\ near_zero (nsub (ev_time (es s e)) time) = true.
  (** what holds of the three lists; [now] is the part of the neighbours of the present triangle [t] that is still to come *)
  Record search_inv (seen visit also : list nat) (P : nat -> nat -> Prop) : Prop := {
    si_nodup : NoDup also;
    si_t0 : ~ In t0 also /\ In t0 seen;
    si_bound : forall n, In n also -> n < nt s;
    si_seen : forall n, In n seen -> n = t0 \/ In n also \/ ~ near_event n;
    si_also : forall n, In n also -> In n seen /\ near_chain s time t0 n;
    si_visit : forall n, In n visit -> n = t0 \/ In n also;
    si_done : forall t n, t = t0 \/ In t also -> In t visit \/ P t n \/ (near_beside s time t n -> n = t0 \/ In n also) }.

  Lemma chain_snoc t n m : near_chain s time t n -> near_beside s time n m -> near_chain s time t m.
  Proof.
    intros H K. unfold near_chain in *. apply clos_rt_rt1n. apply clos_rt1n_rt in H. eapply rt_trans; [exact H|apply rt_step, K].
  Qed.

  Lemma scan_inv t : forall l seen visit also seen' visit' also',
    (forall n, In (Some n) l -> exists i, get3 (t_n (ts s t)) i = Some n) ->
    near_chain s time t0 t ->
    search_inv seen visit also (fun u n => u = t /\ In (Some n) l) ->
    near_scan s time l seen visit also = (seen', visit', also') ->
    search_inv seen' visit' also' (fun _ _ => False) /\ exists add, also' = also ++ add /\ length visit' = length visit + length add.
  Proof.
    induction l as [|[n|] l IH]; intros seen visit also seen' visit' also' NB CH INV H.
    - cbn in H. injection H as <- <- <-. split.
      + destruct INV as [I1 I2 I3 I4 I5 I6 I7]. constructor; auto. intros u n U. destruct (I7 u n U) as [K|[[_ []]|K]]; auto.
      + exists []. rewrite app_nil_r. simpl. auto.
    - assert (NB' : forall m, In (Some m) l -> exists i, get3 (t_n (ts s t)) i = Some m) by (intros m Hm; apply NB; simpl; auto).
      assert (NT : exists i, get3 (t_n (ts s t)) i = Some n) by (apply NB; simpl; auto).
      cbn [near_scan] in H. destruct (t_event (ts s n)) as [e|] eqn:EV.
      2: { refine (IH _ _ _ _ _ _ NB' CH _ H). destruct INV as [I1 I2 I3 I4 I5 I6 I7]. constructor; auto.
           intros u m U. destruct (I7 u m U) as [K|[[-> [K|K]]|K]]; auto. injection K as <-. right; right. intros (_ & e & K & _). congruence. }
      destruct (existsb (Nat.eqb n) seen) eqn:SE.
      { refine (IH _ _ _ _ _ _ NB' CH _ H). apply existsb_exists in SE. destruct SE as (m & SE & Q). apply Nat.eqb_eq in Q. subst m.
        destruct INV as [I1 I2 I3 I4 I5 I6 I7]. constructor; auto.
        intros u m U. destruct (I7 u m U) as [K|[[-> [K|K]]|K]]; auto. injection K as <-. right; right. intros (_ & K).
        destruct (I4 n SE) as [Q|[Q|Q]]; auto. exfalso. apply Q, K. }
      assert (NS : ~ In n seen) by (intros K; rewrite (proj2 (existsb_exists (Nat.eqb n) seen)) in SE; [discriminate|exists n; split; [exact K|apply Nat.eqb_refl]]).
      destruct (near_zero _) eqn:NZ.
      + assert (NE : near_event n) by (exists e; auto).
        apply IH in H; auto.
        * destruct H as (H & add & -> & L). split; [exact H|]. exists (n :: add). rewrite <- app_assoc. split; [reflexivity|]. simpl in *. lia.
        * destruct INV as [I1 [I2 I2'] I3 I4 I5 I6 I7]. assert (NA : ~ In n also) by (intros K; apply NS, I5, K).
          assert (N0 : n <> t0) by (intros ->; auto). constructor.
          -- apply NoDup_Add with (a := n) (l := also); [|split; [exact I1|exact NA]]. rewrite <- (app_nil_r also) at 1. apply Add_app.
          -- split; [|simpl; auto]. rewrite in_app_iff. simpl. intuition congruence.
          -- intros m. rewrite in_app_iff. simpl. intros [K|[<-|[]]]; auto. destruct NT as [i NT]. eapply SH, NT.
          -- simpl. intros m [<-|K]; [rewrite in_app_iff; simpl; auto|]. rewrite in_app_iff. destruct (I4 m K) as [?|[?|?]]; auto.
          -- intros m. rewrite in_app_iff. simpl. intros [K|[<-|[]]].
             ++ destruct (I5 m K). auto.
             ++ split; [auto|]. apply (chain_snoc _ t); [exact CH|]. split; [exact NT|exact NE].
          -- simpl. intros m [<-|K]; rewrite in_app_iff; simpl; auto. destruct (I6 m K); auto.
          -- intros u m. rewrite !in_app_iff. simpl. intros U. destruct (Nat.eq_dec u n) as [->|UN]; [auto|].
             assert (U' : u = t0 \/ In u also) by intuition congruence.
             destruct (I7 u m U') as [K|[[-> [K|K]]|K]]; auto.
             ++ injection K as <-. right; right. auto.
             ++ right; right. intros Q. destruct (K Q); auto.
      + refine (IH _ _ _ _ _ _ NB' CH _ H). destruct INV as [I1 [I2 I2'] I3 I4 I5 I6 I7].
        assert (NE : ~ near_event n) by (intros (e' & K & Q); congruence). constructor; auto.
        * split; [exact I2|simpl; auto].
        * simpl. intros m [<-|K]; auto.
        * intros m K. destruct (I5 m K). simpl. auto.
        * intros u m U. destruct (I7 u m U) as [K|[[-> [K|K]]|K]]; auto. injection K as <-. right; right. intros (_ & K). contradiction.
    - cbn [near_scan] in H. refine (IH _ _ _ _ _ _ _ CH _ H); [intros m Hm; apply NB; simpl; auto|].
      destruct INV as [I1 I2 I3 I4 I5 I6 I7]. constructor; auto.
      intros u m U. destruct (I7 u m U) as [K|[[-> [K|K]]|K]]; auto. discriminate.
  Qed.

  Lemma search_ends : forall fuel seen visit also, search_inv seen visit also (fun _ _ => False) -> nt s + length visit <= fuel + length also ->
    exists l, near_search fuel s time seen visit also = Some l /\ NoDup l /\
      forall n, In n l <-> n <> t0 /\ near_chain s time t0 n.
  Proof.
    induction fuel as [|fuel IH]; intros seen visit also INV F.
    - assert (L : length also <= nt s).
      { rewrite <- (seq_length (nt s) 0). apply NoDup_incl_length; [apply INV|]. intros n Hn. apply in_seq. pose proof (si_bound _ _ _ _ INV n Hn). lia. }
      destruct visit as [|t visit]; [|simpl in F; lia]. 
      exists also. split; [reflexivity|]. split; [apply INV|]. intros n. split.
      + intros K. destruct (si_t0 _ _ _ _ INV) as [T0 _]. split; [intros ->; auto|]. apply (si_also _ _ _ _ INV n K).
      + intros [NE CH]. destruct INV as [I1 I2 I3 I4 I5 I6 I7].
        assert (G : forall t m, near_chain s time t m -> t = t0 \/ In t also -> m = t0 \/ In m also).
        { intros t m C. induction C as [|t u m ST C IHC]; [auto|]. intros U. apply IHC. destruct (I7 t u U) as [[]|[[]|K]]. auto. }
        destruct (G t0 n CH); auto. contradiction.
    - destruct visit as [|t visit].
      { exists also. split; [reflexivity|]. split; [apply INV|]. intros n. split.
        + intros K. destruct (si_t0 _ _ _ _ INV) as [T0 _]. split; [intros ->; auto|]. apply (si_also _ _ _ _ INV n K).
        + intros [NE CH]. destruct INV as [I1 I2 I3 I4 I5 I6 I7].
          assert (G : forall t m, near_chain s time t m -> t = t0 \/ In t also -> m = t0 \/ In m also).
          { intros t m C. induction C as [|t u m ST C IHC]; [auto|]. intros U. apply IHC. destruct (I7 t u U) as [[]|[[]|K]]. auto. }
          destruct (G t0 n CH); auto. contradiction. }
      cbn [near_search]. destruct (near_scan s time (list3 (t_n (ts s t))) seen visit also) as [[seen' visit'] also'] eqn:SC.
      apply (scan_inv t) in SC.
      + destruct SC as (INV' & add & -> & L). apply IH; [exact INV'|]. rewrite app_length. simpl in F. lia.
      + intros n K. simpl in K. destruct K as [K|[K|[K|[]]]]; [exists S0|exists S1|exists S2]; exact K.
      + destruct (si_visit _ _ _ _ INV t ltac:(simpl; auto)) as [->|K]; [constructor|apply (si_also _ _ _ _ INV t K)].
      + destruct INV as [I1 I2 I3 I4 I5 I6 I7]. constructor; auto.
        * intros n K. apply I6. simpl. auto.
        * intros u n U. destruct (I7 u n U) as [[<-|K]|[[]|K]]; auto.
          destruct (in_dec opt_nat_dec (Some n) (list3 (t_n (ts s t)))) as [K|K]; [auto|].
          right; right. intros ((i & Q) & _). exfalso. apply K. destruct i; simpl in *; rewrite <- Q; auto.
  Qed.
End Search.

(** in every state whose triangles have their neighbours among the triangles, the search ends and [also] holds, each once, exactly the other triangles
    to which one comes from triangle to triangle with events at the same time (up to 1e-10).  Every arithmetic. *)
Theorem C82_search :
  forall (A : Arith) (E : Env A) (s : state (A:=A)) e, (forall t i n, get3 (t_n (ts s t)) i = Some n -> n < nt s) ->
  exists l, also_now s e = Ok l /\ NoDup l /\
  forall n, In n l <-> n <> ev_tri (es s e) /\ near_chain s (ev_time (es s e)) (ev_tri (es s e)) n.
Proof.
  intros A E s e SH. unfold also_now.
  destruct (search_ends s (ev_time (es s e)) (ev_tri (es s e)) SH (S (nt s)) [ev_tri (es s e)] [ev_tri (es s e)] []) as (l & -> & K).
  - constructor; simpl; try contradiction; try (intuition; constructor). 
  - simpl. lia.
  - exists l. auto.
Qed.
Print Assumptions C82_search.

(** the events that check_direct compares: its own, and those of the triangles found *)
Definition in_group {A : Arith} (s : state (A:=A)) (e x : nat) : Prop :=
  x = e \/ exists n, n <> ev_tri (es s e) /\ near_chain s (ev_time (es s e)) (ev_tri (es s e)) n /\ t_event (ts s n) = Some x.
(** the two events flip sides of equal length *)
Definition equal_flips {A : Arith} {E : Env A} (s : state (A:=A)) (x y : nat) : Prop :=
  exists d d', flip_length s x = Ok d /\ flip_length s y = Ok d' /\ neqb d d' = true.

Section Choice.
  Context {A : Arith} {E : Env A} (OA : OrdArith A).
  Definition pair_ge (p q : @num A * nat) : Prop := nleb (fst q) (fst p) = true.
  Definition conflict (p q : @num A * nat) : Prop := neqb (fst p) (fst q) = true /\ snd p <> snd q.

  Lemma pair_gt_spec (p q : @num A * nat) :
    match pair_gt p q with
    | Ok true => pair_ge p q /\ nleb (fst p) (fst q) = false
    | Ok false => pair_ge q p /\ ~ conflict p q
    | Err e => e = TypeError /\ conflict p q
    end.
  Proof.
    unfold pair_gt, conflict, pair_ge. destruct (neqb (fst p) (fst q)) eqn:EQ.
    - pose proof EQ as EQ'. rewrite (oa_eqb A OA) in EQ'. apply andb_true_iff in EQ'. destruct (Nat.eqb (snd p) (snd q)) eqn:S.
      + apply Nat.eqb_eq in S. split; [apply EQ'|]. intros [_ K]. contradiction.
      + apply Nat.eqb_neq in S. auto.
    - rewrite (oa_ltb A OA). destruct (nleb (fst p) (fst q)) eqn:L; cbn.
      + split; [reflexivity|]. intros [K _]. discriminate.
      + split; [|reflexivity]. destruct (oa_total A OA (fst p) (fst q)); congruence.
  Qed.

  Lemma pair_ge_trans p q r : pair_ge p q -> pair_ge q r -> pair_ge p r.
  Proof. unfold pair_ge. intros H K. eapply (oa_trans A OA); eauto. Qed.

  Lemma insert_spec (p : @num A * nat) : forall l, StronglySorted pair_ge l ->
    match insert_desc p l with
    | Ok l' => Permutation (p :: l) l' /\ StronglySorted pair_ge l' /\ forall q, In q l -> ~ conflict p q
    | Err e => e = TypeError /\ exists q, In q l /\ conflict p q
    end.
  Proof.
    induction l as [|q r IH]; intros SS.
    - cbn. split; [reflexivity|]. split; [constructor; constructor|]. intros q [].
    - cbn [insert_desc]. pose proof (pair_gt_spec p q) as K. destruct (pair_gt p q) as [[|]|e]; cbn [rbind].
      + destruct K as [K1 K2]. split; [reflexivity|]. pose proof SS as SS'. apply StronglySorted_inv in SS'. destruct SS' as [_ F].
        rewrite Forall_forall in F. assert (G : forall x, In x (q :: r) -> pair_ge p x /\ nleb (fst p) (fst x) = false).
        { intros x [<-|X]; [auto|]. specialize (F x X). split; [eapply pair_ge_trans; eauto|].
          destruct (nleb (fst p) (fst x)) eqn:L; [|reflexivity]. unfold pair_ge in F. rewrite (oa_trans A OA _ _ _ L F) in K2. discriminate. }
        split; [constructor; [exact SS|apply Forall_forall; intros x X; apply G, X]|].
        intros x X [C _]. rewrite (oa_eqb A OA) in C. apply andb_true_iff in C. destruct (G x X). destruct C. congruence.
      + destruct K as [K1 K2]. apply StronglySorted_inv in SS. destruct SS as [SS F]. specialize (IH SS).
        destruct (insert_desc p r) as [r'|e]; cbn [rbind].
        * destruct IH as (P & S' & NC). split; [|split].
          -- eapply perm_trans; [apply perm_swap|apply perm_skip, P].
          -- constructor; [exact S'|]. rewrite Forall_forall in *. intros x X. apply (Permutation_in x (Permutation_sym P)) in X.
             destruct X as [<-|X]; auto.
          -- intros x [<-|X]; auto.
        * destruct IH as (-> & x & X & C). split; [reflexivity|]. exists x. simpl. auto.
      + destruct K as [-> C]. split; [reflexivity|]. exists q. simpl. auto.
  Qed.

  Lemma sort_spec : forall l : list (@num A * nat),
    match sort_desc l with
    | Ok l' => Permutation l l' /\ StronglySorted pair_ge l' /\ forall p q, In p l -> In q l -> ~ conflict p q
    | Err e => e = TypeError /\ exists p q, In p l /\ In q l /\ conflict p q
    end.
  Proof.
    induction l as [|p l IH]; [cbn; split; [reflexivity|split; [constructor|intros p q []]]|].
    cbn [sort_desc]. destruct (sort_desc l) as [l'|e]; cbn [rbind].
    - destruct IH as (P & S' & NC). pose proof (insert_spec p l' S') as K. destruct (insert_desc p l') as [l2|e].
      + destruct K as (P2 & S2 & NC2). split; [eapply perm_trans; [apply perm_skip, P|exact P2]|]. split; [exact S2|].
        assert (G : forall q, In q l -> ~ conflict p q) by (intros q Q; apply NC2; eapply Permutation_in; eauto).
        intros a b [<-|HA] [<-|HB]; auto.
        * intros [_ K]. contradiction.
        * intros [K1 K2]. apply (G a HA). split; [|congruence]. rewrite (oa_eqb A OA) in *. rewrite andb_comm. exact K1.
      + destruct K as (-> & q & Q & C). split; [reflexivity|]. exists p, q. split; [simpl; auto|]. split; [|exact C].
        right. eapply Permutation_in; [apply Permutation_sym|]; eauto.
    - destruct IH as (-> & a & b & HA & HB & C). split; [reflexivity|]. exists a, b. simpl. auto.
  Qed.
End Choice.

Lemma rmapl_pairs {A : Arith} {E : Env A} (s : state (A:=A)) : forall l, (forall x, In x l -> exists d, flip_length s x = Ok d) ->
  exists ps, rmapl (fun x => rbind (flip_length s x) (fun d => Ok (d, x))) l = Ok ps /\ length ps = length l /\
  forall d x, In (d, x) ps <-> In x l /\ flip_length s x = Ok d.
Proof.
  induction l as [|x l IH]; intros H.
  - exists []. split; [reflexivity|]. split; [reflexivity|]. simpl. tauto.
  - destruct (H x (or_introl eq_refl)) as [d D]. destruct IH as (ps & P & L & Q); [intros y Hy; apply H; simpl; auto|].
    exists ((d, x) :: ps). cbn [rmapl]. rewrite D. cbn [rbind]. rewrite P. cbn [rbind]. split; [reflexivity|]. split; [simpl; congruence|].
    intros d' y. simpl. rewrite Q. split.
    + intros [K|[K1 K2]]; [injection K as <- <-; auto|auto].
    + intros [[<-|K1] K2]; [left; congruence|auto].
Qed.

Lemma in_somes {X Y} (f : X -> option Y) l y : In y (somes (map f l)) <-> exists x, In x l /\ f x = Some y.
Proof.
  induction l as [|x l IH]; simpl; [split; [contradiction|intros (x & [] & _)]|].
  destruct (f x) as [z|] eqn:F; simpl; rewrite IH.
  - split.
    + intros [<-|(u & U & V)]; [exists x; auto|exists u; auto].
    + intros (u & [<-|U] & V); [left; congruence|right; exists u; auto].
  - split; [intros (u & U & V); exists u; auto|intros (u & [<-|U] & V); [congruence|exists u; auto]].
Qed.

(** what check_direct returns: its argument if one of the group is not a flip; if all are flips the one with the longest side, unless two of the group flip
    sides of equal length: then sorting raises a TypeError, for events cannot be compared *)
Theorem C82_choice :
  forall (A : Arith) (E : Env A), OrdArith A -> forall (s : state (A:=A)) e, (forall t i n, get3 (t_n (ts s t)) i = Some n -> n < nt s) ->
  ((exists x, in_group s e x /\ ev_tp (es s x) <> Flip) -> check_direct s e = Ok e) /\
  ((forall x, in_group s e x -> ev_tp (es s x) = Flip /\ exists d, flip_length s x = Ok d) ->
     ((exists x y, in_group s e x /\ in_group s e y /\ x <> y /\ equal_flips s x y) -> check_direct s e = Err TypeError) /\
     ((forall x y, in_group s e x -> in_group s e y -> equal_flips s x y -> x = y) ->
        exists x d, check_direct s e = Ok x /\ in_group s e x /\ flip_length s x = Ok d /\
        forall y d', in_group s e y -> flip_length s y = Ok d' -> nleb d' d = true)).
Proof.
  intros A E OA s e SH. destruct (C82_search A E s e SH) as (l & L & _ & IN).
  unfold check_direct. rewrite L. cbn [rbind]. cbv zeta. set (events := e :: _).
  assert (EV : forall x, In x events <-> in_group s e x).
  { intros x. subst events. simpl. rewrite in_somes. unfold in_group. split.
    - intros [<-|(n & N & T)]; [auto|]. apply IN in N. destruct N. right. exists n. auto.
    - intros [->|(n & N1 & N2 & T)]; [auto|]. right. exists n. split; [apply IN; auto|exact T]. }
  split.
  - intros (x & G & NF). apply EV in G.
    assert (K : forallb (fun x => evtype_eqb (ev_tp (es s x)) Flip) events = false).
    { apply not_true_iff_false. intros K. rewrite forallb_forall in K. specialize (K x G). destruct (ev_tp (es s x)); try discriminate. contradiction. }
    rewrite K. reflexivity.
  - intros ALL.
    assert (K : forallb (fun x => evtype_eqb (ev_tp (es s x)) Flip) events = true).
    { apply forallb_forall. intros x X. apply EV in X. destruct (ALL x X) as [-> _]. reflexivity. }
    rewrite K. destruct (rmapl_pairs s events) as (ps & P & LEN & Q); [intros x X; apply EV in X; apply ALL, X|].
    rewrite P. cbn [rbind]. pose proof (sort_spec OA ps) as SO. split.
    + intros (x & y & X & Y & NE & d & d' & D & D' & EQ). destruct (sort_desc ps) as [ps'|e']; cbn [rbind].
      * destruct SO as (_ & _ & NC). exfalso. apply (NC (d, x) (d', y)); [apply Q; rewrite EV; auto|apply Q; rewrite EV; auto|]. split; assumption.
      * destruct SO as [-> _]. reflexivity.
    + intros NEQ. destruct (sort_desc ps) as [ps'|e']; cbn [rbind].
      * destruct SO as (PE & SS & _). destruct ps' as [|[d x] ps'].
        { apply Permutation_length in PE. subst events. simpl in *. congruence. }
        exists x, d. split; [reflexivity|].
        assert (X : In (d, x) ps) by (apply (Permutation_in _ (Permutation_sym PE)); simpl; auto).
        apply Q in X. destruct X as [X1 X2]. split; [apply EV, X1|]. split; [exact X2|].
        intros y d' Y D'. assert (Y' : In (d', y) ps) by (apply Q; rewrite EV; auto). apply (Permutation_in _ PE) in Y'.
        apply StronglySorted_inv in SS. destruct SS as [_ F]. rewrite Forall_forall in F.
        destruct Y' as [Y'|Y']; [injection Y' as <- <-; apply (nleb_refl OA)|apply (F _ Y')].
      * destruct SO as (-> & [d x] & [d' y] & X & Y & C1 & C2). exfalso. apply Q in X. apply Q in Y. simpl in C1, C2. destruct X as [X1 X2], Y as [Y1 Y2].
        apply C2, NEQ; [apply EV, X1|apply EV, Y1|]. exists d, d'. auto.
Qed.
Print Assumptions C82_choice.

(** two neighbours that both have to flip the side between them, at one moment: the TypeError is certain (exact reals).  [i] and [j] are the sides of the two
    triangles; [v] and [w] the ends of the side. *)
Theorem C82_same_side :
  forall (E : Env RA) (s : state (A:=RA)) e x t n i j v w, (forall t i n, get3 (t_n (ts s t)) i = Some n -> n < nt s) ->
  ev_tri (es s e) = t -> ev_side (es s e) = [i] -> ev_tri (es s x) = n -> ev_side (es s x) = [j] -> t_event (ts s n) = Some x ->
  ev_time (es s x) = ev_time (es s e) -> t <> n -> e <> x ->
  get3 (t_n (ts s t)) i = Some n -> edge_segment (ts s t) i = (v, w) -> edge_segment (ts s n) j = (w, v) ->
  (forall y, in_group s e y -> ev_tp (es s y) = Flip /\ exists d, flip_length s y = Ok d) ->
  check_direct s e = Err TypeError.
Proof.
  intros E s e x t n i j v w SH T SI N SJ EV TM TN EX NB S1 S2 ALL.
  destruct (C82_choice RA E RA_ord s e SH) as [_ K]. destruct (K ALL) as [K1 _]. apply K1. exists e, x.
  assert (GX : in_group s e x).
  { right. exists n. rewrite T. split; [congruence|]. split; [|exact EV]. econstructor; [|constructor]. split; [exists i; exact NB|].
    exists x. split; [exact EV|]. rewrite TM. apply near_zero_R. ra_simp. rewrite Rminus_diag_eq by reflexivity. assert (0 < / 10 ^ 10)%R by (apply Rinv_0_lt_compat, pow_lt; lra). lra. }
  split; [left; reflexivity|]. split; [exact GX|]. split; [exact EX|].
  destruct (ALL e (or_introl eq_refl)) as (_ & d & D). destruct (ALL x GX) as (_ & d' & D').
  exists d, d'. split; [exact D|]. split; [exact D'|].
  unfold flip_length in D, D'. rewrite SI, T, S1 in D. rewrite SJ, N, S2, TM in D'. unfold distance2_at in D, D'.
  destruct (position_at s v (ev_time (es s e))) as [[a b]|]; [|destruct (position_at s w _) as [[? ?]|]; discriminate].
  destruct (position_at s w (ev_time (es s e))) as [[a' b']|]; [|discriminate]. cbn [rbind] in D, D'. injection D as <-. injection D' as <-.
  ra_simp. rb2p. ring.
Qed.
Print Assumptions C82_same_side.

(** *** Cases *)
(** a run from rectm (Properties_events): all three triangles have an event at one moment, and from the first one comes to the other two, in two steps to one *)
Example C82_search_case :
  match init_event_list rectm with
  | Ok (_, s) =>
      forallb (fun t => forallb (fun i => match get3 (t_n (ts s t)) i with Some n => Nat.ltb n (nt s) | None => true end) sides) (seq 0 (nt s)) &&
      match queue s with
      | e :: _ => match also_now s e with Ok [a; b] => Nat.eqb a 0 && Nat.eqb b 2 && Nat.eqb (ev_tri (es s e)) 1 | _ => false end
      | [] => false
      end
  | Err _ => false
  end = true.
Proof. vm_compute. reflexivity. Qed.
(** the same with three flips of the given sides at time [time] *)
Definition all_flips (s : state (A:=QA)) (time : Q) (sd : nat -> side) : state (A:=QA) :=
  mkSt (vs s) (nv s) (ts s) (nt s) (ns s) (nn s) (fun e => mkEv (A:=QA) time (ev_tri (es s e)) [sd (ev_tri (es s e))] Flip (ev_tritp (es s e))) (ne s) (wfs s)
    (sk_nodes s) (sk_vertices s) (sk_triangles s) (queue s) (immediate s).
Definition found (r : res nat) (x : nat) : bool := match r with Ok y => Nat.eqb x y | Err _ => false end.
Definition fails (r : res nat) : bool := match r with Err TypeError => true | _ => false end.
(** sides of different length: whichever event asks, the longest is chosen; no event but flips or not only flips *)
Example C82_choice_case :
  match init_event_list rectm with
  | Ok (_, s) =>
      let f := all_flips s (1#2) (fun _ => S2) in
      Nat.eqb (length (queue f)) 3 && forallb (fun e => found (check_direct f e) 0) (queue f) &&
      match flip_length f 0, flip_length f 1, flip_length f 2 with Ok a, Ok b, Ok c => Qle_bool b a && Qle_bool c a && negb (Qeq_bool b c) | _, _, _ => false end &&
      forallb (fun e => found (check_direct s e) e) (queue s)
  | Err _ => false
  end = true.
Proof. vm_compute. reflexivity. Qed.
(** triangles 0 and 1 both flip the side between them *)
Example C82_same_side_case :
  match init_event_list rectm with
  | Ok (_, s) =>
      let f := all_flips s (1#2) (fun t => match t with 1 => S1 | 0 => S0 | _ => S1 end) in
      let '(v, w) := edge_segment (ts f 0) S0 in let '(v', w') := edge_segment (ts f 1) S1 in
      Nat.eqb v w' && Nat.eqb w v' && forallb (fun e => fails (check_direct f e)) (queue f) &&
      forallb (fun e => match flip_length f e with Ok _ => true | Err _ => false end) (queue f)
  | Err _ => false
  end = true.
Proof. vm_compute. reflexivity. Qed.
(** in every state of a run of calc_skel the search ends and finds just these triangles *)
Theorem C82_in_runs :
  forall (A : Arith) (E : Env A) (s0 : state (A:=A)) now s e, run_state s0 now s ->
  exists l, also_now s e = Ok l /\ NoDup l /\
  forall n, In n l <-> n <> ev_tri (es s e) /\ near_chain s (ev_time (es s e)) (ev_tri (es s e)) n.
Proof.
  intros A E s0 now s e RUN. apply (C82_search A E s e). apply (C80_listed A E s0 now s) in RUN. destruct RUN as (_ & SH & _). apply (sh_n _ SH).
Qed.
Print Assumptions C82_in_runs.
Example C82_in_runs_case :
  exists s0 s1 now tr s, init_skeleton quad_dt = Ok s0 /\ started (start_of true s0) s1 /\ reach s1 now tr s /\ length tr = 1 /\
  run_state (start_of true s0) now s.
Proof.
  destruct C80_listed_case as (s0 & s1 & now & tr & s & HI & ST & R & L & _). exists s0, s1, now, tr, s. repeat (split; [assumption|]).
  split; [apply (C80_start QA quad_dt), HI|exists s1, tr; auto].
Qed.
