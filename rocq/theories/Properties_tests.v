(** C100: the checks that the tests make pass for every triangle, rectangle and square (exact reals) *)
From Coq Require Import Reals Lra.
From Verif Require Import Base Arith ArithR Calc CalcProofs VectorOps Line2d Line2dProofs Transform TransformProofs Primitives Collapse
  EventsLib EventLoop Initialize Check Main Properties_init RSquared Properties_regression TriExample TriStart TriRun TriGeom TriReal Properties_current
  Properties_checks Properties_triangle QuadExample RectStart RectRun RectLoop RectReal SquareRun SquareReal Properties_rect Properties_square
  Properties_location Properties_meet Properties_main.
Local Open Scope R_scope.
Local Existing Instance RA.

(** ** Specification *)

(** test_parallel.py 48-54, test_grassfire.py 396-402: for every vertex of the skeleton
    at_same_location((v.start_node, v), v.starts_at), and
    at_same_location((v.stop_node, v), v.stops_at) if it has ended and is not infinitely fast *)
Definition begins_well (s : state (A:=RA)) (v : nat) : Prop :=
  exists n (t : R), k_start_node (vs s v) = Some n /\ k_starts (vs s v) = Some t /\ at_same_location s [ANode n; AVertex v] t = Ok true.
Definition passes (s : state (A:=RA)) : Prop :=
  forall v, In v (sk_vertices s) ->
  begins_well s v /\ (k_stops (vs s v) = None \/ k_inf_fast (vs s v) = true \/ ends_well s v).
(** the numbers of vertices that have not stopped, and that have (test_parallel.py 44-47) *)
Definition unstopped (s : state (A:=RA)) : nat :=
  length (filter (fun v => match k_stops (vs s v) with None => true | Some _ => false end) (sk_vertices s)).

(** ** Vertices that go from node to node *)
Lemma close_refl p : close p p.
Proof. assert (0 < / 10^10) by (apply Rinv_0_lt_compat, pow_lt; lra). split; (replace (_ - _) with 0 by ring); rewrite Rabs_R0; lra. Qed.
Lemma exactly_at (s : state (A:=RA)) n v t p : position_at s v t = Ok p -> sn_pos (ns s n) = p -> at_same_location s [ANode n; AVertex v] t = Ok true.
Proof.
  intros P N. destruct (C98_meaning s [ANode n; AVertex v] t) as (_ & _ & M). destruct (M p [p]) as (b & Hb & Eb).
  { constructor; [symmetry; exact N|]. constructor; [exact P|constructor]. }
  rewrite Hb. f_equal. apply Eb. intros q [<-|[]]. apply close_refl.
Qed.
Lemma arrives_well s T v p e l m : 0 < T -> arrives s T v p e l m -> begins_well s v /\ (k_stops (vs s v) = None \/ k_inf_fast (vs s v) = true \/ ends_well s v).
Proof.
  intros TP [H1 H2 H3 H4 H5 H6 [H7 H8] (n & K1 & K2 & K3 & K4)]. split.
  - exists n, 0. split; [exact K1|]. split; [exact H2|]. eapply exactly_at; [apply H5|]. rewrite K3. unfold along. destruct p. cbn [fst snd]. f_equal; field; lra.
  - right. right. exists m, T. split; [exact H6|]. split; [exact H3|]. eapply exactly_at; [apply H5|]. rewrite H7. unfold along. destruct e. cbn [fst snd]. f_equal; field; lra.
Qed.
Lemma center_well s p0 p1 p2 v p l : 0 < inradius p0 p1 p2 -> sn_pos (ns s 3%nat) = incenter p0 p1 p2 -> ended_at_center p0 p1 p2 s v p l ->
  begins_well s v /\ (k_stops (vs s v) = None \/ k_inf_fast (vs s v) = true \/ ends_well s v).
Proof.
  intros TP C (H1 & H2 & H3 & _ & H5 & n & K1 & K2 & _ & K3 & _). split.
  - exists n, 0. split; [exact K1|]. split; [exact H3|]. eapply exactly_at; [apply H5|]. rewrite K3. unfold towards. destruct p. cbn [fst snd]. f_equal; field; lra.
  - right. right. exists 3%nat, (inradius p0 p1 p2). split; [exact K2|]. split; [exact H2|]. eapply exactly_at; [apply H5|]. rewrite C. unfold towards. destruct (incenter p0 p1 p2). cbn [fst snd]. f_equal; field; lra.
Qed.
Lemma fast_well s v (T : R) n : k_inf (vs s v) = false -> k_inf_fast (vs s v) = true -> k_starts (vs s v) = Some T -> k_start_node (vs s v) = Some n ->
  begins_well s v /\ (k_stops (vs s v) = None \/ k_inf_fast (vs s v) = true \/ ends_well s v).
Proof.
  intros I F S N. split; [|right; left; exact F]. exists n, T. split; [exact N|]. split; [exact S|].
  apply (exactly_at s n v T (sn_pos (ns s n))); [|reflexivity]. unfold position_at. rewrite I, F, N. reflexivity.
Qed.

Lemma peaked_passes s T p0 p1 p2 p3 c : 0 < T -> peaked s T p0 p1 p2 p3 c -> passes s /\ unstopped s = 0%nat.
Proof.
  intros TP [B1 B2 BN A0 A2 A4 A6]. unfold passes, unstopped. rewrite B1. split.
  - intros v [<-|[<-|[<-|[<-|[]]]]]; eapply arrives_well; eassumption.
  - cbn [filter]. rewrite (av_stops _ _ _ _ _ _ _ A0), (av_stops _ _ _ _ _ _ _ A2), (av_stops _ _ _ _ _ _ _ A4), (av_stops _ _ _ _ _ _ _ A6). reflexivity.
Qed.
Lemma built_passes s T p0 p1 p2 p3 e0 e1 e2 e3 g g' : 0 < T -> built s T p0 p1 p2 p3 e0 e1 e2 e3 g g' -> passes s /\ unstopped s = 0%nat.
Proof.
  intros TP [B1 B2 [m0 A0] [m2 A2] [m4 A4] [m6 A6] B7 BF B8 B9 (i & j & C1 & _)]. unfold passes, unstopped. rewrite B1. split.
  - intros v [<-|[<-|[<-|[<-|[<-|[]]]]]]; try (eapply arrives_well; eassumption). eapply fast_well; eassumption.
  - cbn [filter]. rewrite (av_stops _ _ _ _ _ _ _ A0), (av_stops _ _ _ _ _ _ _ A2), (av_stops _ _ _ _ _ _ _ A4), (av_stops _ _ _ _ _ _ _ A6), B9. reflexivity.
Qed.
Lemma center_passes s p0 p1 p2 : 0 < inradius p0 p1 p2 -> sk_vertices s = [0; 2; 4]%nat -> sn_pos (ns s 3%nat) = incenter p0 p1 p2 ->
  ended_at_center p0 p1 p2 s 0 p0 4 -> ended_at_center p0 p1 p2 s 2 p1 0 -> ended_at_center p0 p1 p2 s 4 p2 2 -> passes s /\ unstopped s = 0%nat.
Proof.
  intros TP B1 C A0 A2 A4. unfold passes, unstopped. rewrite B1. split.
  - intros v [<-|[<-|[<-|[]]]]; eapply center_well; eassumption.
  - destruct A0 as (_ & S0 & _), A2 as (_ & S2 & _), A4 as (_ & S4 & _). cbn [filter]. rewrite S0, S2, S4. reflexivity.
Qed.

(** ** Every triangle, rectangle and square *)
Theorem C100_triangle :
  forall (E : Env RA), true_orientation E -> forall p0 p1 p2 : R * R,
  in_square p0 -> in_square p1 -> in_square p2 -> orient p0 p1 p2 > / 10^8 ->
  exists s', calc_skel (tri_of (A:=RA)) [p0; p1; p2] false true = Ok (s', None) /\ passes s' /\ unstopped s' = 0%nat.
Proof.
  intros E TE p0 p1 p2 I0 I1 I2 K. destruct (any_run E TE p0 p1 p2 I0 I1 I2 K [p0; p1; p2] false None eq_refl) as (s' & H & Q1 & _ & _ & Q4 & _ & Q6 & Q7 & Q8).
  exists s'. split; [exact H|]. assert (E8 : 0 < / 10^8) by (apply Rinv_0_lt_compat, pow_lt; lra).
  destruct (incenter_ok p0 p1 p2 ltac:(lra)) as (RP & _). exact (center_passes s' p0 p1 p2 RP Q1 Q4 Q6 Q7 Q8).
Qed.
Print Assumptions C100_triangle.
Theorem C100_triangle_shrunk :
  forall (E : Env RA), true_orientation E -> forall (p0 p1 p2 : R * R) (d : R),
  (forall p q, In p [p0; p1; p2] -> In q [p0; p1; p2] -> fst p - fst q <= d /\ snd p - snd q <= d) ->
  orient p0 p1 p2 > d * d / 10^8 ->
  exists s' tr, calc_skel (tri_of (A:=RA)) [p0; p1; p2] true true = Ok (s', Some tr) /\ passes s' /\ unstopped s' = 0%nat.
Proof.
  intros E TE p0 p1 p2 d DD K. destruct (shrunk_triangle E TE p0 p1 p2 d DD K) as (s' & tr & c & r & H & _ & _ & q0 & q1 & q2 & Q1 & Q4 & RP & Q6 & Q7 & Q8).
  exists s', tr. split; [exact H|]. exact (center_passes s' q0 q1 q2 RP Q1 Q4 Q6 Q7 Q8).
Qed.
Print Assumptions C100_triangle_shrunk.

Theorem C100_rectangle :
  forall (E : Env RA), true_orientation E -> addr (A:=RA) 0 <> addr (A:=RA) 1 -> (0 < reclimit (A:=RA))%nat ->
  forall (long : bool) (p0 p1 p2 p3 : R * R), rectangle p0 p1 p2 p3 ->
  in_square p0 -> in_square p1 -> in_square p2 -> in_square p3 -> sides long (/ 10^10) p0 p1 p2 ->
  exists s', calc_skel (quad_of (A:=RA)) [p0; p1; p2; p3] false true = Ok (s', None) /\ passes s' /\ unstopped s' = 0%nat.
Proof.
  intros E TE AD RL long p0 p1 p2 p3 RE I0 I1 I2 I3 SD.
  destruct (rect_run E TE AD RL p0 p1 p2 p3 RE I0 I1 I2 I3 long [p0; p1; p2; p3] false None SD eq_refl) as (s' & a & b & T & g & g' & H & RG & GG & BT).
  exists s'. split; [exact H|]. eapply built_passes; [|exact BT]. unfold ridge_of, ridge in RG. destruct long; apply RG.
Qed.
Print Assumptions C100_rectangle.
Theorem C100_rectangle_shrunk :
  forall (E : Env RA), true_orientation E -> addr (A:=RA) 0 <> addr (A:=RA) 1 -> (0 < reclimit (A:=RA))%nat ->
  forall (long : bool) (p0 p1 p2 p3 : R * R) (d : R), rectangle p0 p1 p2 p3 ->
  (forall p q, In p [p0; p1; p2; p3] -> In q [p0; p1; p2; p3] -> fst p - fst q <= d /\ snd p - snd q <= d) ->
  sides long (d / 2 * / 10^10) p0 p1 p2 ->
  exists s' tr, calc_skel (quad_of (A:=RA)) [p0; p1; p2; p3] true true = Ok (s', Some tr) /\ passes s' /\ unstopped s' = 0%nat.
Proof.
  intros E TE AD RL long p0 p1 p2 p3 d RE DD SD.
  destruct (shrunk_rectangle E TE AD RL long p0 p1 p2 p3 d RE DD SD) as (s' & tr & a & b & r & rg & H & _ & _ & _ & T & z0 & z1 & z2 & z3 & e0 & e1 & e2 & e3 & g & g' & TP & BT).
  exists s', tr. split; [exact H|]. eapply built_passes; eassumption.
Qed.
Print Assumptions C100_rectangle_shrunk.

Theorem C100_square :
  forall (E : Env RA), true_orientation E -> addr (A:=RA) 0 <> addr (A:=RA) 1 -> (0 < reclimit (A:=RA))%nat ->
  forall p0 p1 p2 p3 : R * R, square p0 p1 p2 p3 ->
  in_square p0 -> in_square p1 -> in_square p2 -> in_square p3 -> span p0 p1 > 2 * / 10^10 ->
  exists s', calc_skel (quad_of (A:=RA)) [p0; p1; p2; p3] false true = Ok (s', None) /\ passes s' /\ unstopped s' = 0%nat.
Proof.
  intros E TE AD RL p0 p1 p2 p3 SQ I0 I1 I2 I3 L.
  destruct (square_runs E TE AD RL p0 p1 p2 p3 SQ I0 I1 I2 I3 [p0; p1; p2; p3] false None L eq_refl) as (s' & c & T & H & MD & PK).
  exists s'. split; [exact H|]. eapply peaked_passes; [apply MD|exact PK].
Qed.
Print Assumptions C100_square.
Theorem C100_square_shrunk :
  forall (E : Env RA), true_orientation E -> addr (A:=RA) 0 <> addr (A:=RA) 1 -> (0 < reclimit (A:=RA))%nat ->
  forall p0 p1 p2 p3 : R * R, square p0 p1 p2 p3 ->
  exists s' tr, calc_skel (quad_of (A:=RA)) [p0; p1; p2; p3] true true = Ok (s', Some tr) /\ passes s' /\ unstopped s' = 0%nat.
Proof.
  intros E TE AD RL p0 p1 p2 p3 SQ.
  destruct (shrunk_square E TE AD RL p0 p1 p2 p3 SQ) as (s' & tr & c & r & H & _ & _ & T & z0 & z1 & z2 & z3 & e & TP & PK).
  exists s', tr. split; [exact H|]. eapply peaked_passes; eassumption.
Qed.
Print Assumptions C100_square_shrunk.

(** *** Cases: the square of 30 by 30 far away, and the rectangle of 2 by 1 (C95_case) *)
Example C100_case_square : exists s' tr,
  (let E := exact_orientation in calc_skel (quad_of (A:=RA)) [(1000, 2000); (1030, 2000); (1030, 2030); (1000, 2030)] true true) = Ok (s', Some tr) /\
  passes s' /\ unstopped s' = 0%nat.
Proof.
  assert (S1 : span (1000, 2000) (1030, 2000) = 30) by (apply len_is; cbn; lra). assert (S2 : span (1030, 2000) (1030, 2030) = 30) by (apply len_is; cbn; lra).
  apply (C100_square_shrunk exact_orientation exact_orientation_true); [cbn; lia|cbn; lia|].
  split; [unfold rectangle, orient; cbn; lra|rewrite S1, S2; reflexivity].
Qed.
Example C100_case_rectangle : exists s',
  (let E := exact_orientation in calc_skel (quad_of (A:=RA)) [(0, 0); (2, 0); (2, 1); (0, 1)] false true) = Ok (s', None) /\ passes s' /\ unstopped s' = 0%nat.
Proof.
  destruct C95_case as (RE & I0 & I1 & I2 & I3 & SD & _ & TE & AD & RL).
  exact (C100_rectangle exact_orientation TE AD RL true _ _ _ _ RE I0 I1 I2 I3 SD).
Qed.
Example C100_case_triangle : exists s',
  (let E := exact_orientation in calc_skel (tri_of (A:=RA)) [(0, 0); (4/3, 0); (0, 1)] false true) = Ok (s', None) /\ passes s' /\ unstopped s' = 0%nat.
Proof.
  destruct C86_case as (I0 & I1 & I2 & K & _). exact (C100_triangle exact_orientation exact_orientation_true _ _ _ I0 I1 I2 K).
Qed.
