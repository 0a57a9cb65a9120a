(** C97: the skeleton of every square *)
From Coq Require Import Reals Lra.
From Verif Require Import Base Arith ArithR Calc CalcProofs VectorOps Line2d Line2dProofs Transform TransformProofs Primitives Collapse
  EventsLib EventLoop Initialize Main Properties_init RSquared Properties_regression TriExample TriStart TriRun TriGeom TriReal Properties_current
  Properties_checks Properties_triangle QuadExample RectStart RectRun RectLoop RectReal SquareRun SquareReal Properties_rect Properties_main.
Local Open Scope R_scope.
Local Existing Instance RA.

(** ** Specification *)

(** a square in any position, its corners given counterclockwise: all sides are equally long, and perpendicular *)
Definition square (p0 p1 p2 p3 : R * R) : Prop := rectangle p0 p1 p2 p3 /\ span p0 p1 = span p1 p2.
(** its middle, at the same distance [r] from all sides *)
Definition middle (p0 p1 p2 p3 c : R * R) (r : R) : Prop :=
  0 < r /\ inside_at r p0 p1 c /\ inside_at r p1 p2 c /\ inside_at r p2 p3 c /\ inside_at r p3 p0 c.
(** the line pieces: from each corner to the middle *)
Definition pyramid (p0 p1 p2 p3 c : R * R) : list (segment (A:=RA)) :=
  [((p0, c), (None, None)); ((p1, c), (None, None)); ((p2, c), (None, None)); ((p3, c), (None, None))].

(** the middle is where the diagonals cross, and it is half a side away from the sides: there is only one *)
Theorem C97_middle : forall p0 p1 p2 p3 c r, square p0 p1 p2 p3 ->
  (middle p0 p1 p2 p3 c r <-> c = ((fst p0 + fst p2) / 2, (snd p0 + snd p2) / 2) /\ r = span p0 p1 / 2).
Proof.
  intros p0 p1 p2 p3 c r [RE SQ].
  destruct (rectangle_frame p0 p1 p2 p3 RE) as (ca & cb & UN & H0 & H1 & H2 & H3). pose proof RE as (R1 & R2 & R3 & R4).
  destruct (orient_apart p0 p1 p2 R4) as (N01 & N12 & _). pose proof (span_pos p0 p1 N01) as WP.
  assert (S2 : span p2 p3 = span p0 p1).
  { apply Rsqr_inj; [apply span_nonneg|apply span_nonneg|]. unfold Rsqr. rewrite !span_sq. replace (fst p3 - fst p2) with (- (fst p1 - fst p0)) by lra.
    replace (snd p3 - snd p2) with (- (snd p1 - snd p0)) by lra. ring. }
  assert (S3 : span p3 p0 = span p1 p2).
  { apply Rsqr_inj; [apply span_nonneg|apply span_nonneg|]. unfold Rsqr. rewrite !span_sq. replace (fst p0 - fst p3) with (- (fst p2 - fst p1)) by lra.
    replace (snd p0 - snd p3) with (- (snd p2 - snd p1)) by lra. ring. }
  unfold middle, inside_at. rewrite S3, S2. rewrite <- SQ in *. set (w := span p0 p1) in *. set (X := fst p0) in *. set (Y := snd p0) in *. clearbody X Y w.
  rewrite H0, H1, H2, H3. unfold orient, q0, q1, q2, q3. cbn [fst snd]. clear H0 H1 H2 H3 S2 S3 R1 R2 R3 R4 N01 N12 RE SQ.
  assert (SR : forall a b, a = b * (ca * ca + cb * cb) -> a = b) by (intros a b ->; rewrite UN; ring).
  destruct c as [cx cy]. cbn [fst snd]. split.
  - intros (RP & A1 & A2 & A3 & A4).
    assert (B1 : ca * (cy - Y) - cb * (cx - X) = r) by (apply Rmult_eq_reg_l with w; [|lra]; lra).
    assert (B4 : ca * (cx - X) + cb * (cy - Y) = r).
    { apply Rmult_eq_reg_l with w; [|lra]. rewrite (Rmult_comm w r), <- A4. symmetry. apply SR. ring_simplify. nra. }
    assert (B3 : r = w - r).
    { apply Rmult_eq_reg_l with w; [|lra]. transitivity (r * w); [ring|]. rewrite <- A3, <- B1.
      transitivity (w * w * (ca * ca + cb * cb) - w * (ca * (cy - Y) - cb * (cx - X))); [ring|rewrite UN; ring]. }
    assert (RW : r = w / 2) by lra. split; [|exact RW]. rewrite RW in *.
    assert (CX : cx - X = w / 2 * (ca - cb)).
    { transitivity ((ca * ca + cb * cb) * (cx - X)); [rewrite UN; ring|].
      transitivity (ca * (ca * (cx - X) + cb * (cy - Y)) - cb * (ca * (cy - Y) - cb * (cx - X))); [ring|rewrite B1, B4; ring]. }
    assert (CY : cy - Y = w / 2 * (ca + cb)).
    { transitivity ((ca * ca + cb * cb) * (cy - Y)); [rewrite UN; ring|].
      transitivity (cb * (ca * (cx - X) + cb * (cy - Y)) + ca * (ca * (cy - Y) - cb * (cx - X))); [ring|rewrite B1, B4; ring]. }
    f_equal; lra.
  - intros [HC ->]. injection HC as -> ->. split; [lra|]. repeat split; apply SR; field.
Qed.
Print Assumptions C97_middle.

(** ** The run *)
Record peaked (s' : state (A:=RA)) (T : R) (p0 p1 p2 p3 c : R * R) : Prop := {
  pk_vertices : sk_vertices s' = [0; 2; 4; 6]%nat;
  pk_triangles : forall t, In t (sk_triangles s') -> t_stops (ts s' t) = Some T;
  pk_nodes : sk_nodes s' = [0; 1; 2; 3; 4]%nat;
  pk_0 : arrives s' T 0 p0 c 6 4;
  pk_2 : arrives s' T 2 p1 c 0 4;
  pk_4 : arrives s' T 4 p2 c 2 4;
  pk_6 : arrives s' T 6 p3 c 4 4 }.

Section AnySquare.
  Context (E : Env RA) (TE : true_orientation E) (AD : addr (A:=RA) 0 <> addr (A:=RA) 1) (RL : (0 < reclimit (A:=RA))%nat).
  Context (p0 p1 p2 p3 : R * R) (SQ : square p0 p1 p2 p3).
  Context (I0 : in_square p0) (I1 : in_square p1) (I2 : in_square p2) (I3 : in_square p3).
  Lemma square_runs (points : list (R * R)) (shrink : bool) (tr : option (transform (A:=RA))) : span p0 p1 > 2 * / 10^10 ->
    (if shrink then rbind (get_box (A:=RA) points) (fun box =>
                    rbind (rmapl (forward (get_transform box)) points) (fun pts => Ok (Some (get_transform box), pts)))
     else Ok (None, points)) = Ok (tr, [p0; p1; p2; p3]) ->
    exists s' c T, calc_skel (quad_of (A:=RA)) points shrink true = Ok (s', tr) /\ middle p0 p1 p2 p3 c T /\ peaked s' T p0 p1 p2 p3 c.
  Proof.
    intros SD SH. assert (E10 : 0 < / 10^10) by (apply Rinv_0_lt_compat, pow_lt; lra). pose proof SQ as [RE SS].
    destruct (rectangle_frame p0 p1 p2 p3 RE) as (ca & cb & UN & HP0 & HP1 & HP2 & HP3). rewrite <- SS in *.
    set (w := span p0 p1) in *. set (X := fst p0) in *. set (Y := snd p0) in *.
    set (T := w / 2). set (c := meet (q0 X Y) (d0 ca cb) T).
    assert (MID : middle p0 p1 p2 p3 c T).
    { apply (C97_middle p0 p1 p2 p3 c T SQ). split; [|reflexivity]. rewrite HP2. fold X Y. unfold c, T, meet, q0, q2, d0. cbn [fst snd]. f_equal; field. }
    clearbody X Y w. assert (WP : w > 2 / 10^10) by lra. assert (TP : 0 < T) by (unfold T; lra).
    destruct (reclimit (A:=RA)) as [|rl] eqn:HR; [lia|].
    destruct (square_all E TE AD rl HR ca cb X Y w UN WP) as (d & s & s1 & NS & tris & s' & HD & HI & HE & HL & CK & OC & TR & (P0 & P1 & P2 & P3) & (J0 & J1 & J2 & J3)).
    fold T in OC, HL. fold c in OC. rewrite <- HP0, <- HP1, <- HP2, <- HP3 in HD. rewrite <- HP0, <- HP1, <- HP2, <- HP3 in CK. specialize (CK I0 I1 I2 I3).
    exists s', c, T. split; [|split; [exact MID|]].
    - unfold calc_skel, calc_skel_with. destruct shrink.
      + apply rbind_ok in SH. destruct SH as (box & HB & SH). rewrite HB. cbn [rbind]. cbv zeta. apply rbind_ok in SH. destruct SH as (pts & HPT & SH).
        injection SH as <- ->. rewrite HPT. cbn [rbind]. rewrite HD. cbn [rbind]. rewrite HI. cbn [rbind fst snd].
        change (fst (internal_only_skeleton (s, None))) with (start_of true s). rewrite CK. cbn [rbind]. rewrite HE. cbn [rbind]. rewrite HL. reflexivity.
      + injection SH as <- ->. cbn [rbind]. rewrite HD. cbn [rbind]. rewrite HI. cbn [rbind].
        change (fst (internal_only_skeleton (s, None))) with (start_of true s). rewrite CK. cbn [rbind]. rewrite HE. cbn [rbind]. rewrite HL. reflexivity.
    - destruct OC as [O1 O2 O3 O4 O5 O6 O7 O8 OA].
      assert (N4 : ns s' 4%nat = mkNode (A:=RA) c 1 None) by (rewrite O4; reflexivity).
      assert (NN : forall n, (n < 4)%nat -> ns s' n = NS n).
      { intros n L. rewrite O4. destruct n as [|[|[|[|n]]]]; try reflexivity. lia. }
      constructor; [exact O1| |rewrite O3; reflexivity|..].
      + rewrite O2. intros t H. destruct TR as [-> | ->]; destruct H as [<-|[<-|[]]]; assumption.
      + rewrite HP0. eapply arm_arrives; [exact TP|apply OA; left; reflexivity|reflexivity|lia|rewrite NN by lia; assumption|rewrite NN by lia; assumption|rewrite N4; reflexivity|rewrite N4; reflexivity].
      + rewrite HP1. eapply arm_arrives; [exact TP|apply OA; right; left; reflexivity| |lia|rewrite NN by lia; assumption|rewrite NN by lia; assumption|rewrite N4; reflexivity|rewrite N4; reflexivity].
        unfold c, T, meet, q0, q1, d0, d1. cbn [fst snd]. f_equal; field.
      + rewrite HP2. eapply arm_arrives; [exact TP|apply OA; right; right; left; reflexivity| |lia|rewrite NN by lia; assumption|rewrite NN by lia; assumption|rewrite N4; reflexivity|rewrite N4; reflexivity].
        unfold c, T, meet, q0, q2, d0, d2. cbn [fst snd]. f_equal; field.
      + rewrite HP3. eapply arm_arrives; [exact TP|apply OA; right; right; right; left; reflexivity| |lia|rewrite NN by lia; assumption|rewrite NN by lia; assumption|rewrite N4; reflexivity|rewrite N4; reflexivity].
        unfold c, T, meet, q0, q3, d0, d3. cbn [fst snd]. f_equal; field.
  Qed.
End AnySquare.

Lemma pyramid_of (f : R * R -> R * R) back s' T p0 p1 p2 p3 c : back = Some f \/ (back = None /\ f = fun p => p) ->
  peaked s' T p0 p1 p2 p3 c -> segments (A:=RA) s' back = Ok (pyramid (f p0) (f p1) (f p2) (f p3) (f c)).
Proof.
  intros FB [B1 B2 BN A0 A2 A4 A6].
  assert (G : forall v p e l m, arrives s' T v p e l m -> segment_of (A:=RA) s' back v = Ok (Some ((f p, f e), (None, None)))).
  { intros v p e l m [H1 H2 H3 H4 H5 H6 [H7 H8] (n & K1 & K2 & K3 & K4)]. unfold segment_of, Primitives.start_of. rewrite H1, H3, H6, K1. cbn [onat_eqb].
    destruct (Nat.eqb_spec n m) as [->|_]; [destruct (K2 eq_refl)|]. cbn [rbind]. rewrite K3, K4, H7, H8. destruct FB as [->|[-> ->]]; reflexivity. }
  unfold segments. rewrite B1. cbn [rmapl]. rewrite (G _ _ _ _ _ A0), (G _ _ _ _ _ A2), (G _ _ _ _ _ A4), (G _ _ _ _ _ A6). reflexivity.
Qed.
Lemma peaked_ends s' T p0 p1 p2 p3 c : peaked s' T p0 p1 p2 p3 c -> all_end_at s' T.
Proof.
  intros [B1 B2 BN A0 A2 A4 A6]. split; [|exact B2]. rewrite B1.
  intros v [<-|[<-|[<-|[<-|[]]]]]; [apply A0|apply A2|apply A4|apply A6].
Qed.

(** ** Every square in the square -2 .. 2: four arcs from the corners to the middle, which end there in one and the same node *)
Theorem C97_square :
  forall (E : Env RA), true_orientation E -> addr (A:=RA) 0 <> addr (A:=RA) 1 -> (0 < reclimit (A:=RA))%nat ->
  forall p0 p1 p2 p3 : R * R, square p0 p1 p2 p3 ->
  in_square p0 -> in_square p1 -> in_square p2 -> in_square p3 -> span p0 p1 > 2 * / 10^10 ->
  exists s' c r, calc_skel (quad_of (A:=RA)) [p0; p1; p2; p3] false true = Ok (s', None) /\
    middle p0 p1 p2 p3 c r /\ segments s' None = Ok (pyramid p0 p1 p2 p3 c) /\ all_end_at s' r /\
    length (sk_nodes s') = 5%nat /\ (forall v w, In v (sk_vertices s') -> In w (sk_vertices s') -> k_stop_node (vs s' v) = k_stop_node (vs s' w)).
Proof.
  intros E TE AD RL p0 p1 p2 p3 SQ I0 I1 I2 I3 L.
  destruct (square_runs E TE AD RL p0 p1 p2 p3 SQ I0 I1 I2 I3 [p0; p1; p2; p3] false None L eq_refl) as (s' & c & T & H & MD & PK).
  exists s', c, T. split; [exact H|]. split; [exact MD|].
  split; [exact (pyramid_of (fun p => p) None s' T _ _ _ _ _ (or_intror (conj eq_refl eq_refl)) PK)|].
  split; [exact (peaked_ends _ _ _ _ _ _ _ PK)|]. destruct PK as [B1 B2 BN A0 A2 A4 A6]. split; [rewrite BN; reflexivity|].
  rewrite B1. assert (G : forall v, In v [0; 2; 4; 6]%nat -> k_stop_node (vs s' v) = Some 4%nat).
  { intros v [<-|[<-|[<-|[<-|[]]]]]; [apply A0|apply A2|apply A4|apply A6]. }
  intros v w Hv Hw. rewrite (G v Hv), (G w Hw). reflexivity.
Qed.
Print Assumptions C97_square.

(** The offsets: before [r], the four sides of the square whose corners went t/r of the way to the middle; then nothing *)
Definition offset_square (p0 p1 p2 p3 c : R * R) (r t : R) : list (offset (A:=RA)) :=
  let c0 := along r p0 c t in let c1 := along r p1 c t in let c2 := along r p2 c t in let c3 := along r p3 c t in
  if Rlt_dec t r then [mkOff c0 c3 t 0 6; mkOff c1 c0 t 2 0; mkOff c2 c1 t 4 2; mkOff c3 c2 t 6 4] else [].
Theorem C97_offsets :
  forall (E : Env RA), true_orientation E -> addr (A:=RA) 0 <> addr (A:=RA) 1 -> (0 < reclimit (A:=RA))%nat ->
  forall (p0 p1 p2 p3 c : R * R) r s' tr, square p0 p1 p2 p3 ->
  in_square p0 -> in_square p1 -> in_square p2 -> in_square p3 -> span p0 p1 > 2 * / 10^10 -> middle p0 p1 p2 p3 c r ->
  calc_skel (quad_of (A:=RA)) [p0; p1; p2; p3] false true = Ok (s', tr) ->
  forall (now : R) n, 0 <= now -> (0 < n)%nat ->
  calc_offsets s' now n = (flat_map (fun k => offset_square p0 p1 p2 p3 c r (INR k * (now / INR n))) (seq 0 n), None).
Proof.
  intros E TE AD RL p0 p1 p2 p3 c r s' tr SQ I0 I1 I2 I3 L MD H now n N0 NP.
  destruct (square_runs E TE AD RL p0 p1 p2 p3 SQ I0 I1 I2 I3 [p0; p1; p2; p3] false None L eq_refl) as (s2 & c' & T & H2 & MD' & PK).
  rewrite H in H2. injection H2 as <- _.
  apply (C97_middle _ _ _ _ _ _ SQ) in MD. apply (C97_middle _ _ _ _ _ _ SQ) in MD'. destruct MD as [MC MR]. destruct MD' as [MC' MR'].
  rewrite <- MC in MC'. rewrite <- MR in MR'. subst c' T. clear MC MR.
  assert (NR : 0 < INR n) by (apply lt_0_INR; exact NP).
  destruct PK as [B1 B2 BN A0 A2 A4 A6].
  assert (AT : forall t l, 0 <= t ->
     yields (fun tv => offset_at s' (fst tv) (snd tv)) ((t, 0%nat) :: (t, 2%nat) :: (t, 4%nat) :: (t, 6%nat) :: l) =
     (offset_square p0 p1 p2 p3 c r t ++ fst (yields (fun tv => offset_at s' (fst tv) (snd tv)) l),
      snd (yields (fun tv => offset_at s' (fst tv) (snd tv)) l))).
  { intros t l TP.
    assert (ONE : forall v p e l m q e' l' m', arrives s' r v p e l m -> arrives s' r l q e' l' m' ->
      offset_at (A:=RA) s' t v = Ok (if Rlt_dec t r then Some (mkOff (A:=RA) (along r p e t) (along r q e' t) t v l) else None)).
    { intros v p e w m q e' l' m' V W. unfold offset_at, started_at. rewrite (av_inf _ _ _ _ _ _ _ V), (av_starts _ _ _ _ _ _ _ V), (av_stops _ _ _ _ _ _ _ V). cbn [rbind is_none].
      assert (L0 : nleb (Arith:=RA) 0 t = true) by (apply Rleb_true; exact TP). rewrite L0. cbn [andb]. rewrite orb_false_r.
      destruct (Rlt_dec t r) as [L1|L1].
      - assert (L2 : nltb (Arith:=RA) t r = true) by (apply Rltb_true; exact L1). rewrite L2. rewrite (av_left _ _ _ _ _ _ _ V t TP L1). unfold offset_item.
        rewrite (av_path _ _ _ _ _ _ _ V t), (av_path _ _ _ _ _ _ _ W t). reflexivity.
      - assert (L2 : nltb (Arith:=RA) t r = false) by (apply Rltb_false; lra). rewrite L2. reflexivity. }
    cbn [yields fst snd]. rewrite (ONE _ _ _ _ _ _ _ _ _ A0 A6), (ONE _ _ _ _ _ _ _ _ _ A2 A0), (ONE _ _ _ _ _ _ _ _ _ A4 A2), (ONE _ _ _ _ _ _ _ _ _ A6 A4).
    unfold offset_square. cbv zeta. destruct (Rlt_dec t r); [reflexivity|]. apply surjective_pairing. }
  unfold calc_offsets. unfold pdiv. rewrite (RA_counts n) by lia. rewrite B1.
  assert (GO : forall inc l, 0 <= inc -> yields (fun tv => offset_at s' (fst tv) (snd tv)) (list_prod (map (fun k => INR k * inc) l) [0; 2; 4; 6]%nat) =
    (flat_map (fun k => offset_square p0 p1 p2 p3 c r (INR k * inc)) l, None)).
  { intros inc l IP. induction l as [|k l IH]; [reflexivity|]. cbn [map list_prod flat_map app]. rewrite AT.
    - rewrite IH. reflexivity.
    - apply Rmult_le_pos; [apply pos_INR|exact IP]. }
  rewrite <- (GO (now / INR n) (seq 0 n)).
  - f_equal. f_equal. apply map_ext. intros k. rewrite !nofnat_INR. reflexivity.
  - apply Rmult_le_pos; [exact N0|]. left. apply Rinv_0_lt_compat. exact NR.
Qed.
Print Assumptions C97_offsets.

(** ** Every square, of any size and anywhere, scaled to the square -1 .. 1 first: its sides are at least half as long as it extends in x and y,
    so nothing is asked of its size *)
Lemma shrunk_square :
  forall (E : Env RA), true_orientation E -> addr (A:=RA) 0 <> addr (A:=RA) 1 -> (0 < reclimit (A:=RA))%nat ->
  forall p0 p1 p2 p3 : R * R, square p0 p1 p2 p3 ->
  exists s' tr c r, calc_skel (quad_of (A:=RA)) [p0; p1; p2; p3] true true = Ok (s', Some tr) /\
    middle p0 p1 p2 p3 c r /\ segments s' (Some (backward tr)) = Ok (pyramid p0 p1 p2 p3 c) /\
    exists T z0 z1 z2 z3 e, 0 < T /\ peaked s' T z0 z1 z2 z3 e.
Proof.
  intros E TE AD RL p0 p1 p2 p3 SQ. assert (E10 : 0 < / 10^10) by (apply Rinv_0_lt_compat, pow_lt; lra). pose proof SQ as [RE SS].
  assert (KP : 0 < orient p0 p1 p2) by apply RE.
  destruct (get_box (A:=RA) [p0; p1; p2; p3]) as [box|] eqn:HB; [|discriminate].
  set (t := get_transform box). assert (TO : transform_of [p0; p1; p2; p3] t) by (exists box; auto).
  destruct (orient_apart p0 p1 p2 KP) as (N01 & _). assert (NC : ~ all_coincide [p0; p1; p2; p3]) by (intros H; apply N01, H; simpl; auto).
  destruct (transform_of_scale _ t TO NC) as [_ SP]. set (k := fst (tr_scale t)) in *.
  assert (FW : forall p, In p [p0; p1; p2; p3] -> exists q, forward t p = Ok q /\ backward t q = p /\ in_square q).
  { intros p Hp. destruct (round_trip _ t p TO NC) as [(q & Q1 & Q2) _]. exists q. split; [exact Q1|]. split; [exact Q2|].
    destruct (forward_square _ t p TO NC Hp) as (x & y & Q3 & Q4 & Q5). rewrite Q1 in Q3. injection Q3 as ->. split; cbn [fst snd]; lra. }
  destruct (FW p0) as (z0 & F0 & G0 & I0); [simpl; auto|]. destruct (FW p1) as (z1 & F1 & G1 & I1); [simpl; auto|].
  destruct (FW p2) as (z2 & F2 & G2 & I2); [simpl; auto|]. destruct (FW p3) as (z3 & F3 & G3 & I3); [simpl; auto|]. clear FW.
  assert (SIM : forall p q p' q' : R * R, forward t p = Ok p' -> forward t q = Ok q' -> fst p - fst q = k * (fst p' - fst q') /\ snd p - snd q = k * (snd p' - snd q')).
  { intros p q p' q'. apply (forward_similarity _ t p q p' q' TO NC). }
  assert (OR : forall p q r p' q' r' : R * R, forward t p = Ok p' -> forward t q = Ok q' -> forward t r = Ok r' -> orient p q r = k * k * orient p' q' r').
  { intros p q r p' q' r' Hp Hq Hr. destruct (SIM _ _ _ _ Hp Hq). destruct (SIM _ _ _ _ Hp Hr). apply scaled_orient; assumption. }
  assert (SN : forall p q p' q' : R * R, forward t p = Ok p' -> forward t q = Ok q' -> span p q = k * span p' q').
  { intros p q p' q' Hp Hq. destruct (SIM _ _ _ _ Hp Hq). apply scaled_span; assumption. }
  assert (RZ : rectangle z0 z1 z2 z3).
  { destruct RE as (R1 & R2 & R3 & R4). destruct (SIM _ _ _ _ F1 F0) as [A1 A2]. destruct (SIM _ _ _ _ F2 F3) as [B1 B2]. destruct (SIM _ _ _ _ F3 F0) as [C1 C2].
    rewrite A1, B1 in R1. rewrite A2, B2 in R2. rewrite A1, A2, C1, C2 in R3. rewrite (OR _ _ _ _ _ _ F0 F1 F2) in R4.
    split; [apply Rmult_eq_reg_l with k; lra|]. split; [apply Rmult_eq_reg_l with k; lra|]. split; [|assert (0 < k * k) by nra; nra].
    apply Rmult_eq_reg_l with (k * k); [|nra]. rewrite Rmult_0_r, <- R3. ring. }
  assert (SZ : square z0 z1 z2 z3).
  { split; [exact RZ|]. rewrite (SN _ _ _ _ F0 F1), (SN _ _ _ _ F1 F2) in SS. apply Rmult_eq_reg_l with k; lra. }
  (* the box touches -1 and 1, so two corners are at least 2 apart in x or in y, and no side is shorter than 1 *)
  assert (BIG : 1 <= span z0 z1).
  { destruct SZ as [_ SZ]. pose proof RZ as (R1 & R2 & _ & _).
    pose proof (span_nonneg z0 z1) as W0. pose proof (span_sq z0 z1) as Q1. pose proof (span_sq z1 z2) as Q2. rewrite <- SZ in Q2.
    set (w := span z0 z1) in *. assert (AX : forall u v : R, w * w = u * u + v * v -> - w <= u <= w /\ - w <= v <= w).
    { intros u v Q. split; split; nra. }
    destruct (AX _ _ Q1) as [X1 Y1]. destruct (AX _ _ Q2) as [X2 Y2].
    assert (DIST : forall p q, In p [z0; z1; z2; z3] -> In q [z0; z1; z2; z3] -> fst p - fst q <= 2 * w /\ snd p - snd q <= 2 * w).
    { intros p q [<-|[<-|[<-|[<-|[]]]]] [<-|[<-|[<-|[<-|[]]]]]; clear - W0 R1 R2 X1 Y1 X2 Y2; clearbody w; destruct z0, z1, z2, z3; cbn [fst snd] in *; lra. }
    assert (IMG : forall p, In p [p0; p1; p2; p3] -> forall q, forward t p = Ok q -> In q [z0; z1; z2; z3]).
    { intros p [<-|[<-|[<-|[<-|[]]]]] q Hq; [rewrite F0 in Hq|rewrite F1 in Hq|rewrite F2 in Hq|rewrite F3 in Hq]; injection Hq as <-; simpl; auto. }
    destruct (forward_touches _ t TO NC) as [(p & q & y & y' & Hp & Hq & Fp & Fq)|(p & q & x & x' & Hp & Hq & Fp & Fq)];
      destruct (DIST _ _ (IMG q Hq _ Fq) (IMG p Hp _ Fp)) as [D1 D2]; cbn [fst snd] in D1, D2; lra. }
  assert (E11 : / 10^10 < 1 / 4) by (apply Rmult_lt_reg_l with (10^10); [apply pow_lt; lra|]; rewrite Rinv_r; [cbn; lra|apply pow_nonzero; lra]).
  destruct (square_runs E TE AD RL z0 z1 z2 z3 SZ I0 I1 I2 I3 [p0; p1; p2; p3] true (Some t)) as (s' & c & T & H & MD & PK); [lra| |].
  { rewrite HB. cbn [rbind rmapl]. fold t. rewrite F0, F1, F2, F3. reflexivity. }
  pose proof (pyramid_of (backward t) (Some (backward t)) s' T _ _ _ _ _ (or_introl eq_refl) PK) as SG.
  exists s', t, (backward t c), (k * T). split; [exact H|]. split; [|split; [|do 6 eexists; split; [apply MD|exact PK]]].
  - assert (IA : forall p q p' q' : R * R, forward t p = Ok p' -> forward t q = Ok q' -> inside_at T p' q' c -> inside_at (k * T) p q (backward t c)).
    { intros p q p' q' Hp Hq HI. destruct (round_trip _ t c TO NC) as [_ FC]. unfold inside_at in *.
      rewrite (OR _ _ _ _ _ _ Hp Hq FC), HI, (SN _ _ _ _ Hp Hq). ring. }
    destruct MD as (RP & X1 & X2 & X3 & X4). split; [apply Rmult_lt_0_compat; assumption|]. repeat split; eapply IA; eassumption.
  - rewrite SG, G0, G1, G2, G3. reflexivity.
Qed.
Theorem C97_shrunk :
  forall (E : Env RA), true_orientation E -> addr (A:=RA) 0 <> addr (A:=RA) 1 -> (0 < reclimit (A:=RA))%nat ->
  forall p0 p1 p2 p3 : R * R, square p0 p1 p2 p3 ->
  exists s' tr c r, calc_skel (quad_of (A:=RA)) [p0; p1; p2; p3] true true = Ok (s', Some tr) /\
    middle p0 p1 p2 p3 c r /\ segments s' (Some (backward tr)) = Ok (pyramid p0 p1 p2 p3 c).
Proof.
  intros E TE AD RL p0 p1 p2 p3 SQ. destruct (shrunk_square E TE AD RL p0 p1 p2 p3 SQ) as (s' & tr & c & r & H1 & H2 & H3 & _). exists s', tr, c, r. auto.
Qed.
Print Assumptions C97_shrunk.

(** *** Cases: the square of 2 by 2, a tilted one, and one of 30 by 30 far away *)
Example C97_case : square (0, 0) (2, 0) (2, 2) (0, 2) /\ in_square (0, 0) /\ in_square (2, 0) /\ in_square (2, 2) /\ in_square (0, 2) /\
  span (0, 0) (2, 0) > 2 * / 10^10 /\ middle (0, 0) (2, 0) (2, 2) (0, 2) (1, 1) 1 /\
  true_orientation exact_orientation /\ (let E := exact_orientation in addr (A:=RA) 0 <> addr (A:=RA) 1 /\ (0 < reclimit (A:=RA))%nat).
Proof.
  assert (S1 : span (0, 0) (2, 0) = 2) by (apply len_is; cbn; lra). assert (S2 : span (2, 0) (2, 2) = 2) by (apply len_is; cbn; lra).
  assert (SQ : square (0, 0) (2, 0) (2, 2) (0, 2)) by (split; [unfold rectangle, orient; cbn; lra|rewrite S1, S2; reflexivity]).
  split; [exact SQ|]. do 4 (split; [unfold in_square; cbn; lra|]). split; [rewrite S1; cbn; lra|].
  split; [apply (C97_middle _ _ _ _ _ _ SQ); rewrite S1; cbn [fst snd]; split; [f_equal; lra|lra]|].
  split; [exact exact_orientation_true|]. cbn. split; [lia|lia].
Qed.
Example C97_case_tilted : square (0, 0) (6/5, 8/5) (-(2/5), 14/5) (-(8/5), 6/5) /\ middle (0, 0) (6/5, 8/5) (-(2/5), 14/5) (-(8/5), 6/5) (-(1/5), 7/5) 1.
Proof.
  assert (S1 : span (0, 0) (6/5, 8/5) = 2) by (apply len_is; cbn; lra). assert (S2 : span (6/5, 8/5) (-(2/5), 14/5) = 2) by (apply len_is; cbn; lra).
  assert (SQ : square (0, 0) (6/5, 8/5) (-(2/5), 14/5) (-(8/5), 6/5)) by (split; [unfold rectangle, orient; cbn; lra|rewrite S1, S2; reflexivity]).
  split; [exact SQ|]. apply (C97_middle _ _ _ _ _ _ SQ). rewrite S1. cbn [fst snd]. split; [f_equal; lra|lra].
Qed.
Example C97_case_result : exists s' tr,
  (let E := exact_orientation in calc_skel (quad_of (A:=RA)) [(1000, 2000); (1030, 2000); (1030, 2030); (1000, 2030)] true true) = Ok (s', Some tr) /\
  segments s' (Some (backward tr)) = Ok (pyramid (1000, 2000) (1030, 2000) (1030, 2030) (1000, 2030) (1015, 2015)).
Proof.
  assert (S1 : span (1000, 2000) (1030, 2000) = 30) by (apply len_is; cbn; lra). assert (S2 : span (1030, 2000) (1030, 2030) = 30) by (apply len_is; cbn; lra).
  assert (SQ : square (1000, 2000) (1030, 2000) (1030, 2030) (1000, 2030)) by (split; [unfold rectangle, orient; cbn; lra|rewrite S1, S2; reflexivity]).
  destruct (C97_shrunk exact_orientation exact_orientation_true) with (p0 := (1000, 2000)) (p1 := (1030, 2000)) (p2 := (1030, 2030)) (p3 := (1000, 2030))
    as (s' & tr & c & r & H & MD & SG); [cbn; lia|cbn; lia|exact SQ|].
  exists s', tr. split; [exact H|]. apply (C97_middle _ _ _ _ _ _ SQ) in MD. destruct MD as [-> _]. rewrite SG.
  do 2 f_equal; cbn [fst snd]; f_equal; lra || idtac.
Qed.
