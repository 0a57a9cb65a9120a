(** C86: the skeleton of every triangle *)
From Coq Require Import Reals Lra.
From Verif Require Import Base Arith ArithR Calc CalcProofs VectorOps Line2d Line2dProofs Transform TransformProofs Primitives Collapse
  EventsLib EventLoop Initialize Main Properties_init RSquared Properties_regression TriExample TriStart TriRun TriGeom TriReal Properties_current
  Properties_checks Properties_main.
Local Open Scope R_scope.
Local Existing Instance RA.

(** ** Specification *)

(** twice the signed area of the triangle, the length of a side and the incircle are
    [orient], [span] and [incircle] (Line2dProofs.v, TriGeom.v):
    incircle p q s c r = the distance of [c] to the left of each side is [r] > 0.
    There is only one such circle. *)
Theorem C86_incircle_unique : forall p q s c r c' r', 0 < orient p q s ->
  incircle p q s c r -> incircle p q s c' r' -> c = c' /\ r = r'.
Proof. exact incircle_unique. Qed.
Print Assumptions C86_incircle_unique.

Definition in_square (p : R * R) : Prop := -2 <= fst p <= 2 /\ -2 <= snd p <= 2.
(** three line pieces from the corners to [c], without infos *)
Definition arms (p q s c : R * R) : list (segment (A:=RA)) :=
  [((p, c), (None, None)); ((q, c), (None, None)); ((s, c), (None, None))].

(** ** The run *)
Lemma span_square p q : in_square p -> in_square q -> span p q <= 6.
Proof.
  intros ([] & []) ([] & []). apply Rsqr_incr_0; [|apply span_nonneg|lra]. unfold Rsqr. rewrite span_sq. nra.
Qed.
Lemma thick p q s : in_square p -> in_square q -> in_square s -> orient p q s > / 10^8 ->
  orient p q s > / 10^10 * (span p q * span q s).
Proof.
  intros P Q S' K. pose proof (span_square p q P Q) as A. pose proof (span_square q s Q S') as B.
  pose proof (span_nonneg p q) as A0. pose proof (span_nonneg q s) as B0.
  assert (span p q * span q s <= 36) by nra. cbn in *. lra.
Qed.
Lemma thick_radius p q s : in_square p -> in_square q -> in_square s -> orient p q s > / 10^8 -> inradius p q s > / 10^10.
Proof.
  intros P Q S' K. assert (E : 0 < / 10^8) by (apply Rinv_0_lt_compat, pow_lt; lra).
  pose proof (perimeter_pos p q s ltac:(lra)) as PP. unfold inradius.
  apply (Rmult_lt_reg_r (perimeter p q s)); [exact PP|]. replace (orient p q s / perimeter p q s * perimeter p q s) with (orient p q s) by (field; lra).
  assert (perimeter p q s <= 18) by (unfold perimeter; pose proof (span_square p q P Q); pose proof (span_square q s Q S'); pose proof (span_square s p S' P); lra).
  cbn in *. nra.
Qed.
Lemma range_R x : -2 <= x <= 2 -> in_range (A:=RA) x = true.
Proof.
  intros [H1 H2]. unfold in_range. apply andb_true_iff. ra_simp. qlit. split; apply Rleb_true; lra.
Qed.

Section Any.
  Context (E : Env RA) (TE : true_orientation E) (p0 p1 p2 : R * R).
  Context (I0 : in_square p0) (I1 : in_square p1) (I2 : in_square p2) (K : orient p0 p1 p2 > / 10^8).
  Let T := inradius p0 p1 p2.
  Let c := incenter p0 p1 p2.
  Lemma any_run (points : list (R * R)) (shrink : bool) (tr : option (transform (A:=RA))) :
    (if shrink then rbind (get_box (A:=RA) points) (fun box =>
                    rbind (rmapl (forward (get_transform box)) points) (fun pts => Ok (Some (get_transform box), pts)))
     else Ok (None, points)) = Ok (tr, [p0; p1; p2]) ->
    exists s', calc_skel (tri_of (A:=RA)) points shrink true = Ok (s', tr) /\
      sk_vertices s' = [0; 2; 4]%nat /\ sk_triangles s' = [0]%nat /\ t_stops (ts s' 0%nat) = Some T /\ sn_pos (ns s' 3%nat) = c /\ sn_info (ns s' 3%nat) = None /\
      ended_at_center p0 p1 p2 s' 0 p0 4 /\ ended_at_center p0 p1 p2 s' 2 p1 0 /\ ended_at_center p0 p1 p2 s' 4 p2 2.
  Proof.
    intros SH. assert (E8 : 0 < / 10^8) by (apply Rinv_0_lt_compat, pow_lt; lra).
    assert (K1 : orient p1 p2 p0 = orient p0 p1 p2) by apply orient_turn.
    assert (K2 : orient p2 p0 p1 = orient p0 p1 p2) by (rewrite orient_turn; apply orient_turn).
    destruct (triangle_run E TE p0 p1 p2 ltac:(lra)) as (d & s & s1 & s' & HD & HI & HE & HL & (J1 & J2 & J3 & J4 & J5 & J6) & SV & (M1 & M2 & M3) & Q1 & Q2 & _ & Q3 & Q4 & Q5 & Q6 & Q7 & Q8).
    { rewrite <- K2. apply thick; try assumption. rewrite K2. exact K. }
    { apply thick; assumption. }
    { rewrite <- K1. apply thick; try assumption. rewrite K1. exact K. }
    { apply thick_radius; assumption. }
    exists s'. split; [|repeat (split; [assumption|]); assumption].
    assert (CK : check_starts (start_of true s) = Ok tt).
    { unfold check_starts. rewrite SV. cbn [rmapl]. unfold check_start. rewrite J1, J2, J3, J4, J5, J6, M1, M2, M3.
      destruct I0, I1, I2. rewrite !range_R by assumption. reflexivity. }
    unfold calc_skel, calc_skel_with. destruct shrink.
    - apply rbind_ok in SH. destruct SH as (box & HB & SH). rewrite HB. cbn [rbind]. cbv zeta. apply rbind_ok in SH. destruct SH as (pts & HP & SH).
      injection SH as <- ->. rewrite HP. cbn [rbind]. rewrite HD. cbn [rbind]. rewrite HI. cbn [rbind fst snd].
      change (fst (internal_only_skeleton (s, None))) with (start_of true s). rewrite CK. cbn [rbind]. rewrite HE. cbn [rbind]. rewrite HL. reflexivity.
    - injection SH as <- ->. cbn [rbind]. rewrite HD. cbn [rbind]. rewrite HI. cbn [rbind].
      change (fst (internal_only_skeleton (s, None))) with (start_of true s). rewrite CK. cbn [rbind]. rewrite HE. cbn [rbind]. rewrite HL. reflexivity.
  Qed.
End Any.

Lemma arms_of (f : R * R -> R * R) back s' p0 p1 p2 : back = Some f \/ (back = None /\ f = fun p => p) ->
  sk_vertices s' = [0; 2; 4]%nat -> sn_pos (ns s' 3%nat) = incenter p0 p1 p2 -> sn_info (ns s' 3%nat) = None ->
  ended_at_center p0 p1 p2 s' 0 p0 4 -> ended_at_center p0 p1 p2 s' 2 p1 0 -> ended_at_center p0 p1 p2 s' 4 p2 2 ->
  segments (A:=RA) s' back = Ok (arms (f p0) (f p1) (f p2) (f (incenter p0 p1 p2))).
Proof.
  intros FB Q1 Q2 Q3 (A1 & A2 & _ & _ & _ & a & A3 & A4 & A5 & A6 & A7) (B1 & B2 & _ & _ & _ & b & B3 & B4 & B5 & B6 & B7)
    (C1 & C2 & _ & _ & _ & d & C3 & C4 & C5 & C6 & C7).
  assert (G : forall v p a, k_inf (vs s' v) = false -> k_stops (vs s' v) = Some (inradius p0 p1 p2) -> k_start_node (vs s' v) = Some a ->
    k_stop_node (vs s' v) = Some 3%nat -> a <> 3%nat -> sn_pos (ns s' a) = p -> sn_info (ns s' a) = None ->
    segment_of (A:=RA) s' back v = Ok (Some ((f p, f (incenter p0 p1 p2)), (None, None)))).
  { intros v p n H1 H2 H3 H4 H5 H6 H7. unfold segment_of, Primitives.start_of. rewrite H1, H2, H3, H4. cbn [onat_eqb].
    destruct (Nat.eqb_spec n 3) as [->|_]; [destruct (H5 eq_refl)|]. cbn [rbind]. rewrite H6, H7, Q2, Q3.
    destruct FB as [->|[-> ->]]; reflexivity. }
  unfold segments. rewrite Q1. cbn [rmapl]. rewrite (G 0%nat p0 a), (G 2%nat p1 b), (G 4%nat p2 d) by assumption. reflexivity.
Qed.

(** ** Every triangle in the square -2 .. 2 *)
Theorem C86_triangle :
  forall (E : Env RA), true_orientation E -> forall p0 p1 p2 : R * R,
  in_square p0 -> in_square p1 -> in_square p2 -> orient p0 p1 p2 > / 10^8 ->
  exists s' c r, calc_skel (tri_of (A:=RA)) [p0; p1; p2] false true = Ok (s', None) /\
    incircle p0 p1 p2 c r /\ segments s' None = Ok (arms p0 p1 p2 c) /\
    (forall v, In v (sk_vertices s') -> k_stops (vs s' v) = Some r) /\ (forall t, In t (sk_triangles s') -> t_stops (ts s' t) = Some r).
Proof.
  intros E TE p0 p1 p2 I0 I1 I2 K. destruct (any_run E TE p0 p1 p2 I0 I1 I2 K [p0; p1; p2] false None eq_refl) as (s' & H & Q1 & Q2 & Q3 & Q4 & Q5 & Q6 & Q7 & Q8).
  exists s', (incenter p0 p1 p2), (inradius p0 p1 p2). split; [exact H|].
  assert (E8 : 0 < / 10^8) by (apply Rinv_0_lt_compat, pow_lt; lra). split; [apply incenter_ok; lra|].
  split; [apply (arms_of (fun p => p) None s' p0 p1 p2); auto|]. rewrite Q1, Q2. split.
  - intros v [<-|[<-|[<-|[]]]]; [apply Q6|apply Q7|apply Q8].
  - intros t [<-|[]]. exact Q3.
Qed.
Print Assumptions C86_triangle.

(** The offsets: at each of the times, the three sides of the triangle that is the input shrunk towards [c] by t/r *)
Definition towards_center (c : R * R) (r : R) (p : R * R) (t : R) : R * R :=
  (fst p + t / r * (fst c - fst p), snd p + t / r * (snd c - snd p)).
Definition offset_triangle (p0 p1 p2 c : R * R) (r t : R) : list (offset (A:=RA)) :=
  if Rlt_dec t r then
    [mkOff (towards_center c r p0 t) (towards_center c r p2 t) t 0 4;
     mkOff (towards_center c r p1 t) (towards_center c r p0 t) t 2 0;
     mkOff (towards_center c r p2 t) (towards_center c r p1 t) t 4 2]
  else [].
Theorem C86_offsets :
  forall (E : Env RA), true_orientation E -> forall (p0 p1 p2 : R * R) c r s' tr,
  in_square p0 -> in_square p1 -> in_square p2 -> orient p0 p1 p2 > / 10^8 -> incircle p0 p1 p2 c r ->
  calc_skel (tri_of (A:=RA)) [p0; p1; p2] false true = Ok (s', tr) ->
  forall (now : R) n, 0 <= now -> (0 < n)%nat ->
  calc_offsets s' now n = (flat_map (fun k => offset_triangle p0 p1 p2 c r (INR k * (now / INR n))) (seq 0 n), None).
Proof.
  intros E TE p0 p1 p2 c r s' tr I0 I1 I2 K IC H now n N0 NP.
  destruct (any_run E TE p0 p1 p2 I0 I1 I2 K [p0; p1; p2] false None eq_refl) as (s2 & H2 & Q1 & _ & _ & _ & _ & Q6 & Q7 & Q8).
  rewrite H in H2. injection H2 as <- _.
  assert (E8 : 0 < / 10^8) by (apply Rinv_0_lt_compat, pow_lt; lra).
  destruct (incircle_unique p0 p1 p2 c r _ _ ltac:(lra) IC (incenter_ok p0 p1 p2 ltac:(lra))) as [-> ->]. clear IC.
  assert (NR : 0 < INR n) by (apply lt_0_INR; exact NP).
  set (r := inradius p0 p1 p2) in *. set (c := incenter p0 p1 p2) in *.
  assert (AT : forall t l, 0 <= t -> (forall s, In s l -> 0 <= fst s) ->
     yields (fun tv => offset_at s' (fst tv) (snd tv)) ((t, 0%nat) :: (t, 2%nat) :: (t, 4%nat) :: l) =
     (offset_triangle p0 p1 p2 c r t ++ fst (yields (fun tv => offset_at s' (fst tv) (snd tv)) l),
      snd (yields (fun tv => offset_at s' (fst tv) (snd tv)) l))).
  { intros t l TP LP. cbn [map app].
    assert (ONE : forall v p l q m, ended_at_center p0 p1 p2 s' v p l -> ended_at_center p0 p1 p2 s' l q m ->
      offset_at (A:=RA) s' t v = Ok (if Rlt_dec t r then Some (mkOff (A:=RA) (towards_center c r p t) (towards_center c r q t) t v l) else None)).
    { intros v p w q m (A1 & A2 & A3 & A4 & A5 & _) (_ & _ & _ & _ & B5 & _). unfold offset_at, started_at. rewrite A1, A2, A3. cbn [rbind is_none].
      assert (L0 : nleb (Arith:=RA) 0 t = true) by (apply Rleb_true; exact TP). rewrite L0. cbn [andb]. rewrite orb_false_r.
      fold r. destruct (Rlt_dec t r) as [L|L].
      - assert (L1 : nltb (Arith:=RA) t r = true) by (apply Rltb_true; exact L). rewrite L1. rewrite (A4 t TP). unfold offset_item. rewrite A5, B5. reflexivity.
      - assert (L1 : nltb (Arith:=RA) t r = false) by (apply Rltb_false; lra). rewrite L1. reflexivity. }
    cbn [yields fst snd]. rewrite (ONE 0%nat p0 4%nat p2 2%nat Q6 Q8), (ONE 2%nat p1 0%nat p0 4%nat Q7 Q6), (ONE 4%nat p2 2%nat p1 0%nat Q8 Q7).
    unfold offset_triangle. destruct (Rlt_dec t r); [reflexivity|]. apply surjective_pairing. }
  unfold calc_offsets. unfold pdiv. rewrite (RA_counts n) by lia. rewrite Q1.
  assert (GO : forall inc l, 0 <= inc -> yields (fun tv => offset_at s' (fst tv) (snd tv)) (list_prod (map (fun k => INR k * inc) l) [0; 2; 4]%nat) =
    (flat_map (fun k => offset_triangle p0 p1 p2 c r (INR k * inc)) l, None)).
  { intros inc l IP. induction l as [|k l IH]; [reflexivity|]. cbn [map list_prod flat_map app]. rewrite AT.
    - rewrite IH. reflexivity.
    - apply Rmult_le_pos; [apply pos_INR|exact IP].
    - intros [x v] Hx. apply in_prod_iff in Hx. destruct Hx as [Hx _]. apply in_map_iff in Hx. destruct Hx as (j & <- & _).
      apply Rmult_le_pos; [apply pos_INR|exact IP]. }
  rewrite <- (GO (now / INR n) (seq 0 n)).
  - f_equal. f_equal. apply map_ext. intros k. rewrite !nofnat_INR. reflexivity.
  - apply Rmult_le_pos; [exact N0|]. left. apply Rinv_0_lt_compat. exact NR.
Qed.
Print Assumptions C86_offsets.

(** ** Every triangle, scaled to the unit square first *)

(** scaling by [k] *)
Lemma scaled_span k (p q p' q' : R * R) : 0 < k -> fst p - fst q = k * (fst p' - fst q') -> snd p - snd q = k * (snd p' - snd q') ->
  span p q = k * span p' q'.
Proof.
  intros P H1 H2. apply Rsqr_inj; [apply span_nonneg|apply Rmult_le_pos; [lra|apply span_nonneg]|]. unfold Rsqr.
  transitivity (k * k * (span p' q' * span p' q')); [|ring]. rewrite !span_sq.
  replace (fst q - fst p) with (- (fst p - fst q)) by ring. replace (snd q - snd p) with (- (snd p - snd q)) by ring. rewrite H1, H2. ring.
Qed.
Lemma scaled_orient k (p q r p' q' r' : R * R) : fst p - fst q = k * (fst p' - fst q') -> snd p - snd q = k * (snd p' - snd q') ->
  fst p - fst r = k * (fst p' - fst r') -> snd p - snd r = k * (snd p' - snd r') -> orient p q r = k * k * orient p' q' r'.
Proof.
  intros H1 H2 H3 H4. unfold orient.
  replace (fst q - fst p) with (- (fst p - fst q)) by ring. replace (snd q - snd p) with (- (snd p - snd q)) by ring.
  replace (fst r - fst p) with (- (fst p - fst r)) by ring. replace (snd r - snd p) with (- (snd p - snd r)) by ring. rewrite H1, H2, H3, H4. ring.
Qed.

Lemma double (a k d : R) : a = k * (1 - -1) -> a <= d -> 2 * k <= d.
Proof. intros -> H. lra. Qed.

Lemma shrunk_triangle :
  forall (E : Env RA), true_orientation E -> forall (p0 p1 p2 : R * R) (d : R),
  (forall p q, In p [p0; p1; p2] -> In q [p0; p1; p2] -> fst p - fst q <= d /\ snd p - snd q <= d) ->
  orient p0 p1 p2 > d * d / 10^8 ->
  exists s' tr c r, calc_skel (tri_of (A:=RA)) [p0; p1; p2] true true = Ok (s', Some tr) /\
    incircle p0 p1 p2 c r /\ segments s' (Some (backward tr)) = Ok (arms p0 p1 p2 c) /\
    exists q0 q1 q2, sk_vertices s' = [0; 2; 4]%nat /\ sn_pos (ns s' 3%nat) = incenter q0 q1 q2 /\ 0 < inradius q0 q1 q2 /\
      ended_at_center q0 q1 q2 s' 0 q0 4 /\ ended_at_center q0 q1 q2 s' 2 q1 0 /\ ended_at_center q0 q1 q2 s' 4 q2 2.
Proof.
  intros E TE p0 p1 p2 d DD K. assert (E8 : 0 < / 10^8) by (apply Rinv_0_lt_compat, pow_lt; lra).
  assert (KP : 0 < orient p0 p1 p2) by (assert (0 <= d * d) by apply Rle_0_sqr; unfold Rdiv in K; nra).
  destruct (get_box (A:=RA) [p0; p1; p2]) as [box|] eqn:HB; [|discriminate].
  set (t := get_transform box). assert (TO : transform_of [p0; p1; p2] t) by (exists box; auto).
  destruct (orient_apart p0 p1 p2 KP) as (N01 & _). assert (NC : ~ all_coincide [p0; p1; p2]) by (intros H; apply N01, H; simpl; auto).
  destruct (transform_of_scale _ t TO NC) as [_ SP]. set (k := fst (tr_scale t)) in *.
  assert (FW : forall p, In p [p0; p1; p2] -> exists q, forward t p = Ok q /\ backward t q = p /\ in_square q).
  { intros p Hp. destruct (round_trip _ t p TO NC) as [(q & Q1 & Q2) _]. exists q. split; [exact Q1|]. split; [exact Q2|].
    destruct (forward_square _ t p TO NC Hp) as (x & y & Q3 & Q4 & Q5). rewrite Q1 in Q3. injection Q3 as ->. split; cbn [fst snd]; lra. }
  destruct (FW p0) as (q0 & F0 & G0 & I0); [simpl; auto|]. destruct (FW p1) as (q1 & F1 & G1 & I1); [simpl; auto|].
  destruct (FW p2) as (q2 & F2 & G2 & I2); [simpl; auto|]. clear FW.
  assert (SIM : forall p q p' q', forward t p = Ok p' -> forward t q = Ok q' -> fst p - fst q = k * (fst p' - fst q') /\ snd p - snd q = k * (snd p' - snd q')).
  { intros p q p' q'. apply (forward_similarity _ t p q p' q' TO NC). }
  assert (KD : 2 * k <= d).
  { destruct (forward_touches _ t TO NC) as [(p & q & y & y' & Hp & Hq & Fp & Fq)|(p & q & x & x' & Hp & Hq & Fp & Fq)];
      destruct (SIM _ _ _ _ Fq Fp) as [S1 S2]; cbn [fst snd] in S1, S2; destruct (DD q p Hq Hp) as [D1 D2];
      [exact (double _ _ _ S1 D1)|exact (double _ _ _ S2 D2)]. }
  assert (OR : forall p q r p' q' r', forward t p = Ok p' -> forward t q = Ok q' -> forward t r = Ok r' -> orient p q r = k * k * orient p' q' r').
  { intros p q r p' q' r' Hp Hq Hr. destruct (SIM _ _ _ _ Hp Hq). destruct (SIM _ _ _ _ Hp Hr). apply scaled_orient; assumption. }
  assert (SN : forall p q p' q', forward t p = Ok p' -> forward t q = Ok q' -> span p q = k * span p' q').
  { intros p q p' q' Hp Hq. destruct (SIM _ _ _ _ Hp Hq). apply scaled_span; assumption. }
  assert (KQ : orient q0 q1 q2 > / 10^8).
  { rewrite (OR _ _ _ _ _ _ F0 F1 F2) in K. apply (Rmult_lt_reg_l (k * k)); [nra|]. unfold Rdiv in K.
    apply (Rle_lt_trans _ (d * d * / 10^8)); [|exact K]. apply Rmult_le_compat_r; [lra|]. nra. }
  destruct (any_run E TE q0 q1 q2 I0 I1 I2 KQ [p0; p1; p2] true (Some t)) as (s' & H & Q1 & _ & _ & Q4 & Q5 & Q6 & Q7 & Q8).
  { rewrite HB. cbn [rbind rmapl]. fold t. rewrite F0, F1, F2. reflexivity. }
  pose proof (incenter_ok q0 q1 q2 ltac:(lra)) as IC.
  pose proof (arms_of (backward t) (Some (backward t)) s' q0 q1 q2 (or_introl eq_refl) Q1 Q4 Q5 Q6 Q7 Q8) as SG.
  set (c := incenter q0 q1 q2) in *. set (r := inradius q0 q1 q2) in *.
  destruct (round_trip _ t c TO NC) as [_ FC].
  exists s', t, (backward t c), (k * r). split; [exact H|]. split; [|split; [|exists q0, q1, q2; repeat (split; [assumption || apply IC|]); assumption]].
  - destruct IC as (RP & C1 & C2 & C3). split; [apply Rmult_lt_0_compat; assumption|].
    rewrite (OR _ _ _ _ _ _ F0 F1 FC), (OR _ _ _ _ _ _ F1 F2 FC), (OR _ _ _ _ _ _ F2 F0 FC), C1, C2, C3, (SN _ _ _ _ F0 F1), (SN _ _ _ _ F1 F2), (SN _ _ _ _ F2 F0).
    repeat split; ring.
  - rewrite SG, G0, G1, G2. reflexivity.
Qed.
Theorem C86_shrunk :
  forall (E : Env RA), true_orientation E -> forall (p0 p1 p2 : R * R) (d : R),
  (forall p q, In p [p0; p1; p2] -> In q [p0; p1; p2] -> fst p - fst q <= d /\ snd p - snd q <= d) ->
  orient p0 p1 p2 > d * d / 10^8 ->
  exists s' tr c r, calc_skel (tri_of (A:=RA)) [p0; p1; p2] true true = Ok (s', Some tr) /\
    incircle p0 p1 p2 c r /\ segments s' (Some (backward tr)) = Ok (arms p0 p1 p2 c).
Proof.
  intros E TE p0 p1 p2 d DD K. destruct (shrunk_triangle E TE p0 p1 p2 d DD K) as (s' & tr & c & r & H1 & H2 & H3 & _). exists s', tr, c, r. auto.
Qed.
Print Assumptions C86_shrunk.

(** *** Cases: the triangle (0,0) (4/3,0) (0,1), also three thousand times as large *)
Definition exact_orientation : Env RA := {| addr := Z.of_nat; orient2d := orient; reclimit := 100 |}.
Lemma exact_orientation_true : true_orientation exact_orientation.
Proof. intros p q r. split; intros H; exact H. Qed.
Lemma len_is x y z : 0 <= z -> x * x + y * y = z * z -> len x y = z.
Proof. intros Z H. unfold len. rewrite H. apply sqrt_square, Z. Qed.
Example C86_case : in_square (0, 0) /\ in_square (4/3, 0) /\ in_square (0, 1) /\ orient (0, 0) (4/3, 0) (0, 1) > / 10^8 /\
  true_orientation exact_orientation /\ incircle (0, 0) (4/3, 0) (0, 1) (1/3, 1/3) (1/3).
Proof.
  unfold in_square, orient, incircle, span. cbn [fst snd]. repeat split; try (cbn; lra); try exact exact_orientation_true; unfold orient; cbn [fst snd].
  - rewrite (len_is _ _ (4/3)) by lra. lra.
  - rewrite (len_is _ _ (5/3)) by lra. lra.
  - rewrite (len_is _ _ 1) by lra. lra.
Qed.
Example C86_case_result : exists s' tr, (let E := exact_orientation in calc_skel (tri_of (A:=RA)) [(0, 0); (4000, 0); (0, 3000)] true true) = Ok (s', Some tr) /\
  segments s' (Some (backward tr)) = Ok (arms (0, 0) (4000, 0) (0, 3000) (1000, 1000)).
Proof.
  assert (K : orient (0, 0) (4000, 0) (0, 3000) > 4000 * 4000 / 10^8) by (unfold orient; cbn; lra).
  destruct (C86_shrunk exact_orientation exact_orientation_true (0, 0) (4000, 0) (0, 3000) 4000) as (s' & tr & c & r & H & IC & SG); [|exact K|].
  - intros p q [<-|[<-|[<-|[]]]] [<-|[<-|[<-|[]]]]; cbn; lra.
  - exists s', tr. split; [exact H|]. rewrite SG. do 2 f_equal.
    apply (C86_incircle_unique (0, 0) (4000, 0) (0, 3000) c r (1000, 1000) 1000); [unfold orient; cbn; lra|exact IC|].
    unfold incircle, span, orient; cbn [fst snd]. split; [lra|]. rewrite (len_is _ _ 4000), (len_is _ _ 5000), (len_is _ _ 3000) by lra. lra.
Qed.
