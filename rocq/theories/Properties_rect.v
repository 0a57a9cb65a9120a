(** C95: the skeleton of every rectangle that is not a square *)
From Coq Require Import Reals Lra.
From Verif Require Import Base Arith ArithR Calc CalcProofs VectorOps Line2d Line2dProofs Transform TransformProofs Primitives Collapse
  EventsLib EventLoop Initialize Main Properties_init RSquared Properties_regression TriExample TriStart TriRun TriGeom TriReal Properties_current
  Properties_checks Properties_triangle QuadExample RectStart RectRun RectLoop RectReal Properties_main.
Local Open Scope R_scope.
Local Existing Instance RA.

(** ** Specification *)

(** a rectangle in any position, its corners given counterclockwise *)
Definition rectangle (p0 p1 p2 p3 : R * R) : Prop :=
  fst p1 - fst p0 = fst p2 - fst p3 /\ snd p1 - snd p0 = snd p2 - snd p3 /\
  (fst p1 - fst p0) * (fst p3 - fst p0) + (snd p1 - snd p0) * (snd p3 - snd p0) = 0 /\ 0 < orient p0 p1 p2.
(** [c] is on the left of the line from [p] to [q], at distance [r] *)
Definition inside_at (r : R) (p q c : R * R) : Prop := orient p q c = r * span p q.
(** the ends [a], [b] of the ridge of a hip roof: each is equally far from one of the sides p3 p0, p1 p2 and from both others *)
Definition ridge (p0 p1 p2 p3 a b : R * R) (r : R) : Prop :=
  0 < r /\ (inside_at r p3 p0 a /\ inside_at r p0 p1 a /\ inside_at r p2 p3 a) /\ (inside_at r p0 p1 b /\ inside_at r p1 p2 b /\ inside_at r p2 p3 b).
(** the longer pair of sides is p0 p1, p2 p3 or else p1 p2, p3 p0; by more than [e] *)
Definition sides (long : bool) (e : R) (p0 p1 p2 : R * R) : Prop :=
  if long then span p0 p1 - span p1 p2 > e /\ span p1 p2 > 2 * e else span p1 p2 - span p0 p1 > e /\ span p0 p1 > 2 * e.
Definition ridge_of (long : bool) (p0 p1 p2 p3 a b : R * R) (r : R) : Prop := if long then ridge p0 p1 p2 p3 a b r else ridge p1 p2 p3 p0 a b r.
(** the line pieces: from each corner to an end of the ridge, and the ridge, in either direction *)
Definition roof (p0 p1 p2 p3 e0 e1 e2 e3 : R * R) (rg : (R * R) * (R * R)) : list (segment (A:=RA)) :=
  [((p0, e0), (None, None)); ((p1, e1), (None, None)); ((p2, e2), (None, None)); ((p3, e3), (None, None)); (rg, (None, None))].

(** there is only one such ridge *)
Theorem C95_ridge_unique : forall p0 p1 p2 p3 a b r a' b' r', rectangle p0 p1 p2 p3 ->
  ridge p0 p1 p2 p3 a b r -> ridge p0 p1 p2 p3 a' b' r' -> a = a' /\ b = b' /\ r = r'.
Proof.
  intros p0 p1 p2 p3 a b r a' b' r' (R1 & R2 & R3 & R4) (P & (A1 & A2 & A3) & (B1 & B2 & B3)) (P' & (A1' & A2' & A3') & (B1' & B2' & B3')).
  unfold inside_at in *. destruct (orient_apart p0 p1 p2 R4) as (N01 & N12 & _). pose proof (span_pos p0 p1 N01) as S1.
  assert (E2 : span p2 p3 = span p0 p1).
  { apply Rsqr_inj; [apply span_nonneg|apply span_nonneg|]. unfold Rsqr. rewrite !span_sq. replace (fst p3 - fst p2) with (- (fst p1 - fst p0)) by lra.
    replace (snd p3 - snd p2) with (- (snd p1 - snd p0)) by lra. ring. }
  rewrite E2 in *.
  assert (SUM : forall c, orient p0 p1 c + orient p2 p3 c = orient p0 p1 p2).
  { intros c. unfold orient. replace (fst p3 - fst p2) with (- (fst p1 - fst p0)) by lra.
    replace (snd p3 - snd p2) with (- (snd p1 - snd p0)) by lra. ring. }
  assert (RR : r = r').
  { pose proof (SUM a) as H1. pose proof (SUM a') as H2. rewrite A2, A3 in H1. rewrite A2', A3' in H2.
    apply Rmult_eq_reg_r with (span p0 p1); [|lra]. lra. }
  subst r'.
  assert (UNIQ : forall c c', orient p0 p1 c = orient p0 p1 c' -> orient p1 p2 c = orient p1 p2 c' -> c = c').
  { intros c e H1 H2. set (D := orient p0 p1 p2) in *.
    assert (H1' : (fst p1 - fst p0) * (snd c - snd e) - (snd p1 - snd p0) * (fst c - fst e) = 0) by (unfold orient in H1; lra).
    assert (H2' : (fst p2 - fst p1) * (snd c - snd e) - (snd p2 - snd p1) * (fst c - fst e) = 0) by (unfold orient in H2; lra).
    assert (Q1 : D * (fst c - fst e) = 0).
    { transitivity ((fst p2 - fst p1) * ((fst p1 - fst p0) * (snd c - snd e) - (snd p1 - snd p0) * (fst c - fst e))
        - (fst p1 - fst p0) * ((fst p2 - fst p1) * (snd c - snd e) - (snd p2 - snd p1) * (fst c - fst e))); [unfold D, orient; ring|rewrite H1', H2'; ring]. }
    assert (Q2 : D * (snd c - snd e) = 0).
    { transitivity ((snd p2 - snd p1) * ((fst p1 - fst p0) * (snd c - snd e) - (snd p1 - snd p0) * (fst c - fst e))
        - (snd p1 - snd p0) * ((fst p2 - fst p1) * (snd c - snd e) - (snd p2 - snd p1) * (fst c - fst e))); [unfold D, orient; ring|rewrite H1', H2'; ring]. }
    apply Rmult_integral in Q1, Q2. rewrite (surjective_pairing c), (surjective_pairing e). f_equal; [destruct Q1|destruct Q2]; lra. }
  assert (S3 : forall c c', orient p3 p0 c = orient p3 p0 c' -> orient p1 p2 c = orient p1 p2 c').
  { intros c c' H. unfold orient in *. replace (fst p2 - fst p1) with (fst p3 - fst p0) by lra. replace (snd p2 - snd p1) with (snd p3 - snd p0) by lra. lra. }
  split; [|split; [|reflexivity]]; apply UNIQ; try congruence. apply S3. congruence.
Qed.
Print Assumptions C95_ridge_unique.

(** ** The run *)
Lemma rectangle_frame p0 p1 p2 p3 : rectangle p0 p1 p2 p3 -> let w := span p0 p1 in let h := span p1 p2 in
  exists ca cb, ca * ca + cb * cb = 1 /\ p0 = q0 (fst p0) (snd p0) /\ p1 = q1 ca cb (fst p0) (snd p0) w /\ p2 = q2 ca cb (fst p0) (snd p0) w h /\ p3 = q3 ca cb (fst p0) (snd p0) h.
Proof.
  intros (R1 & R2 & R3 & R4) w h. destruct (orient_apart p0 p1 p2 R4) as (N01 & N12 & _). pose proof (span_pos p0 p1 N01) as S1. pose proof (span_pos p1 p2 N12) as S2.
  fold w in S1. fold h in S2. pose proof (span_sq p0 p1) as Q1. fold w in Q1. pose proof (span_sq p1 p2) as Q2. fold h in Q2.
  set (ca := (fst p1 - fst p0) / w). set (cb := (snd p1 - snd p0) / w).
  assert (CA : fst p1 - fst p0 = w * ca) by (unfold ca; field; lra). assert (CB : snd p1 - snd p0 = w * cb) by (unfold cb; field; lra).
  assert (UN : ca * ca + cb * cb = 1).
  { apply Rmult_eq_reg_l with (w * w); [|nra]. transitivity (w * ca * (w * ca) + w * cb * (w * cb)); [ring|]. rewrite <- CA, <- CB, <- Q1. ring. }
  set (vx := fst p3 - fst p0) in *. set (vy := snd p3 - snd p0) in *.
  assert (HX : fst p2 - fst p1 = vx) by (unfold vx; lra). assert (HY : snd p2 - snd p1 = vy) by (unfold vy; lra).
  rewrite HX, HY in Q2. rewrite CA, CB in R3.
  assert (PERP : ca * vx + cb * vy = 0) by (apply Rmult_eq_reg_l with w; [|lra]; rewrite Rmult_0_r, <- R3; ring).
  set (t := ca * vy - cb * vx).
  assert (OT : orient p0 p1 p2 = w * t).
  { unfold orient. rewrite CA, CB. replace (snd p2 - snd p0) with (w * cb + vy) by lra. replace (fst p2 - fst p0) with (w * ca + vx) by lra. unfold t. ring. }
  assert (TP : 0 < t) by (rewrite OT in R4; nra).
  assert (VX : vx = - t * cb).
  { transitivity ((ca * ca + cb * cb) * vx - ca * (ca * vx + cb * vy)); [rewrite UN, PERP; ring|]. unfold t. ring. }
  assert (VY : vy = t * ca).
  { transitivity ((ca * ca + cb * cb) * vy - cb * (ca * vx + cb * vy)); [rewrite UN, PERP; ring|]. unfold t. ring. }
  assert (TH : t = h).
  { apply Rsqr_inj; [lra|lra|]. unfold Rsqr. rewrite Q2, VX, VY. transitivity (t * t * (ca * ca + cb * cb)); [rewrite UN; ring|ring]. }
  rewrite TH in *. exists ca, cb. split; [exact UN|]. unfold q0, q1, q2, q3.
  rewrite (surjective_pairing p0) at 1. rewrite (surjective_pairing p1), (surjective_pairing p2), (surjective_pairing p3).
  split; [reflexivity|]. split; [|split]; f_equal; lra.
Qed.

(** the vertex [v] starts in [p] at time 0, next to [l], moves straight to [e] and ends there at time [T], in node [m] *)
Definition along (T : R) (p e : R * R) (t : R) : R * R := (fst p + t / T * (fst e - fst p), snd p + t / T * (snd e - snd p)).
Record arrives (s' : state (A:=RA)) (T : R) (v : nat) (p e : R * R) (l m : nat) : Prop := {
  av_inf : k_inf (vs s' v) = false;
  av_starts : k_starts (vs s' v) = Some 0;
  av_stops : k_stops (vs s' v) = Some T;
  av_left : forall t, 0 <= t -> t < T -> hist_at (k_left (vs s' v)) t = Some l;
  av_path : forall t, position_at s' v t = Ok (along T p e t);
  av_stop : k_stop_node (vs s' v) = Some m;
  av_end : sn_pos (ns s' m) = e /\ sn_info (ns s' m) = None;
  av_start : exists n, k_start_node (vs s' v) = Some n /\ n <> m /\ sn_pos (ns s' n) = p /\ sn_info (ns s' n) = None }.
Record built (s' : state (A:=RA)) (T : R) (p0 p1 p2 p3 e0 e1 e2 e3 : R * R) (g g' : R * R) : Prop := {
  bt_vertices : sk_vertices s' = [0; 2; 4; 6; 9]%nat;
  bt_triangles : forall t, In t (sk_triangles s') -> t_stops (ts s' t) = Some T;
  bt_0 : exists m, arrives s' T 0 p0 e0 6 m;
  bt_2 : exists m, arrives s' T 2 p1 e1 0 m;
  bt_4 : exists m, arrives s' T 4 p2 e2 2 m;
  bt_6 : exists m, arrives s' T 6 p3 e3 4 m;
  bt_inf : k_inf (vs s' 9%nat) = false;
  bt_fast : k_inf_fast (vs s' 9%nat) = true;
  bt_starts : k_starts (vs s' 9%nat) = Some T;
  bt_stops : k_stops (vs s' 9%nat) = Some T;
  bt_ends : exists i j, k_start_node (vs s' 9%nat) = Some i /\ k_stop_node (vs s' 9%nat) = Some j /\ i <> j /\
    sn_pos (ns s' i) = g /\ sn_pos (ns s' j) = g' /\ sn_info (ns s' i) = None /\ sn_info (ns s' j) = None }.

Lemma arm_arrives (T : R) s' v p bv l n m e : 0 < T -> arm (A:=RA) T s' v p bv l n m -> e = meet p bv T -> n <> m ->
  sn_pos (ns s' n) = p -> sn_info (ns s' n) = None -> sn_pos (ns s' m) = e -> sn_info (ns s' m) = None -> arrives s' T v p e l m.
Proof.
  intros TP [A1 A2 A3 A4 A5 A6 A7 A8 A9] HE NM PN IN PM IM. constructor; try assumption.
  - rewrite A5, zero_R. reflexivity.
  - intros t H1 H2. assert (L0 : nleb (Arith:=RA) (n0 (A:=RA)) t = true) by (rewrite zero_R; apply Rleb_true; exact H1).
    assert (L1 : nltb (Arith:=RA) t T = true) by (apply Rltb_true; exact H2).
    destruct A9 as [-> |[l' ->]]; cbn [hist_at]; rewrite L0; [reflexivity|]. rewrite L1. reflexivity.
  - intros t. unfold position_at. rewrite A1, A2, A3, A4. apply f_equal. unfold along. rewrite HE. unfold meet. cbn [fst snd]. ra_simp. f_equal; field; lra.
  - auto.
  - exists n. auto.
Qed.

Lemma outcome_built (T : R) x y NS tris s' (long : bool) i j ca cb X Y w h e0 e1 e2 e3 : 0 < T -> (tris = [0; 1]%nat \/ tris = [1; 0]%nat) ->
  outcome (A:=RA) T x y NS [0; 1; 2; 3]%nat tris s' (arms4 ca cb X Y w h long i j) -> (i = 4%nat /\ j = 5%nat) \/ (i = 5%nat /\ j = 4%nat) ->
  sn_pos (NS 0%nat) = q0 X Y /\ sn_pos (NS 1%nat) = q1 ca cb X Y w /\ sn_pos (NS 2%nat) = q2 ca cb X Y w h /\ sn_pos (NS 3%nat) = q3 ca cb X Y h ->
  sn_info (NS 0%nat) = None /\ sn_info (NS 1%nat) = None /\ sn_info (NS 2%nat) = None /\ sn_info (NS 3%nat) = None ->
  e0 = meet (q0 X Y) (d0 ca cb) T -> e1 = meet (q1 ca cb X Y w) (d1 ca cb) T -> e2 = meet (q2 ca cb X Y w h) (d2 ca cb) T -> e3 = meet (q3 ca cb X Y h) (d3 ca cb) T ->
  e1 = (if long then e2 else e0) -> e3 = (if long then e0 else e2) ->
  (if Nat.eqb i 4 then x = e0 /\ y = e2 else x = e2 /\ y = e0) ->
  built s' T (q0 X Y) (q1 ca cb X Y w) (q2 ca cb X Y w h) (q3 ca cb X Y h) e0 e1 e2 e3 x y.
Proof.
  intros TP TR [O1 O2 O3 O4 O5 O6 O7 O8 O9 OF O10 O11 O12 O13 OA] IJ (P0 & P1 & P2 & P3) (J0 & J1 & J2 & J3) M0 M1 M2 M3 H1 H3 XY.
  assert (N4 : ns s' 4%nat = mkNode (A:=RA) x 1 None) by (rewrite O4; reflexivity). assert (N5 : ns s' 5%nat = mkNode (A:=RA) y 1 None) by (rewrite O4; reflexivity).
  assert (NN : forall n, (n < 4)%nat -> ns s' n = NS n).
  { intros n L. rewrite O4. destruct n as [|[|[|[|n]]]]; try reflexivity. lia. }
  assert (NI : sn_pos (ns s' i) = e0 /\ sn_info (ns s' i) = None /\ sn_pos (ns s' j) = e2 /\ sn_info (ns s' j) = None /\ (3 < i)%nat /\ (3 < j)%nat).
  { destruct IJ as [[-> ->]|[-> ->]]; cbn in XY; destruct XY as [-> ->]; rewrite N4, N5; repeat split; lia. }
  destruct NI as (I1 & I2 & I3 & I4 & I5 & I6). constructor; try assumption.
  - rewrite O2. intros t H. destruct TR as [-> | ->]; destruct H as [<-|[<-|[]]]; assumption.
  - exists i. eapply arm_arrives; [exact TP|apply OA; left; reflexivity|assumption|lia|rewrite NN by lia; assumption|rewrite NN by lia; assumption|assumption|assumption].
  - exists (if long then j else i). eapply arm_arrives; [exact TP|apply OA; right; left; reflexivity|assumption|destruct long; lia|rewrite NN by lia; assumption|rewrite NN by lia; assumption|rewrite H1; destruct long; assumption|destruct long; assumption].
  - exists j. eapply arm_arrives; [exact TP|apply OA; right; right; left; reflexivity|assumption|lia|rewrite NN by lia; assumption|rewrite NN by lia; assumption|assumption|assumption].
  - exists (if long then i else j). eapply arm_arrives; [exact TP|apply OA; right; right; right; left; reflexivity|assumption|destruct long; lia|rewrite NN by lia; assumption|rewrite NN by lia; assumption|rewrite H3; destruct long; assumption|destruct long; assumption].
  - exists 4%nat, 5%nat. rewrite N4, N5. repeat split; assumption || lia.
Qed.

Section AnyRect.
  Context (E : Env RA) (TE : true_orientation E) (AD : addr (A:=RA) 0 <> addr (A:=RA) 1) (RL : (0 < reclimit (A:=RA))%nat).
  Context (p0 p1 p2 p3 : R * R) (RE : rectangle p0 p1 p2 p3).
  Context (I0 : in_square p0) (I1 : in_square p1) (I2 : in_square p2) (I3 : in_square p3).
  Lemma rect_run (long : bool) (points : list (R * R)) (shrink : bool) (tr : option (transform (A:=RA))) : sides long (/ 10^10) p0 p1 p2 ->
    (if shrink then rbind (get_box (A:=RA) points) (fun box =>
                    rbind (rmapl (forward (get_transform box)) points) (fun pts => Ok (Some (get_transform box), pts)))
     else Ok (None, points)) = Ok (tr, [p0; p1; p2; p3]) ->
    exists s' a b T g g', calc_skel (quad_of (A:=RA)) points shrink true = Ok (s', tr) /\
      ridge_of long p0 p1 p2 p3 a b T /\ ((g, g') = (a, b) \/ (g, g') = (b, a)) /\
      built s' T p0 p1 p2 p3 a (if long then b else a) b (if long then a else b) g g'.
  Proof.
    intros SD SH. assert (E10 : 0 < / 10^10) by (apply Rinv_0_lt_compat, pow_lt; lra).
    destruct (rectangle_frame p0 p1 p2 p3 RE) as (ca & cb & UN & HP0 & HP1 & HP2 & HP3). set (w := span p0 p1) in *. set (h := span p1 p2) in *.
    set (X := fst p0) in *. set (Y := snd p0) in *. unfold sides in SD. fold w in SD. fold h in SD.
    assert (SW : span p0 p1 = w) by reflexivity. assert (SHH : span p1 p2 = h) by reflexivity. clearbody X Y w h.
    set (T := if long then h / 2 else w / 2). set (a := meet (q0 X Y) (d0 ca cb) T). set (b := meet (q2 ca cb X Y w h) (d2 ca cb) T).
    assert (WP : w > 2 / 10^10) by (destruct long; lra).
    assert (HP : h > 2 / 10^10) by (destruct long; lra).
    assert (TP : 0 < T) by (unfold T; destruct long; lra).
    destruct (reclimit (A:=RA)) as [|rl] eqn:HR; [lia|].
    assert (M1 : (if long then b else a) = meet (q1 ca cb X Y w) (d1 ca cb) T).
    { unfold a, b, T, meet, q0, q1, q2, d0, d1, d2. destruct long; cbn [fst snd]; f_equal; field. }
    assert (M3 : (if long then a else b) = meet (q3 ca cb X Y h) (d3 ca cb) T).
    { unfold a, b, T, meet, q0, q3, q2, d0, d3, d2. destruct long; cbn [fst snd]; f_equal; field. }
    assert (RUN : whole_run E ca cb X Y w h long T a b).
    { destruct long.
      - rewrite M1. apply (rect_long E TE AD rl HR ca cb X Y w h UN WP HP). apply SD.
      - apply (rect_short E TE AD rl HR ca cb X Y w h UN WP HP). apply SD. }
    destruct RUN as (d & s & s1 & NS & tris & s' & HD & HI & HE & HL & CK & [OC TR PS IS]).
    rewrite <- HP0, <- HP1, <- HP2, <- HP3 in HD. rewrite <- HP0, <- HP1, <- HP2, <- HP3 in CK. specialize (CK I0 I1 I2 I3).
    assert (BT : exists g g', ((g, g') = (a, b) \/ (g, g') = (b, a)) /\ built s' T p0 p1 p2 p3 a (if long then b else a) b (if long then a else b) g g').
    { destruct OC as [OC|OC]; [exists a, b|exists b, a]; (split; [auto|]); rewrite HP0, HP1, HP2, HP3;
        eapply (outcome_built _ _ _ _ _ _ long); try eassumption; try reflexivity; auto; cbn; auto. }
    destruct BT as (g & g' & GG & BT). exists s', a, b, T, g, g'. split; [|split; [|split; assumption]].
    - unfold calc_skel, calc_skel_with. destruct shrink.
      + apply rbind_ok in SH. destruct SH as (box & HB & SH). rewrite HB. cbn [rbind]. cbv zeta. apply rbind_ok in SH. destruct SH as (pts & HPT & SH).
        injection SH as <- ->. rewrite HPT. cbn [rbind]. rewrite HD. cbn [rbind]. rewrite HI. cbn [rbind fst snd].
        change (fst (internal_only_skeleton (s, None))) with (start_of true s). rewrite CK. cbn [rbind]. rewrite HE. cbn [rbind]. rewrite HL. reflexivity.
      + injection SH as <- ->. cbn [rbind]. rewrite HD. cbn [rbind]. rewrite HI. cbn [rbind].
        change (fst (internal_only_skeleton (s, None))) with (start_of true s). rewrite CK. cbn [rbind]. rewrite HE. cbn [rbind]. rewrite HL. reflexivity.
    - assert (SR : forall x y, x = y * (ca * ca + cb * cb) -> x = y) by (intros x y ->; rewrite UN; ring).
      assert (SP : span p2 p3 = w /\ span p3 p0 = h).
      { destruct (RectReal.spans ca cb X Y w h UN WP HP) as (_ & _ & S3 & S4). rewrite <- HP2, <- HP3 in S3. rewrite <- HP3, <- HP0 in S4. auto. }
      destruct SP as [SP2 SP3].
      unfold ridge_of, ridge, inside_at. rewrite SP2, SP3, SW, SHH. clear SP2 SP3 SW SHH.
      rewrite HP0, HP1, HP2, HP3. unfold orient, a, b, T, meet, q0, q1, q2, q3, d0, d1, d2, d3.
      destruct long; cbn [fst snd]; (split; [exact TP|]); repeat split; apply SR; field.
  Qed.
End AnyRect.

Lemma roof_of (f : R * R -> R * R) back s' T p0 p1 p2 p3 e0 e1 e2 e3 g g' : back = Some f \/ (back = None /\ f = fun p => p) ->
  built s' T p0 p1 p2 p3 e0 e1 e2 e3 g g' ->
  segments (A:=RA) s' back = Ok (roof (f p0) (f p1) (f p2) (f p3) (f e0) (f e1) (f e2) (f e3) (f g, f g')).
Proof.
  intros FB [B1 B2 [m0 A0] [m2 A2] [m4 A4] [m6 A6] B7 BF B8 B9 (i & j & C1 & C2 & C3 & C4 & C5 & C6 & C7)].
  assert (G : forall v p e l m, arrives s' T v p e l m -> segment_of (A:=RA) s' back v = Ok (Some ((f p, f e), (None, None)))).
  { intros v p e l m [H1 H2 H3 H4 H5 H6 [H7 H8] (n & K1 & K2 & K3 & K4)]. unfold segment_of, Primitives.start_of. rewrite H1, H3, H6, K1. cbn [onat_eqb].
    destruct (Nat.eqb_spec n m) as [->|_]; [destruct (K2 eq_refl)|]. cbn [rbind]. rewrite K3, K4, H7, H8. destruct FB as [->|[-> ->]]; reflexivity. }
  assert (G9 : segment_of (A:=RA) s' back 9%nat = Ok (Some ((f g, f g'), (None, None)))).
  { unfold segment_of, Primitives.start_of. rewrite B7, B9, C1, C2. cbn [onat_eqb]. destruct (Nat.eqb_spec i j) as [->|_]; [destruct (C3 eq_refl)|].
    cbn [rbind]. rewrite C4, C5, C6, C7. destruct FB as [->|[-> ->]]; reflexivity. }
  unfold segments. rewrite B1. cbn [rmapl]. rewrite (G _ _ _ _ _ A0), (G _ _ _ _ _ A2), (G _ _ _ _ _ A4), (G _ _ _ _ _ A6), G9. reflexivity.
Qed.

(** ** Every such rectangle in the square -2 .. 2 *)

(** all arcs and triangles end at [r], the distance of the ridge to the sides *)
Definition all_end_at (s' : state (A:=RA)) (r : R) : Prop :=
  (forall v, In v (sk_vertices s') -> k_stops (vs s' v) = Some r) /\ (forall t, In t (sk_triangles s') -> t_stops (ts s' t) = Some r).
Lemma built_ends s' T p0 p1 p2 p3 e0 e1 e2 e3 g g' : built s' T p0 p1 p2 p3 e0 e1 e2 e3 g g' -> all_end_at s' T.
Proof.
  intros [B1 B2 [m0 A0] [m2 A2] [m4 A4] [m6 A6] B7 BF B8 B9 _]. split; [|exact B2]. rewrite B1.
  intros v [<-|[<-|[<-|[<-|[<-|[]]]]]]; [apply A0|apply A2|apply A4|apply A6|exact B9].
Qed.

Theorem C95_long :
  forall (E : Env RA), true_orientation E -> addr (A:=RA) 0 <> addr (A:=RA) 1 -> (0 < reclimit (A:=RA))%nat ->
  forall p0 p1 p2 p3 : R * R, rectangle p0 p1 p2 p3 ->
  in_square p0 -> in_square p1 -> in_square p2 -> in_square p3 ->
  span p0 p1 > span p1 p2 + / 10^10 -> span p1 p2 > 2 * / 10^10 ->
  exists s' a b r rg, calc_skel (quad_of (A:=RA)) [p0; p1; p2; p3] false true = Ok (s', None) /\
    ridge p0 p1 p2 p3 a b r /\ (rg = (a, b) \/ rg = (b, a)) /\
    segments s' None = Ok (roof p0 p1 p2 p3 a b b a rg) /\ all_end_at s' r.
Proof.
  intros E TE AD RL p0 p1 p2 p3 RE I0 I1 I2 I3 L1 L2.
  destruct (rect_run E TE AD RL p0 p1 p2 p3 RE I0 I1 I2 I3 true [p0; p1; p2; p3] false None) as (s' & a & b & T & g & g' & H & RG & GG & BT);
    [split; lra|reflexivity|].
  exists s', a, b, T, (g, g'). split; [exact H|]. split; [exact RG|]. split; [exact GG|].
  split; [exact (roof_of (fun p => p) None s' T _ _ _ _ _ _ _ _ _ _ (or_intror (conj eq_refl eq_refl)) BT)|exact (built_ends _ _ _ _ _ _ _ _ _ _ _ _ BT)].
Qed.
Print Assumptions C95_long.

Theorem C95_short :
  forall (E : Env RA), true_orientation E -> addr (A:=RA) 0 <> addr (A:=RA) 1 -> (0 < reclimit (A:=RA))%nat ->
  forall p0 p1 p2 p3 : R * R, rectangle p0 p1 p2 p3 ->
  in_square p0 -> in_square p1 -> in_square p2 -> in_square p3 ->
  span p1 p2 > span p0 p1 + / 10^10 -> span p0 p1 > 2 * / 10^10 ->
  exists s' a b r rg, calc_skel (quad_of (A:=RA)) [p0; p1; p2; p3] false true = Ok (s', None) /\
    ridge p1 p2 p3 p0 a b r /\ (rg = (a, b) \/ rg = (b, a)) /\
    segments s' None = Ok (roof p0 p1 p2 p3 a a b b rg) /\ all_end_at s' r.
Proof.
  intros E TE AD RL p0 p1 p2 p3 RE I0 I1 I2 I3 L1 L2.
  destruct (rect_run E TE AD RL p0 p1 p2 p3 RE I0 I1 I2 I3 false [p0; p1; p2; p3] false None) as (s' & a & b & T & g & g' & H & RG & GG & BT);
    [split; lra|reflexivity|].
  exists s', a, b, T, (g, g'). split; [exact H|]. split; [exact RG|]. split; [exact GG|].
  split; [exact (roof_of (fun p => p) None s' T _ _ _ _ _ _ _ _ _ _ (or_intror (conj eq_refl eq_refl)) BT)|exact (built_ends _ _ _ _ _ _ _ _ _ _ _ _ BT)].
Qed.
Print Assumptions C95_short.

(** The offsets: before [r], the four sides of the rectangle whose corners went t/r of the way to their ends of the ridge; then nothing *)
Definition offset_rectangle (long : bool) (p0 p1 p2 p3 a b : R * R) (r t : R) : list (offset (A:=RA)) :=
  let c0 := along r p0 a t in let c1 := along r p1 (if long then b else a) t in
  let c2 := along r p2 b t in let c3 := along r p3 (if long then a else b) t in
  if Rlt_dec t r then [mkOff c0 c3 t 0 6; mkOff c1 c0 t 2 0; mkOff c2 c1 t 4 2; mkOff c3 c2 t 6 4] else [].
Lemma ridge_of_unique long p0 p1 p2 p3 a b r a' b' r' : rectangle p0 p1 p2 p3 ->
  ridge_of long p0 p1 p2 p3 a b r -> ridge_of long p0 p1 p2 p3 a' b' r' -> a = a' /\ b = b' /\ r = r'.
Proof.
  intros RE. destruct long; [apply C95_ridge_unique; exact RE|]. apply C95_ridge_unique. destruct RE as (R1 & R2 & R3 & R4).
  split; [lra|]. split; [lra|]. split; [replace (fst p2 - fst p1) with (fst p3 - fst p0) by lra; replace (snd p2 - snd p1) with (snd p3 - snd p0) by lra; lra|].
  unfold orient in *. replace (fst p3) with (fst p0 + fst p2 - fst p1) by lra. replace (snd p3) with (snd p0 + snd p2 - snd p1) by lra. lra.
Qed.
Theorem C95_offsets :
  forall (E : Env RA), true_orientation E -> addr (A:=RA) 0 <> addr (A:=RA) 1 -> (0 < reclimit (A:=RA))%nat ->
  forall (long : bool) (p0 p1 p2 p3 a b : R * R) r s' tr, rectangle p0 p1 p2 p3 ->
  in_square p0 -> in_square p1 -> in_square p2 -> in_square p3 -> sides long (/ 10^10) p0 p1 p2 ->
  ridge_of long p0 p1 p2 p3 a b r ->
  calc_skel (quad_of (A:=RA)) [p0; p1; p2; p3] false true = Ok (s', tr) ->
  forall (now : R) n, 0 <= now -> (0 < n)%nat ->
  calc_offsets s' now n = (flat_map (fun k => offset_rectangle long p0 p1 p2 p3 a b r (INR k * (now / INR n))) (seq 0 n), None).
Proof.
  intros E TE AD RL long p0 p1 p2 p3 a b r s' tr RE I0 I1 I2 I3 SD RG H now n N0 NP.
  destruct (rect_run E TE AD RL p0 p1 p2 p3 RE I0 I1 I2 I3 long [p0; p1; p2; p3] false None SD eq_refl) as (s2 & a' & b' & T & g & g' & H2 & RG' & GG & BT).
  rewrite H in H2. injection H2 as <- _.
  destruct (ridge_of_unique long p0 p1 p2 p3 a b r a' b' T RE RG RG') as (<- & <- & <-). clear RG'.
  assert (NR : 0 < INR n) by (apply lt_0_INR; exact NP).
  destruct BT as [B1 B2 [m0 A0] [m2 A2] [m4 A4] [m6 A6] B7 BF B8 B9 _].
  assert (AT : forall t l, 0 <= t ->
     yields (fun tv => offset_at s' (fst tv) (snd tv)) ((t, 0%nat) :: (t, 2%nat) :: (t, 4%nat) :: (t, 6%nat) :: (t, 9%nat) :: l) =
     (offset_rectangle long p0 p1 p2 p3 a b r t ++ fst (yields (fun tv => offset_at s' (fst tv) (snd tv)) l),
      snd (yields (fun tv => offset_at s' (fst tv) (snd tv)) l))).
  { intros t l TP.
    assert (ONE : forall v p e l m q e' l' m', arrives s' r v p e l m -> arrives s' r l q e' l' m' ->
      offset_at (A:=RA) s' t v = Ok (if Rlt_dec t r then Some (mkOff (A:=RA) (along r p e t) (along r q e' t) t v l) else None)).
    { intros v p e w m q e' l' m' V W. unfold offset_at, started_at. rewrite (av_inf _ _ _ _ _ _ _ V), (av_starts _ _ _ _ _ _ _ V), (av_stops _ _ _ _ _ _ _ V). cbn [rbind is_none].
      assert (L0 : nleb (Arith:=RA) 0 t = true) by (apply Rleb_true; exact TP). rewrite L0. cbn [andb]. rewrite orb_false_r.
      destruct (Rlt_dec t r) as [L|L].
      - assert (L1 : nltb (Arith:=RA) t r = true) by (apply Rltb_true; exact L). rewrite L1. rewrite (av_left _ _ _ _ _ _ _ V t TP L). unfold offset_item.
        rewrite (av_path _ _ _ _ _ _ _ V t), (av_path _ _ _ _ _ _ _ W t). reflexivity.
      - assert (L1 : nltb (Arith:=RA) t r = false) by (apply Rltb_false; lra). rewrite L1. reflexivity. }
    assert (NINE : offset_at (A:=RA) s' t 9 = Ok None).
    { unfold offset_at, started_at. rewrite B7, B8, B9. cbn [rbind is_none].
      destruct (nleb (Arith:=RA) r t) eqn:L0; [|reflexivity]. apply Rleb_true in L0.
      assert (L1 : nltb (Arith:=RA) t r = false) by (apply Rltb_false; lra). rewrite L1. reflexivity. }
    cbn [yields fst snd]. rewrite (ONE _ _ _ _ _ _ _ _ _ A0 A6), (ONE _ _ _ _ _ _ _ _ _ A2 A0), (ONE _ _ _ _ _ _ _ _ _ A4 A2), (ONE _ _ _ _ _ _ _ _ _ A6 A4), NINE.
    unfold offset_rectangle. cbv zeta. destruct (Rlt_dec t r); [reflexivity|]. apply surjective_pairing. }
  unfold calc_offsets. unfold pdiv. rewrite (RA_counts n) by lia. rewrite B1.
  assert (GO : forall inc l, 0 <= inc -> yields (fun tv => offset_at s' (fst tv) (snd tv)) (list_prod (map (fun k => INR k * inc) l) [0; 2; 4; 6; 9]%nat) =
    (flat_map (fun k => offset_rectangle long p0 p1 p2 p3 a b r (INR k * inc)) l, None)).
  { intros inc l IP. induction l as [|k l IH]; [reflexivity|]. cbn [map list_prod flat_map app]. rewrite AT.
    - rewrite IH. reflexivity.
    - apply Rmult_le_pos; [apply pos_INR|exact IP]. }
  rewrite <- (GO (now / INR n) (seq 0 n)).
  - f_equal. f_equal. apply map_ext. intros k. rewrite !nofnat_INR. reflexivity.
  - apply Rmult_le_pos; [exact N0|]. left. apply Rinv_0_lt_compat. exact NR.
Qed.
Print Assumptions C95_offsets.

(** ** Every such rectangle, of any size and anywhere, scaled to the unit square first *)
Lemma shrunk_rectangle :
  forall (E : Env RA), true_orientation E -> addr (A:=RA) 0 <> addr (A:=RA) 1 -> (0 < reclimit (A:=RA))%nat ->
  forall (long : bool) (p0 p1 p2 p3 : R * R) (d : R), rectangle p0 p1 p2 p3 ->
  (forall p q, In p [p0; p1; p2; p3] -> In q [p0; p1; p2; p3] -> fst p - fst q <= d /\ snd p - snd q <= d) ->
  sides long (d / 2 * / 10^10) p0 p1 p2 ->
  exists s' tr a b r rg, calc_skel (quad_of (A:=RA)) [p0; p1; p2; p3] true true = Ok (s', Some tr) /\
    ridge_of long p0 p1 p2 p3 a b r /\ (rg = (a, b) \/ rg = (b, a)) /\
    segments s' (Some (backward tr)) = Ok (roof p0 p1 p2 p3 a (if long then b else a) b (if long then a else b) rg) /\
    exists T z0 z1 z2 z3 e0 e1 e2 e3 g g', 0 < T /\ built s' T z0 z1 z2 z3 e0 e1 e2 e3 g g'.
Proof.
  intros E TE AD RL long p0 p1 p2 p3 d RE DD SD. assert (E10 : 0 < / 10^10) by (apply Rinv_0_lt_compat, pow_lt; lra).
  assert (KP : 0 < orient p0 p1 p2) by apply RE.
  destruct (get_box (A:=RA) [p0; p1; p2; p3]) as [box|] eqn:HB; [|discriminate].
  set (t := get_transform box). assert (TO : transform_of [p0; p1; p2; p3] t) by (exists box; auto).
  destruct (orient_apart p0 p1 p2 KP) as (N01 & _). assert (NC : ~ all_coincide [p0; p1; p2; p3]) by (intros H; apply N01, H; simpl; auto).
  destruct (transform_of_scale _ t TO NC) as [_ SP]. set (k := fst (tr_scale t)) in *.
  assert (FW : forall p, In p [p0; p1; p2; p3] -> exists q, forward t p = Ok q /\ backward t q = p /\ in_square q).
  { intros p Hp. destruct (round_trip _ t p TO NC) as [(q & Q1 & Q2) _]. exists q. split; [exact Q1|]. split; [exact Q2|].
    destruct (forward_square _ t p TO NC Hp) as (x & y & Q3 & Q4 & Q5). rewrite Q1 in Q3. injection Q3 as ->. split; cbn [fst snd]; lra. }
  destruct (FW p0) as (z0 & F0 & G0 & I0); [simpl; auto|]. destruct (FW p1) as (z1 & F1 & G1 & I1); [simpl; auto|].
  destruct (FW p2) as (z2 & F2 & G2 & I2); [simpl; auto|]. destruct (FW p3) as (z3 & F3 & G3 & I3); [simpl; auto|]. clear FW.
  assert (SIM : forall p q p' q' : R * R, forward t p = Ok p' -> forward t q = Ok q' -> fst p - fst q = k * (fst p' - fst q') /\ snd p - snd q = k * (snd p' - snd q')).
  { intros p q p' q'. apply (forward_similarity _ t p q p' q' TO NC). }
  assert (KD : 2 * k <= d).
  { destruct (forward_touches _ t TO NC) as [(p & q & y & y' & Hp & Hq & Fp & Fq)|(p & q & x & x' & Hp & Hq & Fp & Fq)];
      destruct (SIM _ _ _ _ Fq Fp) as [S1 S2]; cbn [fst snd] in S1, S2; destruct (DD q p Hq Hp) as [D1 D2];
      [exact (double _ _ _ S1 D1)|exact (double _ _ _ S2 D2)]. }
  assert (OR : forall p q r p' q' r' : R * R, forward t p = Ok p' -> forward t q = Ok q' -> forward t r = Ok r' -> orient p q r = k * k * orient p' q' r').
  { intros p q r p' q' r' Hp Hq Hr. destruct (SIM _ _ _ _ Hp Hq). destruct (SIM _ _ _ _ Hp Hr). apply scaled_orient; assumption. }
  assert (SN : forall p q p' q' : R * R, forward t p = Ok p' -> forward t q = Ok q' -> span p q = k * span p' q').
  { intros p q p' q' Hp Hq. destruct (SIM _ _ _ _ Hp Hq). apply scaled_span; assumption. }
  assert (RZ : rectangle z0 z1 z2 z3).
  { destruct RE as (R1 & R2 & R3 & R4). destruct (SIM _ _ _ _ F1 F0) as [A1 A2]. destruct (SIM _ _ _ _ F2 F3) as [B1 B2]. destruct (SIM _ _ _ _ F3 F0) as [C1 C2].
    rewrite A1, B1 in R1. rewrite A2, B2 in R2. rewrite A1, A2, C1, C2 in R3. rewrite (OR _ _ _ _ _ _ F0 F1 F2) in R4.
    split; [apply Rmult_eq_reg_l with k; lra|]. split; [apply Rmult_eq_reg_l with k; lra|]. split; [|assert (0 < k * k) by nra; nra].
    apply Rmult_eq_reg_l with (k * k); [|nra]. rewrite Rmult_0_r, <- R3. ring. }
  assert (SZ : sides long (/ 10^10) z0 z1 z2).
  { unfold sides in *. rewrite (SN _ _ _ _ F0 F1), (SN _ _ _ _ F1 F2) in SD. assert (KE : k * / 10^10 <= d / 2 * / 10^10) by (apply Rmult_le_compat_r; lra).
    destruct long; destruct SD as [D1 D2]; (split; apply (Rmult_lt_reg_l k); [exact SP|lra|exact SP|lra]). }
  destruct (rect_run E TE AD RL z0 z1 z2 z3 RZ I0 I1 I2 I3 long [p0; p1; p2; p3] true (Some t) SZ) as (s' & a & b & T & g & g' & H & RG & GG & BT).
  { rewrite HB. cbn [rbind rmapl]. fold t. rewrite F0, F1, F2, F3. reflexivity. }
  pose proof (roof_of (backward t) (Some (backward t)) s' T _ _ _ _ _ _ _ _ _ _ (or_introl eq_refl) BT) as SG.
  destruct (round_trip _ t a TO NC) as [_ FA]. destruct (round_trip _ t b TO NC) as [_ FB].
  exists s', t, (backward t a), (backward t b), (k * T), (backward t g, backward t g'). split; [exact H|].
  assert (TP : 0 < T) by (unfold ridge_of, ridge in RG; destruct long; apply RG).
  split; [|split; [|split; [|do 11 eexists; split; [exact TP|exact BT]]]].
  - assert (IA : forall p q c p' q' : R * R, forward t p = Ok p' -> forward t q = Ok q' -> inside_at T p' q' c -> inside_at (k * T) p q (backward t c)).
    { intros p q c p' q' Hp Hq HI. destruct (round_trip _ t c TO NC) as [_ FC]. unfold inside_at in *.
      rewrite (OR _ _ _ _ _ _ Hp Hq FC), HI, (SN _ _ _ _ Hp Hq). ring. }
    unfold ridge_of, ridge in *. destruct long; destruct RG as (RP & (X1 & X2 & X3) & (Y1 & Y2 & Y3)); (split; [apply Rmult_lt_0_compat; assumption|]);
      repeat split; eapply IA; eassumption.
  - destruct GG as [GG|GG]; injection GG as -> ->; auto.
  - rewrite SG, G0, G1, G2, G3. destruct long; reflexivity.
Qed.
Theorem C95_shrunk :
  forall (E : Env RA), true_orientation E -> addr (A:=RA) 0 <> addr (A:=RA) 1 -> (0 < reclimit (A:=RA))%nat ->
  forall (long : bool) (p0 p1 p2 p3 : R * R) (d : R), rectangle p0 p1 p2 p3 ->
  (forall p q, In p [p0; p1; p2; p3] -> In q [p0; p1; p2; p3] -> fst p - fst q <= d /\ snd p - snd q <= d) ->
  sides long (d / 2 * / 10^10) p0 p1 p2 ->
  exists s' tr a b r rg, calc_skel (quad_of (A:=RA)) [p0; p1; p2; p3] true true = Ok (s', Some tr) /\
    ridge_of long p0 p1 p2 p3 a b r /\ (rg = (a, b) \/ rg = (b, a)) /\
    segments s' (Some (backward tr)) = Ok (roof p0 p1 p2 p3 a (if long then b else a) b (if long then a else b) rg).
Proof.
  intros E TE AD RL long p0 p1 p2 p3 d RE DD SD. destruct (shrunk_rectangle E TE AD RL long p0 p1 p2 p3 d RE DD SD) as (s' & tr & a & b & r & rg & H1 & H2 & H3 & H4 & _).
  exists s', tr, a, b, r, rg. auto.
Qed.
Print Assumptions C95_shrunk.

(** *** Cases: the rectangle of 2 by 1, upright and tilted, and one of 30 by 40 far away *)
Example C95_case : rectangle (0, 0) (2, 0) (2, 1) (0, 1) /\ in_square (0, 0) /\ in_square (2, 0) /\ in_square (2, 1) /\ in_square (0, 1) /\
  sides true (/ 10^10) (0, 0) (2, 0) (2, 1) /\ ridge (0, 0) (2, 0) (2, 1) (0, 1) (1/2, 1/2) (3/2, 1/2) (1/2) /\
  true_orientation exact_orientation /\ (let E := exact_orientation in addr (A:=RA) 0 <> addr (A:=RA) 1 /\ (0 < reclimit (A:=RA))%nat).
Proof.
  assert (S1 : span (0, 0) (2, 0) = 2) by (apply len_is; cbn; lra). assert (S2 : span (2, 0) (2, 1) = 1) by (apply len_is; cbn; lra).
  assert (S3 : span (2, 1) (0, 1) = 2) by (apply len_is; cbn; lra). assert (S4 : span (0, 1) (0, 0) = 1) by (apply len_is; cbn; lra).
  split; [unfold rectangle, orient; cbn; lra|]. do 4 (split; [unfold in_square; cbn; lra|]).
  split; [unfold sides; rewrite S1, S2; cbn; lra|]. split; [unfold ridge, inside_at; rewrite S1, S2, S3, S4; unfold orient; cbn; lra|].
  split; [exact exact_orientation_true|]. cbn. split; [lia|lia].
Qed.
Example C95_case_tilted : rectangle (0, 0) (6/5, 8/5) (2/5, 11/5) (-(4/5), 3/5) /\ sides true (/ 10^10) (0, 0) (6/5, 8/5) (2/5, 11/5) /\
  ridge (0, 0) (6/5, 8/5) (2/5, 11/5) (-(4/5), 3/5) (-(1/10), 7/10) (1/2, 3/2) (1/2).
Proof.
  assert (S1 : span (0, 0) (6/5, 8/5) = 2) by (apply len_is; cbn; lra). assert (S2 : span (6/5, 8/5) (2/5, 11/5) = 1) by (apply len_is; cbn; lra).
  assert (S3 : span (2/5, 11/5) (-(4/5), 3/5) = 2) by (apply len_is; cbn; lra). assert (S4 : span (-(4/5), 3/5) (0, 0) = 1) by (apply len_is; cbn; lra).
  split; [unfold rectangle, orient; cbn; lra|]. split; [unfold sides; rewrite S1, S2; cbn; lra|].
  unfold ridge, inside_at. rewrite S1, S2, S3, S4. unfold orient. cbn. lra.
Qed.
Example C95_case_result : exists s' tr rg,
  (let E := exact_orientation in calc_skel (quad_of (A:=RA)) [(1000, 2000); (1030, 2000); (1030, 2040); (1000, 2040)] true true) = Ok (s', Some tr) /\
  (rg = ((1015, 2015), (1015, 2025)) \/ rg = ((1015, 2025), (1015, 2015))) /\
  segments s' (Some (backward tr)) = Ok (roof (1000, 2000) (1030, 2000) (1030, 2040) (1000, 2040) (1015, 2015) (1015, 2015) (1015, 2025) (1015, 2025) rg).
Proof.
  assert (S1 : span (1000, 2000) (1030, 2000) = 30) by (apply len_is; cbn; lra). assert (S2 : span (1030, 2000) (1030, 2040) = 40) by (apply len_is; cbn; lra).
  assert (S3 : span (1030, 2040) (1000, 2040) = 30) by (apply len_is; cbn; lra). assert (S4 : span (1000, 2040) (1000, 2000) = 40) by (apply len_is; cbn; lra).
  assert (RE : rectangle (1000, 2000) (1030, 2000) (1030, 2040) (1000, 2040)) by (unfold rectangle, orient; cbn; lra).
  destruct (C95_shrunk exact_orientation exact_orientation_true) with (long := false) (p0 := (1000, 2000)) (p1 := (1030, 2000)) (p2 := (1030, 2040)) (p3 := (1000, 2040)) (d := 40)
    as (s' & tr & a & b & r & rg & H & RG & GG & SG).
  - cbn. lia.
  - cbn. lia.
  - exact RE.
  - intros p q [<-|[<-|[<-|[<-|[]]]]] [<-|[<-|[<-|[<-|[]]]]]; cbn; lra.
  - unfold sides. rewrite S1, S2. cbn. lra.
  - destruct (ridge_of_unique false _ _ _ _ a b r (1015, 2015) (1015, 2025) 15 RE RG) as (-> & -> & _).
    { unfold ridge_of, ridge, inside_at. rewrite S1, S2, S3, S4. unfold orient. cbn. lra. }
    exists s', tr, rg. split; [exact H|]. split; [exact GG|exact SG].
Qed.
