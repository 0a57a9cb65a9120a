(** Property theorems about calc.py, transform.py and vectorops.py. *)
From Coq Require Import Reals Lra Psatz Sorting.Sorted Permutation.
From Verif Require Import Base Arith ArithR ArithQ Calc CalcProofs RSquared VectorOps Transform
  TransformProofs Line2d Line2dProofs VectorOpsProofs.
Local Open Scope R_scope.

(** ** C01 *)
Theorem C01_near_zero_exact :
  forall v : R, near_zero v = true <-> - / 10^10 <= v <= / 10^10.
Proof. exact near_zero_R. Qed.
Print Assumptions C01_near_zero_exact.

(** near_zero is the call of is_close in the source, and that call never raises *)
Theorem C01_near_zero_is_the_call :
  forall v : R, is_close v 0 (/ 10^12) (/ 10^10) MWeak = Ok (near_zero v).
Proof. exact near_zero_is_close. Qed.
Print Assumptions C01_near_zero_is_the_call.

Example C01_boundary_in : near_zero (A:=QA) (1#10000000000)%Q = true.
Proof. vm_compute. reflexivity. Qed.
Example C01_boundary_out : near_zero (A:=QA) (10000000001#100000000000000000000)%Q = false.
Proof. vm_compute. reflexivity. Qed.

(** ** C02 *)
Theorem C02_is_close_symmetric :
  forall (a b rel_tol abs_tol : R) (m : method), m <> MAsymmetric ->
  is_close a b rel_tol abs_tol m = is_close b a rel_tol abs_tol m.
Proof. exact is_close_sym_R. Qed.
Print Assumptions C02_is_close_symmetric.

(** the remaining method really is asymmetric *)
Example C02_asymmetric_is_not :
  is_close (A:=QA) 10%Q 9%Q (1#10)%Q 0%Q MAsymmetric = Ok false /\
  is_close (A:=QA) 9%Q 10%Q (1#10)%Q 0%Q MAsymmetric = Ok true.
Proof. split; vm_compute; reflexivity. Qed.

Theorem C02_is_close_reflexive :
  forall (A : Arith), OrdArith A -> forall (a rel_tol abs_tol : num) (m : method),
  is_close a a rel_tol abs_tol m <> Err ValueError -> is_close a a rel_tol abs_tol m = Ok true.
Proof. intros A O. exact (is_close_refl O). Qed.
Print Assumptions C02_is_close_reflexive.

Theorem C02_is_close_raises_iff :
  forall (A : Arith) (a b rel_tol abs_tol : num) (m : method),
  (exists e, is_close a b rel_tol abs_tol m = Err e) <->
  (m = MUnknown \/ nltb rel_tol (lit 0) = true \/ nltb abs_tol (lit 0) = true).
Proof.
  intros. rewrite <- (is_close_err a b). split; [|eauto].
  intros [e H]. destruct (is_close_cases a b rel_tol abs_tol m) as [[r K]|K]; congruence.
Qed.
Print Assumptions C02_is_close_raises_iff.

Theorem C02_strong_implies_weak :
  forall (A : Arith) (a b rel_tol abs_tol : num),
  is_close a b rel_tol abs_tol MStrong = Ok true -> is_close a b rel_tol abs_tol MWeak = Ok true.
Proof. intros A. exact is_close_strong_weak. Qed.
Print Assumptions C02_strong_implies_weak.

Theorem C02_is_close_distance :
  forall (a b rel_tol abs_tol : R) (m : method),
  is_close a b rel_tol abs_tol m = Ok true ->
  Rabs (a - b) <= Rmax abs_tol (rel_tol * Rmax (Rabs a) (Rabs b)).
Proof. exact is_close_dist_R. Qed.
Print Assumptions C02_is_close_distance.

Example C02_case : is_close (A:=QA) 1000%Q 1010%Q (1#101)%Q 0%Q MStrong = Ok false /\
                   is_close (A:=QA) 1000%Q 1010%Q (1#101)%Q 0%Q MWeak = Ok true.
Proof. split; vm_compute; reflexivity. Qed.

(** ** C03: [clusters_spec k e L out] (CalcProofs.v) says: strictly increasing,
    selected from L, starts with the minimum, neighbours not close, every input
    close to the largest output not above it.  [k] scales with the average of the
    two values, [e] is absolute.  The parameter called abs_tol plays the role of
    [k], see C04. *)
Theorem C03_clusters :
  forall (abs_tol rel_tol : R) (L : list R), 0 <= abs_tol -> 0 <= rel_tol -> L <> [] ->
  exists out, all_close_clusters L abs_tol rel_tol = Ok out /\ clusters_spec abs_tol rel_tol L out.
Proof.
  intros k e L Hk He HL. destruct L as [|x r]; [congruence|].
  apply (clusters_of_sorted_spec k e (x :: r)); assumption.
Qed.
Print Assumptions C03_clusters.

Theorem C03_clusters_order_irrelevant :
  forall (abs_tol rel_tol : R) (L L' : list R), Permutation L L' ->
  all_close_clusters L abs_tol rel_tol = all_close_clusters L' abs_tol rel_tol.
Proof. exact all_close_clusters_perm. Qed.
Print Assumptions C03_clusters_order_irrelevant.

Example C03_case :
  all_close_clusters (A:=QA) [3; 1; 100000001#100000000; 2; 1]%Q (1#10000000)%Q 0%Q = Ok [1; 2; 3]%Q.
Proof. vm_compute. reflexivity. Qed.

(** ** C04 *)
Theorem C04_absolute_tolerance_refuted :
  exists (L : list R) (out : list R),
    all_close_clusters L (/ 10^7) 0 = Ok out /\
    exists x y, In x out /\ In y out /\ x <> y /\ Rabs (x - y) <= / 10^7.
Proof.
  exists [0; / 10^9], [0; / 10^9]. split; [apply clusters_keep_tiny; lra|].
  exists 0, (/ 10^9). simpl. repeat split; auto; try lra.
  rewrite Rabs_left by lra. lra.
Qed.
Print Assumptions C04_absolute_tolerance_refuted.

(** however close the second value is to zero, it is kept *)
Theorem C04_zero_never_merges :
  forall x : R, 0 < x -> all_close_clusters [0; x] (/ 10^7) 0 = Ok [0; x].
Proof. exact clusters_keep_tiny. Qed.
Print Assumptions C04_zero_never_merges.

(** ** C05 *)
Theorem C05_unique_times_none_refuted :
  forall (A : Arith) (times : list (option num)),
  (forall x, In x times -> x = None) -> get_unique_times times = Err StopIteration.
Proof.
  intros A times H. unfold get_unique_times.
  assert (somes times = []) as ->; [|reflexivity].
  destruct (somes times) as [|x r] eqn:E; [reflexivity|].
  assert (In (Some x) times) as K by (apply In_somes; rewrite E; simpl; auto).
  apply H in K. discriminate.
Qed.
Print Assumptions C05_unique_times_none_refuted.

Theorem C05_unique_times_otherwise :
  forall (times : list (option R)) x, In (Some x) times ->
  exists out, get_unique_times times = Ok out /\ clusters_spec (/ 10^7) 0 (somes times) out.
Proof.
  intros times x Hx. unfold get_unique_times.
  destruct (clusters_of_sorted_spec (/ 10^7) 0 (somes times)) as (out & H & K); try lra.
  - intros E. apply In_somes in Hx. rewrite E in Hx. destruct Hx.
  - exists out. split; [|exact K]. rewrite <- H. ra_simp. rewrite qe7, q0. reflexivity.
Qed.
Print Assumptions C05_unique_times_otherwise.

Example C05_case : get_unique_times (A:=QA) [None; Some 2; None; Some 1; Some 2]%Q = Ok [1; 2]%Q.
Proof. vm_compute. reflexivity. Qed.

(** ** C06 *)
Theorem C06_groupby_cluster :
  forall (A : Arith) (L : list (num * num)) (d : num * num),
  (L = [] -> groupby_cluster L = Err StopIteration) /\
  (L <> [] -> exists gs, groupby_cluster L = Ok gs /\
     concat gs = seq 0 (length L) /\
     (forall g, In g gs -> g <> []) /\
     Forall (group_ok L d) gs /\
     leaders_apart L d gs).
Proof.
  intros A L d. split; [intros ->; reflexivity|].
  destruct L as [|p r]; [congruence|]. intros _. simpl. eexists. split; [reflexivity|].
  split; [|split].
  - rewrite group_loop_concat. reflexivity.
  - intros g. apply group_loop_nonempty; discriminate.
  - destruct (group_loop_spec d [p] p [0%nat] r) as (H1 & H2 & _); simpl; auto; try discriminate.
Qed.
Print Assumptions C06_groupby_cluster.

Example C06_case :
  groupby_cluster (A:=QA) [(0,0); (0,0); (1,1); (1,1); (2,2)]%Q = Ok [[0;1];[2;3];[4]]%nat.
Proof. vm_compute. reflexivity. Qed.

(** ** C07 *)
Theorem C07_get_box_tight :
  forall (A : Arith), OrdArith A -> forall (pts : list pt) b, get_box pts = Ok b -> tight_box pts b.
Proof. intros A O. exact (get_box_tight O). Qed.
Print Assumptions C07_get_box_tight.

Theorem C07_get_box_fails_iff_empty :
  forall (A : Arith) (pts : list pt),
  (exists e, get_box pts = Err e) <-> pts = [].
Proof.
  intros A [|p r]; simpl; split; intros H; try discriminate; eauto. destruct H; discriminate.
Qed.
Print Assumptions C07_get_box_fails_iff_empty.

Example C07_case : get_box (A:=QA) [(78, 100); (75, 125)]%Q = Ok ((75, 100), (78, 125))%Q.
Proof. vm_compute. reflexivity. Qed.

(** ** C08: [transform_of pts t] = t is get_transform(get_box(pts)) *)
Theorem C08_round_trip :
  forall (pts : list (R * R)) t p, transform_of pts t -> ~ all_coincide pts ->
  (exists q, forward t p = Ok q /\ backward t q = p) /\ forward t (backward t p) = Ok p.
Proof. exact round_trip. Qed.
Print Assumptions C08_round_trip.

Theorem C08_forward_fails_iff :
  forall (pts : list (R * R)) t, transform_of pts t ->
  (forall p, forward t p = Err ZeroDivisionError) <-> all_coincide pts.
Proof. exact forward_fails_iff. Qed.
Print Assumptions C08_forward_fails_iff.

(** ** C09 *)
Theorem C09_into_unit_square :
  forall (pts : list (R * R)) t p, transform_of pts t -> ~ all_coincide pts -> In p pts ->
  exists x y, forward t p = Ok (x, y) /\ -1 <= x <= 1 /\ -1 <= y <= 1.
Proof. exact forward_square. Qed.
Print Assumptions C09_into_unit_square.

Theorem C09_similarity :
  forall (pts : list (R * R)) t, transform_of pts t -> ~ all_coincide pts ->
  exists k, 0 < k /\ forall p q r p' q' r',
    forward t p = Ok p' -> forward t q = Ok q' -> forward t r = Ok r' ->
    len (fst p - fst q) (snd p - snd q) = k * len (fst p' - fst q') (snd p' - snd q') /\
    orient p q r = k * k * orient p' q' r'.
Proof.
  intros pts t Ht Hc. exists (fst (tr_scale t)).
  destruct (transform_of_scale pts t Ht Hc) as [_ Hk]. split; [exact Hk|].
  intros p q r p' q' r' Hp Hq Hr.
  destruct (forward_similarity pts t p q p' q' Ht Hc Hp Hq) as [E1 E2].
  destruct (forward_similarity pts t q p q' p' Ht Hc Hq Hp) as [E3 E4].
  destruct (forward_similarity pts t r p r' p' Ht Hc Hr Hp) as [E5 E6].
  split.
  - rewrite E1, E2. unfold len.
    replace (_ + _) with ((fst (tr_scale t) * fst (tr_scale t)) *
      ((fst p' - fst q') * (fst p' - fst q') + (snd p' - snd q') * (snd p' - snd q'))) by ring.
    rewrite sqrt_mult_alt by nra. rewrite sqrt_square by lra. reflexivity.
  - assert (G : forall a b c d a' b' c' d' k : R, a = k * a' -> b = k * b' -> c = k * c' ->
      d = k * d' -> a * b - c * d = k * k * (a' * b' - c' * d')) by (intros; subst; ring).
    apply G; assumption.
Qed.
Print Assumptions C09_similarity.

Theorem C09_touches_both_sides :
  forall (pts : list (R * R)) t, transform_of pts t -> ~ all_coincide pts ->
  (exists p q y y', In p pts /\ In q pts /\ forward t p = Ok (-1, y) /\ forward t q = Ok (1, y')) \/
  (exists p q x x', In p pts /\ In q pts /\ forward t p = Ok (x, -1) /\ forward t q = Ok (x', 1)).
Proof. exact forward_touches. Qed.
Print Assumptions C09_touches_both_sides.

(** the hypotheses are met by any two different points *)
Example C08_C09_case :
  exists t, transform_of [(70, 100); (75, 125)] t /\ ~ all_coincide [(70, 100); (75, 125)].
Proof.
  eexists. split; [eexists; split; reflexivity|].
  intros H. assert ((70, 100) = (75, 125)) as K by (apply H; simpl; auto).
  injection K. lra.
Qed.
Example C09_case_run :
  match get_box (A:=QA) [(70, 100); (75, 125)]%Q with
  | Ok b => forward (get_transform b) (70, 100)%Q = Ok (-1 # 5, -1)%Q
  | Err _ => False
  end.
Proof. vm_compute. reflexivity. Qed.

(** ** C18 *)
Theorem C18_bisector_speed :
  forall u1 u2 : R * R, is_unit u1 -> is_unit u2 ->
  (nearly_opposite u1 u2 -> bisector u1 u2 = Ok (0, 0)) /\
  (~ nearly_opposite u1 u2 -> exists v, bisector u1 u2 = Ok v /\ dotp u1 v = 1 /\ dotp u2 v = 1).
Proof. exact bisector_R. Qed.
Print Assumptions C18_bisector_speed.

Theorem C18_agrees_with_lines :
  forall l m, unit_line l -> unit_line m -> Rabs (det l m) > / 10^10 ->
  ~ nearly_opposite (lw l) (lw m) -> bisector (lw l) (lw m) = get_bisector l m.
Proof. exact bisector_agrees. Qed.
Print Assumptions C18_agrees_with_lines.

Example C18_case : is_unit (1, 0) /\ is_unit (0, 1) /\ ~ nearly_opposite (1, 0) (0, 1).
Proof.
  unfold is_unit, dotp, nearly_opposite, dotp; simpl. repeat split; try lra.
  intros H. pose proof threshold_bounds as (H1 & H2 & _).
  assert (cos (deg (1799999 / 10000)) <= 0); [|lra].
  apply cos_le_0; unfold deg in *; pose proof PI_RGT_0; lra.
Qed.

(** ** C59 *)
Theorem C59_r_squared_range :
  forall pts : list (R * R), exists r, r_squared pts = Ok r /\ -1 <= r <= 1.
Proof. exact r_squared_bounds. Qed.
Print Assumptions C59_r_squared_range.

Theorem C59_r_squared_one_collinear :
  forall pts : list (R * R), r_squared pts = Ok 1 \/ r_squared pts = Ok (-1) -> collinear pts.
Proof. exact r_squared_one_collinear. Qed.
Print Assumptions C59_r_squared_one_collinear.

(** collinear points need not give 1 *)
Theorem C59_collinear_gives_one_refuted :
  exists pts qts : list (Q * Q),
    (forall p, In p pts -> Qeq (fst p + snd p) 1)%Q /\ r_squared (A:=QA) pts = Ok (-1)%Q /\
    (forall p, In p qts -> snd p = 0%Q) /\ r_squared (A:=QA) qts = Ok 0%Q.
Proof.
  exists [(0, 1); (1, 0); (2, -1)]%Q, [(0, 0); (1, 0); (2, 0)]%Q.
  split; [|split; [vm_compute; reflexivity|split; [|vm_compute; reflexivity]]].
  - intros p [<-|[<-|[<-|[]]]]; vm_compute; reflexivity.
  - intros p [<-|[<-|[<-|[]]]]; reflexivity.
Qed.
Print Assumptions C59_collinear_gives_one_refuted.

Example C59_case : r_squared (A:=QA) [(0, 1); (1, 3); (2, 5)]%Q = Ok 1%Q.
Proof. vm_compute. reflexivity. Qed.

(** ** C60 *)
Theorem C60_dimensions :
  forall (A : Arith) (a b : vec),
  (v_add a (Vec b) = Err ValueError <-> length a <> length b) /\
  (v_sub a (Vec b) = Err ValueError <-> length a <> length b) /\
  (v_mul a (Vec b) = Err ValueError <-> length a <> length b) /\
  (v_div a (Vec b) = Err ValueError <-> length a <> length b) /\
  (v_dot a b = Err ValueError <-> length a <> length b).
Proof.
  intros A a b.
  assert (G : forall f, lift f a (Vec b) = Err ValueError <-> length a <> length b).
  { intros f. destruct (lift_dim f a b) as [H K]. split; [|exact K].
    intros E F. destruct (H F) as (r & Hr & _). congruence. }
  split; [apply G|]. split; [apply G|]. split; [apply G|]. split; [apply v_div_dim|].
  destruct (v_dot_dim a b) as [H K]. split; [|exact K].
  intros E F. destruct (H F) as (r & Hr). congruence.
Qed.
Print Assumptions C60_dimensions.

(** the cross product: in three dimensions orthogonal to both arguments, of the right length, and right-handed;
    in two dimensions the oriented area; any other dimension raises *)
Theorem C60_cross :
  (forall a0 a1 a2 b0 b1 b2 : R, exists c0 c1 c2 : R, v_cross (A:=RA) [a0; a1; a2] [b0; b1; b2] = Ok (CVec (A:=RA) [c0; c1; c2]) /\
     a0 * c0 + a1 * c1 + a2 * c2 = 0 /\ b0 * c0 + b1 * c1 + b2 * c2 = 0 /\
     (c0 * c0 + c1 * c1 + c2 * c2) + (a0 * b0 + a1 * b1 + a2 * b2) * (a0 * b0 + a1 * b1 + a2 * b2) =
       (a0 * a0 + a1 * a1 + a2 * a2) * (b0 * b0 + b1 * b1 + b2 * b2) /\
     a0 * (b1 * c2 - b2 * c1) - a1 * (b0 * c2 - b2 * c0) + a2 * (b0 * c1 - b1 * c0) =
       c0 * c0 + c1 * c1 + c2 * c2) /\
  (forall a0 a1 b0 b1 : R, v_cross (A:=RA) [a0; a1] [b0; b1] = Ok (CScal (A:=RA) (a0 * b1 - a1 * b0))) /\
  (forall a b : list R, length a <> length b \/ (length a <> 2 /\ length a <> 3)%nat -> v_cross (A:=RA) a b = Err ValueError).
Proof.
  split; [|split].
  - intros. eexists _, _, _. split; [unfold v_cross; cbn [length Nat.eqb negb]; reflexivity|]. ra_simp.
    repeat split; ring.
  - reflexivity.
  - intros a b [H|[H2 H3]]; unfold v_cross.
    + case Nat.eqb_spec; [intros Q; destruct (H Q)|reflexivity].
    + destruct (negb _); [reflexivity|].
      destruct a as [|a0 [|a1 [|a2 [|a3 a]]]]; try reflexivity; cbn [length] in H2, H3; [lia|lia].
Qed.
Print Assumptions C60_cross.

(** the other operations work element by element *)
Theorem C60_elementwise :
  forall (a b : list R) (s : R), length a = length b ->
  (exists r, v_add (A:=RA) a (Vec (A:=RA) b) = Ok r /\ length r = length a /\ forall i, (i < length a)%nat -> nth i r 0 = nth i a 0 + nth i b 0) /\
  (exists r, v_sub (A:=RA) a (Vec (A:=RA) b) = Ok r /\ length r = length a /\ forall i, (i < length a)%nat -> nth i r 0 = nth i a 0 - nth i b 0) /\
  (exists r, v_mul (A:=RA) a (Vec (A:=RA) b) = Ok r /\ length r = length a /\ forall i, (i < length a)%nat -> nth i r 0 = nth i a 0 * nth i b 0) /\
  (exists r, v_add (A:=RA) a (Scal (A:=RA) s) = Ok r /\ length r = length a /\ forall i, (i < length a)%nat -> nth i r 0 = nth i a 0 + s) /\
  (exists r, v_sub (A:=RA) a (Scal (A:=RA) s) = Ok r /\ length r = length a /\ forall i, (i < length a)%nat -> nth i r 0 = nth i a 0 - s) /\
  (exists r, v_mul (A:=RA) a (Scal (A:=RA) s) = Ok r /\ length r = length a /\ forall i, (i < length a)%nat -> nth i r 0 = nth i a 0 * s) /\
  (s <> 0 -> exists r, v_div (A:=RA) a (Scal (A:=RA) s) = Ok r /\ length r = length a /\ forall i, (i < length a)%nat -> nth i r 0 = nth i a 0 / s) /\
  ((forall x, In x b -> x <> 0) ->
     exists r, v_div (A:=RA) a (Vec (A:=RA) b) = Ok r /\ length r = length a /\ forall i, (i < length a)%nat -> nth i r 0 = nth i a 0 / nth i b 0).
Proof.
  intros a b s L.
  assert (Z : forall f : R -> R -> R, length (zipw (A:=RA) f a b) = length a /\
    forall i, (i < length a)%nat -> nth i (zipw (A:=RA) f a b) 0 = f (nth i a 0) (nth i b 0)).
  { intros f. revert b L. induction a as [|x a IH]; intros [|y b] L; try discriminate L; [split; [reflexivity|cbn; lia]|].
    destruct (IH b) as [I1 I2]; [cbn in L; lia|]. split; [exact (f_equal S I1)|].
    intros [|i] Hi; [reflexivity|]. apply (I2 i). cbn in Hi. lia. }
  assert (M : forall f : R -> R, length (map f a) = length a /\ forall i, (i < length a)%nat -> nth i (map f a) 0 = f (nth i a 0)).
  { intros f. split; [apply map_length|]. intros i Hi. rewrite (nth_indep _ 0 (f 0)) by (rewrite map_length; exact Hi). apply map_nth. }
  assert (Q : Nat.eqb (length a) (length b) = true) by (apply Nat.eqb_eq, L).
  unfold v_add, v_sub, v_mul, lift. change (@length (@num RA)) with (@length R). rewrite Q.
  do 3 (split; [eexists; split; [reflexivity|apply Z]|]).
  do 3 (split; [eexists; split; [reflexivity|first [apply (M (fun x => x + s))|apply (M (fun x => x - s))|apply (M (fun x => x * s))]]|]).
  assert (PD : forall x y : R, y <> 0 -> pdiv (A:=RA) x y = Ok (x / y)).
  { intros x y N. unfold pdiv. destruct (neqb _ _) eqn:Q1; [|reflexivity]. ra_simp. apply Reqb_true in Q1. rewrite RMicromega.Q2R_0 in Q1. destruct (N Q1). }
  split.
  - intros N. exists (map (fun x => x / s) a). split; [|apply (M (fun x => x / s))]. unfold v_div.
    clear -N PD. induction a as [|x a IH]; [reflexivity|]. cbn [rmapl]. rewrite (PD x s N). cbn [rbind]. cbn [rmapl map] in *. rewrite IH. reflexivity.
  - intros N. exists (zipw (A:=RA) Rdiv a b). split; [|apply (Z Rdiv)]. unfold v_div. change (@length (@num RA)) with (@length R). rewrite Q. clear Z M Q.
    revert b L N. induction a as [|x a IH]; intros [|y b] L N; try discriminate L; [reflexivity|].
    cbn [divw]. rewrite (PD x y) by (apply N; left; reflexivity). cbn [rbind]. rewrite IH; [reflexivity|cbn in L; lia|intros z Hz; apply N; right; exact Hz].
Qed.
Print Assumptions C60_elementwise.

Example C60_cross_case : v_cross (A:=QA) [1; 0; 0]%Q [0; 1; 0]%Q = Ok (CVec (A:=QA) [0; 0; 1]%Q).
Proof. vm_compute. reflexivity. Qed.

Theorem C60_dot_symmetric : forall a b : list R, v_dot a b = v_dot b a.
Proof. exact v_dot_comm. Qed.
Print Assumptions C60_dot_symmetric.

(** unit: length one, positive multiple of the argument; zero vector raises *)
Theorem C60_unit :
  forall v : list R,
  ((exists x, In x v /\ x <> 0) ->
     exists u, v_unit v = Ok u /\ sumsq u = 1 /\ length u = length v /\
       exists k, 0 < k /\ v = map (fun x => k * x) u) /\
  (v <> [] -> Forall (fun x => x = 0) v -> v_unit v = Err ZeroDivisionError).
Proof. exact v_unit_R. Qed.
Print Assumptions C60_unit.

Theorem C60_rotations :
  forall v : R * R,
  rotate90cw (rotate90ccw v) = v /\ rotate90ccw (rotate90cw v) = v /\
  dotp v (rotate90ccw v) = 0 /\ dotp v (rotate90cw v) = 0 /\
  dotp (rotate90ccw v) (rotate90ccw v) = dotp v v /\
  dotp (rotate90cw v) (rotate90cw v) = dotp v v /\
  fst v * snd (rotate90ccw v) - snd v * fst (rotate90ccw v) = dotp v v /\
  fst v * snd (rotate90cw v) - snd v * fst (rotate90cw v) = - dotp v v.
Proof.
  intros [x y]. unfold rotate90cw, rotate90ccw, dotp. cbn [fst snd]. ra_simp.
  rewrite !Ropp_involutive. repeat split; ring.
Qed.
Print Assumptions C60_rotations.

(** the kinetic code uses pairs: same functions in dimension two *)
Theorem C60_pairs_are_vectors :
  forall (A : Arith) (a b : pt) (s : num),
    v_sub [fst a; snd a] (Vec [fst b; snd b]) = Ok [fst (sub2 a b); snd (sub2 a b)] /\
    v_add [fst a; snd a] (Vec [fst b; snd b]) = Ok [fst (add2 a b); snd (add2 a b)] /\
    v_mul [fst a; snd a] (Scal s) = Ok [fst (mul2s a s); snd (mul2s a s)] /\
    v_dot [fst a; snd a] [fst b; snd b] = Ok (dot2 a b) /\
    v_norm [fst a; snd a] = norm_2 a /\
    v_cross [fst a; snd a] [fst b; snd b] = Ok (CScal (cross2 a b)) /\
    v_unit [fst a; snd a] = rmap (fun p => [fst p; snd p]) (unit_2 a).
Proof. intros A. exact v2_agree. Qed.
Print Assumptions C60_pairs_are_vectors.

Example C60_case : v_unit (A:=QA) [3; 4]%Q = Ok [3#5; 4#5]%Q /\
                   v_add (A:=QA) [1; 2]%Q (Vec [1]%Q) = Err ValueError.
Proof. split; vm_compute; reflexivity. Qed.
