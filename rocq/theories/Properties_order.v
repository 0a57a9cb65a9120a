(** C93: the order of the triangles of the skeleton at the start. C94: the other quadratic solver *)
From Coq Require Import Reals Lra Sorting.Sorted.
From Verif Require Import Base Arith ArithQ ArithR Calc CalcProofs VectorOps Line2d Line2dProofs Primitives Collapse Initialize StarProofs InitProofs ScenarioRun TriExample QuadExample CollapseR.
Local Open Scope nat_scope.

(** ** Specification *)
Section Order.
  Context {A : Arith} (O : OrdArith A).
  (** the place of the first corner of a triangle *)
  Definition first_at (s : state (A:=A)) (t : nat) : @num A * @num A := k_origin (vs s (x0 (t_v (ts s t)))).
  (** reading order: by y, then by x, then by the order of the triangulation *)
  Definition earlier (s : state (A:=A)) (a b : nat) : Prop :=
    let p := first_at s a in let q := first_at s b in
    nltb (snd p) (snd q) = true \/
    neqb (snd p) (snd q) = true /\ (nltb (fst p) (fst q) = true \/ neqb (fst p) (fst q) = true /\ a < b).

  Lemma insert_sorted (R : nat -> nat -> Prop) (le : nat -> nat -> bool) x l :
    StronglySorted R l -> (forall y, In y l -> le x y = false -> R y x) -> (forall y, In y l -> le x y = true -> R x y) ->
    (forall y z, R x y -> R y z -> R x z) -> StronglySorted R (insert le x l).
  Proof.
    intros SS H1 H2 T. induction SS as [|y l SS IH F]; cbn [insert]; [constructor; constructor|].
    destruct (le x y) eqn:L.
    - assert (X : R x y) by (apply H2; [left; reflexivity|exact L]).
      constructor; [constructor; assumption|]. constructor; [exact X|]. rewrite Forall_forall in *. intros z Z. eapply T; [exact X|auto].
    - constructor.
      + apply IH; intros z Z; [apply H1|apply H2]; right; exact Z.
      + rewrite Forall_forall in *. intros z Z. apply (Permutation.Permutation_in z (Permutation.Permutation_sym (insert_perm le x l))) in Z.
        destruct Z as [<-|Z]; [apply H1; [left; reflexivity|exact L]|auto].
  Qed.

  Lemma earlier_trans s a b c : earlier s a b -> earlier s b c -> earlier s a c.
  Proof.
    unfold earlier. cbv zeta. intros [H|[H H']] [K|[K K']].
    - left. eapply nltb_trans; eauto.
    - left. rewrite <- (nltb_eqb_r O _ _ _ K). exact H.
    - left. rewrite (nltb_eqb_l O _ _ _ H). exact K.
    - right. split; [eapply neqb_trans; eauto|]. destruct H' as [H'|[H' H2]], K' as [K'|[K' K2]].
      + left. eapply nltb_trans; eauto.
      + left. rewrite <- (nltb_eqb_r O _ _ _ K'). exact H'.
      + left. rewrite (nltb_eqb_l O _ _ _ H'). exact K'.
      + right. split; [eapply neqb_trans; eauto|lia].
  Qed.
  Lemma sort_earlier s l : StronglySorted lt l -> StronglySorted (earlier s) (isort (key_le s) l).
  Proof.
    intros SS. induction SS as [|x l SS IH F]; cbn [isort]; [constructor|].
    rewrite Forall_forall in F.
    apply insert_sorted; [exact IH| | |intros y z; apply earlier_trans]; intros y Y; apply In_isort in Y; specialize (F y Y);
      unfold key_le, earlier, first_at; cbv zeta; destruct (k_origin (vs s (x0 (t_v (ts s x))))) as [px py], (k_origin (vs s (x0 (t_v (ts s y))))) as [qx qy];
      cbn [fst snd]; destruct (neqb py qy) eqn:E.
    - intros L. right. rewrite (neqb_sym O). split; [exact E|]. left. apply (nleb_false_ltb O), L.
    - intros L. left. destruct (ntricho O py qy) as [K|[K|K]]; [congruence|congruence|exact K].
    - intros L. right. split; [reflexivity|]. destruct (ntricho O px qx) as [K|[K|K]]; [left; exact K|right; split; [exact K|exact F]|].
      apply (nleb_false_ltb O) in K. congruence.
    - intros L. left. exact L.
  Qed.
  Lemma seq_sorted n : forall a, StronglySorted lt (seq a n).
  Proof.
    induction n as [|n IH]; intros a; cbn [seq]; constructor; [apply IH|]. rewrite Forall_forall. intros x X. apply in_seq in X. lia.
  Qed.
  Lemma filter_sorted {X} (R : X -> X -> Prop) f l : StronglySorted R l -> StronglySorted R (filter f l).
  Proof.
    intros SS. induction SS as [|x l SS IH F]; cbn [filter]; [constructor|]. destruct (f x); [|exact IH].
    constructor; [exact IH|]. rewrite Forall_forall in *. intros y Y. apply filter_In in Y. apply F, Y.
  Qed.

  (** ** C93 *)
  Theorem C93_order : forall d s, init_skeleton d = Ok s -> StronglySorted (earlier s) (sk_triangles s).
  Proof.
    intros d s H. destruct (init_skeleton_parts d s H) as (cpos & ti & b & kvs & ls & un & P).
    destruct (pa_s _ _ _ _ _ _ _ _ P) as (_ & s1 & S1 & _ & E).
    set (kts := filter _ _) in *.
    assert (X : StronglySorted (earlier s1) (isort (key_le s1) kts)) by (apply sort_earlier, filter_sorted, seq_sorted).
    rewrite E. cbn [sk_triangles init_state]. subst s1. exact X.
  Qed.
  (** so each triangle is listed once, and the list is determined by the triangles in it *)
  Lemma earlier_irrefl s t : ~ earlier s t t.
  Proof.
    unfold earlier. cbv zeta. intros [H|[_ [H|[_ H]]]]; [rewrite nltb_irrefl in H; [discriminate|exact O]|rewrite nltb_irrefl in H; [discriminate|exact O]|lia].
  Qed.
  Lemma sorted_unique {X} (R : X -> X -> Prop) : (forall x, ~ R x x) -> (forall x y z, R x y -> R y z -> R x z) ->
    forall l m, StronglySorted R l -> StronglySorted R m -> (forall x, In x l <-> In x m) -> l = m.
  Proof.
    intros IR TR l. induction l as [|x l IH]; intros m SL SM Q.
    - destruct m as [|y m]; [reflexivity|]. destruct (proj2 (Q y)). left. reflexivity.
    - destruct m as [|y m]; [destruct (proj1 (Q x)); left; reflexivity|].
      apply StronglySorted_inv in SL, SM. destruct SL as [SL FL], SM as [SM FM]. rewrite Forall_forall in FL, FM.
      assert (E : x = y).
      { destruct (proj1 (Q x) (or_introl eq_refl)) as [K|K]; [auto|]. destruct (proj2 (Q y) (or_introl eq_refl)) as [K'|K']; [auto|].
        destruct (IR x). eapply TR; [apply FL, K'|apply FM, K]. }
      subst y. f_equal. apply IH; [exact SL|exact SM|]. intros z. split; intros Z.
      + destruct (proj1 (Q z) (or_intror Z)) as [<-|K]; [destruct (IR x); apply FL, Z|exact K].
      + destruct (proj2 (Q z) (or_intror Z)) as [<-|K]; [destruct (IR x); apply FM, Z|exact K].
  Qed.
  Theorem C93_unique : forall d s l, init_skeleton d = Ok s -> NoDup (sk_triangles s) /\
    (StronglySorted (earlier s) l -> (forall t, In t l <-> In t (sk_triangles s)) -> l = sk_triangles s).
  Proof.
    intros d s l H. pose proof (C93_order d s H) as SS. split.
    - clear - SS O. induction SS as [|x m SS IH F]; constructor; [|exact IH]. intros X. rewrite Forall_forall in F. apply (earlier_irrefl s x), F, X.
    - intros SL Q. eapply sorted_unique; [apply earlier_irrefl|apply earlier_trans|exact SL|exact SS|exact Q].
  Qed.
End Order.
Print Assumptions C93_order.
Print Assumptions C93_unique.

(** ** C94: solve_quadratic_whatevery *)
Section Quadratic.
  Local Open Scope R_scope.
  Lemma whatevery_R (a b c : R) : solve_quadratic_whatevery (A:=RA) a b c =
    if Rle_dec (Rabs a) (/ 10^10) then
      if Rle_dec (Rabs b) (/ 10^10) then Ok [] else Ok [- c / b]
    else if Rlt_dec (b * b - 4 * a * c) 0 then Ok []
    else let d := sqrt (b * b - 4 * a * c) in
      if Rlt_dec 0 b then Ok [2 * c / (- b - d); (- b - d) / (2 * a)]
      else if Req_EM_T (- b + d) 0 then Err ZeroDivisionError else Ok [(- b + d) / (2 * a); 2 * c / (- b + d)].
  Proof.
    assert (NZ : forall v : R, near_zero v = if Rle_dec (Rabs v) (/ 10^10) then true else false).
    { intros v. destruct (Rle_dec _ _) as [L|L].
      - apply near_zero_R. revert L. unfold Rabs. destruct (Rcase_abs v); lra.
      - apply near_zero_false_R. lra. }
    unfold solve_quadratic_whatevery. rewrite !NZ. ra_simp. qlit. replace (Q2R 4) with 4 by q2r.
    assert (E : 0 < / 10^10) by lra.
    destruct (Rle_dec (Rabs a) _) as [La|La].
    - destruct (Rle_dec (Rabs b) _) as [Lb|Lb]; cbn [andb negb]; [reflexivity|].
      rewrite pdiv_R; [reflexivity|]. intros ->. rewrite Rabs_R0 in Lb. lra.
    - cbn [andb]. assert (Ha : a <> 0) by (intros ->; rewrite Rabs_R0 in La; lra).
      unfold psqrt. ra_simp. qlit. unfold Rltb at 1. destruct (Rlt_dec (b * b - 4 * a * c) 0) as [K|K]; [reflexivity|].
      cbv zeta. set (d := sqrt _). assert (Hd : 0 <= d) by apply sqrt_pos.
      unfold Rltb. destruct (Rlt_dec 0 b) as [Hb|Hb].
      + rewrite pdiv_R by lra. cbn [rbind]. rewrite pdiv_R by lra. reflexivity.
      + rewrite (pdiv_R (- b + d) (2 * a)) by lra. cbn [rbind]. destruct (Req_EM_T (- b + d) 0) as [Z|Z].
        * rewrite Z. rewrite pdiv_R0. reflexivity.
        * rewrite pdiv_R by exact Z. reflexivity.
  Qed.
  Lemma factored a b c d z : a <> 0 -> d * d = b * b - 4 * a * c ->
    (quad a b c z = 0 <-> z = (- b + d) / (2 * a) \/ z = (- b - d) / (2 * a)).
  Proof.
    intros Ha D. assert (F : quad a b c z = a * ((z - (- b + d) / (2 * a)) * (z - (- b - d) / (2 * a)))).
    { assert (c = (b * b - d * d) / (4 * a)) as -> by (rewrite D; field; exact Ha). unfold quad. field. exact Ha. }
    rewrite F. split.
    - intros H. apply Rmult_integral in H. destruct H as [H|H]; [contradiction|]. apply Rmult_integral in H. destruct H; [left|right]; lra.
    - intros [-> | ->]; ring.
  Qed.
  Lemma conjugate a b c d : a <> 0 -> - b - d <> 0 -> d * d = b * b - 4 * a * c -> 2 * c / (- b - d) = (- b + d) / (2 * a).
  Proof.
    intros Ha N D. assert (c = (b * b - d * d) / (4 * a)) as -> by (rewrite D; field; exact Ha). field. split; assumption.
  Qed.

  (** a quadratic equation: no real root, or both roots with the larger first if a > 0 and the smaller first if a < 0; but a x^2 = 0 raises *)
  Theorem C94_quadratic : forall a b c : R, / 10^10 < Rabs a ->
    ((forall x, quad a b c x <> 0) -> solve_quadratic_whatevery (A:=RA) a b c = Ok []) /\
    ((exists x, quad a b c x = 0) -> (b <> 0 \/ c <> 0) -> exists x y, solve_quadratic_whatevery (A:=RA) a b c = Ok [x; y] /\
       (forall z, quad a b c z = 0 <-> z = x \/ z = y) /\ (0 < a -> y <= x) /\ (a < 0 -> x <= y)) /\
    (b = 0 -> c = 0 -> solve_quadratic_whatevery (A:=RA) a b c = Err ZeroDivisionError).
  Proof.
    intros a b c La. assert (E : 0 < / 10^10) by lra. assert (Ha : a <> 0) by (intros ->; rewrite Rabs_R0 in La; lra).
    rewrite whatevery_R. destruct (Rle_dec (Rabs a) _) as [N|_]; [lra|].
    assert (SQ : forall x, quad a b c x = 0 -> b * b - 4 * a * c = (2 * a * x + b) * (2 * a * x + b)).
    { intros x H. unfold quad in H. replace c with (- (a * x^2 + b * x)) by lra. ring. }
    destruct (Rlt_dec (b * b - 4 * a * c) 0) as [K|K].
    { split; [reflexivity|]. split.
      - intros [x X]. apply SQ in X. pose proof (Rle_0_sqr (2 * a * x + b)) as P. unfold Rsqr in P. lra.
      - intros -> ->. lra. }
    cbv zeta. set (d := sqrt _). assert (Hd : 0 <= d) by apply sqrt_pos. assert (D : d * d = b * b - 4 * a * c) by (apply sqrt_sqrt; lra).
    pose proof (fun z => factored a b c d z Ha D) as F.
    assert (R1 : 0 < a -> (- b - d) / (2 * a) <= (- b + d) / (2 * a)).
    { intros P. unfold Rdiv. apply Rmult_le_compat_r; [apply Rlt_le, Rinv_0_lt_compat; lra|lra]. }
    assert (R2 : a < 0 -> (- b + d) / (2 * a) <= (- b - d) / (2 * a)).
    { intros P. unfold Rdiv. apply Ropp_le_cancel. rewrite !Ropp_mult_distr_r. apply Rmult_le_compat_r; [|lra].
      pose proof (Rinv_lt_0_compat (2 * a)). lra. }
    split; [|split].
    - intros H. destruct (H ((- b + d) / (2 * a))). apply F. left. reflexivity.
    - intros _ NZ. destruct (Rlt_dec 0 b) as [Hb|Hb].
      + exists (2 * c / (- b - d)), ((- b - d) / (2 * a)). split; [reflexivity|]. rewrite (conjugate a b c d Ha) by lra. auto.
      + assert (N : - b + d <> 0).
        { intros Z. assert (b = 0) by lra. assert (d = 0) by lra. destruct NZ as [NZ|NZ]; [contradiction|]. apply NZ.
          rewrite H, H0 in D. assert (a * c = 0) by lra. apply Rmult_integral in H1. destruct H1; [contradiction|assumption]. }
        destruct (Req_EM_T (- b + d) 0) as [Z|_]; [contradiction|].
        exists ((- b + d) / (2 * a)), (2 * c / (- b + d)). split; [reflexivity|].
        assert (C : 2 * c / (- b + d) = (- b - d) / (2 * a)).
        { replace (- b + d) with (- b - - d) by ring. rewrite (conjugate a b c (- d) Ha); [reflexivity|lra|lra]. }
        rewrite C. auto.
    - intros B Z. destruct (Rlt_dec 0 b) as [Hb|Hb]; [lra|]. destruct (Req_EM_T (- b + d) 0) as [|N]; [reflexivity|].
      destruct N. subst b c. assert (X : d * d = 0) by lra. apply Rmult_integral in X. lra.
  Qed.
  (** otherwise the equation is taken to be linear *)
  Theorem C94_linear : forall a b c : R, Rabs a <= / 10^10 ->
    (Rabs b <= / 10^10 -> solve_quadratic_whatevery (A:=RA) a b c = Ok []) /\
    (/ 10^10 < Rabs b -> exists x, solve_quadratic_whatevery (A:=RA) a b c = Ok [x] /\ forall z, quad 0 b c z = 0 <-> z = x).
  Proof.
    intros a b c La. rewrite whatevery_R. destruct (Rle_dec (Rabs a) _) as [_|N]; [|lra]. split; intros Lb.
    - destruct (Rle_dec (Rabs b) _) as [_|N]; [reflexivity|lra].
    - destruct (Rle_dec (Rabs b) _) as [N|_]; [lra|]. exists (- c / b). split; [reflexivity|].
      assert (Hb : b <> 0) by (intros ->; rewrite Rabs_R0 in Lb; lra).
      intros z. unfold quad. split; [intros H|intros ->; field; exact Hb].
      apply (Rmult_eq_reg_l b); [|exact Hb]. replace (b * (- c / b)) with (- c) by (field; exact Hb). lra.
  Qed.
End Quadratic.
Print Assumptions C94_quadratic.
Print Assumptions C94_linear.
Example C94_case : solve_quadratic_whatevery (A:=QA) 1%Q (-5)%Q 6%Q = Ok [3; 2]%Q /\ solve_quadratic_whatevery (A:=QA) (-1)%Q 5%Q (-6)%Q = Ok [2; 3]%Q /\
  solve_quadratic_whatevery (A:=QA) 1%Q 0%Q 0%Q = Err ZeroDivisionError.
Proof. vm_compute. auto. Qed.
(** the triangles of a quadrilateral, and where their first corners are *)
Definition order_of (pts : list (Q * Q)) : list (nat * (Q * Q)) :=
  match quad_of (A:=QA) pts with
  | Ok d => match init_skeleton d with Ok s => map (fun t => (t, first_at s t)) (sk_triangles s) | Err _ => [] end
  | Err _ => []
  end.
Example C93_case : map fst (order_of [(3, 5); (-1, 4); (0, 0); (4, 1)]%Q) = [2; 3; 4; 5; 0; 1] /\
  map fst (order_of [(0, 0); (4, 1); (3, 5); (-1, 4)]%Q) = [0; 1; 2; 3; 4; 5].
Proof. split; vm_compute; reflexivity. Qed.
