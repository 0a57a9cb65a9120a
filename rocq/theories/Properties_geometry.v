(** Computed events against the motion of the triangle (collapse.py), over exact reals: what a computed event says is
    true at its time (C67), and the triangle does not collapse before it (C68). *)
From Coq Require Import Reals Lra Psatz.
From Verif Require Import Base Arith ArithR Calc CalcProofs VectorOps Line2d Line2dProofs Primitives Collapse CollapseProofs CollapseR
  Properties_basic Properties_collapse EventGeom EventFirst.
Local Open Scope R_scope.

(** ** C67 *)
Theorem C67_no_front (s : state (A:=RA)) t (now : R) sv e : ordinary s t -> tri_type (ts s t) = 0%nat ->
  collapse_event s t now sv = Ok (Some e) ->
  (ev_tp e = Edge /\ forall i, In i (ev_side e) -> len2 s t i (ev_time e) <= 2 / 10^10) \/
  (ev_tp e = Flip /\ exists i x, ev_side e = [i] /\ longest s t i (ev_time e) /\
     Rabs (x - ev_time e) <= / 10^10 /\ flat s t x).
Proof. intros O. apply zero_truth, O. Qed.
Print Assumptions C67_no_front.

Theorem C67_one_front (s : state (A:=RA)) t w l (now : R) sv e : ordinary s t -> on_front s t w l ->
  tri_type (ts s t) = 1%nat -> get3 (t_n (ts s t)) w = None -> clear_front s t w l -> 0 <= now ->
  collapse_event s t now sv = Ok (Some e) ->
  (ev_tp e = Edge /\ forall i, In i (ev_side e) -> len2 s t i (ev_time e) <= / 10^20) \/
  (ev_tp e = Split /\ ev_side e = [w] /\ touches s t w l w (ev_time e)) \/
  (ev_tp e = Flip /\ exists i, ev_side e = [i] /\ touches s t w l i (ev_time e)).
Proof. intros O F. apply (one_truth s t O w l F). Qed.
Print Assumptions C67_one_front.

Theorem C67_two_fronts (s : state (A:=RA)) t i j li lj (now : R) sv e : ordinary s t -> i <> j ->
  on_front s t i li -> on_front s t j lj ->
  tri_type (ts s t) = 2%nat -> get3 (t_n (ts s t)) i = None -> get3 (t_n (ts s t)) j = None -> clear_two s t i j -> 0 <= now ->
  collapse_event s t now sv = Ok (Some e) ->
  ev_tp e = Edge /\ two_collapse s t i j (ev_time e) /\
  forall k m, In k (ev_side e) -> sqrt (len2 s t k (ev_time e)) <= sqrt (len2 s t m (ev_time e)) + / 10^10.
Proof. intros O IJ Fi Fj. apply (two_truth s t O i j li lj IJ Fi Fj). Qed.
Print Assumptions C67_two_fronts.

(** with three fronts the event is determined: all corners meet, at one time, and all three sides are named *)
Theorem C67_three_fronts (s : state (A:=RA)) t l : ordinary s t -> (forall w, on_front s t w (l w)) ->
  (forall i j, i <> j -> lw (l i) <> lw (l j)) ->
  (forall w, spread s t w > / 10^10) -> tri_type (ts s t) = 3%nat -> t_stops (ts s t) = None ->
  exists (T : R) p, (forall i, place s t i T = p) /\ forall (now : R) sv, 0 <= now ->
    (adm sv now T -> T <> 0 -> collapse_event s t now sv = Ok (Some (mkEv (A:=RA) T t [S0; S1; S2] Edge 3))) /\
    (~ adm sv now T \/ T = 0 -> collapse_event s t now sv = Ok None).
Proof.
  intros O F ND SP TY ST. destruct (three_truth s t O l F ND SP TY ST) as (T & p & M & H). exists T, p. split; [exact M|].
  unfold mkevent in H. rewrite TY in H. exact H.
Qed.
Print Assumptions C67_three_fronts.

(** ** C68 *)
Theorem C68_no_front (s : state (A:=RA)) t now sv r x : ordinary s t -> clear_area s t -> tri_type (ts s t) = 0%nat -> t_stops (ts s t) = None ->
  collapse_event s t now sv = Ok r -> x > now + 2 / 10^5 -> area s t x = 0 ->
  exists e, r = Some e /\ ev_time e <= x + 2 / 10^5.
Proof. apply zero_first. Qed.
Print Assumptions C68_no_front.

Theorem C68_one_front (s : state (A:=RA)) t w l (now : R) sv : ordinary s t -> on_front s t w l ->
  tri_type (ts s t) = 1%nat -> get3 (t_n (ts s t)) w = None -> t_stops (ts s t) = None ->
  exists r, collapse_event s t now sv = Ok r /\
    forall x, clear_front s t w l -> opens s t -> 0 <= now -> x > now + / 10^10 -> area s t x = 0 ->
    exists e, r = Some e /\ ev_time e <= x.
Proof.
  intros O F TY NB ST. destruct (one_total s t O w l F now sv TY NB) as [r H]. exists r. split; [exact H|].
  intros x CF OP P0. apply (one_first s t O w l F now sv r x TY NB ST CF OP P0 H).
Qed.
Print Assumptions C68_one_front.

Theorem C68_two_fronts (s : state (A:=RA)) t i j li lj (now : R) sv r x : ordinary s t -> i <> j ->
  on_front s t i li -> on_front s t j lj ->
  tri_type (ts s t) = 2%nat -> get3 (t_n (ts s t)) i = None -> get3 (t_n (ts s t)) j = None -> t_stops (ts s t) = None ->
  clear_two s t i j -> opens s t -> 0 <= now ->
  collapse_event s t now sv = Ok r -> x > now + 2 / 10^5 -> area s t x = 0 ->
  exists e, r = Some e /\ ev_time e <= x + 2 / 10^5.
Proof. intros O IJ Fi Fj. apply (two_first s t O i j li lj IJ Fi Fj). Qed.
Print Assumptions C68_two_fronts.

Theorem C68_three_fronts (s : state (A:=RA)) t l (now : R) sv r x : ordinary s t -> (forall w, on_front s t w (l w)) ->
  (forall i j, i <> j -> lw (l i) <> lw (l j)) ->
  (forall w, spread s t w > / 10^10) -> tri_type (ts s t) = 3%nat -> t_stops (ts s t) = None ->
  opens s t -> 0 <= now -> collapse_event s t now sv = Ok r -> x > now + / 10^10 -> area s t x = 0 ->
  exists e, r = Some e /\ ev_time e <= x.
Proof. intros O F ND. apply (three_first s t O l F ND). Qed.
Print Assumptions C68_three_fronts.

(** ** Cases *)
(** rewrite the computation at the head of a bind, up to conversion *)
Ltac step E := match type of E with ?a = ?r => match goal with |- context [rbind ?b _] =>
  let H := fresh in assert (H : b = r) by exact E; rewrite H; clear H; cbn [rbind] end end.
(** one triangle with corners 0, 1, 2; vertex [i] is between the wavefronts of the sides before and after it *)
Definition corner (o v : R * R) (l r : nat) : kvertex (A:=RA) :=
  mkKV (A:=RA) false o v [] [] (Some 0) None None None (Some l) (Some r) (Some l) (Some r) 0 false true.
Definition alone (a b c : kvertex (A:=RA)) (l0 l1 l2 : line2 (A:=RA)) (n : triple (option nat)) : state (A:=RA) :=
  mkSt (A:=RA) (fun i => match i with 0%nat => a | 1%nat => b | _ => c end) 3
    (fun _ => mkTri (A:=RA) (mk3 0 1 2)%nat n None 0 None true) 1
    (fun _ => mkNode (A:=RA) (0, 0) 0 None) 0 (fun _ => mkEv (A:=RA) 0 0 [] Edge 0) 0
    (fun i => mkWF (A:=RA) match i with 0%nat => l0 | 1%nat => l1 | _ => l2 end (0, 0) (0, 0)) [] [] [] [] [].
Definition ln (a b c : R) : line2 (A:=RA) := mkLine (A:=RA) (a, b) c.

Ltac in_R := unfold drift, area, len2, gap, growth, approach, spread, place, area2, dv2, sqdist, path, moving, unit_line, clear in *;
  cbn [alone corner ln vs ts wfs t_v t_n get3 x0 x1 x2 ccw cw k_origin k_velocity lw lb fst snd wf_line] in *; ra_simp.

(** a 0-triangle: vertex 2 comes down on the side between 0 and 1 *)
Definition ex_none := alone (corner (0, 0) (0, 0) 0 0) (corner (4, 0) (0, 0) 0 0) (corner (2, 2) (0, -1) 0 0)
  (ln 0 1 0) (ln 0 1 0) (ln 0 1 0) (mk3 (Some 1) (Some 2) (Some 3))%nat.
(** a 1-triangle: side 2 (from vertex 0 to vertex 1) shrinks before vertex 2 reaches it *)
Definition ex_one := alone (corner (0, 0) (1, 1) 0 2) (corner (4, 0) (-1, 1) 2 0) (corner (2, 10) (0, -1) 0 0)
  (ln 0 1 0) (ln 0 1 0) (ln 0 1 0) (mk3 (Some 1) (Some 2) None)%nat.
(** the right triangle (0,0) (4,0) (0,3) *)
Definition ex_three := alone (corner (0, 0) (1, 1) 1 2) (corner (4, 0) (-3, 1) 2 0) (corner (0, 3) (1, -2) 0 1)
  (ln (-3/5) (-4/5) (12/5)) (ln 1 0 0) (ln 0 1 0) (mk3 None None None).
Definition ex_two := alone (corner (0, 0) (1, 1) 1 2) (corner (4, 0) (-3, 1) 2 0) (corner (0, 3) (1, -2) 0 1)
  (ln (-3/5) (-4/5) (12/5)) (ln 1 0 0) (ln 0 1 0) (mk3 (Some 1%nat) None None).

Lemma ex_ordinary a b c l0 l1 l2 n t :
  (forall k, In k [a; b; c] -> k_inf k = false /\ k_inf_fast k = false) -> ordinary (alone a b c l0 l1 l2 n) t.
Proof. intros H []; apply H; cbn; auto. Qed.
Ltac ordi := apply ex_ordinary; intros k Hk; cbn in Hk; destruct Hk as [<-|[<-|[<-|[]]]]; split; reflexivity.

Example C67_case_one : ordinary ex_one 0 /\ on_front ex_one 0 S2 (ln 0 1 0) /\ tri_type (ts ex_one 0) = 1%nat /\
  get3 (t_n (ts ex_one 0)) S2 = None /\ clear_front ex_one 0 S2 (ln 0 1 0) /\ opens ex_one 0 /\ area ex_one 0 2 = 0 /\
  exists e, collapse_event ex_one 0 0 FindGt = Ok (Some e) /\ ev_time e <= 2.
Proof.
  assert (O : ordinary ex_one 0) by ordi.
  assert (F : on_front ex_one 0 S2 (ln 0 1 0)).
  { split; [in_R; lra|]. split; [exists 2%nat, 2%nat; repeat split|]. split; intros x; unfold ex_one; in_R; lra. }
  assert (CF : clear_front ex_one 0 S2 (ln 0 1 0)).
  { split; [|split; [|split]].
    - right. unfold ex_one. in_R. rewrite Rabs_pos_eq; lra.
    - right. unfold ex_one. in_R. rewrite Rabs_pos_eq; lra.
    - right. unfold ex_one. in_R. rewrite Rabs_pos_eq; lra.
    - unfold ex_one. in_R. lra. }
  assert (OP : opens ex_one 0) by (exists 0; unfold ex_one; in_R; lra).
  assert (AR : area ex_one 0 2 = 0) by (unfold ex_one; in_R; lra).
  do 4 (split; [assumption || reflexivity|]). split; [exact CF|]. split; [exact OP|]. split; [exact AR|].
  destruct (C68_one_front ex_one 0 S2 (ln 0 1 0) 0 FindGt O F eq_refl eq_refl eq_refl) as (r & H & K).
  destruct (K 2 CF OP) as (e & -> & L); [lra|lra|exact AR|]. exists e. auto.
Qed.

Definition three_lines (w : side) : line2 (A:=RA) :=
  match w with S0 => ln (-3/5) (-4/5) (12/5) | S1 => ln 1 0 0 | S2 => ln 0 1 0 end.
Lemma three_on n w : on_front (alone (corner (0, 0) (1, 1) 1 2) (corner (4, 0) (-3, 1) 2 0) (corner (0, 3) (1, -2) 0 1)
  (ln (-3/5) (-4/5) (12/5)) (ln 1 0 0) (ln 0 1 0) n) 0 w (three_lines w).
Proof.
  destruct w; cbn [three_lines];
    (split; [in_R; lra|]; split; [eexists _, _; repeat split|split; intros x; in_R; lra]).
Qed.
Example C67_case_three : ordinary ex_three 0 /\ (forall w, on_front ex_three 0 w (three_lines w)) /\
  (forall i j, i <> j -> lw (three_lines i) <> lw (three_lines j)) /\ (forall w, spread ex_three 0 w > / 10^10) /\
  tri_type (ts ex_three 0) = 3%nat /\ t_stops (ts ex_three 0) = None /\ opens ex_three 0 /\ (forall i, place ex_three 0 i 1 = (1, 1)).
Proof.
  split; [ordi|]. split; [intros w; apply three_on|].
  split; [intros [] [] N; try (destruct (N eq_refl)); cbn; intros E; injection E; intros; lra|].
  split; [intros []; unfold ex_three; in_R; lra|]. split; [reflexivity|]. split; [reflexivity|].
  split; [exists 0; unfold ex_three; in_R; lra|]. intros []; unfold ex_three; in_R; f_equal; lra.
Qed.

Lemma near_0 : near_zero (A:=RA) 0 = true.
Proof. apply near_zero_R. lra. Qed.
Example C67_case_two : ordinary ex_two 0 /\ on_front ex_two 0 S1 (ln 1 0 0) /\ on_front ex_two 0 S2 (ln 0 1 0) /\
  tri_type (ts ex_two 0) = 2%nat /\ get3 (t_n (ts ex_two 0)) S1 = None /\ get3 (t_n (ts ex_two 0)) S2 = None /\
  clear_two ex_two 0 S1 S2 /\ opens ex_two 0 /\ area ex_two 0 1 = 0 /\
  collapse_event ex_two 0 0 FindGt = Ok (Some (mkEv (A:=RA) 1 0 [S0; S1; S2] Edge 2)).
Proof.
  assert (O : ordinary ex_two 0) by ordi.
  split; [exact O|]. split; [apply (three_on _ S1)|]. split; [apply (three_on _ S2)|]. do 3 (split; [reflexivity|]).
  split; [repeat split; try (right; unfold ex_two; in_R; rewrite Rabs_pos_eq; lra); unfold ex_two; in_R; lra|].
  split; [exists 0; unfold ex_two; in_R; lra|]. split; [unfold ex_two; in_R; lra|].
  unfold collapse_event. replace (is_some (t_stops (ts ex_two 0))) with false by reflexivity.
  rewrite (ordinary_finite _ _ O). replace (tri_type (ts ex_two 0)) with 2%nat by reflexivity.
  unfold compute_event_2triangle. replace (tri_type (ts ex_two 0)) with 2%nat by reflexivity. cbn [Nat.eqb rassert rbind].
  assert (T : forall i j, (i, j) = (0, 1)%nat \/ (i, j) = (2, 0)%nat -> collapse_time_edge ex_two i j = Ok 1).
  { intros i j H. rewrite collapse_time_edge_R. f_equal. destruct H as [H|H]; injection H as -> ->; unfold ex_two; in_R;
      (destruct (Rle_dec _ _); [lra|field]). }
  replace (is_none (get3 (t_n (ts ex_two 0)) S2)) with true by reflexivity.
  replace (is_none (get3 (t_n (ts ex_two 0)) S0)) with false by reflexivity.
  replace (is_none (get3 (t_n (ts ex_two 0)) S1)) with true by reflexivity.
  change (x0 (t_v (ts ex_two 0))) with 0%nat. change (x1 (t_v (ts ex_two 0))) with 1%nat. change (x2 (t_v (ts ex_two 0))) with 2%nat.
  rewrite (T _ _ (or_introl eq_refl)), (T _ _ (or_intror eq_refl)). cbn [rmap rbind].
  assert (U : get_unique_times (A:=RA) [Some 1; None; Some 1] = Ok [1]).
  { destruct (C05_unique_times_otherwise [Some 1; None; Some 1] 1) as (out & Q & SR & SUB & (m & HD & _) & _); [left; reflexivity|].
    rewrite Q. f_equal. assert (V : forall v, In v out -> v = 1) by (intros v Hv; apply SUB in Hv; cbn in Hv; destruct Hv as [<-|[<-|[]]]; reflexivity).
    destruct out as [|a [|b out]]; [discriminate HD|rewrite (V a) by (left; reflexivity); reflexivity|].
    exfalso. inversion SR as [|? ? _ FA]; subst. inversion FA as [|? ? L _]; subst.
    rewrite (V a), (V b) in L by (cbn; auto). lra. }
  step U.
  assert (SV : run_sieve (A:=RA) FindGt (map Some [1]) 0 = Some 1).
  { match goal with |- ?g = _ => destruct g as [v|] eqn:S end.
    - apply sieve_some in S. destruct S as ([S|[]] & _). injection S as <-. reflexivity.
    - exfalso. apply (sieve_none _ _ _ S 1); [left; reflexivity|cbn; lra]. }
  match goal with |- context [match ?m with Some time => Ok (Some time) | None => _ end] => replace m with (Some 1) by (symmetry; exact SV) end.
  cbn [rbind]. unfold event2_at.
  assert (D : dists ex_two 0 1 2 1 = Ok (mk3 0 0 0)).
  { etransitivity; [exact (dists_val ex_two 0 O 1)|]. f_equal. unfold lens, map3. cbn [x0 x1 x2].
    f_equal; rewrite <- sqrt_0; f_equal; unfold ex_two; in_R; lra. }
  step D. cbv zeta.
  assert (M : map3 (fun x : R => x - min3 (A:=RA) (mk3 0 0 0)) (mk3 0 0 0) = mk3 0 0 0).
  { destruct (min3_is (mk3 0 0 0)) as [k K]. rewrite <- K. unfold map3. cbn [x0 x1 x2].
    destruct k; cbn [get3 x0 x1 x2]; rewrite Rminus_diag_eq by reflexivity; reflexivity. }
  match goal with |- context [count3 _ ?q] => replace q with (mk3 0 0 0) by (symmetry; exact M) end.
  replace (count3 (near_zero (A:=RA)) (mk3 0 0 0)) with 3%nat; [reflexivity|].
  unfold count3. cbn [x0 x1 x2 list3 filter]. rewrite near_0. reflexivity.
Qed.

Example C67_case_none : ordinary ex_none 0 /\ tri_type (ts ex_none 0) = 0%nat /\ clear_area ex_none 0 /\ area ex_none 0 2 = 0 /\
  collapse_event ex_none 0 0 FindGt = Ok (Some (mkEv (A:=RA) 2 0 [S2] Flip 0)).
Proof.
  assert (O : ordinary ex_none 0) by ordi.
  split; [exact O|]. split; [reflexivity|].
  split; [split; [exists 0; unfold ex_none; in_R; lra|split; [left; unfold ex_none; in_R; lra|]]|].
  { intros _. right. unfold ex_none. in_R. rewrite Rabs_left; lra. }
  split; [unfold ex_none; in_R; lra|].
  unfold collapse_event. replace (is_some (t_stops (ts ex_none 0))) with false by reflexivity.
  rewrite (ordinary_finite _ _ O). replace (tri_type (ts ex_none 0)) with 0%nat by reflexivity.
  unfold compute_event_0triangle. replace (tri_type (ts ex_none 0)) with 0%nat by reflexivity. cbn [Nat.eqb rassert rbind].
  assert (AT : area_collapse_times ex_none 0 1 2 = Ok [2]).
  { unfold area_collapse_times. destruct (area_collapse_time_coeff _ _ _) as [[ca cb] cc] eqn:CO.
    assert (ca = 0 /\ cb = -4 /\ cc = 8) as (-> & -> & ->).
    { unfold area_collapse_time_coeff in CO. unfold ex_none in CO. in_R. injection CO as <- <- <-. ra_simp. repeat split; lra. }
    rewrite solve_quadratic_R. destruct (Rle_dec (Rabs 0) _) as [_|N]; [|rewrite Rabs_R0 in N; lra].
    destruct (Rle_dec (Rabs (-4)) _) as [L|_]; [rewrite Rabs_left in L; lra|]. cbn [rbind].
    cbn [isort insert]. do 2 f_equal. field. }
  step AT. 
  assert (DG : event0_degenerate ex_none 0 0 1 2 0 [2] = Ok None).
  { cbn [event0_degenerate]. destruct (near_zero _) eqn:NZ; [|reflexivity]. apply near_zero_R in NZ. ra_simp. rewrite Rabs_pos_eq in NZ; lra. }
  step DG.
  assert (T : forall i j v, ((i, j), v) = ((0, 1)%nat, -1) \/ ((i, j), v) = ((1, 2)%nat, 2) \/ ((i, j), v) = ((2, 0)%nat, 2) -> collapse_time_edge ex_none i j = Ok v).
  { intros i j v H. rewrite collapse_time_edge_R. f_equal. destruct H as [H|[H|H]]; injection H as -> -> ->; unfold ex_none; in_R;
      (destruct (Rle_dec _ _); try lra; field). }
  pose proof (T 0%nat 1%nat (-1) (or_introl eq_refl)) as T1. pose proof (T 1%nat 2%nat 2 (or_intror (or_introl eq_refl))) as T2.
  pose proof (T 2%nat 0%nat 2 (or_intror (or_intror eq_refl))) as T3.
  step T1. step T2. step T3.
  assert (D1 : distance2_at ex_none 0 1 (-1) = Ok 16) by (etransitivity; [exact (distance_place ex_none 0 O S0 S1 (-1))|f_equal; unfold ex_none; in_R; lra]).
  assert (D2 : distance2_at ex_none 1 2 2 = Ok 4) by (etransitivity; [exact (distance_place ex_none 0 O S1 S2 2)|f_equal; unfold ex_none; in_R; lra]).
  assert (D3 : distance2_at ex_none 2 0 2 = Ok 4) by (etransitivity; [exact (distance_place ex_none 0 O S2 S0 2)|f_equal; unfold ex_none; in_R; lra]).
  step D1. step D2. step D3.
  assert (SQ : sqrt3 (A:=RA) (mk3 16 4 4) = Ok (mk3 (sqrt 16) (sqrt 4) (sqrt 4))) by (apply (sqrt3_val (mk3 16 4 4)); intros []; cbn; lra).
  step SQ.
  assert (W : where3 (near_zero (A:=RA)) (mk3 (sqrt 16) (sqrt 4) (sqrt 4)) = []).
  { assert (S16 : sqrt 16 = 4) by (replace 16 with (4 ^ 2) by lra; apply sqrt_pow2; lra).
    assert (S4 : sqrt 4 = 2) by (replace 4 with (2 ^ 2) by lra; apply sqrt_pow2; lra). rewrite S16, S4.
    assert (N : forall v : R, v > 1 -> near_zero (A:=RA) v = false).
    { intros v Hv. destruct (near_zero v) eqn:E; [|reflexivity]. apply near_zero_R in E. lra. }
    unfold where3, sides. cbn [filter get3 x0 x1 x2]. rewrite !N by lra. reflexivity. }
  match goal with |- context [where3 ?f ?q] => replace (where3 f q) with (@nil side) by (symmetry; exact W) end.
  cbn [map]. replace (run_sieve (A:=RA) FindGt [] 0) with (@None R) by reflexivity.
  assert (SV : run_sieve (A:=RA) FindGt [Some 2] 0 = Some 2).
  { match goal with |- ?g = _ => destruct g as [v|] eqn:S end.
    - apply sieve_some in S. destruct S as ([S|[]] & _). injection S as <-. reflexivity.
    - exfalso. apply (sieve_none _ _ _ S 2); [left; reflexivity|cbn; lra]. }
  match goal with |- context [run_sieve FindGt ?l 0] => replace (run_sieve FindGt l 0) with (Some 2) by (symmetry; exact SV) end.
  assert (D : dists2 ex_none 0 1 2 2 = Ok (mk3 4 4 16)).
  { etransitivity; [exact (dists2_val ex_none 0 O 2)|]. unfold lens. f_equal. f_equal; unfold ex_none; in_R; lra. }
  step D.
  assert (M : argmax3 (A:=RA) (mk3 4 4 16) = Ok S2).
  { assert (E1 : Rltb 4 4 = false) by (apply Rltb_false; lra). assert (E2 : Rltb 4 16 = true) by (apply Rltb_true; lra).
    assert (E3 : Reqb 4 16 = false) by (apply Reqb_false; lra). assert (E4 : Reqb 16 16 = true) by (apply Reqb_true; lra).
    unfold argmax3, max3, nmax, index3, find3. ra_simp. cbn [x0 x1 x2]. rewrite E1, E2, E3, E4. reflexivity. }
  step M. reflexivity.
Qed.
