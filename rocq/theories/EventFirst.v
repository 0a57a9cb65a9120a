(** No collapse comes before the computed event, over exact reals *)
From Coq Require Import Reals Lra Psatz.
From Verif Require Import Base Arith ArithR Calc CalcProofs VectorOps Line2d Line2dProofs Primitives Collapse CollapseProofs CollapseR
  Properties_basic Properties_collapse EventGeom.
Local Open Scope R_scope.

(** every zero of the area is within 1e-5 of a computed one *)
Lemma roots_found ca cb cc sol x : solve_quadratic (A:=RA) ca cb cc = Ok sol -> clear ca -> (ca = 0 -> clear cb) ->
  (exists y, quad ca cb cc y <> 0) -> quad ca cb cc x = 0 -> exists r : R, In r sol /\ Rabs (r - x) <= / 10^5.
Proof.
  intros H C1 C2 [y NZ] Z. rewrite solve_quadratic_R in H. injection H as <-.
  assert (S0' : forall v : R, Rabs (v - v) <= / 10^5) by (intros v; rewrite Rminus_diag_eq, Rabs_R0 by reflexivity; lra).
  destruct (Rle_dec (Rabs ca) _) as [L|L].
  - destruct C1 as [-> |C1]; [|lra]. specialize (C2 eq_refl).
    destruct (Rle_dec (Rabs cb) _) as [L2|L2].
    + destruct C2 as [-> |C2]; [|lra]. exfalso. apply NZ. unfold quad in *. lra.
    + exists (- cc / cb). split; [left; reflexivity|].
      assert (cb <> 0) by (intros Q; apply L2; rewrite Q, Rabs_R0; lra).
      replace (- cc / cb) with x; [apply S0'|]. unfold quad in Z. replace cc with (- (cb * x)) by lra. field. assumption.
  - assert (A : ca <> 0) by (intros Q; apply L; rewrite Q, Rabs_R0; lra).
    cbv zeta. rewrite under_id in Z by exact A.
    set (m := - cb / ca * / 2) in *. set (u := / 4 * _ - _) in *. clearbody m u.
    apply Rmult_integral in Z. destruct Z as [Z|Z]; [contradiction|].
    assert (U : u = (x - m)^2) by lra.
    assert (SQ : sqrt u = Rabs (x - m)) by (rewrite U, <- Rsqr_pow2; apply sqrt_Rsqr_abs).
    destruct (Rle_dec (Rabs u) _) as [Lu|Lu].
    + exists m. split; [left; reflexivity|].
      assert (P : 0 <= u) by (rewrite U; apply pow2_ge_0). rewrite Rabs_pos_eq in Lu by exact P.
      rewrite Rabs_minus_sym, <- SQ. replace (/ 10^5) with (sqrt (/ 10^10)); [apply sqrt_le_1_alt; exact Lu|].
      replace (/ 10^10) with ((/ 10^5)^2) by field. apply sqrt_pow2. lra.
    + destruct (Rlt_dec u 0) as [N|N]; [exfalso; pose proof (pow2_ge_0 (x - m)); lra|].
      exists x. split; [|apply S0'].
      assert (W : x = m - Rabs (x - m) \/ x = m + Rabs (x - m)) by (unfold Rabs; destruct (Rcase_abs _); lra).
      rewrite SQ. cbn [In]. destruct W as [W|W]; rewrite <- W; auto.
Qed.

(** not flat all the time *)
Definition opens (s : state (A:=RA)) (t : nat) : Prop := exists y, area s t y <> 0.
Definition clear_area (s : state (A:=RA)) (t : nat) : Prop :=
  opens s t /\ clear (growth s t) /\ (growth s t = 0 -> clear (drift s t)).

Lemma area_found s t x l : clear_area s t -> area s t x = 0 ->
  area_collapse_times s (x0 (t_v (ts s t))) (x1 (t_v (ts s t))) (x2 (t_v (ts s t))) = Ok l ->
  exists r : R, In r l /\ Rabs (r - x) <= / 10^5.
Proof.
  intros ((y & NZ) & CG & CD) Z H. destruct (area_times _ _ _ H) as (ca & cb & cc & sol & H1 & H2 & H3).
  assert (K : forall x, quad ca cb cc x = area s t x) by (intros q; unfold quad; apply area_coeffs, H1).
  assert (GR := growth_coeff _ _ _ _ _ H1).
  assert (DR : drift s t = cb) by (unfold drift; rewrite <- GR, <- !K; unfold quad; ring).
  destruct (roots_found ca cb cc sol x H2) as (r & Hr & R).
  - rewrite GR. exact CG.
  - rewrite GR, <- DR. exact CD.
  - exists y. rewrite K. exact NZ.
  - rewrite K. exact Z.
  - exists r. split; [apply H3, Hr|exact R].
Qed.
Lemma late_adm sv now (r : R) : r > now + / 10^5 -> adm sv now r.
Proof. destruct sv; cbn; lra. Qed.
(** the chosen area root is not after a collapse *)
Lemma sieve_area s t now sv x l : clear_area s t -> area s t x = 0 -> x > now + 2 / 10^5 ->
  area_collapse_times s (x0 (t_v (ts s t))) (x1 (t_v (ts s t))) (x2 (t_v (ts s t))) = Ok l ->
  exists ta : R, run_sieve (A:=RA) sv (map Some l) now = Some ta /\ ta <= x + / 10^5.
Proof.
  intros CA Z X H. destruct (area_found s t x l CA Z H) as (r & Hr & R).
  assert (B : x - / 10^5 <= r <= x + / 10^5) by (unfold Rabs in R; destruct (Rcase_abs _); lra).
  assert (A : adm sv now r) by (apply late_adm; lra).
  destruct (run_sieve sv (map Some l) now) as [ta|] eqn:S.
  - exists ta. split; [reflexivity|]. apply sieve_some in S. destruct S as (_ & _ & S).
    specialize (S r (in_map Some _ _ Hr) A). lra.
  - destruct (sieve_none _ _ _ S r (in_map Some _ _ Hr) A).
Qed.

(** [r] does not come after a collapse at [x] *)
Definition before (x : R) (r : option (event (A:=RA))) : Prop := exists e, r = Some e /\ ev_time e <= x + 2 / 10^5.

Theorem zero_first s t now sv r x : ordinary s t -> clear_area s t -> tri_type (ts s t) = 0%nat -> t_stops (ts s t) = None ->
  collapse_event s t now sv = Ok r -> x > now + 2 / 10^5 -> area s t x = 0 -> before x r.
Proof.
  intros O CA TY ST H X Z. unfold collapse_event in H. rewrite ST in H. cbn [is_some] in H.
  rewrite (ordinary_finite s t O), TY in H. apply rbind_ok in H as (r' & H & K).
  assert (before x r') as B; [|destruct B as (e & -> & B); injection K as <-; exists e; auto]. clear K r.
  unfold compute_event_0triangle in H. rewrite TY in H. cbn [Nat.eqb rassert rbind] in H.
  apply rbind_ok in H as (times & AT & H). destruct (sieve_area s t now sv x times CA Z X AT) as (ta & SA & LA).
  apply rbind_ok in H as ([e'|] & EA & H).
  - injection H as <-. exists e'. split; [reflexivity|].
    assert (ev_time e' = now) as ->; [|lra]. clear - EA. induction times as [|time rest IH]; [discriminate|].
    cbn [event0_degenerate] in EA. destruct (near_zero _); [|auto].
    apply rbind_ok in EA as (q & _ & EA). apply rbind_ok in EA as (q' & _ & EA).
    destruct (where3 _ _) as [|? [|? [|? [|]]]]; try discriminate EA;
      try (apply rbind_ok in EA as (? & _ & EA)); injection EA as <-; reflexivity.
  - clear EA. do 6 (apply rbind_ok in H as (? & _ & H)). apply rbind_ok in H as (roots & _ & H).
    rewrite SA in H.
    assert (FL : forall e q, (q <-- q;; sd <-- argmax3 (A:=RA) q;; Ok (Some (mkevent s t ta [sd] Flip)))%res = Ok e -> before x e).
    { intros e q K. apply rbind_ok in K as (? & _ & K). apply rbind_ok in K as (? & _ & K). injection K as <-.
      eexists. split; [reflexivity|]. cbn [ev_time mkevent]. lra. }
    destruct (run_sieve sv _ now) as [te|]; [|apply (FL _ _ H)].
    destruct (near_zero (nabs (nsub ta te))) eqn:NZ.
    + apply near_zero_R in NZ. ra_simp. assert (LT : te <= x + 2 / 10^5).
      { assert (B : Rabs (ta - te) <= / 10^10) by lra. unfold Rabs in B. destruct (Rcase_abs _); lra. }
      apply rbind_ok in H as (q & _ & H).
      match type of H with match ?w with _ => _ end = _ => destruct w as [|? [|? [|? [|]]]] end;
        try (apply (FL _ _ H)); injection H as <-; eexists; (split; [reflexivity|]); cbn [ev_time mkevent]; exact LT.
    + destruct (ta <? te)%num eqn:LT; [apply (FL _ _ H)|]. ra_simp. rb2p.
      apply rbind_ok in H as (q & _ & H). unfold event0_edge in H.
      match type of H with match ?w with _ => _ end = _ => destruct w as [|? [|? [|? [|]]]] end; try discriminate H;
        injection H as <-; eexists; (split; [reflexivity|]); cbn [ev_time mkevent]; lra.
Qed.

Definition no_later (x : R) (r : option (event (A:=RA))) : Prop := exists e, r = Some e /\ ev_time e <= x.

Section FrontFirst.
  Variable s : state (A:=RA).
  Variable t : nat.
  Hypothesis O : ordinary s t.
  Variable w : side.
  Variable l : line2 (A:=RA).
  Hypothesis F : on_front s t w l.
  Notation c i := (get3 (t_v (ts s t)) i).

  (** the area is zero exactly when the side is gone or the apex is on the front *)
  Lemma front_zero te crash x : clear_front s t w l -> opens s t -> area s t x = 0 ->
    collapse_time_edge s (c (ccw w)) (c (cw w)) = Ok te ->
    vertex_crash_time s (c (ccw w)) (c (cw w)) (c w) = Ok crash -> x = te \/ crash = Some x.
  Proof.
    intros (CS & CA & _) [y NZ] Z TE VC. destruct (frame s t w l F) as (p0 & p1 & L & SP & AR & TE' & _).
    rewrite TE' in TE. injection TE as <-. rewrite (front_crash s t O w l F) in VC.
    assert (GL := gap_line s t w l). rewrite AR in Z, NZ. rewrite GL in Z, NZ. set (g0 := gap l (vs s (c w)) 0) in *.
    apply Rmult_integral in Z. destruct Z as [Z|Z].
    - left. destruct (Rle_dec (spread s t w) _) as [Q|Q].
      + exfalso. apply NZ. assert (P1 : p1 = 0).
        { destruct CS as [S|S]; [nra|]. exfalso. rewrite SP in Q, S. rewrite Rabs_pos_eq in S by apply pow2_ge_0. lra. }
        rewrite P1 in *. replace p0 with 0 by lra. ring.
      + assert (p1 <> 0) by (intros E; apply Q; rewrite SP, E; lra). replace p0 with (- (p1 * x)) by lra. field. assumption.
    - right. injection VC as <-. destruct (Rle_dec (Rabs (approach s t w l)) _) as [Q|Q].
      + exfalso. apply NZ. destruct CA as [A|A]; [|lra]. rewrite A in *. replace g0 with 0 by lra. ring.
      + assert (approach s t w l <> 0) by (intros E; apply Q; rewrite E, Rabs_R0; lra).
        replace g0 with (x * approach s t w l) by lra. apply f_equal. field. assumption.
  Qed.

  Theorem one_first (now : R) sv r x :
    tri_type (ts s t) = 1%nat -> get3 (t_n (ts s t)) w = None -> t_stops (ts s t) = None -> clear_front s t w l -> opens s t -> 0 <= now ->
    collapse_event s t now sv = Ok r -> x > now + / 10^10 -> area s t x = 0 -> no_later x r.
  Proof.
    intros TY NB ST CF OP P0 H X Z. unfold collapse_event in H. rewrite ST in H. cbn [is_some] in H.
    rewrite (ordinary_finite s t O), TY in H. apply rbind_ok in H as (r' & H & K).
    assert (no_later x r') as B; [|destruct B as (e & -> & B); injection K as <-; exists e; auto]. clear K r.
    unfold compute_event_1triangle in H. rewrite TY in H. cbn [Nat.eqb rassert rbind] in H.
    apply rbind_ok in H as (wf & WF & H).
    assert (U : forall i, get3 (t_n (ts s t)) i = None -> i = w).
    { intros i Hi. unfold tri_type, count3 in TY. destruct (t_n (ts s t)) as [[a|] [b|] [d|]]; destruct i, w; cbn in *; congruence. }
    assert (wf = w) as -> by (apply U, index3_none_nb, WF). clear WF.
    assert (A : adm sv now x) by (destruct sv; cbn; lra).
    apply rbind_ok in H as (crash & VC & H). apply rbind_ok in H as ([e'|] & EA & H).
    - injection H as <-. exists e'. split; [reflexivity|]. assert (ev_time e' = now) as ->; [|lra]. clear - EA.
      unfold event1_degenerate in EA. destruct crash; [|discriminate]. destruct (near_zero _); [|discriminate].
      apply rbind_ok in EA as (q & _ & EA).
      destruct (where3 _ _) as [|? [|? [|? [|]]]]; try (apply rbind_ok in EA as (? & _ & EA)); injection EA as <-; reflexivity.
    - clear EA. apply rbind_ok in H as (areas & AT & H). apply rbind_ok in H as (te & TE & H).
      pose proof (front_zero te crash x CF OP Z TE VC) as W.
      assert (SE : x = te -> exists te', run_sieve (A:=RA) sv [Some te] now = Some te' /\ te' = te).
      { intros ->. destruct (run_sieve sv [Some te] now) as [v|] eqn:S.
        - exists v. split; [reflexivity|]. apply sieve_some in S. destruct S as ([S|[]] & _). injection S as ->. reflexivity.
        - destruct (sieve_none _ _ _ S te (or_introl eq_refl) A). }
      assert (SV : crash = Some x -> run_sieve (A:=RA) sv [crash] now = Some x).
      { intros ->. match goal with |- ?g = _ => destruct g as [v|] eqn:S end.
        - apply sieve_some in S. destruct S as ([S|[]] & _). injection S as ->. reflexivity.
        - destruct (sieve_none _ _ _ S x (or_introl eq_refl) A). }
      destruct (run_sieve sv [Some te] now) as [te'|] eqn:RE.
      + assert (te' = te) as -> by (apply sieve_some in RE; destruct RE as ([S|[]] & _); injection S as ->; reflexivity).
        destruct (run_sieve sv [crash] now) as [tv|] eqn:RV.
        * unfold event1_caseD in H.
          assert (TV : crash = Some tv) by (apply sieve_some in RV; destruct RV as ([S|[]] & _); exact S).
          assert (W' : x = te \/ x = tv) by (destruct W as [W|W]; [auto|right; rewrite W in TV; injection TV as ->; reflexivity]).
          destruct ((te <? tv) || (te =? tv))%num eqn:LE.
          -- apply rbind_ok in H as (q & _ & H). apply rbind_ok in H as (i & _ & H). injection H as <-.
             eexists. split; [reflexivity|]. cbn [ev_time mkevent]. apply Bool.orb_true_iff in LE. ra_simp.
             assert (te <= tv) by (destruct LE as [E|E]; rb2p; lra). lra.
          -- destruct (tv <? te)%num eqn:LT; [|discriminate]. apply rbind_ok in H as (q & _ & H). ra_simp. rb2p.
             assert (LX : tv <= x) by lra.
             destruct (where3 _ _) as [|? [|? [|? [|]]]]; try (apply rbind_ok in H as (? & _ & H)); injection H as <-;
               eexists; (split; [reflexivity|]); exact LX.
        * injection H as <-. eexists. split; [reflexivity|]. cbn [ev_time mkevent]. destruct W as [-> |W]; [lra|].
          specialize (SV W). discriminate SV.
      + assert (CX : crash = Some x) by (destruct W as [W|W]; [destruct (SE W) as (? & Q & _); discriminate Q|exact W]).
        rewrite (SV CX) in H. unfold event1_caseB in H. apply rbind_ok in H as (ds & _ & H). cbv zeta in H.
        set (time := match run_sieve sv (map Some areas) now with Some ta => if (ta <? x)%num then ta else x | None => x end) in H.
        assert (LT : time <= x).
        { unfold time. destruct (run_sieve sv (map Some areas) now) as [ta|]; [|lra].
          destruct (ta <? x)%num eqn:L; [|lra]. ra_simp. rb2p. lra. }
        clearbody time.
        match type of H with (if ?q then _ else _) = _ => destruct q end.
        * injection H as <-. eexists. split; [reflexivity|]. cbn [ev_time mkevent]. lra.
        * destruct (count3 _ _ =? 1)%nat; apply rbind_ok in H as (i & _ & H); injection H as <-;
            eexists; (split; [reflexivity|]); exact LT.
  Qed.

  Lemma argmax_ok (q : triple R) : exists i, argmax3 (A:=RA) q = Ok i.
  Proof.
    clear. destruct (max3_is q) as [k K]. apply (index3_some (fun y => @neqb RA y (max3 (A:=RA) q)) q k).
    change (@get3 (@num RA)) with (@get3 R). rewrite K. apply (neqb_refl RA_ord).
  Qed.
  Lemma argmin_ok (q : triple R) : exists i, argmin3 (A:=RA) q = Ok i.
  Proof.
    clear. destruct (min3_is q) as [k K]. apply (index3_some (fun y => @neqb RA y (min3 (A:=RA) q)) q k).
    change (@get3 (@num RA)) with (@get3 R). rewrite K. apply (neqb_refl RA_ord).
  Qed.
  (** computing the event of such a triangle does not raise *)
  Theorem one_total (now : R) sv : tri_type (ts s t) = 1%nat -> get3 (t_n (ts s t)) w = None ->
    exists r, collapse_event s t now sv = Ok r.
  Proof.
    intros TY NB. unfold collapse_event. destruct (is_some _); [eauto|].
    rewrite (ordinary_finite s t O), TY.
    assert (E : exists r, compute_event_1triangle s t now sv = Ok r).
    { unfold compute_event_1triangle. rewrite TY. cbn [Nat.eqb rassert rbind].
      assert (U : forall i, get3 (t_n (ts s t)) i = None -> i = w).
      { intros i Hi. unfold tri_type, count3 in TY. destruct (t_n (ts s t)) as [[a|] [b|] [d|]]; destruct i, w; cbn in *; congruence. }
      destruct (index3_some is_none (t_n (ts s t)) w) as [wf WF]; [rewrite NB; reflexivity|]. rewrite WF. cbn [rbind].
      assert (wf = w) as -> by (apply U, index3_none_nb, WF).
      rewrite (front_crash s t O w l F). cbn [rbind]. set (crash := if Rle_dec _ _ then None else Some _). clearbody crash.
      destruct (areas_ok s t) as [areas AT]. destruct (frame s t w l F) as (p0 & p1 & _ & _ & _ & TE & _).
      assert (EA : exists early, event1_degenerate s t (x0 (t_v (ts s t))) (x1 (t_v (ts s t))) (x2 (t_v (ts s t))) w now crash = Ok early).
      { unfold event1_degenerate. destruct crash; [|eauto]. destruct (near_zero _); [|eauto]. rewrite (dists_val _ _ O). cbn [rbind].
        destruct (argmax_ok (map3 sqrt (lens s t now))) as [i ->]. cbn [rbind].
        destruct (where3 _ _) as [|? [|]]; eauto. }
      destruct EA as [early ->]. cbn [rbind]. destruct early; [eauto|]. rewrite AT, TE. cbn [rbind].
      match goal with |- exists r, match ?m with _ => _ end = _ => destruct m as [te|] end;
        (match goal with |- exists r, match ?m with _ => _ end = _ => destruct m as [tv|] end); [| eauto | |].
      - unfold event1_caseD. rewrite (dists2_val s t O te), (dists_val s t O tv). cbn [rbind].
        destruct (argmin_ok (lens s t te)) as [i ->]. cbn [rbind]. destruct (_ || _)%bool eqn:OR; [eauto|].
        destruct (tv <? te)%num eqn:LT.
        + destruct (argmax_ok (map3 sqrt (lens s t tv))) as [j ->]. cbn [rbind].
          destruct (where3 _ _) as [|? [|? [|? [|]]]]; eauto.
        + exfalso. apply Bool.orb_false_iff in OR. destruct OR as [O1 O2]. ra_simp. rb2p. lra.
      - unfold event1_caseB. cbv zeta.
        match goal with |- context [dists s _ _ _ ?q] => set (time := q); clearbody time end.
        rewrite (dists_val _ _ O). cbn [rbind].
        destruct (argmax_ok (map3 sqrt (lens s t time))) as [j ->]. destruct (argmin_ok (map3 sqrt (lens s t time))) as [i ->]. cbn [rbind].
        match goal with |- exists r, (if ?c then _ else _) = _ => destruct c; [eauto|] end.
        destruct (_ =? _)%nat; eauto.
      - unfold event1_caseA. unfold area_collapse_times in AT. destruct (area_collapse_time_coeff _ _ _) as [[ca cb] cc].
        apply rbind_ok in AT as (sol & -> & _). cbn [rbind]. destruct (run_sieve sv (map Some sol) now) as [time|]; [|eauto].
        destruct (near_zero _); [eauto|]. cbv zeta.
        assert (D : forall i j k, exists q, (if is_some (get3 (t_n (ts s t)) k) then distance2_at s (c i) (c j) time else Ok (lit (-1))) = Ok q).
        { intros i j k. destruct (is_some _); [|eauto]. rewrite (distance_place s t O). eauto. }
        destruct (D S1 S2 S0) as [q0 Q0]. destruct (D S2 S0 S1) as [q1 Q1]. destruct (D S0 S1 S2) as [q2 Q2]. cbn [get3] in Q0, Q1, Q2 |- *.
        rewrite Q0, Q1, Q2. cbn [rbind]. match goal with |- context [argmax3 ?q] => destruct (argmax_ok q) as [i I]; change (argmax3 (A:=RA) q = Ok i) in I end.
        match type of I with ?a = _ => match goal with |- context [rbind ?b _] => change b with a end end. rewrite I. cbn [rbind]. eauto. }
    destruct E as [[e|] ->]; cbn [rbind]; [eauto|]. unfold list3. cbn [rmapl].
    rewrite (position_place s t O S0), (position_place s t O S1), (position_place s t O S2). cbn [rbind]. eauto.
  Qed.
End FrontFirst.

Section TwoFirst.
  Variable s : state (A:=RA).
  Variable t : nat.
  Hypothesis O : ordinary s t.
  Variables i j : side.
  Variables li lj : line2 (A:=RA).
  Hypothesis IJ : i <> j.
  Hypothesis Fi : on_front s t i li.
  Hypothesis Fj : on_front s t j lj.

  Theorem two_first (now : R) sv r x :
    tri_type (ts s t) = 2%nat -> get3 (t_n (ts s t)) i = None -> get3 (t_n (ts s t)) j = None -> t_stops (ts s t) = None ->
    clear_two s t i j -> opens s t -> 0 <= now ->
    collapse_event s t now sv = Ok r -> x > now + 2 / 10^5 -> area s t x = 0 -> before x r.
  Proof.
    intros TY NI NJ ST (CI & CJ & CG & CD) OP P0 H X Z. unfold collapse_event in H. rewrite ST in H. cbn [is_some] in H.
    rewrite (ordinary_finite s t O), TY in H. apply rbind_ok in H as (r' & H & K).
    assert (before x r') as B; [|destruct B as (e & -> & B); injection K as <-; exists e; auto]. clear K r.
    assert (CA : clear_area s t) by (split; [exact OP|split; assumption]).
    unfold compute_event_2triangle in H. rewrite TY in H. cbn [Nat.eqb rassert rbind] in H.
    destruct (two_sides s t i j li lj IJ Fi Fj) as (p0 & p1 & r0 & r1 & k & LI & SI & LJ & SJ & TI & TJ & AR).
    set (ti := if Rle_dec (spread s t i) (/ 10^10) then -1 else - p0 / p1) in *.
    set (tj := if Rle_dec (spread s t j) (/ 10^10) then -1 else - r0 / r1) in *.
    assert (XE : x = ti \/ x = tj).
    { destruct OP as [y NZ]. rewrite AR in Z, NZ.
      assert (k <> 0) by (intros ->; apply NZ; ring).
      assert (Z' : (p0 + p1 * x) * (r0 + r1 * x) = 0).
      { apply Rmult_eq_reg_l with k; [|assumption]. rewrite Rmult_0_r, <- Z. ring. }
      apply Rmult_integral in Z'. destruct Z' as [Q|Q].
      - left. unfold ti. destruct (Rle_dec (spread s t i) _) as [L|L].
        + exfalso. apply NZ. assert (P1 : p1 = 0).
          { destruct CI as [S|S]; [nra|]. exfalso. rewrite SI in L, S. rewrite Rabs_pos_eq in S by apply pow2_ge_0. lra. }
          rewrite P1 in *. replace p0 with 0 by lra. ring.
        + assert (p1 <> 0) by (intros E; apply L; rewrite SI, E; lra). replace p0 with (- (p1 * x)) by lra. field. assumption.
      - right. unfold tj. destruct (Rle_dec (spread s t j) _) as [L|L].
        + exfalso. apply NZ. assert (P1 : r1 = 0).
          { destruct CJ as [S|S]; [nra|]. exfalso. rewrite SJ in L, S. rewrite Rabs_pos_eq in S by apply pow2_ge_0. lra. }
          rewrite P1 in *. replace r0 with 0 by lra. ring.
        + assert (r1 <> 0) by (intros E; apply L; rewrite SJ, E; lra). replace r0 with (- (r1 * x)) by lra. field. assumption. }
    apply rbind_ok in H as (a & HX & H). apply rbind_ok in H as (b & HY & H). apply rbind_ok in H as (d & HZ & H).
    apply rbind_ok in H as (times & UT & H).
    assert (IN : In (Some x) [a; b; d]).
    { assert (SD : exists m, collapse_time_edge s (get3 (t_v (ts s t)) (ccw m)) (get3 (t_v (ts s t)) (cw m)) = Ok x /\ get3 (t_n (ts s t)) m = None).
      { destruct XE as [-> | ->]; [exists i|exists j]; auto. }
      destruct SD as ([] & TE & NM); cbn [ccw cw get3] in TE, NM.
      - right. left. cbn [get3] in HY. rewrite NM in HY. cbn [is_none] in HY. rewrite TE in HY. injection HY as <-. reflexivity.
      - right. right. left. cbn [get3] in HZ. rewrite NM in HZ. cbn [is_none] in HZ. rewrite TE in HZ. injection HZ as <-. reflexivity.
      - left. cbn [get3] in HX. rewrite NM in HX. cbn [is_none] in HX. rewrite TE in HX. injection HX as <-. reflexivity. }
    destruct (C05_unique_times_otherwise [a; b; d] x IN) as (out & Q1 & Q2).
    assert (Q3 : Ok times = Ok out) by (rewrite <- Q1; symmetry; exact UT). injection Q3 as ->. clear Q1 UT.
    destruct Q2 as (_ & SUB & _ & _ & Q2). destruct (Q2 x) as (y & Hy & YX & _); [apply In_somes; exact IN|]. clear Q2.
    assert (U : forall m, get3 (t_n (ts s t)) m = None -> m = i \/ m = j).
    { intros m Hm. unfold tri_type, count3 in TY. destruct (t_n (ts s t)) as [[?|] [?|] [?|]]; destruct i, j, m; cbn in *; auto; congruence. }
    assert (SD : forall m (q : option R) v, (if is_none (get3 (t_n (ts s t)) m) then rmap Some (collapse_time_edge s (get3 (t_v (ts s t)) (ccw m)) (get3 (t_v (ts s t)) (cw m))) else Ok None) = Ok q ->
        q = Some v -> v = ti \/ v = tj).
    { intros m q v Q ->. destruct (get3 (t_n (ts s t)) m) eqn:NM; [discriminate Q|].
      destruct (U m NM) as [-> | ->]; cbn [is_none] in Q; [rewrite TI in Q|rewrite TJ in Q]; injection Q as <-; auto. }
    assert (VT : forall v, In v out -> v = ti \/ v = tj).
    { intros v Hv. apply SUB in Hv. apply In_somes in Hv. destruct Hv as [Q|[Q|[Q|[]]]].
      - exact (SD S2 a v HX Q).
      - exact (SD S0 b v HY Q).
      - exact (SD S1 d v HZ Q). }
    apply rbind_ok in H as (time & TM & H).
    assert (TT : exists v : R, time = Some v /\ v <= x + / 10^5).
    { destruct (run_sieve sv (map Some out) now) as [tm|] eqn:RS.
      - injection TM as <-. exists tm. split; [reflexivity|]. apply sieve_some in RS. destruct RS as (IM & _ & RS).
        apply in_map_iff in IM. destruct IM as (? & IM' & IM). injection IM' as ->.
        assert (X5 : adm sv now x) by (apply late_adm; lra).
        destruct (Rle_dec tm x) as [LE|LE]; [lra|].
        assert (y = x) as -> by (pose proof (VT y Hy) as V1; pose proof (VT tm IM) as V2; lra).
        specialize (RS x (in_map Some _ _ Hy) X5). lra.
      - apply rbind_ok in TM as (areas & AT & TM). injection TM as <-.
        destruct (sieve_area s t now sv x areas CA Z X AT) as (ta & SA & LA). exists ta. auto. }
    destruct TT as (v & -> & LV).
    unfold event2_at in H. rewrite (dists_val _ _ O) in H. cbn [rbind] in H. cbv zeta in H.
    set (ds := map3 sqrt (lens s t v)) in *.
    set (sh := map3 (fun x : R => x - min3 (A:=RA) ds) ds : triple R).
    change (map3 (fun x : @num RA => nsub (Arith:=RA) x (min3 (A:=RA) ds)) ds) with sh in H.
    assert (IM : exists m, In m (where3 (near_zero (A:=RA)) sh)).
    { destruct (min3_is ds) as [m M]. exists m. apply where3_In. apply near_zero_R. unfold sh.
      change (@get3 (@num RA)) with (@get3 R). rewrite (get_map3 (fun x : R => x - min3 (A:=RA) ds)). rewrite M, Rminus_diag_eq by reflexivity. lra. }
    assert (N : exists n, count3 (near_zero (A:=RA)) sh = n /\ n <> 0%nat /\ (n <= 3)%nat).
    { exists (length (where3 (near_zero (A:=RA)) sh)). split; [symmetry; apply where3_length|]. split; [|apply where3_cases].
      destruct IM as [m IM]. destruct (where3 near_zero sh); [destruct IM|discriminate]. }
    clear IM. destruct N as (n & N & N0 & N3).
    match type of H with match ?q with _ => _ end = _ => change q with (count3 (near_zero (A:=RA)) sh) in H end. rewrite N in H.
    destruct n as [|[|[|[|]]]]; try discriminate H; try (exfalso; lia).
    - apply rbind_ok in H as (q & _ & H). injection H as <-. eexists. split; [reflexivity|]. cbn [ev_time mkevent]. lra.
    - injection H as <-. eexists. split; [reflexivity|]. cbn [ev_time mkevent]. lra.
  Qed.
End TwoFirst.

Section ThreeFirst.
  Variable s : state (A:=RA).
  Variable t : nat.
  Hypothesis O : ordinary s t.
  Variable l : side -> line2 (A:=RA).
  Hypothesis F : forall w, on_front s t w (l w).
  Hypothesis ND : forall i j, i <> j -> lw (l i) <> lw (l j).

  Theorem three_first (now : R) sv r x : (forall w, spread s t w > / 10^10) -> tri_type (ts s t) = 3%nat -> t_stops (ts s t) = None ->
    opens s t -> 0 <= now -> collapse_event s t now sv = Ok r -> x > now + / 10^10 -> area s t x = 0 -> no_later x r.
  Proof.
    intros SP TY ST [y OP] P0 H X Z.
    destruct (three_truth s t O l F ND SP TY ST) as (T & p & M & E).
    assert (A : forall z, area s t z = (z - T)^2 * growth s t).
    { intros z. assert (PL : forall i, place s t i z = (fst p + (z - T) * fst (k_velocity (vs s (get3 (t_v (ts s t)) i))), snd p + (z - T) * snd (k_velocity (vs s (get3 (t_v (ts s t)) i))))).
      { intros i. rewrite <- (M i), !place_move. cbn [fst snd]. f_equal; ring. }
      unfold area, growth, area2. rewrite !PL. cbn [fst snd num RA]. ring. }
    rewrite A in Z, OP. apply Rmult_integral in Z. destruct Z as [Z|Z]; [|rewrite Z in OP; lra].
    assert (x = T) as -> by (assert (x - T = 0) by (apply Rsqr_0_uniq; rewrite Rsqr_pow2; exact Z); lra).
    destruct (E now sv P0) as [E1 _]. rewrite E1 in H.
    - injection H as <-. eexists. split; [reflexivity|]. cbn [ev_time mkevent]. lra.
    - destruct sv; cbn; lra.
    - lra.
  Qed.
End ThreeFirst.
