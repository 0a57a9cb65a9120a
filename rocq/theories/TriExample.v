(** The initial skeleton of a triangle, over any arithmetic in which the lines and
    bisectors can be computed; in particular over the reals.  Used by C86 and by examples. *)
From Coq Require Import QArith Reals Lra.
From Verif Require Import Base Arith ArithR Calc VectorOps Line2d Line2dProofs Primitives EventLoop Initialize Main Properties_init
  InitBisect Properties_regression.

(** the triangulation (of package tri, called in __init__.py 43; not modelled) of three points given counterclockwise, all connected by
    constraints, as [rtri_dt] *)
Definition tri_of {A : Arith} (pts : list pt) : res (dtriang (A:=A)) :=
  let inf x y : dvert (A:=A) := mkDV (lit x, lit y) None false in
  Ok (mkDtri (fun i => match i with
                       | 3 => inf 0%Q (-100)%Q | 4 => inf 100%Q 100%Q | 5 => inf (-100)%Q 100%Q
                       | _ => mkDV (nth i pts (n0, n0)) None true
                       end) 3 rtri_tris 7 rtri_star (fun t => Nat.eqb t 0)).

Definition ok {X} (r : res X) : Prop := exists x, r = Ok x.
Ltac step := cbv -[get_bisector wf_line n0 set_tverts].
Section X.
Context {A : Arith}.
Variables p0 p1 p2 : @num A * @num A.
Variables w01 w10 w12 w21 w20 w02 : wavefront (A:=A).
Hypothesis H01 : WaveFront p0 p1 None = Ok w01.
Hypothesis H10 : WaveFront p1 p0 None = Ok w10.
Hypothesis H12 : WaveFront p1 p2 None = Ok w12.
Hypothesis H21 : WaveFront p2 p1 None = Ok w21.
Hypothesis H20 : WaveFront p2 p0 None = Ok w20.
Hypothesis H02 : WaveFront p0 p2 None = Ok w02.
Hypothesis B0 : ok (get_bisector (wf_line w20) (wf_line w01)).
Hypothesis B1 : ok (get_bisector (wf_line w01) (wf_line w12)).
Hypothesis B2 : ok (get_bisector (wf_line w12) (wf_line w20)).
Hypothesis C0 : ok (get_bisector (wf_line w10) (wf_line w02)).
Hypothesis C1 : ok (get_bisector (wf_line w21) (wf_line w10)).
Hypothesis C2 : ok (get_bisector (wf_line w02) (wf_line w21)).
Hypothesis P3 : forall x : @num A, ok (pdiv x (nofnat 3)).
Hypothesis Z : @nleb A n0 n0 = true.
Hypothesis I3 : forall d, tri_of [p0; p1; p2] = Ok d -> length (infinites d) = 3%nat.
Lemma tri_init : exists d s, tri_of [p0; p1; p2] = Ok d /\ init_skeleton d = Ok s.
Proof.
  destruct (tri_of [p0; p1; p2]) as [d|] eqn:D; [|discriminate]. exists d.
  assert (CE : ok (centroid d)).
  { injection D as <-. unfold centroid. cbn [node_keys fold_left filter seq dt_nv dt_v dv_finite rbind].
    unfold node_keys. cbn [fold_left filter seq dt_nv dt_v dv_finite dv_pos rbind nth].
    repeat match goal with |- context [pdiv ?x (nofnat 3)] => destruct (P3 x) as [? ->]; cbn [rbind] end.
    eexists. reflexivity. }
  destruct CE as [c CE]. unfold init_skeleton. rewrite CE. cbn [rbind].
  specialize (I3 d eq_refl). rewrite I3.
  assert (T : exists til, rmapl (init_triangle d) (seq 0 (dt_nt d)) = Ok til /\
     til = [mkTI (mk3 (Some w12) (Some w20) (Some w01)) (mk3 None None None) 0;
            mkTI (mk3 (Some w10) None None) (mk3 None (Some 4%nat) (Some 5%nat)) 0;
            mkTI (mk3 (Some w21) None None) (mk3 None (Some 5%nat) (Some 6%nat)) 0;
            mkTI (mk3 (Some w02) None None) (mk3 None (Some 6%nat) (Some 4%nat)) 0;
            mkTI (mk3 None None None) (mk3 None (Some 1%nat) (Some 3%nat)) 1;
            mkTI (mk3 None None None) (mk3 None (Some 2%nat) (Some 1%nat)) 1;
            mkTI (mk3 None None None) (mk3 None (Some 3%nat) (Some 2%nat)) 1]).
  { injection D as <-. eexists. split; [|reflexivity].
    cbv -[WaveFront]. rewrite H12. cbv -[WaveFront]. rewrite H20. cbv -[WaveFront]. rewrite H01. cbv -[WaveFront].
    rewrite H10. cbv -[WaveFront]. rewrite H21. cbv -[WaveFront]. rewrite H02. cbv -[WaveFront]. reflexivity. }
  destruct T as (til & -> & ->). cbn [rbind].
  destruct B0 as [b0 B0']. destruct B1 as [b1 B1']. destruct B2 as [b2 B2'].
  destruct C0 as [c0 C0']. destruct C1 as [c1 C1']. destruct C2 as [c2 C2'].
  injection D as <-.
  evar (b : build (A:=A)).
  match goal with |- context [init_vertices ?d ?ti] => assert (V : init_vertices d ti = Ok b) end.
  { unfold init_vertices.
    step. do 6 (rewrite ?B0', ?B1', ?B2', ?C0', ?C1', ?C2'; step). reflexivity. }
  rewrite V. unfold b. clear V b. cbn [rbind].
  cbn [b_kv b_tv b_links].
  set (kvs := fold_left _ _ _).
  assert (K6 : length kvs = 6%nat) by (vm_compute; reflexivity).
  match goal with |- context [rmapl (check_links ?f) ?l] => assert (KL : rmapl (check_links f) l = Ok [tt; tt; tt; tt; tt; tt]) by (vm_compute; reflexivity) end.
  rewrite KL. cbn [rbind].

  cbn [rassert Nat.eqb].
  match goal with |- context [rassert ?x] => assert (X : x = true) by (vm_compute; reflexivity); rewrite X; clear X end. cbn [rassert rbind].
  match goal with |- context [rassert ?x] => assert (X : x = true) by (vm_compute; reflexivity); rewrite X; clear X end. cbn [rassert rbind].
  match goal with |- context [rassert ?x] => assert (X : x = true) by (vm_compute; reflexivity); rewrite X; clear X end. cbn [rassert rbind].
  match goal with |- context [rmapl (unwanted_links ?a ?b ?c ?d) ?l] => let y := eval vm_compute in (rmapl (unwanted_links a b c d) l) in
     assert (X : rmapl (unwanted_links a b c d) l = y) by (vm_compute; reflexivity); rewrite X; clear X end. cbn [rbind].
  match goal with |- context [check_ktriangles ?a ?b ?c] => assert (X : check_ktriangles a b c = Ok true)
    by (vm_compute; vm_compute in Z; rewrite !Z; reflexivity); rewrite X; clear X end. cbn [rassert rbind].
  assert (OKI : forall X (r : res X), is_ok r = true -> ok r) by (intros X [x|e] H; [exists x; reflexivity|discriminate]).
  match goal with |- context [rbind ?x _] => destruct (OKI _ x) as [y ->]; [vm_compute; reflexivity|] end. cbn [rbind].
  match goal with |- context [rbind ?x _] => destruct (OKI _ x) as [z ->]; [vm_compute; reflexivity|] end. cbn [rbind].
  eexists. split; reflexivity.
Qed.
End X.


Lemma bisector_total_R l m : unit_line l -> unit_line m -> ok (get_bisector l m).
Proof.
  intros Hl Hm. destruct (Rlt_le_dec (/ 10^10) (Rabs (det l m))) as [D|D].
  - destruct (get_bisector_R l m Hl Hm D) as (v & -> & _). exists v. reflexivity.
  - destruct (get_bisector_line l m D) as [->| ->]; eexists; reflexivity.
Qed.
Lemma WaveFront_R (p q : R * R) : p <> q -> exists w, WaveFront (A:=RA) p q None = Ok w /\ unit_line (wf_line w).
Proof.
  intros N. destruct (from_points_spec p q N) as (l & F & U & _). unfold WaveFront. rewrite F. cbn [rbind].
  eexists. split; [reflexivity|exact U].
Qed.

(** the reals: three different points *)
Theorem triangle_init_R (p0 p1 p2 : R * R) : p0 <> p1 -> p1 <> p2 -> p2 <> p0 ->
  exists d s, tri_of (A:=RA) [p0; p1; p2] = Ok d /\ init_skeleton d = Ok s.
Proof.
  intros N01 N12 N20.
  destruct (WaveFront_R p0 p1 N01) as (w01 & H01 & U01).
  destruct (WaveFront_R p1 p0 (not_eq_sym N01)) as (w10 & H10 & U10).
  destruct (WaveFront_R p1 p2 N12) as (w12 & H12 & U12).
  destruct (WaveFront_R p2 p1 (not_eq_sym N12)) as (w21 & H21 & U21).
  destruct (WaveFront_R p2 p0 N20) as (w20 & H20 & U20).
  destruct (WaveFront_R p0 p2 (not_eq_sym N20)) as (w02 & H02 & U02).
  apply (tri_init p0 p1 p2 w01 w10 w12 w21 w20 w02); try assumption; try (apply bisector_total_R; assumption).
  - intros x. unfold pdiv. rewrite (RA_counts 3) by lia. eexists. reflexivity.
  - apply (nleb_refl RA_ord).
  - intros d D. injection D as <-. unfold infinites, pt_eqb. cbn. unfold Q2R. cbn.
    repeat (match goal with |- context [Reqb ?x ?y] => destruct (Reqb x y) eqn:?; rb2p; try lra end; cbn).
    all: reflexivity.
Qed.
