(** The skeleton that init_skeleton makes of a triangle, explicitly *)
From Coq Require Import QArith Reals Lra Permutation.
From Verif Require Import Base Arith ArithR Calc VectorOps Line2d Line2dProofs Primitives EventLoop Initialize Main Properties_init
  InitBisect Properties_regression TriExample Collapse EventsLib EdgeEvent Properties_main.

(** ** The start state *)
Lemma filter_perm {X} (f : X -> bool) l l' : Permutation l l' -> Permutation (filter f l) (filter f l').
Proof.
  induction 1 as [|x l l' _ IH|x y l|l l' l'' _ I1 _ I2]; cbn; [constructor|..].
  - destruct (f x); [apply perm_skip|]; exact IH.
  - destruct (f x), (f y); try reflexivity. apply perm_swap.
  - exact (perm_trans I1 I2).
Qed.
Section Start.
Context {A : Arith}.
Context (p0 p1 p2 : @num A * @num A).
Context (w01 w10 w12 w21 w20 w02 : wavefront (A:=A)).
Context (b0 b1 b2 : @num A * @num A).
Context (H01 : WaveFront p0 p1 None = Ok w01).
Context (H10 : WaveFront p1 p0 None = Ok w10).
Context (H12 : WaveFront p1 p2 None = Ok w12).
Context (H21 : WaveFront p2 p1 None = Ok w21).
Context (H20 : WaveFront p2 p0 None = Ok w20).
Context (H02 : WaveFront p0 p2 None = Ok w02).
Context (B0 : get_bisector (wf_line w20) (wf_line w01) = Ok b0).
Context (B1 : get_bisector (wf_line w01) (wf_line w12) = Ok b1).
Context (B2 : get_bisector (wf_line w12) (wf_line w20) = Ok b2).
Context (C0 : ok (get_bisector (wf_line w10) (wf_line w02))).
Context (C1 : ok (get_bisector (wf_line w21) (wf_line w10))).
Context (C2 : ok (get_bisector (wf_line w02) (wf_line w21))).
Context (P3 : forall x : @num A, ok (pdiv x (nofnat 3))).
Context (Z : @nleb A n0 n0 = true).
Context (I3 : forall d, tri_of [p0; p1; p2] = Ok d -> length (infinites d) = 3%nat).

(** a vertex of the wavefront inside the triangle, at time 0 *)
Definition first_vertex (o v : @num A * @num A) (a b node l r i : nat) : kvertex (A:=A) :=
  mkKV false o v [(n0, None, Some a)] [(n0, None, Some b)] (Some n0) None (Some node) None
    (Some l) (Some r) (Some l) (Some r) i false true.

Lemma tri_start : exists d s, tri_of [p0; p1; p2] = Ok d /\ init_skeleton d = Ok s /\
  (let st := start_of true s in sk_triangles st = [0] /\ sk_vertices st = [0; 2; 4] /\
   ts st 0 = mkTri (mk3 0 2 4) (mk3 None None None) None 1 None true /\
   vs st 0 = first_vertex p0 b0 4 2 0 1 2 1 /\ vs st 2 = first_vertex p1 b1 0 4 1 2 0 3 /\
   vs st 4 = first_vertex p2 b2 2 0 2 0 1 5 /\ wfs st 0 = w12 /\ wfs st 1 = w20 /\ wfs st 2 = w01 /\
   (sn_pos (ns st 0) = p0 /\ sn_pos (ns st 1) = p1 /\ sn_pos (ns st 2) = p2) /\
   (sn_info (ns st 0) = None /\ sn_info (ns st 1) = None /\ sn_info (ns st 2) = None) /\
   nn st = 3 /\ ne st = 0 /\ nv st = 7 /\ queue st = [] /\ immediate st = [] /\ sk_nodes st = [0; 1; 2])%nat.
Proof.
  destruct (tri_of [p0; p1; p2]) as [d|] eqn:D; [|discriminate]. exists d.
  assert (CE : ok (centroid d)).
  { injection D as <-. unfold centroid. cbn [node_keys fold_left filter seq dt_nv dt_v dv_finite rbind].
    unfold node_keys. cbn [fold_left filter seq dt_nv dt_v dv_finite dv_pos rbind nth].
    repeat match goal with |- context [pdiv ?x (nofnat 3)] => destruct (P3 x) as [? ->]; cbn [rbind] end.
    eexists. reflexivity. }
  destruct CE as [c CE]. unfold init_skeleton. rewrite CE. cbn [rbind].
  specialize (I3 d eq_refl). rewrite I3.
  assert (T : exists til, rmapl (init_triangle d) (seq 0 (dt_nt d)) = Ok til /\
     til = [mkTI (mk3 (Some w12) (Some w20) (Some w01)) (mk3 None None None) 0;
            mkTI (mk3 (Some w10) None None) (mk3 None (Some 4%nat) (Some 5%nat)) 0;
            mkTI (mk3 (Some w21) None None) (mk3 None (Some 5%nat) (Some 6%nat)) 0;
            mkTI (mk3 (Some w02) None None) (mk3 None (Some 6%nat) (Some 4%nat)) 0;
            mkTI (mk3 None None None) (mk3 None (Some 1%nat) (Some 3%nat)) 1;
            mkTI (mk3 None None None) (mk3 None (Some 2%nat) (Some 1%nat)) 1;
            mkTI (mk3 None None None) (mk3 None (Some 3%nat) (Some 2%nat)) 1]).
  { injection D as <-. eexists. split; [|reflexivity].
    cbv -[WaveFront]. rewrite H12. cbv -[WaveFront]. rewrite H20. cbv -[WaveFront]. rewrite H01. cbv -[WaveFront].
    rewrite H10. cbv -[WaveFront]. rewrite H21. cbv -[WaveFront]. rewrite H02. cbv -[WaveFront]. reflexivity. }
  destruct T as (til & -> & ->). cbn [rbind].
  destruct C0 as [c0 C0']. destruct C1 as [c1 C1']. destruct C2 as [c2 C2'].
  injection D as <-.
  evar (b : build (A:=A)).
  match goal with |- context [init_vertices ?d ?ti] => assert (V : init_vertices d ti = Ok b) end.
  { unfold init_vertices.
    step. do 6 (rewrite ?B0, ?B1, ?B2, ?C0', ?C1', ?C2'; step). reflexivity. }
  rewrite V. unfold b. clear V b. cbn [rbind].
  cbn [b_kv b_tv b_links].
  set (kvs := fold_left _ _ _).
  assert (K6 : length kvs = 6%nat) by (vm_compute; reflexivity).
  match goal with |- context [rmapl (check_links ?f) ?l] => assert (KL : rmapl (check_links f) l = Ok [tt; tt; tt; tt; tt; tt]) by (vm_compute; reflexivity) end.
  rewrite KL. cbn [rbind].

  cbn [rassert Nat.eqb].
  match goal with |- context [rassert ?x] => assert (X : x = true) by (vm_compute; reflexivity); rewrite X; clear X end. cbn [rassert rbind].
  match goal with |- context [rassert ?x] => assert (X : x = true) by (vm_compute; reflexivity); rewrite X; clear X end. cbn [rassert rbind].
  match goal with |- context [rassert ?x] => assert (X : x = true) by (vm_compute; reflexivity); rewrite X; clear X end. cbn [rassert rbind].
  match goal with |- context [rmapl (unwanted_links ?a ?b ?c ?d) ?l] => let y := eval vm_compute in (rmapl (unwanted_links a b c d) l) in
     assert (X : rmapl (unwanted_links a b c d) l = y) by (vm_compute; reflexivity); rewrite X; clear X end. cbn [rbind].
  match goal with |- context [check_ktriangles ?a ?b ?c] => assert (X : check_ktriangles a b c = Ok true)
    by (vm_compute; vm_compute in Z; rewrite !Z; reflexivity); rewrite X; clear X end. cbn [rassert rbind].
  assert (OKI : forall X (r : res X), is_ok r = true -> ok r) by (intros X [x|e] H; [exists x; reflexivity|discriminate]).
  match goal with |- context [rbind ?x _] => destruct (OKI _ x) as [y ->]; [vm_compute; reflexivity|] end. cbn [rbind].
  match goal with |- context [rbind ?x _] => destruct (OKI _ x) as [z ->]; [vm_compute; reflexivity|] end. cbn [rbind].
  eexists. split; [reflexivity|]. split; [reflexivity|].
  assert (FI : forall le f, f 0%nat = true -> f 1%nat = false -> f 2%nat = false -> f 3%nat = false ->
    filter f (isort le [0; 1; 2; 3]%nat) = [0]%nat).
  { intros le f F0 F1 F2 F3. apply Permutation_length_1_inv. transitivity (filter f [0; 1; 2; 3]%nat).
    - cbn [filter]. rewrite F0, F1, F2, F3. reflexivity.
    - apply filter_perm, isort_perm. }
  cbn zeta. split; [apply FI; vm_compute; reflexivity|].
  repeat split; vm_compute; reflexivity.
Qed.
End Start.
