(** Property theorems: the triangulation of the skeleton when the event loop starts
    (C64) *)
From Coq Require Import QArith.
From Verif Require Import Base Arith ArithQ Calc VectorOps Line2d Primitives Collapse CollapseProofs EventsLib FlipEvent ParallelEvent
  EdgeEvent SplitEvent EventLoop Pass OpSpec Order StopSpec RunBase RunTimed RunLoop Total TotalRun Mesh MeshEvents MeshEdge MeshRun
  ScenarioRun Properties_loop Properties_mesh Initialize StarProofs InitProofs InitState InitCirc Main Properties_init InitMesh
  TriExample Properties_main.
Local Open Scope nat_scope.

(** ** Deciding the conditions, for the examples *)
Section Decide.
  Context {A : Arith}.
  Variable d : dtriang (A:=A).
  Notation dcorner t i := (get3 (d_v (dt_t d t)) i).
  Definition all_tris (f : nat -> side -> bool) : bool := forallb (fun t => forallb (f t) sides) (seq 0 (dt_nt d)).
  Lemma all_tris_ok f : all_tris f = true -> forall t i, t < dt_nt d -> f t i = true.
  Proof.
    unfold all_tris. rewrite forallb_forall. intros H t i L. specialize (H t ltac:(apply in_seq; lia)).
    rewrite forallb_forall in H. apply H, side_in.
  Qed.
  Definition ring_pairs {X} (l : list X) : list (X * X) := match l with [] => [] | x :: m => combine l (m ++ [x]) end.
  Lemma combine_mid {X} (p q p' q' : list X) a b : length p = length p' -> In (a, b) (combine (p ++ a :: q) (p' ++ b :: q')).
  Proof.
    revert p'. induction p as [|x p IH]; intros [|y p'] H; try discriminate; [left; reflexivity|].
    right. apply IH. cbn in H. lia.
  Qed.
  Lemma ring_pairs_ok {X} (l : list X) a b : after l a b -> In (a, b) (ring_pairs l).
  Proof.
    intros [(l1 & l2 & ->)|(m & -> & ->)].
    - destruct l1 as [|x l1].
      + cbn [app ring_pairs]. left. reflexivity.
      + cbn [app ring_pairs].
        replace ((l1 ++ a :: b :: l2) ++ [x]) with ((l1 ++ [a]) ++ b :: l2 ++ [x]) by (rewrite <- !app_assoc; reflexivity).
        apply (combine_mid (x :: l1)). rewrite app_length. cbn. lia.
    - cbn [ring_pairs]. destruct m as [|z m _] using rev_ind; [left; reflexivity|]. rewrite last_last, <- app_assoc.
      change (b :: m ++ [z]) with ((b :: m) ++ [z]). change ([z] ++ [b]) with (z :: [b]).
      replace (m ++ z :: [b]) with ((m ++ [z]) ++ b :: []) by (rewrite <- app_assoc; reflexivity).
      apply (combine_mid (b :: m) []). rewrite app_length. cbn. lia.
  Qed.
  Definition triangulationb : bool :=
    all_tris (fun t i => forallb (fun j => side_eqb i j || is_none (dcorner t i) || negb (onat_eqb (dcorner t i) (dcorner t j))) sides) &&
    all_tris (fun t i => match get3 (d_n (dt_t d t)) i with
      | Some n => negb (n <? dt_nt d) || existsb (fun j => onat_eqb (get3 (d_n (dt_t d n)) j) (Some t) &&
          onat_eqb (dcorner n (ccw j)) (dcorner t (cw i)) && onat_eqb (dcorner n (cw j)) (dcorner t (ccw i)) &&
          Bool.eqb (constrained d n j) (constrained d t i)) sides
      | None => true end) &&
    forallb (fun v =>
      (length (nodup edge_eq_dec (dt_star d v)) =? length (dt_star d v)) &&
      forallb (fun e => (fst e <? dt_nt d) && onat_eqb (dcorner (fst e) (snd e)) (Some v)) (dt_star d v) &&
      all_tris (fun t i => negb (onat_eqb (dcorner t i) (Some v)) || if in_dec edge_eq_dec (t, i) (dt_star d v) then true else false) &&
      forallb (fun ab => onat_eqb (get3 (d_n (dt_t d (fst (fst ab)))) (ccw (snd (fst ab)))) (Some (fst (snd ab)))) (ring_pairs (dt_star d v)))
      (seq 0 (dt_nv d)) &&
    all_tris (fun t i => match dcorner t i with Some v => negb (dv_finite (dt_v d v)) || (v <? dt_nv d) | None => true end) &&
    forallb (fun t => existsb (fun i => match dcorner t i with Some v => dv_finite (dt_v d v) | None => false end) sides) (seq 0 (dt_nt d)).
  Lemma nodup_count {X} (dec : forall x y : X, {x = y} + {x <> y}) l : length (nodup dec l) = length l -> NoDup l.
  Proof.
    intros H. apply (NoDup_incl_NoDup (NoDup_nodup dec l)); [lia|].
    intros x Hx. apply (nodup_In dec l x), Hx.
  Qed.
  Lemma triangulationb_ok : triangulationb = true -> triangulation d.
  Proof.
    unfold triangulationb. rewrite !Bool.andb_true_iff. intros ((((H1 & H2) & H3) & H4) & H5).
    pose proof (all_tris_ok _ H1) as K1. pose proof (all_tris_ok _ H2) as K2. pose proof (all_tris_ok _ H4) as K4.
    clear H1 H2 H4. rewrite forallb_forall in H3, H5.
    assert (ST : forall v, v < dt_nv d ->
      ((length (nodup edge_eq_dec (dt_star d v)) =? length (dt_star d v)) = true /\
       forallb (fun e => (fst e <? dt_nt d) && onat_eqb (dcorner (fst e) (snd e)) (Some v)) (dt_star d v) = true) /\
      all_tris (fun t i => negb (onat_eqb (dcorner t i) (Some v)) || if in_dec edge_eq_dec (t, i) (dt_star d v) then true else false) = true /\
      forallb (fun ab => onat_eqb (get3 (d_n (dt_t d (fst (fst ab)))) (ccw (snd (fst ab)))) (Some (fst (snd ab)))) (ring_pairs (dt_star d v)) = true).
    { intros v L. specialize (H3 v ltac:(apply in_seq; lia)). rewrite !Bool.andb_true_iff in H3. tauto. }
    clear H3. constructor.
    - intros t i j v L C1 C2. specialize (K1 t i L). cbv beta in K1. rewrite forallb_forall in K1. specialize (K1 j (side_in j)).
      rewrite C1, C2 in K1. cbn in K1. rewrite Nat.eqb_refl in K1. destruct (side_eqb_spec i j); [assumption|discriminate].
    - intros t i n L N Ln. specialize (K2 t i L). cbv beta in K2. rewrite N in K2. apply Nat.ltb_lt in Ln. rewrite Ln in K2. cbn [negb orb] in K2.
      apply existsb_exists in K2. destruct K2 as (j & _ & K). rewrite !Bool.andb_true_iff in K. destruct K as (((J1 & J2) & J3) & J4).
      exists j. apply onat_eqb_ok in J1, J2, J3. apply Bool.eqb_prop in J4. auto.
    - intros v L. destruct (ST v L) as ((S1 & S2) & S3 & _). apply Nat.eqb_eq in S1. split; [apply nodup_count in S1; exact S1|].
      intros t sd. rewrite forallb_forall in S2. split.
      + intros I. specialize (S2 _ I). cbn [fst snd] in S2. apply Bool.andb_true_iff in S2. destruct S2 as [S2 S4].
        apply Nat.ltb_lt in S2. apply onat_eqb_ok in S4. auto.
      + intros [Lt C]. pose proof (all_tris_ok _ S3 t sd Lt) as K. cbv beta in K. rewrite C in K. cbn in K. rewrite Nat.eqb_refl in K. cbn in K.
        destruct (in_dec edge_eq_dec (t, sd) (dt_star d v)); [assumption|discriminate].
    - intros v a b L F. destruct (ST v L) as (_ & _ & S4). rewrite forallb_forall in S4. specialize (S4 (a, b) (ring_pairs_ok _ _ _ F)).
      apply onat_eqb_ok in S4. exact S4.
    - intros t i v L C F. specialize (K4 t i L). cbv beta in K4. rewrite C, F in K4. apply Nat.ltb_lt, K4.
    - intros t L. specialize (H5 t ltac:(apply in_seq; lia)). apply existsb_exists in H5. destruct H5 as (i & _ & K).
      destruct (dcorner t i) as [v|] eqn:C; [|discriminate]. exists i, v. auto.
  Qed.
  Definition regionsb : bool :=
    all_tris (fun t i => match get3 (d_n (dt_t d t)) i with
      | Some n => negb (n <? dt_nt d) || constrained d t i || Bool.eqb (dt_internal d n) (dt_internal d t)
      | None => true end).
  Lemma regionsb_ok : regionsb = true -> regions d.
  Proof.
    intros H t i n L N Ln C. pose proof (all_tris_ok _ H t i L) as K. cbv beta in K. rewrite N, C in K.
    apply Nat.ltb_lt in Ln. rewrite Ln in K. cbn in K. apply Bool.eqb_prop, K.
  Qed.
End Decide.

(** ** C64 *)
(** For a triangulation whose links and stars are consistent, the triangles of the
    skeleton have three different vertices and are linked mutually, across sides
    with the same two vertices, also where the triangles with two infinite corners
    have been taken out.  With internal_only this holds for the inner part alone. *)
Theorem C64_start :
  forall (A : Arith) (E : Env A) (d : dtriang) s0 io,
  triangulation d -> (io = true -> regions d) -> init_skeleton d = Ok s0 ->
  let st := start_of io s0 in
  linked (active st) st /\ (forall t, active st t -> distinct st t).
Proof.
  intros A E d s0 io TG RG HI st. destruct (init_linked d TG s0 HI) as (L & D & R). unfold st. destruct io; [|auto].
  assert (SUB : forall t, active (start_of true s0) t <-> active s0 t /\ t_internal (ts s0 t) = true).
  { intros t. unfold active. cbn. rewrite filter_In. tauto. }
  split.
  - intros t i n Ht H. apply SUB in Ht. destruct Ht as [Ht It]. destruct (L t i n Ht H) as (Hn & J). split; [|exact J].
    apply SUB. split; [exact Hn|]. rewrite (R (RG eq_refl) t i n Ht H). exact It.
  - intros t Ht. apply SUB in Ht. apply (D t), Ht.
Qed.
Print Assumptions C64_start.

(** It stays so in the runs of calc_skel as long as the events are regular. *)
Theorem C64_runs :
  forall (A : Arith) (E : Env A), OrdArith A -> (forall t u : nat, addr t = addr u -> t = u) ->
  forall (d : dtriang) s0 io s1 now tr s,
  triangulation d -> (io = true -> regions d) -> init_skeleton d = Ok s0 ->
  started (start_of io s0) s1 -> reach s1 now tr s ->
  (forall now1 tr1 s2 e now2 s3, reach s1 now1 tr1 s2 -> length tr1 < length tr ->
     take_next now1 s2 = Ok ((e, now2), s3) -> regular s3 e) ->
  (forall v, nv s0 <= v < nv s -> k_inf_fast (vs s v) = false) ->
  linked (active s) s.
Proof.
  intros A E OA inj d s0 io s1 now tr s TG RG HI ST RE RU NF.
  destruct (C64_start A E d s0 io TG RG HI) as [L _]. set (st := start_of io s0) in *.
  assert (F : fresh st) by (apply start_fresh, (init_fresh d s0 HI), (nleb_refl OA)).
  assert (SH : shaped st) by (apply start_shaped, (init_shaped d s0 HI)).
  pose proof (started_shaped OA inj _ _ F SH ST) as SH1.
  destruct (init_timed OA inj _ _ F ST) as ((RG1 & _) & FO & _ & M & _ & NV & _).
  assert (L1 : linked (active s1) s1).
  { assert (AC : forall u, active s1 u <-> active st u).
    { intros u. unfold active. rewrite (fo_tris _ _ FO). destruct (M u) as (_ & _ & ->). tauto. }
    intros t i n Ht H. apply AC in Ht. rewrite (mesh_same_link st s1) in H by exact M.
    destruct (L t i n Ht H) as (Hn & j & J1 & J2). split; [apply AC, Hn|]. exists j.
    rewrite (mesh_same_link st s1) by exact M. split; [exact J1|].
    unfold shares. rewrite !(mesh_same_corner st s1) by exact M. exact J2. }
  apply (C45_run A E s1 now tr s RG1 SH1 L1 RE RU).
  intros v Hv. apply NF. destruct (start_heap io s0) as (_ & _ & Q & _). fold st in Q. lia.
Qed.
Print Assumptions C64_runs.

(** a quadrilateral, cut by a diagonal that is not constrained; at its corner 2 no
    triangle is taken out *)
Definition quad_dt : dtriang (A:=QA) :=
  mkDtri (fun i => nth i [dv 0 0; dv 4 0; dv 3 2; dv 0 3; di 0 (-100); di 100 100; di (-100) 100]%Q (dv 0%Q 0%Q)) 4
   (fun t => nth t
     [mkDT (o3 0 1 2) (mk3 (Some 3) (Some 1) (Some 2)) (mk3 true false true);
      mkDT (o3 0 2 3) (mk3 (Some 4) (Some 5) (Some 0)) (mk3 true true false);
      mkDT (o3 4 1 0) (mk3 (Some 0) (Some 8) (Some 6)) (mk3 true false false);
      mkDT (o3 5 2 1) (mk3 (Some 0) (Some 6) (Some 4)) (mk3 true false false);
      mkDT (o3 5 3 2) (mk3 (Some 1) (Some 3) (Some 7)) (mk3 true false false);
      mkDT (o3 6 0 3) (mk3 (Some 1) (Some 7) (Some 8)) (mk3 true false false);
      mkDT (o3 1 4 5) (mk3 None (Some 3) (Some 2)) (mk3 false false false);
      mkDT (o3 3 5 6) (mk3 None (Some 5) (Some 4)) (mk3 false false false);
      mkDT (o3 0 6 4) (mk3 None (Some 2) (Some 5)) (mk3 false false false)]
     (mkDT (mk3 None None None) (mk3 None None None) (mk3 false false false))) 9
   (fun v => nth v
     [[(0, S0); (1, S0); (5, S1); (8, S0); (2, S2)]; [(0, S1); (2, S1); (6, S0); (3, S2)];
      [(0, S2); (3, S1); (4, S2); (1, S1)]; [(1, S2); (4, S1); (7, S0); (5, S2)]] [])
   (fun t => t <? 2).
Example C64_start_case :
  triangulation quad_dt /\ regions quad_dt /\
  match init_skeleton quad_dt with
  | Ok s => (length (sk_triangles s) =? 6) && (length (sk_triangles (start_of true s)) =? 2) &&
            onat_eqb (link s 0 S1) (Some 1) && onat_eqb (link s 2 S2) (Some 3) && onat_eqb (link s 3 S2) (Some 4)
  | Err _ => false
  end = true.
Proof.
  split; [apply triangulationb_ok; vm_compute; reflexivity|]. split; [apply regionsb_ok; vm_compute; reflexivity|].
  vm_compute. reflexivity.
Qed.

(** its runs: both events are regular, with and without the outer part *)
Definition runs_check (io : bool) (k : nat) : bool :=
  match init_skeleton quad_dt with
  | Ok s0 => holds_k k (start_of io s0) (fun _ _ s' => match init_event_list (start_of io s0) with
       | Ok (_, s1) => forallb (regular_at (with_qi s1 (queue s1) [])) (seq 0 k) && slowb s'
       | Err _ => false end)
  | Err _ => false
  end.
Lemma runs_example io k : runs_check io k = true ->
  exists s0 s1 now tr s, init_skeleton quad_dt = Ok s0 /\ started (start_of io s0) s1 /\ reach s1 now tr s /\ length tr = k /\
    (forall now1 tr1 s2 e now2 s3, reach s1 now1 tr1 s2 -> length tr1 < length tr ->
       take_next now1 s2 = Ok ((e, now2), s3) -> regular s3 e) /\
    (forall v, nv s0 <= v < nv s -> k_inf_fast (vs s v) = false) /\ linked (active s) s.
Proof.
  unfold runs_check. destruct (init_skeleton quad_dt) as [s0|] eqn:HI; [|discriminate]. intros H.
  apply example_k in H. destruct H as (s1 & now & tr & s & ST & R & L & H).
  pose proof ST as (s2 & I & ->). rewrite I in H. apply Bool.andb_true_iff in H. destruct H as [H1 H2].
  set (s1 := with_qi s2 (queue s2) []) in *.
  assert (RU : forall now1 tr1 s2 e now2 s3, reach s1 now1 tr1 s2 -> length tr1 < length tr ->
       take_next now1 s2 = Ok ((e, now2), s3) -> regular s3 e) by (rewrite L; apply regular_run, H1).
  assert (NF : forall v, nv s0 <= v < nv s -> k_inf_fast (vs s v) = false).
  { intros v Hv. unfold slowb in H2. rewrite forallb_forall in H2. specialize (H2 v). rewrite in_seq in H2.
    specialize (H2 ltac:(lia)). destruct (k_inf_fast (vs s v)); [discriminate|reflexivity]. }
  exists s0, s1, now, tr, s. split; [reflexivity|]. split; [exact ST|]. split; [exact R|]. split; [exact L|].
  split; [exact RU|]. split; [exact NF|].
  apply (C64_runs QA QE QA_ord QE_addr quad_dt s0 io s1 now tr s); auto.
  - apply triangulationb_ok. vm_compute. reflexivity.
  - intros _. apply regionsb_ok. vm_compute. reflexivity.
Qed.
Example C64_runs_case : exists s0 s1 now tr s, init_skeleton quad_dt = Ok s0 /\ started (start_of true s0) s1 /\ reach s1 now tr s /\
  length tr = 2 /\ (forall now1 tr1 s2 e now2 s3, reach s1 now1 tr1 s2 -> length tr1 < length tr ->
     take_next now1 s2 = Ok ((e, now2), s3) -> regular s3 e) /\
  (forall v, nv s0 <= v < nv s -> k_inf_fast (vs s v) = false) /\ linked (active s) s.
Proof. apply runs_example. vm_compute. reflexivity. Qed.
Example C64_runs_case_outer : exists s0 s1 now tr s, init_skeleton quad_dt = Ok s0 /\ started (start_of false s0) s1 /\ reach s1 now tr s /\
  length tr = 1 /\ (forall now1 tr1 s2 e now2 s3, reach s1 now1 tr1 s2 -> length tr1 < length tr ->
     take_next now1 s2 = Ok ((e, now2), s3) -> regular s3 e) /\
  (forall v, nv s0 <= v < nv s -> k_inf_fast (vs s v) = false) /\ linked (active s) s.
Proof. apply runs_example. vm_compute. reflexivity. Qed.
