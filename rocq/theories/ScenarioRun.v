(** Concrete runs over exact rationals, used by the examples beside the theorems
    about runs.  No theorem depends on this file. *)
From Verif Require Import Base Arith ArithQ Calc VectorOps Line2d Primitives Collapse EventsLib
  EventLoop OpSpec RunBase RunTimed RunLoop Scenario.
Local Open Scope Q_scope.

(** an environment: addresses in allocation order, the orientation determinant *)
#[global] Instance QE : Env QA := {|
  addr := fun t => Z.of_nat t;
  orient2d := fun p q r => (fst p - fst r) * (snd q - snd r) - (snd p - snd r) * (fst q - fst r);
  reclimit := 100%nat |}.
Lemma QE_addr : forall t u : nat, @addr QA QE t = @addr QA QE u -> t = u.
Proof. intros t u. apply Nat2Z.inj. Qed.

(** a vertex with its neighbours in the wavefront *)
Definition lnk (kv : kvertex (A:=QA)) (l r : nat) : kvertex (A:=QA) :=
  kv_right (kv_left kv [(0, None, Some l)]) [(0, None, Some r)].

(** the right triangle (0,0) (4,0) (0,3): one three-sided collapse at time 1 *)
Definition rt2 : state (A:=QA) :=
  st [lnk (mv (0, 0) (1, 1) 0 2 0) 2 1; lnk (mv (4, 0) (-3, 1) 1 0 1) 0 2; lnk (mv (0, 3) (1, -2) 2 1 2) 1 0]
     [tr 0 1 2 None None None]
     [nd 0 0; nd 4 0; nd 0 3] []
     [wf (0, 1) 0; wf (-(3#5), -(4#5)) (12#5); wf (1, 0) 0] [] [].
(** the rectangle 4 x 2, two triangles: an edge event whose new vertex is
    infinitely fast, then a parallel event, all at time 1 *)
Definition rect : state (A:=QA) :=
  st [lnk (mv (0, 0) (1, 1) 0 3 0) 3 1; lnk (mv (4, 0) (-1, 1) 1 0 1) 0 2;
      lnk (mv (4, 2) (-1, -1) 2 1 2) 1 3; lnk (mv (0, 2) (1, -1) 3 2 3) 2 0]
     [tr 0 1 2 None (Some 1%nat) None; tr 0 2 3 None None (Some 0%nat)]
     [nd 0 0; nd 4 0; nd 4 2; nd 0 2] []
     [wf (0, 1) 0; wf (-1, 0) 4; wf (0, -1) 2; wf (1, 0) 0] [] [].

Definition run : M (A:=QA) Q := bind init_event_list (fun _ => event_loop).

(** what a run leaves: the clock, the node positions, life spans and nodes of
    the vertices, stop times of the triangles *)
Definition summary (s : state (A:=QA)) :=
  match run s with
  | Ok (now, s) => inl (now, map (fun n => sn_pos (ns s n)) (sk_nodes s),
      map (fun v => (k_starts (vs s v), k_stops (vs s v), (k_start_node (vs s v), k_stop_node (vs s v)), k_inf_fast (vs s v))) (sk_vertices s),
      map (fun t => t_stops (ts s t)) (sk_triangles s))
  | Err e => inr e
  end.

Lemma nth_all {X} (P : X -> Prop) l d i : List.Forall P l -> P d -> P (nth i l d).
Proof.
  intros H D. revert i. induction H; intros [|i]; simpl; auto.
Qed.

(** a state built from lists is fresh if its vertices and triangles are *)
Definition fresh_v (nodes : nat) (kv : kvertex (A:=QA)) : Prop :=
  k_stops kv = None /\ k_stop_node kv = None /\
  (forall a, k_starts kv = Some a -> Qle_bool a 0 = true) /\
  (forall n, k_start_node kv = Some n -> (n < nodes)%nat).
Lemma st_fresh vl tl nl wl :
  List.Forall (fresh_v (length nl)) vl -> List.Forall (fun t => t_event t = None) tl ->
  fresh (st vl tl nl [] wl [] []).
Proof.
  intros HV HT.
  assert (V : forall v, fresh_v (length nl) (nth v vl dflt_v)).
  { intros v. apply nth_all; [exact HV|]. repeat split; discriminate. }
  constructor.
  - apply seq_NoDup.
  - intros t. apply (nth_all (fun t => t_event t = None)); [exact HT|reflexivity].
  - intros v. apply (V v).
  - intros v. apply (V v).
  - intros v a H. apply (V v), H.
  - reflexivity.
  - constructor.
    + intros v n H. apply (V v) in H. apply in_seq. simpl. lia.
    + intros v n H. exfalso. destruct (V v) as (_ & K & _). simpl in H. congruence.
    + intros n H. apply in_seq in H. simpl in *. lia.
    + intros v H. apply in_seq in H. simpl in *. lia.
Qed.

Ltac fresh_one := split; [reflexivity|split; [reflexivity|split;
  [intros a H; injection H as <-; reflexivity|intros n H; injection H as <-; simpl; lia]]].
Ltac fresh_list := repeat (apply List.Forall_cons; [first [reflexivity|fresh_one]|]); apply List.Forall_nil.
Lemma rt2_fresh : fresh rt2.
Proof. apply st_fresh; fresh_list. Qed.
Lemma rect_fresh : fresh rect.
Proof. apply st_fresh; fresh_list. Qed.

Lemma is_ok_ex {X} (r : res X) : is_ok r = true -> exists x, r = Ok x.
Proof. destruct r; [eauto|discriminate]. Qed.

(** the quadrilateral (3/4,0) (12,0) (0,9) (0,1): an edge event at time 3/2 whose
    new vertex has finite speed, then a three-sided collapse at time 3 *)
Definition quad : state (A:=QA) :=
  st [lnk (mv ((3#4), 0) ((1#2), 1) 0 3 0) 3 1; lnk (mv (12, 0) (-3, 1) 1 0 1) 0 2;
      lnk (mv (0, 9) (1, -2) 2 1 2) 1 3; lnk (mv (0, 1) (1, (1#3)) 3 2 3) 2 0]
     [tr 0 1 2 None (Some 1%nat) None; tr 0 2 3 None None (Some 0%nat)]
     [nd (3#4) 0; nd 12 0; nd 0 9; nd 0 1] []
     [wf (0, 1) 0; wf (-(3#5), -(4#5)) (36#5); wf (1, 0) 0; wf ((4#5), (3#5)) (-(3#5))] [] [].
Lemma quad_fresh : fresh quad.
Proof. apply st_fresh; fresh_list. Qed.

(** the pentagon (0,0) (8,0) (8,6) (4,3) (0,6): the reflex vertex (4,3) splits
    the bottom side at time 4/3, then both halves collapse at time 2 *)
Definition notch : state (A:=QA) :=
  st [lnk (mv (0, 0) (1, 1) 0 4 0) 4 1; lnk (mv (8, 0) (-1, 1) 1 0 1) 0 2;
      lnk (mv (8, 6) (-1, -2) 2 1 2) 1 3; lnk (mv (4, 3) (0, -(5#4)) 3 2 3) 2 4;
      lnk (mv (0, 6) (1, -2) 4 3 4) 3 0]
     [tr 0 1 3 (Some 1%nat) (Some 2%nat) None; tr 1 2 3 None (Some 0%nat) None;
      tr 0 3 4 None None (Some 0%nat)]
     [nd 0 0; nd 8 0; nd 8 6; nd 4 3; nd 0 6] []
     [wf (0, 1) 0; wf (-1, 0) 8; wf ((3#5), -(4#5)) 0; wf (-(3#5), -(4#5)) (24#5); wf (1, 0) 0] [] [].
Lemma notch_fresh : fresh notch.
Proof. apply st_fresh; fresh_list. Qed.

(** the first [k] iterations of the loop, executably *)
Fixpoint go (k : nat) (now : Q) (tr : list (handled (A:=QA))) (s : state (A:=QA)) :
    res (Q * list (handled (A:=QA)) * state (A:=QA)) :=
  match k with
  | O => Ok (now, tr, s)
  | S k =>
      match take_next now s with
      | Ok ((e, now'), s1) =>
          match handle_event e (Z.of_nat (S (length tr))) s1 with
          | Ok (_, s') =>
              go k now' (tr ++ [mkH (match immediate s with [] => true | _ => false end) e (ev_time (es s e))]) s'
          | Err x => Err x
          end
      | Err x => Err x
      end
  end.
Definition run_k (k : nat) (s : state (A:=QA)) : res (Q * list (handled (A:=QA)) * state (A:=QA)) :=
  match init_event_list s with
  | Ok (_, s1) => go k 0 [] (with_qi s1 (queue s1) [])
  | Err x => Err x
  end.
Definition holds_k (k : nat) (s : state (A:=QA)) (P : Q -> list (handled (A:=QA)) -> state (A:=QA) -> bool) : bool :=
  match run_k k s with Ok (now, tr, s') => P now tr s' | Err _ => false end.

Lemma go_reach s0 : forall k now tr s now' tr' s', reach s0 now tr s -> go k now tr s = Ok (now', tr', s') ->
  reach s0 now' tr' s' /\ length tr' = (length tr + k)%nat.
Proof.
  induction k as [|k IH]; intros now tr s now' tr' s' R H; cbn [go] in H.
  - injection H as <- <- <-. split; [exact R|lia].
  - destruct (take_next now s) as [[[e n1] s1]|] eqn:T; [|discriminate].
    destruct (handle_event e _ s1) as [[[] s2]|] eqn:D; [|discriminate].
    eapply IH in H; [|eapply reach_step; eauto]. rewrite app_length in H. simpl in H. split; [apply H|lia].
Qed.

(** an example: the moment after [k] handled events *)
Lemma example_k k s P : holds_k k s P = true ->
  exists s0 now tr s', started s s0 /\ reach s0 now tr s' /\ length tr = k /\ P now tr s' = true.
Proof.
  unfold holds_k, run_k. destruct (init_event_list s) as [[[] s1]|] eqn:I; [|discriminate].
  destruct (go k 0 [] _) as [[[now tr] s']|] eqn:G; [|discriminate]. intros H.
  apply (go_reach (with_qi s1 (queue s1) [])) in G; [|constructor]. destruct G as [R L].
  exists (with_qi s1 (queue s1) []), now, tr, s'. split; [exists s1; auto|]. split; [exact R|]. split; [exact L|exact H].
Qed.

(** the square of side 2: a three-sided event at time 1, then an immediate event *)
Definition square : state (A:=QA) :=
  st [lnk (mv (0, 0) (1, 1) 0 3 0) 3 1; lnk (mv (2, 0) (-1, 1) 1 0 1) 0 2;
      lnk (mv (2, 2) (-1, -1) 2 1 2) 1 3; lnk (mv (0, 2) (1, -1) 3 2 3) 2 0]
     [tr 0 1 2 None (Some 1%nat) None; tr 0 2 3 None None (Some 0%nat)]
     [nd 0 0; nd 2 0; nd 2 2; nd 0 2] []
     [wf (0, 1) 0; wf (-1, 0) 2; wf (0, -1) 2; wf (1, 0) 0] [] [].
Lemma square_fresh : fresh square.
Proof. apply st_fresh; fresh_list. Qed.

(** the rectangle 4 x 2 with a vertex in the middle of its top side: two
    infinitely fast vertices at time 1 *)
Definition rectm : state (A:=QA) :=
  st [lnk (mv (0, 0) (1, 1) 0 4 0) 4 1; lnk (mv (4, 0) (-1, 1) 1 0 1) 0 2;
      lnk (mv (4, 2) (-1, -1) 2 1 2) 1 3; lnk (mv (2, 2) (0, -1) 3 2 3) 2 4;
      lnk (mv (0, 2) (1, -1) 4 3 4) 3 0]
     [tr 0 1 3 (Some 1%nat) (Some 2%nat) None; tr 1 2 3 None (Some 0%nat) None;
      tr 0 3 4 None None (Some 0%nat)]
     [nd 0 0; nd 4 0; nd 4 2; nd 2 2; nd 0 2] []
     [wf (0, 1) 0; wf (-1, 0) 4; wf (0, -1) 2; wf (0, -1) 2; wf (1, 0) 0] [] [].
Lemma rectm_fresh : fresh rectm.
Proof. apply st_fresh; fresh_list. Qed.
