(** The events that wait are those which the present state shows (C69), so that the clock never passes the collapse of a
    triangle (C70, exact reals) *)
From Coq Require Import Reals Lra.
From Verif Require Import Base Arith ArithR ArithQ Calc CalcProofs VectorOps Line2d Line2dProofs Primitives Collapse CollapseProofs CollapseR
  EventsLib FlipEvent ParallelEvent EdgeEvent SplitEvent EventLoop Pass OpSpec Order StopSpec RunBase RunTimed RunLoop
  Decent Total FanProofs TotalRun Mesh MeshEvents MeshEdge MeshRun Scenario ScenarioRun Properties_total Properties_mesh
  EventGeom EventFirst Properties_effects Properties_geometry Current.
Local Close Scope Q_scope.
Local Open Scope nat_scope.

(** ** Specification *)
Section Spec.
  Context {A : Arith} {E : Env A}.

  (** no event of triangle [t] is still to be handled *)
  Definition unplanned (s : state) (t : nat) : Prop := forall e, waits s e -> ev_tri (es s e) <> t.
  (** some event of triangle [t] waits, and it is what the state [s] itself yields for [t] at a moment from the start
      up to [now], by compute_collapse_time if it is in the queue and by compute_new_edge_collapse_event (with all sides for a
      triangle with three wavefronts) if it is to be handled immediately; or none waits and the state yields none; or [t] has stopped *)
  Definition up_to_date (now : num) (s : state) (t : nat) : Prop :=
    t_stops (ts s t) <> None \/
    (exists e w, ev_tri (es s e) = t /\ nleb n0 w = true /\ nleb w now = true /\ computed s t w e) \/
    (unplanned s t /\ exists w sv, nleb n0 w = true /\ nleb w now = true /\ collapse_event s t w sv = Ok None).

  (** the triangle across the one collapsing side of an edge event has stopped or has an event *)
  Definition watched (s : state) (e : nat) : Prop :=
    ev_tp (es s e) = Edge -> forall i n, ev_side (es s e) = [i] -> link s (ev_tri (es s e)) i = Some n ->
    t_stops (ts s n) <> None \/ t_event (ts s n) <> None.

  (** the first [k] events of the run from [s0] *)
  Definition orderly (s0 : state) (k : nat) : Prop := forall now1 tr1 s1 e now2 s2,
    reach s0 now1 tr1 s1 -> length tr1 < k -> take_next now1 s1 = Ok ((e, now2), s2) -> regular s2 e /\ watched s2 e.

  (** from [settled] to [up_to_date] *)
  Lemma settled_current (O : OrdArith A) (Z : nat -> Prop) now s t : pending now s -> nleb n0 now = true -> ~ Z t ->
    settled Z now s t -> up_to_date now s t.
  Proof.
    intros P N NZ [H|[[H [K|(w & sv & [K1 K2] & K3)]]|(e & w & H & [K1 K2] & K3)]].
    - left. destruct (t_stops (ts s t)); [discriminate|discriminate H].
    - destruct (NZ K).
    - right. right. split; [|exists w, sv; auto]. intros e W Q. apply (pe_cur _ _ P) in W. congruence.
    - right. destruct (pe_ev _ _ P _ _ H) as [_ Q]. destruct K3 as [K3|[K3 [sv K4]]].
      + left. exists e, w. auto.
      + right. split; [|exists w, sv; auto]. intros e1 W Q1. pose proof (pe_cur _ _ P _ W) as C. congruence.
  Qed.
  Lemma current_settled (Z : nat -> Prop) now s t : pending now s ->
    up_to_date now s t -> settled Z now s t.
  Proof.
    intros P [H|[(e & w & <- & K1 & K2 & K3)|(U & w & sv & K1 & K2 & K3)]].
    - left. destruct (t_stops (ts s t)); [reflexivity|congruence].
    - right. right. exists e, w. split; [apply (pe_cur _ _ P), (computed_waits _ _ _ _ K3)|]. split; [split; auto|]. left. auto.
    - right. destruct (t_event (ts s t)) as [e|] eqn:Ev.
      + right. exists e, w. split; [first [exact Ev|reflexivity]|]. split; [split; auto|]. right. split; [|exists sv; exact K3].
        intros W. destruct (pe_ev _ _ P _ _ Ev) as [_ Q]. exact (U e W Q).
      + left. split; [first [exact Ev|reflexivity]|]. right. exists w, sv. split; [split; auto|exact K3].
  Qed.
End Spec.

(** ** C69 *)
(** when the loop starts *)
Theorem C69_start :
  forall (A : Arith) (E : Env A), OrdArith A -> (forall t u : nat, addr t = addr u -> t = u) ->
  forall s s0, fresh s -> shaped s -> started s s0 -> forall t, In t (sk_triangles s) -> up_to_date n0 s0 t.
Proof.
  intros A E O addr_inj s s0 F SH ST t Ht.
  destruct (start_settles O addr_inj (fun t => ~ In t (sk_triangles s)) s s0 (fun _ H => H) F SH ST) as (G & _ & B).
  eapply settled_current; [exact O|apply (proj1 G)|apply (nleb_refl O)| |apply (B t)]. tauto.
Qed.
Print Assumptions C69_start.

(** one event, in any state in which the other triangles are up to date *)
Theorem C69_event :
  forall (A : Arith) (E : Env A), OrdArith A -> (forall t u : nat, addr t = addr u -> t = u) ->
  forall s e step s', let now := ev_time (es s e) in let t := ev_tri (es s e) in
  nleb n0 now = true -> timed now s -> shaped s -> linked (active s) s -> regular s e -> watched s e ->
  (forall u, ~ In u (sk_triangles s) -> t_event (ts s u) = None) ->
  (forall u, In u (sk_triangles s) -> u <> t -> up_to_date now s u) ->
  handle_event e step s = Ok (tt, s') -> (forall v, nv s <= v < nv s' -> k_inf_fast (vs s' v) = false) ->
  forall u, In u (sk_triangles s) -> up_to_date now s' u.
Proof.
  intros A E O addr_inj s e step s' now t N T SH L RG W OUT B H NF u Hu.
  pose proof (keeps_handle_event (timed_sound O addr_inj) e step s T tt s' H) as [T' _].
  set (Z := fun t => ~ In t (sk_triangles s)).
  eapply (settled_current O Z); [apply T'|exact N|unfold Z; tauto|].
  eapply (event_settles O addr_inj Z s e step s'); [split; [exact T|intros x i; apply (sh_v _ SH)]| | | |exact H|exact NF].
  - intros x Nx. unfold only in Nx. destruct (in_dec Nat.eq_dec x (sk_triangles s)) as [I|I].
    + apply current_settled; [apply T|]. apply B; [exact I|exact Nx].
    + right. left. split; [apply OUT, I|left; exact I].
  - intros _. destruct RG. split; [exact L|]. split; [assumption|]. split; assumption.
  - intros Q i n Hi Hn. destruct (W Q i n Hi Hn) as [S|S]; [left|right; left].
    + destruct (t_stops (ts s n)); [reflexivity|congruence].
    + destruct (t_event (ts s n)); [reflexivity|congruence].
Qed.
Print Assumptions C69_event.

(** a whole run *)
Theorem C69_run :
  forall (A : Arith) (E : Env A), OrdArith A -> (forall t u : nat, addr t = addr u -> t = u) ->
  forall s s0 now tr s', fresh s -> shaped s -> started s s0 -> linked (active s0) s0 -> reach s0 now tr s' ->
  orderly s0 (length tr) -> (forall v, nv s0 <= v < nv s' -> k_inf_fast (vs s' v) = false) ->
  forall t, In t (sk_triangles s) -> up_to_date now s' t.
Proof.
  intros A E O addr_inj s s0 now tr s' F SH ST L R OR NF t Ht.
  set (Z := fun t => ~ In t (sk_triangles s)).
  destruct (start_settles O addr_inj Z s s0 (fun _ H => H) F SH ST) as (G & SH0 & B).
  destruct (run_settles O addr_inj Z s0 now tr s' G B SH0 L R) as (G' & N & B'); [|exact NF|].
  - intros now1 tr1 s1 e now2 s2 Q1 Q2 Q3. destruct (OR _ _ _ _ _ _ Q1 Q2 Q3) as [RG W]. split; [exact RG|].
    intros Q i n Hi Hn. destruct (W Q i n Hi Hn) as [S|S]; [left|right; left].
    + destruct (t_stops (ts s2 n)); [reflexivity|congruence].
    + destruct (t_event (ts s2 n)); [reflexivity|congruence].
  - eapply settled_current; [exact O|apply G'|exact N| |apply (B' t)]. unfold Z. tauto.
Qed.
Print Assumptions C69_run.

(** *** Cases *)
Definition watchedb {A : Arith} {E : Env A} (s : state) (e : nat) : bool :=
  match ev_tp (es s e), ev_side (es s e) with
  | Edge, [i] => match link s (ev_tri (es s e)) i with
                 | Some n => is_some (t_stops (ts s n)) || is_some (t_event (ts s n)) | None => true end
  | _, _ => true
  end.
Lemma watchedb_ok {A : Arith} {E : Env A} s e : watchedb s e = true -> watched s e.
Proof.
  unfold watchedb, watched. intros H Q0 i n Hi Hn. rewrite Q0, Hi, Hn in H. apply Bool.orb_true_iff in H.
  destruct H as [H|H]; [left|right]; intros Q; rewrite Q in H; discriminate.
Qed.
Definition watched_at (s0 : state (A := QA)) (j : nat) : bool :=
  match go j 0%Q [] s0 with
  | Ok (now, _, s1) => match take_next now s1 with Ok ((e, _), s2) => watchedb s2 e | Err _ => true end
  | Err _ => true
  end.
Lemma orderly_run s0 k : forallb (regular_at s0) (seq 0 k) = true -> forallb (watched_at s0) (seq 0 k) = true -> orderly s0 k.
Proof.
  intros H1 H2 now1 tr1 s1 e now2 s2 R L T. split; [eapply (regular_run s0 k); eauto|].
  rewrite forallb_forall in H2. specialize (H2 (length tr1)). rewrite in_seq in H2. specialize (H2 ltac:(lia)). unfold watched_at in H2.
  rewrite (reach_go _ _ _ _ R), T in H2. apply watchedb_ok, H2.
Qed.
(** the hypotheses of [C69_run] hold for the first [k] events, triangle [t] is one of the skeleton's and [P] holds at the end *)
Lemma current_example k t s P : fresh s -> shaped s ->
  holds_k k s (fun now _ s' => match init_event_list s with
     | Ok (_, s1) => let s0 := with_qi s1 (queue s1) [] in mesh_run k s0 s' && forallb (watched_at s0) (seq 0 k)
     | Err _ => false end && mem Nat.eqb t (sk_triangles s) && P now s') = true ->
  exists s0 now tr s', started s s0 /\ reach s0 now tr s' /\ length tr = k /\ up_to_date now s' t /\ P now s' = true.
Proof.
  intros F SH H. apply example_k in H. destruct H as (s0 & now & tr & s' & S & R & L & H).
  exists s0, now, tr, s'. split; [exact S|]. split; [exact R|]. split; [exact L|].
  pose proof S as (s1 & I & ->). rewrite I in H. unfold mesh_run in H. cbv zeta in H.
  rewrite !Bool.andb_true_iff in H. destruct H as [[[[[H1 H2] H3] H4] H5] H6].
  split; [|exact H6]. apply (C69_run QA QE QA_ord QE_addr s _ now tr s' F SH S (linkedb_ok _ H1) R).
  - rewrite L. apply orderly_run; assumption.
  - intros v Hv. unfold slowb in H3. rewrite forallb_forall in H3. specialize (H3 v). rewrite in_seq in H3.
    specialize (H3 ltac:(lia)). destruct (k_inf_fast (vs s' v)); [discriminate|reflexivity].
  - apply mem_nat, H5.
Qed.
(** triangle [t] has not stopped, and an event of it waits *)
Definition planned (s : state (A := QA)) (t : nat) : bool :=
  is_none (t_stops (ts s t)) && existsb (fun e => ev_tri (es s e) =? t) (queue s ++ immediate s).
(** after a flip, with the two triangles that took part in it *)
Lemma cross_fresh : fresh cross.
Proof. apply st_fresh; fresh_list. Qed.
Lemma cross_shaped : shaped cross.
Proof. apply st_shaped; [discriminate| |]; shape_list. Qed.
Example C69_case_flip : forall t, In t [0; 1] -> exists s0 now tr s', started cross s0 /\ reach s0 now tr s' /\ length tr = 1 /\
  up_to_date now s' t /\ is_none (t_stops (ts s' t)) = true.
Proof.
  intros t [<-|[<-|[]]].
  - apply (current_example 1 0 cross (fun _ s => is_none (t_stops (ts s 0))) cross_fresh cross_shaped). vm_compute. reflexivity.
  - apply (current_example 1 1 cross (fun _ s => is_none (t_stops (ts s 1))) cross_fresh cross_shaped). vm_compute. reflexivity.
Qed.
(** after a split event and an edge event, and after an edge event, another triangle's event waits *)
Example C69_case_split : exists s0 now tr s', started notch s0 /\ reach s0 now tr s' /\ length tr = 2 /\
  up_to_date now s' 2 /\ planned s' 2 = true.
Proof. apply (current_example 2 2 notch (fun _ s => planned s 2) notch_fresh notch_shaped). vm_compute. reflexivity. Qed.
Example C69_case_edge : exists s0 now tr s', started quad s0 /\ reach s0 now tr s' /\ length tr = 1 /\
  up_to_date now s' 0 /\ planned s' 0 = true.
Proof. apply (current_example 1 0 quad (fun _ s => planned s 0) quad_fresh quad_shaped). vm_compute. reflexivity. Qed.
Example C69_case_all : forall t, In t [0; 1; 2] -> exists s0 now tr s', started notch s0 /\ reach s0 now tr s' /\ length tr = 1 /\
  up_to_date now s' t /\ (t = 0 \/ planned s' t = true).
Proof.
  intros t [<-|[<-|[<-|[]]]].
  - destruct (current_example 1 0 notch (fun _ _ => true) notch_fresh notch_shaped) as (s0 & now & tr & s' & H); [vm_compute; reflexivity|].
    exists s0, now, tr, s'. tauto.
  - destruct (current_example 1 1 notch (fun _ s => planned s 1) notch_fresh notch_shaped) as (s0 & now & tr & s' & H); [vm_compute; reflexivity|].
    exists s0, now, tr, s'. tauto.
  - destruct (current_example 1 2 notch (fun _ s => planned s 2) notch_fresh notch_shaped) as (s0 & now & tr & s' & H); [vm_compute; reflexivity|].
    exists s0, now, tr, s'. tauto.
Qed.

(** ** C70 *)
(** [the_run s now s']: from [s] the loop has come to [s'] at time [now], through events as in [C69_run] *)
Definition the_run {A : Arith} {E : Env A} (s : state) (now : num) (s' : state) : Prop :=
  fresh s /\ shaped s /\ exists s0 tr, started s s0 /\ linked (active s0) s0 /\ reach s0 now tr s' /\
  orderly s0 (length tr) /\ (forall v, nv s0 <= v < nv s' -> k_inf_fast (vs s' v) = false).

(** the next event that the loop takes comes at [b] at the latest *)
Definition next_by {A : Arith} {E : Env A} (now : num) (s : state) (b : num) : Prop :=
  exists e now' s1, take_next now s = Ok ((e, now'), s1) /\ nleb now' b = true.

Lemma next_waits {A : Arith} {E : Env A} (O : OrdArith A) now s e b : pending now s -> waits s e ->
  nleb (ev_time (es s e)) b = true -> nleb now b = true -> next_by now s b.
Proof.
  intros P W L N. unfold next_by, take_next, bind, gets. destruct (immediate s) as [|x r] eqn:I.
  - assert (Q : In e (queue s)) by (unfold waits in W; rewrite I, app_nil_r in W; exact W).
    pose proof (pe_sorted _ _ P) as S. destruct (queue s) as [|y q] eqn:QE; [destruct Q|].
    cbn. eexists _, _, _. split; [reflexivity|]. inversion S as [|? ? _ F]; subst.
    destruct Q as [->|Q]; [exact L|]. rewrite Forall_forall in F. specialize (F e Q).
    eapply (oa_trans A O); [apply (cmp_lt_time O), F|exact L].
  - cbn. eexists _, _, _. split; [reflexivity|exact N].
Qed.

Lemma run_pending {A : Arith} {E : Env A} (O : OrdArith A) (addr_inj : forall t u : nat, addr t = addr u -> t = u) s now s' :
  the_run s now s' -> timed now s' /\ nleb n0 now = true.
Proof.
  intros (F & SH & s0 & tr & ST & L & R & OR & NF).
  set (Z := fun t => ~ In t (sk_triangles s)).
  destruct (start_settles O addr_inj Z s s0 (fun _ H => H) F SH ST) as (G & SH0 & B).
  destruct (run_settles O addr_inj Z s0 now tr s' G B SH0 L R) as (G' & N & _); [|exact NF|split; [apply G'|exact N]].
  intros now1 tr1 s1 e now2 s2 Q1 Q2 Q3. destruct (OR _ _ _ _ _ _ Q1 Q2 Q3) as [RG W]. split; [exact RG|].
  intros Q i n Hi Hn. destruct (W Q i n Hi Hn) as [S|S]; [left|right; left].
  - destruct (t_stops (ts s2 n)); [reflexivity|congruence].
  - destruct (t_event (ts s2 n)); [reflexivity|congruence].
Qed.

(** an event that is found from every earlier moment is not passed *)
Lemma never_passes {A : Arith} {E : Env A} (O : OrdArith A) (addr_inj : forall t u : nat, addr t = addr u -> t = u) s now s' t b :
  the_run s now s' -> In t (sk_triangles s) -> t_stops (ts s' t) = None -> nleb now b = true ->
  (forall w sv r, nleb n0 w = true -> nleb w now = true -> collapse_event s' t w sv = Ok r ->
     exists e, r = Some e /\ nleb (ev_time e) b = true) ->
  next_by now s' b.
Proof.
  intros R Ht NS N H. destruct (run_pending O addr_inj _ _ _ R) as [(_ & _ & P) N0].
  assert (U : up_to_date now s' t).
  { destruct R as (F & SH & s0 & tr & ST & L & R & OR & NF). eapply (C69_run A E O addr_inj s s0); eauto. }
  destruct U as [U|[(e & w & _ & K1 & K2 & KC)|(_ & w & sv & K1 & K2 & K)]].
  - congruence.
  - pose proof (computed_waits _ _ _ _ KC) as W. destruct KC as [(_ & sv & K)|(_ & ev & K & K3)].
    + destruct (H w sv _ K1 K2 K) as (e1 & Q & L). injection Q as <-. eapply next_waits; eauto.
    + apply (next_waits O now s' e b P W); [|exact N]. rewrite K3. unfold new_edge_collapse_event in K.
      destruct (dists _ _ _ _ _); [|discriminate]. cbn [rbind] in K. injection K as <-.
      unfold OpSpec.sched_event. destruct (Nat.eqb _ _); (eapply (oa_trans A O); [exact K2|exact N]).
  - destruct (H w sv _ K1 K2 K) as (e1 & Q & _). discriminate.
Qed.

Lemma le_R (a b : R) : nleb (Arith:=RA) a b = true <-> (a <= b)%R.
Proof. apply Rleb_true. Qed.
Lemma zero_R : n0 (A:=RA) = 0%R.
Proof. exact RMicromega.Q2R_0. Qed.
(** Whatever has happened so far: if a triangle that is still there is going to have no area at a time [x], the loop
    takes its next event no later than that (up to the tolerances of collapse.py). *)
Theorem C70_no_front :
  forall (E : Env RA), (forall t u : nat, addr (A:=RA) t = addr (A:=RA) u -> t = u) ->
  forall (s : state (A:=RA)) (now : R) s' t (x : R), the_run s now s' -> In t (sk_triangles s) ->
  ordinary s' t -> tri_type (ts s' t) = 0 -> t_stops (ts s' t) = None -> clear_area s' t ->
  (x > now + 2 / 10^5 -> area s' t x = 0 -> next_by now s' (x + 2 / 10^5)%R)%R.
Proof.
  intros E addr_inj s now s' t x RUN TRI ORD TY NS CA X FLAT.
  apply (never_passes RA_ord addr_inj s now s' t); auto; [apply le_R; lra|].
  intros w sv r W1 W2 H. apply le_R in W1, W2.
  destruct (C68_no_front s' t w sv r x ORD CA TY NS H) as (e & -> & L); [lra|exact FLAT|].
  exists e. split; [reflexivity|]. apply le_R, L.
Qed.
Print Assumptions C70_no_front.

Theorem C70_one_front :
  forall (E : Env RA), (forall t u : nat, addr (A:=RA) t = addr (A:=RA) u -> t = u) ->
  forall (s : state (A:=RA)) (now : R) s' t w l (x : R), the_run s now s' -> In t (sk_triangles s) ->
  ordinary s' t -> on_front s' t w l -> tri_type (ts s' t) = 1 -> get3 (t_n (ts s' t)) w = None ->
  t_stops (ts s' t) = None -> clear_front s' t w l -> opens s' t ->
  (x > now + / 10^10 -> area s' t x = 0 -> next_by now s' x)%R.
Proof.
  intros E addr_inj s now s' t w l x RUN TRI ORD F TY NB NS CF OP X FLAT.
  apply (never_passes RA_ord addr_inj s now s' t); auto; [apply le_R; lra|].
  intros v sv r W1 W2 H. apply le_R in W1, W2. rewrite zero_R in W1.
  destruct (C68_one_front s' t w l v sv ORD F TY NB NS) as (r' & H' & K). rewrite H' in H. injection H as <-.
  destruct (K x CF OP W1) as (e & -> & L); [lra|exact FLAT|].
  exists e. split; [reflexivity|]. apply le_R, L.
Qed.
Print Assumptions C70_one_front.

Theorem C70_two_fronts :
  forall (E : Env RA), (forall t u : nat, addr (A:=RA) t = addr (A:=RA) u -> t = u) ->
  forall (s : state (A:=RA)) (now : R) s' t i j li lj (x : R), the_run s now s' -> In t (sk_triangles s) ->
  ordinary s' t -> i <> j -> on_front s' t i li -> on_front s' t j lj ->
  tri_type (ts s' t) = 2 -> get3 (t_n (ts s' t)) i = None -> get3 (t_n (ts s' t)) j = None ->
  t_stops (ts s' t) = None -> clear_two s' t i j -> opens s' t ->
  (x > now + 2 / 10^5 -> area s' t x = 0 -> next_by now s' (x + 2 / 10^5)%R)%R.
Proof.
  intros E addr_inj s now s' t i j li lj x RUN TRI ORD IJ Fi Fj TY Ni Nj NS CT OP X FLAT.
  apply (never_passes RA_ord addr_inj s now s' t); auto; [apply le_R; lra|].
  intros w sv r W1 W2 H. apply le_R in W1, W2. rewrite zero_R in W1.
  destruct (C68_two_fronts s' t i j li lj w sv r x ORD IJ Fi Fj TY Ni Nj NS CT OP W1 H) as (e & -> & L); [lra|exact FLAT|].
  exists e. split; [reflexivity|]. apply le_R, L.
Qed.
Print Assumptions C70_two_fronts.

Theorem C70_three_fronts :
  forall (E : Env RA), (forall t u : nat, addr (A:=RA) t = addr (A:=RA) u -> t = u) ->
  forall (s : state (A:=RA)) (now : R) s' t l (x : R), the_run s now s' -> In t (sk_triangles s) ->
  ordinary s' t -> (forall w, on_front s' t w (l w)) -> (forall i j, i <> j -> lw (l i) <> lw (l j)) ->
  (forall w, (spread s' t w > / 10^10)%R) -> tri_type (ts s' t) = 3 -> t_stops (ts s' t) = None -> opens s' t ->
  (x > now + / 10^10 -> area s' t x = 0 -> next_by now s' x)%R.
Proof.
  intros E addr_inj s now s' t l x RUN TRI ORD F ND SP TY NS OP X FLAT.
  apply (never_passes RA_ord addr_inj s now s' t); auto; [apply le_R; lra|].
  intros w sv r W1 W2 H. apply le_R in W1, W2. rewrite zero_R in W1.
  destruct (C68_three_fronts s' t l w sv r x ORD F ND SP TY NS OP W1 H) as (e & -> & L); [lra|exact FLAT|].
  exists e. split; [reflexivity|]. apply le_R, L.
Qed.
Print Assumptions C70_three_fronts.

(** *** A case: the right triangle (0,0) (4,0) (0,3), whose sides meet in (1,1) at time 1 *)
Definition right_triangle : state (A:=RA) :=
  let s := ex_three in
  mkSt (A:=RA) (vs s) 3 (ts s) 1 (ns s) 0 (es s) 0 (wfs s) [] [] [0] [] [].
Lemma right_fresh : fresh right_triangle.
Proof.
  constructor; try reflexivity.
  - repeat constructor; auto.
  - intros [|[|v]]; reflexivity.
  - intros [|[|v]]; reflexivity.
  - intros [|[|v]] a H; cbn in H; injection H as <-; apply le_R; rewrite zero_R; lra.
  - constructor; cbn; try tauto; intros [|[|v]] n H; discriminate.
Qed.
Lemma right_shaped : shaped right_triangle.
Proof. constructor; [intros t []; cbn; lia|intros t [] n H; discriminate]. Qed.
Lemma right_event : collapse_event right_triangle 0 (n0 (A:=RA)) FindGt = Ok (Some (mkEv (A:=RA) 1%R 0 [S0; S1; S2] Edge 3)).
Proof.
  destruct C67_case_three as (C1 & C2 & C3 & C4 & C5 & C6 & C7 & C8).
  destruct (C67_three_fronts right_triangle 0 three_lines C1 C2 C3 C4 C5 C6) as (T & q & M & H).
  assert (T = 1)%R as ->.
  { pose proof (M S0) as M0. rewrite <- (M S1) in M0. unfold right_triangle in M0. unfold ex_three in M0. in_R.
    cbn in M0. injection M0 as Q1. ra_simp. lra. }
  destruct (H (n0 (A:=RA)) FindGt) as [K _]; [rewrite zero_R; lra|]. apply K; [unfold adm; rewrite zero_R; lra|lra].
Qed.
Definition right_started : state (A:=RA) :=
  with_qi (with_event right_triangle 0 (mkEv (A:=RA) 1%R 0 [S0; S1; S2] Edge 3)) [0] [].
Lemma right_starts (E : Env RA) : started right_triangle right_started.
Proof.
  exists right_started. split; [|reflexivity]. unfold init_event_list, compute_collapse_time, rd, bind, gets.
  cbn [setq sk_triangles right_triangle forM]. unfold bind.
  match goal with |- context [collapse_event ?a 0 ?w FindGt] =>
    change (collapse_event a 0 w FindGt) with (collapse_event right_triangle 0 (n0 (A:=RA)) FindGt) end.
  rewrite right_event. reflexivity.
Qed.
Example C70_case : forall (E : Env RA), (forall t u : nat, addr (A:=RA) t = addr (A:=RA) u -> t = u) ->
  the_run right_triangle 0%R right_started /\ area right_started 0 1%R = 0%R /\ next_by 0%R right_started 1%R.
Proof.
  intros E addr_inj.
  assert (R : the_run right_triangle 0%R right_started).
  { split; [exact right_fresh|]. split; [exact right_shaped|]. exists right_started, [].
    split; [apply right_starts|]. split; [intros t [] n _ H; destruct t; discriminate H|].
    rewrite <- zero_R. split; [constructor|]. split; [intros ? ? ? ? ? ? _ H; inversion H|intros v H; lia]. }
  assert (Ar : area right_started 0 1%R = 0%R) by (change (area ex_three 0 1%R = 0%R); unfold ex_three; in_R; lra).
  split; [exact R|]. split; [exact Ar|].
  destruct C67_case_three as (C1 & C2 & C3 & C4 & C5 & C6 & C7 & C8).
  apply (C70_three_fronts E addr_inj right_triangle 0%R right_started 0 three_lines 1%R R); auto; [left; reflexivity|lra].
Qed.
