(** Where the vertices made during a run begin (exact real arithmetic) *)
From Coq Require Import Reals Lra.
From Verif Require Import Base Arith ArithR Calc CalcProofs VectorOps Line2d Line2dProofs Primitives Collapse
  EventsLib FlipEvent ParallelEvent EdgeEvent SplitEvent EventLoop Pass OpSpec StopSpec RunBase RunTimed RunLoop EdgeHead Bisect.
Local Open Scope R_scope.
Local Existing Instance RA.

(** a vertex begins in its start node, or (when it is of finite speed and its
    support lines are not nearly parallel) where these lines are at that time *)
Definition begun (s : state) (v : nat) : Prop :=
  k_inf (vs s v) = false ->
  exists n (t : R) p, k_start_node (vs s v) = Some n /\ (n < nn s)%nat /\ k_starts (vs s v) = Some t /\ position_at s v t = Ok p /\
    (p = sn_pos (ns s n) \/
     k_inf_fast (vs s v) = false /\ exists l r, k_ul (vs s v) = Some l /\ k_ur (vs s v) = Some r /\
       Rabs (det (wf_line (wfs s l)) (wf_line (wfs s r))) > / 10^10 /\ on_both (wf_line (wfs s l)) (wf_line (wfs s r)) t p).

Lemma begun_follows (s s' : state) v : follows s s' -> (v < nv s)%nat -> begun s v -> begun s' v.
Proof.
  intros F L B. pose proof (fo_motion _ _ F v L) as M. destruct M. unfold begun. rewrite sm_inf, sm_start_node, sm_starts, sm_ul, sm_ur, sm_fast.
  intros I. destruct (B I) as (n & t & p & B1 & B2 & B3 & B4 & B5). exists n, t, p. pose proof (fo_nn _ _ F) as Nn.
  split; [exact B1|]. split; [lia|]. split; [exact B3|]. rewrite (fo_ns _ _ F n B2), (fo_wfs _ _ F). split; [|exact B5].
  unfold position_at in *. rewrite sm_inf, sm_fast, sm_start_node, sm_origin, sm_velocity, I in *. rewrite B1 in *.
  rewrite (fo_ns _ _ F n B2). exact B4.
Qed.

(** the vertex that compute_new_kvertex makes *)
Lemma newv_begun (s : state) ul ur (now : R) n info int v s' : compute_new_kvertex ul ur now n info int s = Ok (v, s') ->
  units s -> (n < nn s)%nat -> v = nv s /\ begun s' v.
Proof.
  intros H U Hn. apply newv_spec in H. destruct H as (kv & H & -> & ->). split; [reflexivity|].
  pose proof (new_kvertex_fields _ _ _ _ _ _ _ _ H) as (I & S1 & _ & S3 & _ & S5 & S6 & _).
  intros _. unfold position_at. cbn [vs nn ns wfs]. rewrite upd_same.
  rewrite I, S3. destruct ul as [l|], ur as [r|]; try discriminate H.
  destruct (k_inf_fast kv) eqn:F.
  { exists n, now, (sn_pos (ns s n)). auto 10. }
  exists n, now. eexists. split; [reflexivity|]. split; [exact Hn|]. split; [exact S1|]. split; [reflexivity|].
  destruct (Rlt_dec (/ 10^10) (Rabs (det (wf_line (wfs s l)) (wf_line (wfs s r))))) as [D|D].
  - right. split; [reflexivity|]. exists l, r. split; [exact S5|]. split; [exact S6|]. split; [exact D|].
    eapply new_tracks; eauto.
  - left. eapply new_at_node; eauto. intros; lra.
Qed.

Definition begunI (_ : R) (s : state) : Prop := registered s /\ units s /\ forall v, (v < nv s)%nat -> begun s v.

Section Run.
  Context {E : Env RA}.
  Lemma begunI_same (now : R) s s' : begunI now s -> registered s' -> follows s s' -> nv s' = nv s -> begunI now s'.
  Proof.
    intros (R & U & B) R' F N. split; [exact R'|]. split. { intros w. rewrite (fo_wfs _ _ F). apply U. }
    intros v Hv. rewrite N in Hv. eapply begun_follows; eauto.
  Qed.

  Theorem begun_sound : Sound begunI follows.
  Proof.
    constructor.
    - exact follows_refl.
    - exact follows_trans.
    - intros s s' n F H. destruct (fo_nodes _ _ F) as [l ->]. apply in_or_app. auto.
    - intros s s' F. apply F.
    - intros now s V step pos I n s' H. destruct (s_stop base_sound now s V step pos (proj1 I) n s' H) as (R & F & Hn).
      split; [|auto]. apply (begunI_same now s); auto. apply stop_and_register_spec in H. destruct H as (new & s1 & H & ->).
      apply stop_kvertices_spec in H. destruct H as (_ & _ & H). destruct new.
      + destruct H as (_ & p & f & -> & _). reflexivity.
      + destruct H as (f & -> & _). reflexivity.
    - intros now s v n I Hn u s' H. destruct (s_stop_at base_sound now s v n (proj1 I) Hn u s' H) as (R & F).
      split; [|auto]. apply (begunI_same now s); auto. apply stop_at_eff in H. destruct H as (f & -> & _). reflexivity.
    - intros now s ul ur n info int (R0 & U & B) Hn v s' H.
      destruct (s_newv base_sound now s ul ur n info int R0 Hn v s' H) as (R & F & L).
      split; [|auto]. destruct (newv_begun _ _ _ _ _ _ _ _ _ H U (rg_nodes _ R0 n Hn)) as [Ev Bv].
      split; [exact R|]. split. { intros w. rewrite (fo_wfs _ _ F). apply U. }
      intros w Hw. destruct (Nat.lt_ge_cases w (nv s)) as [L'|L']; [eapply begun_follows; eauto|].
      apply newv_spec in H. destruct H as (kv & _ & _ & Es'). assert (w = v) by (subst s' v; cbn in Hw; lia). subst w. exact Bv.
    - intros now s v l r I u s' H. destruct (s_wf base_sound now s v l r (proj1 I) u s' H) as (R & F).
      split; [|auto]. apply (begunI_same now s); auto. apply wf_eff in H. destruct H as (f & -> & _). reflexivity.
    - intros now s v I Hv u s' H. destruct (s_addv base_sound now s v (proj1 I) Hv u s' H) as (R & F).
      split; [|auto]. apply (begunI_same now s); auto. injection H as _ <-. reflexivity.
    - intros now s l r I u s' H. destruct (s_circ base_sound now s l r (proj1 I) u s' H) as (R & F).
      split; [|auto]. apply (begunI_same now s); auto. apply circ_spec in H. destruct H as (f & -> & _). reflexivity.
    - intros now s t f I Hf u s' H. destruct (s_mesh base_sound now s t f (proj1 I) Hf u s' H) as (R & F).
      split; [|auto]. apply (begunI_same now s); auto. apply modt_spec in H. subst s'. reflexivity.
    - intros now s t I u s' H. destruct (s_tstops base_sound now s t (proj1 I) u s' H) as (R & F).
      split; [|auto]. apply (begunI_same now s); auto. apply modt_spec in H. subst s'. reflexivity.
    - intros now s e I u s' H. destruct (s_forget base_sound now s e (proj1 I) u s' H) as (R & F).
      split; [|auto]. apply (begunI_same now s); auto. apply forget_spec in H. subst s'. reflexivity.
    - intros now s t I u s' H. destruct (s_riq base_sound now s t (proj1 I) u s' H) as (R & F).
      split; [|auto]. apply (begunI_same now s); auto. apply riq_spec in H. 
      destruct H as [[_ ->]|(e & _ & ->)]; destruct (t_event (ts s t)); reflexivity.
    - intros now s t I u s' H. destruct (s_sched base_sound now s t (proj1 I) u s' H) as (R & F).
      split; [|auto]. apply (begunI_same now s); auto. apply sched_spec in H.
      destruct H as (e & _ & _ & _ & H1 & H2 & _). congruence.
  Qed.

  Theorem run_begun now0 tr0 s0 now tr s : registered s0 -> units s0 -> (forall v, (v < nv s0)%nat -> begun s0 v) ->
    steps now0 tr0 s0 now tr s -> forall v, (v < nv s)%nat -> begun s v.
  Proof.
    intros R0 U0 B0 H. cut (begunI now s); [intros K; apply K|].
    induction H as [|now tr s e now' s1 s' R IH T H]; [split; [|split]; assumption|].
    assert (C : begunI now' s1).
    { apply (begunI_same now' s); auto; apply take_next_ok in T; destruct T as [(r & _ & _ & ->)|(r & _ & _ & _ & ->)]; 
        try apply follows_qi; try reflexivity; destruct IH as ([] & _); constructor; auto. }
    exact (proj1 (keeps_handle_event begun_sound e (Z.of_nat (S (length tr))) s1 C tt s' H)).
  Qed.
End Run.
