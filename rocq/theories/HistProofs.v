(** The neighbour history of a kinetic vertex (primitives.py 167-213) *)
From Verif Require Import Base Arith Primitives.

Section Hist.
  Context {A : Arith}.

  (** the history left by a sequence of assignments [(ref, time)] *)
  Definition hist_of (l : list (option nat * num)) : list hitem :=
    fold_left (fun h a => hist_set h (fst a) (snd a)) l [].

  (** its form: each item ends when the next begins *)
  Fixpoint chain (l : list (option nat * num)) : list hitem :=
    match l with
    | [] => []
    | a :: r => (snd a, match r with [] => None | b :: _ => Some (snd b) end, fst a) :: chain r
    end.

  Lemma hist_set_app x y r t : hist_set (x ++ [y]) r t = x ++ [(fst (fst y), Some t, snd y); (t, None, r)].
  Proof.
    unfold hist_set, hist_close. rewrite rev_app_distr. destruct y as [[a b] q]. cbn.
    rewrite rev_involutive, <- app_assoc. reflexivity.
  Qed.

  Lemma chain_app : forall l a, chain (l ++ [a]) = hist_set (chain l) (fst a) (snd a).
  Proof.
    intros l a. destruct l as [|b l] using rev_ind; [reflexivity|]. clear IHl.
    assert (F : forall l b r, exists x, (forall z, chain ((l ++ [b]) ++ z :: r) = x ++ chain (b :: z :: r)) /\ chain (l ++ [b]) = x ++ chain [b]).
    { clear. induction l as [|c l IH]; intros b r; [exists []; auto|].
      destruct (IH b r) as (x & H1 & H2). 
      exists ((snd c, match l ++ [b] with [] => None | d :: _ => Some (snd d) end, fst c) :: x).
      split.
      - intros z. cbn [app chain]. rewrite H1. destruct l; reflexivity.
      - cbn [app chain]. rewrite H2. reflexivity. }
    destruct (F l b []) as (x & H1 & H2). rewrite H1, H2. cbn [chain].
    rewrite hist_set_app. reflexivity.
  Qed.

  Lemma hist_of_chain l : hist_of l = chain l.
  Proof.
    induction l as [|a l IH] using rev_ind; [reflexivity|].
    unfold hist_of in *. rewrite fold_left_app. cbn. rewrite IH, chain_app. reflexivity.
  Qed.

  Lemma hist_last_set h r t : hist_last (hist_set h r t) = r.
  Proof. unfold hist_last, hist_set. rewrite rev_app_distr. reflexivity. Qed.

  (** the last item of a history has no end *)
  Definition open_ended (h : list hitem) : Prop :=
    h = [] \/ exists x a r, h = x ++ [(a, None, r)].
  Lemma open_set h r t : open_ended (hist_set h r t).
  Proof. right. unfold hist_set. eauto. Qed.


  Lemma hist_at_set (O : OrdArith A) h r now t :
    open_ended h -> nltb t now = true -> hist_at (hist_set h r now) t = hist_at h t.
  Proof.
    intros H T.
    assert (N : nleb now t = false).
    { rewrite (oa_ltb A O), negb_true_iff in T. exact T. }
    destruct H as [->|(x & a & q & ->)].
    - cbn. rewrite N. reflexivity.
    - rewrite hist_set_app. cbn [fst snd]. induction x as [|[[b c] p] x IH]; cbn.
      + rewrite N, T, andb_true_r. destruct (nleb a t); reflexivity.
      + rewrite IH. reflexivity.
  Qed.
End Hist.
