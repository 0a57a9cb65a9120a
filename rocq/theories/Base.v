(** Python-level infrastructure: exceptions as values, the error monad, small
    list helpers that mirror Python built-ins. *)
From Coq Require Export List Bool ZArith QArith Lia.
From Coq Require Import Permutation Sorting.Sorted.
Export ListNotations.
#[global] Open Scope list_scope.
#[global] Open Scope nat_scope.

(** Python exceptions that the modelled code can raise.  [RecursionError] is
    the interpreter's recursion limit.  [OutOfFuel] and [DuplicateKey] are not
    Python exceptions: they mark the end of the fuel given to a loop and the
    addition of an element that an ordered sequence already contains; theorems
    C32 and C30 show that a run never raises them. *)
Inductive exn : Type :=
| AssertionError | ValueError | ZeroDivisionError | IndexError | StopIteration
| NotImplementedError | TypeError | AttributeError | KeyError | UnboundLocalError
| RecursionError | OutOfFuel | DuplicateKey.

Definition exn_eqb (a b : exn) : bool :=
  match a, b with
  | AssertionError, AssertionError | ValueError, ValueError
  | ZeroDivisionError, ZeroDivisionError | IndexError, IndexError
  | StopIteration, StopIteration | NotImplementedError, NotImplementedError
  | TypeError, TypeError | AttributeError, AttributeError | KeyError, KeyError
  | UnboundLocalError, UnboundLocalError
  | RecursionError, RecursionError | OutOfFuel, OutOfFuel | DuplicateKey, DuplicateKey => true
  | _, _ => false
  end.

(** Result of a Python call: a value or a raised exception. *)
Inductive res (A : Type) : Type :=
| Ok (a : A)
| Err (e : exn).
Arguments Ok {A} a.
Arguments Err {A} e.

Definition rbind {A B} (m : res A) (k : A -> res B) : res B :=
  match m with Ok a => k a | Err e => Err e end.

Definition rmap {A B} (f : A -> B) (m : res A) : res B :=
  match m with Ok a => Ok (f a) | Err e => Err e end.

Declare Scope res_scope.
Delimit Scope res_scope with res.
Notation "x <-- m ;; k" := (rbind m (fun x => k))
  (at level 61, m at next level, right associativity) : res_scope.
Notation "' p <-- m ;; k" := (rbind m (fun x => match x with p => k end))
  (at level 61, p pattern, m at next level, right associativity) : res_scope.

(** [assert cond] *)
Definition rassert (b : bool) : res unit := if b then Ok tt else Err AssertionError.

(** map with a function that may raise: raises the first exception. *)
Fixpoint rmapl {A B} (f : A -> res B) (l : list A) : res (list B) :=
  match l with
  | [] => Ok []
  | x :: r => rbind (f x) (fun y => rbind (rmapl f r) (fun ys => Ok (y :: ys)))
  end.

Definition is_ok {A} (m : res A) : bool := match m with Ok _ => true | Err _ => false end.
Definition is_some {A} (o : option A) : bool := match o with Some _ => true | None => false end.
Definition is_none {A} (o : option A) : bool := match o with Some _ => false | None => true end.

(** [[x for x in l if x is not None]] *)
Fixpoint somes {A} (l : list (option A)) : list A :=
  match l with
  | [] => []
  | Some x :: r => x :: somes r
  | None :: r => somes r
  end.

(** Stable insertion sort; Python's [sorted] with comparison [le]. *)
Section Sort.
  Context {A : Type} (le : A -> A -> bool).
  Fixpoint insert (x : A) (l : list A) : list A :=
    match l with
    | [] => [x]
    | y :: r => if le x y then x :: l else y :: insert x r
    end.
  Fixpoint isort (l : list A) : list A :=
    match l with
    | [] => []
    | x :: r => insert x (isort r)
    end.
End Sort.

(** [l.index(x)] / membership for a decidable equality. *)
Fixpoint index_of {A} (eq : A -> A -> bool) (x : A) (l : list A) : option nat :=
  match l with
  | [] => None
  | y :: r => if eq x y then Some 0 else option_map S (index_of eq x r)
  end.

Definition mem {A} (eq : A -> A -> bool) (x : A) (l : list A) : bool :=
  existsb (eq x) l.

Definition onat_eqb (a b : option nat) : bool :=
  match a, b with
  | Some x, Some y => Nat.eqb x y
  | None, None => true
  | _, _ => false
  end.

Lemma onat_eqb_eq a b : onat_eqb a b = true <-> a = b.
Proof.
  destruct a, b; simpl; try (split; congruence).
  rewrite Nat.eqb_eq. split; congruence.
Qed.

(** ** Facts about the helpers *)
Lemma rbind_ok {A B} (m : res A) (k : A -> res B) b :
  rbind m k = Ok b <-> exists a, m = Ok a /\ k a = Ok b.
Proof.
  destruct m; simpl; split.
  - eauto.
  - intros (a' & H & K). injection H as ->. exact K.
  - discriminate.
  - intros (a' & H & K). discriminate.
Qed.

Lemma rassert_ok b : rassert b = Ok tt <-> b = true.
Proof. destruct b; simpl; split; congruence. Qed.

Lemma In_somes {A} (l : list (option A)) x : In x (somes l) <-> In (Some x) l.
Proof.
  induction l as [|[y|] r IH]; simpl.
  - tauto.
  - rewrite IH. split; intros [H|H]; auto; left; congruence.
  - rewrite IH. split; [auto|]. intros [H|H]; [discriminate|auto].
Qed.

Section SortFacts.
  Context {A : Type} (le : A -> A -> bool).
  Lemma insert_perm x l : Permutation (x :: l) (insert le x l).
  Proof.
    induction l as [|y r IH]; simpl; [auto|].
    destruct (le x y); auto.
    rewrite perm_swap. constructor. exact IH.
  Qed.
  Lemma isort_perm l : Permutation l (isort le l).
  Proof.
    induction l as [|x r IH]; simpl; [auto|].
    rewrite <- insert_perm. constructor. exact IH.
  Qed.
  Lemma In_isort x l : In x (isort le l) <-> In x l.
  Proof.
    split; apply Permutation_in; [symmetry|]; apply isort_perm.
  Qed.
  Hypothesis le_total : forall a b, le a b = true \/ le b a = true.
  Hypothesis le_trans : forall a b c, le a b = true -> le b c = true -> le a c = true.
  Definition leP a b := le a b = true.
  Lemma insert_sorted x l : StronglySorted leP l -> StronglySorted leP (insert le x l).
  Proof.
    induction 1 as [|y r Hs IH Hf]; simpl.
    - repeat constructor.
    - destruct (le x y) eqn:E.
      + constructor; [constructor; auto|]. constructor; [exact E|].
        rewrite Forall_forall in *. intros z Hz. apply le_trans with y; [exact E|].
        apply Hf, Hz.
      + constructor; [exact IH|].
        rewrite Forall_forall in *. intros z Hz.
        apply Permutation_in with (l' := x :: r) in Hz; [|symmetry; apply insert_perm].
        destruct Hz as [<-|Hz]; [|apply Hf, Hz].
        destruct (le_total y x) as [K|K]; [exact K|].
        unfold leP. congruence.
  Qed.
  Lemma isort_sorted l : StronglySorted leP (isort le l).
  Proof.
    induction l; simpl; [constructor|]. apply insert_sorted; auto.
  Qed.
End SortFacts.
