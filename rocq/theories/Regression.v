(** Model of src/grassfire/regression.py *)
From Verif Require Import Base Arith Calc VectorOps.

(** A Python sequence argument: a list, or an iterator (the object that [map]
    and [zip] return), which has elements but no [len]. *)
Inductive pyseq (X : Type) := PyList (l : list X) | PyIter (l : list X).
Arguments PyList {X} l.
Arguments PyIter {X} l.
Definition py_items {X} (d : pyseq X) : list X := match d with PyList l | PyIter l => l end.
(** [len(d)]: TypeError for an iterator *)
Definition py_len {X} (d : pyseq X) : res nat :=
  match d with PyList l => Ok (length l) | PyIter _ => Err TypeError end.

Section Regression.
  Context {A : Arith}.
  Local Open Scope num_scope.
  Local Open Scope res_scope.

  (** regression.py 13-24; the sums are [math.fsum] (Arith.v) *)
  Definition generalised_sum {X} (data : pyseq X) (func : X -> num) : res (nat * num) :=
    count <-- py_len data ;;
    Ok (count, nfsum (map func (py_items data))).

  (** regression.py 47-60 *)
  Definition mean (data : pyseq num) : res num :=
    '(n, total) <-- generalised_sum data (fun x => x) ;;
    if Nat.eqb n 0 then Err ValueError else pdiv total (nofnat n).

  (** [if m is None: m = mean(data)] *)
  Definition mean_or (m : option num) (data : pyseq num) : res num :=
    match m with Some m => Ok m | None => mean data end.

  (** regression.py 27-33; [(x-m)**2] as a product *)
  Definition SS (data : pyseq num) (m : option num) : res (nat * num) :=
    m <-- mean_or m data ;;
    generalised_sum data (fun x => (x - m) * (x - m)).

  (** regression.py 36-44; the argument of the sum is a zip object *)
  Definition SP (xdata : pyseq num) (mx : option num) (ydata : pyseq num) (my : option num) : res (nat * num) :=
    mx <-- mean_or mx xdata ;;
    my <-- mean_or my ydata ;;
    generalised_sum (PyIter (combine (py_items xdata) (py_items ydata)))
      (fun t => (fst t - mx) * (snd t - my)).

  (** regression.py 63-82 *)
  Definition variance (data : pyseq num) (m : option num) : res num :=
    '(n, ss) <-- SS data m ;;
    if Nat.ltb n 2 then Err ValueError else pdiv ss (nofnat (n - 1)).

  (** regression.py 85-99 *)
  Definition pcov (xdata ydata : pyseq num) (mx my : option num) : res num :=
    '(n, s) <-- SP xdata mx ydata my ;;
    if Nat.ltb 0 n then pdiv s (nofnat n) else Err ValueError.

  (** regression.py 102-110 (the assertion compares the lengths of two lists
      that grow together) *)
  Definition split (L : list (num * num)) : res (list num * list num) :=
    let xlist := map fst L in
    let ylist := map snd L in
    if Nat.eqb (length xlist) (length ylist) then Ok (xlist, ylist) else Err AssertionError.

  (** regression.py 113-134 *)
  Definition cov (xdata ydata : pyseq num) (mx my : option num) : res num :=
    '(n, s) <-- SP xdata mx ydata my ;;
    if Nat.ltb 1 n then pdiv s (nofnat (n - 1)) else Err ValueError.

  (** regression.py 137-185; [T**2] as a product, [eig_vals] as the list of the
      elements of the map object *)
  Definition eig_2x2 (a b c d : num) : res (list num * (pt * pt)) :=
    let T := a + d in
    let D := a * d - b * c in
    let tmp := lit (1#4) * (T * T) - D in
    tmp <-- psqrt (nmax n0 tmp) ;;
    let L1 := nhalf * T + tmp in
    let L2 := nhalf * T - tmp in
    let eig_vecs :=
      if negb (near_zero c) then ((L1 - d, c), (L2 - d, c))
      else if negb (near_zero b) then ((b, L1 - a), (b, L2 - a))
      else ((n1, n0), (n0, n1)) in
    Ok (map nabs [L1; L2], eig_vecs).

  (** regression.py 188-195: the second component is a map object *)
  Definition adjust (data : list num) : res (num * pyseq num) :=
    mu <-- mean (PyList data) ;;
    Ok (mu, PyIter (map (fun x => x - mu) data)).

  (** regression.py 198-236, up to the call of [cov] (224); what follows
      it (eig_2x2, [sorted], the rotation) is left out and stands for any
      continuation [rest]: C54 shows that it is never reached. *)
  Definition regress (rest : num -> num -> num -> pyseq num -> pyseq num -> res (pyseq num * pyseq num))
      (pts : list pt) : res (pyseq num * pyseq num) :=
    '(xs, ys) <-- split pts ;;
    '(_, xsadj) <-- adjust xs ;;
    '(_, ysadj) <-- adjust ys ;;
    sx <-- variance xsadj (Some n0) ;;
    if near_zero sx then Ok (ysadj, xsadj) else
    sy <-- variance ysadj (Some n0) ;;
    if near_zero sy then Ok (xsadj, ysadj) else
    sxy <-- cov xsadj ysadj (Some n0) (Some n0) ;;
    rest sx sy sxy xsadj ysadj.

  (** regression.py 239-244 *)
  Definition are_residuals_near_zero rest (pts : list pt) : res bool :=
    '(_, y) <-- regress rest pts ;;
    Ok (forallb near_zero (py_items y)).
End Regression.
