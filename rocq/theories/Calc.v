(** Model of src/grassfire/calc.py. *)
From Verif Require Import Base Arith.

Section Calc.
  Context {A : Arith}.
  Local Open Scope num_scope.
  Local Open Scope res_scope.

  (** calc.py 98-100: the [method] strings; any other string is [MUnknown]. *)
  Inductive method := MAsymmetric | MStrong | MWeak | MAverage | MUnknown.

  (** calc.py 61-128 *)
  Definition is_close (a b rel_tol abs_tol : num) (m : method) : res bool :=
    match m with
    | MUnknown => Err ValueError
    | _ =>
      if (rel_tol <? n0) || (abs_tol <? n0) then Err ValueError
      else if a =? b then Ok true
      else
        let diff := nabs (b - a) in
        match m with
        | MAsymmetric => Ok ((diff <=? nabs (rel_tol * b)) || (diff <=? abs_tol))
        | MStrong =>
            Ok (((diff <=? nabs (rel_tol * b)) && (diff <=? nabs (rel_tol * a)))
                || (diff <=? abs_tol))
        | MWeak =>
            Ok (((diff <=? nabs (rel_tol * b)) || (diff <=? nabs (rel_tol * a)))
                || (diff <=? abs_tol))
        | _ => Ok ((diff <=? nabs (rel_tol * (a + b) * nhalf)) || (diff <=? abs_tol))
        end
    end.

  (** calc.py 41-46.  [is_close] is called with fixed non-negative tolerances
      (1e-12, 1e-10) and a known method, so the two [ValueError] branches are
      dead for any sane arithmetic; the result is written out directly.  That
      this equals the call is lemma [near_zero_is_close]. *)
  Definition near_zero (v : num) : bool :=
    if v =? lit 0 then true
    else
      let diff := nabs (lit 0 - v) in
      ((diff <=? nabs (lit (1#1000000000000) * lit 0))
       || (diff <=? nabs (lit (1#1000000000000) * v)))
      || (diff <=? lit (1#10000000000)).

  (** calc.py 49-58; the callers pass a list, tolerances in the positions of the code. *)
  Definition all_close (l : list num) (abs_tol rel_tol : num) : res bool :=
    match l with
    | [] => Ok false
    | first :: rest =>
        let fix go l :=
          match l with
          | [] => Ok true
          | o :: r => b <-- is_close first o rel_tol abs_tol MStrong ;;
                      if b : bool then go r else Ok false
          end in go rest
    end.

  (** calc.py 29-36: the loop of all_close_clusters; note the positional call
      [is_close(first, val, abs_tol, rel_tol, ...)], which passes [abs_tol] as
      [rel_tol] and conversely. *)
  Fixpoint clusters_loop (abs_tol rel_tol first : num) (l : list num) : res (list num) :=
    match l with
    | [] => Ok []
    | v :: r =>
        b <-- is_close first v abs_tol rel_tol MAverage ;;
        if b : bool then clusters_loop abs_tol rel_tol first r
        else rmap (cons v) (clusters_loop abs_tol rel_tol v r)
    end.

  (** calc.py 27-36 *)
  Definition clusters_of_sorted (abs_tol rel_tol : num) (l : list num) : res (list num) :=
    match l with
    | [] => Err StopIteration      (* next(it) of an empty iterator *)
    | first :: r => rmap (cons first) (clusters_loop abs_tol rel_tol first r)
    end.

  (** calc.py 22-38, for a list argument *)
  Definition all_close_clusters (L : list num) (abs_tol rel_tol : num) : res (list num) :=
    match L with
    | [] => Ok []
    | _ => clusters_of_sorted abs_tol rel_tol (isort nleb L)
    end.

  (** calc.py 15-19; a [filter] object is always truthy, so the first branch of
      all_close_clusters is taken even if no time remains.  Defaults
      abs_tol=1e-7, rel_tol=0. *)
  Definition get_unique_times (times : list (option num)) : res (list num) :=
    clusters_of_sorted (lit (1#10000000)) (lit 0) (isort nleb (somes times)).

  (** calc.py 144 *)
  Definition near_pt (p q : num * num) : bool :=
    near_zero (fst p - fst q) && near_zero (snd p - snd q).

  (** calc.py 143-152; [cluster] is kept in list order *)
  Fixpoint group_loop (prev : num * num) (cluster : list nat) (ct : nat)
           (l : list (num * num)) : list (list nat) :=
    match l with
    | [] => [cluster]
    | item :: r =>
        if near_pt prev item then group_loop prev (cluster ++ [ct]) (S ct) r
        else cluster :: group_loop item [ct] (S ct) r
    end.

  (** calc.py 131-153 *)
  Definition groupby_cluster (L : list (num * num)) : res (list (list nat)) :=
    match L with
    | [] => Err StopIteration
    | p :: r => Ok (group_loop p [0] 1 r)
    end.

  (** calc.py 156-176; [x**2] modelled as [x * x] *)
  Definition r_squared (pts : list (num * num)) : res num :=
    let length := nofnat (length pts) in
    let xs := map fst pts in
    let ys := map snd pts in
    let x := nsum xs in
    let y := nsum ys in
    let xx := nsum (map (fun x => x * x) xs) in
    let yy := nsum (map (fun y => y * y) ys) in
    let xy := nsum (map (fun p => fst p * snd p) (combine xs ys)) in
    let nm := length * xy - x * y in
    let sqt := (length * xx - x * x) * (length * yy - y * y) in
    if sqt <=? n0 then Ok n0
    else den <-- psqrt sqt ;; pdiv nm den.

  (** [map(near_zero, pair)] then [all] *)
  Definition near_zero2 (p : num * num) : bool := near_zero (fst p) && near_zero (snd p).
End Calc.
Arguments is_close : simpl never.
Arguments near_zero : simpl never.
Arguments near_pt : simpl never.
Arguments near_zero2 : simpl never.
Arguments r_squared : simpl never.
