(** Model of src/grassfire/events/lib.py, and of the event comparison and the
    OrderedSequence operations it relies on (events/loop.py 518-542; package oseq). *)
From Verif Require Import Base Arith Calc VectorOps Line2d Primitives Collapse.

Section EventsLib.
  Context {A : Arith} {E : Env A}.
  Local Open Scope num_scope.
  Local Open Scope M_scope.

  (** reading objects and attributes *)
  Definition vget (v : nat) : M kvertex := gets (fun s => vs s v).
  Definition tget (t : nat) : M ktri := gets (fun s => ts s t).
  Definition eget (e : nat) : M event := gets (fun s => es s e).
  (** attribute that an InfiniteVertex does not have *)
  Definition vattr {X} (v : nat) (f : kvertex -> X) : M X :=
    rd (fun s => kattr (vs s v) (f (vs s v))).
  (** attribute access through a reference that may be None *)
  Definition deref {X} (o : option X) : M X :=
    match o with Some x => ret x | None => raise AttributeError end.
  Definition rdr {X} (r : res X) : M X := rd (fun _ => r).

  (** ** Event order, events/loop.py 518-542; [id] is [addr] *)
  Definition compare_event_by_time (one other : event) : comparison :=
    if ev_time one <? ev_time other then Lt
    else if ev_time one >? ev_time other then Gt
    else
      match Nat.compare (ev_tritp other) (ev_tritp one) with
      | Lt => Lt
      | Gt => Gt
      | Eq => Z.compare (addr (ev_tri one)) (addr (ev_tri other))
      end.

  (** ** OrderedSequence (package oseq, a search tree on the comparison), seen
      as the list of its elements in iteration order.  What [add] does with an
      element that compares equal to a stored one is not modelled: it raises the
      artificial exception DuplicateKey, and C30 shows that a run never does. *)
  Fixpoint q_add (s : state) (e : nat) (q : list nat) : list nat :=
    match q with
    | [] => [e]
    | x :: r =>
        match compare_event_by_time (es s e) (es s x) with
        | Lt => e :: x :: r
        | Eq => x :: r
        | Gt => x :: q_add s e r
        end
    end.
  (** [discard]: remove the element that compares equal, if there is one *)
  Fixpoint q_discard (s : state) (e : nat) (q : list nat) : list nat :=
    match q with
    | [] => []
    | x :: r =>
        match compare_event_by_time (es s e) (es s x) with
        | Eq => r
        | _ => x :: q_discard s e r
        end
    end.
  Definition q_has (s : state) (e : nat) (q : list nat) : bool :=
    existsb (fun x => match compare_event_by_time (es s e) (es s x) with Eq => true | _ => false end) q.
  Definition queue_add (e : nat) : M unit :=
    let! dup := gets (fun s => q_has s e (queue s)) in
    if dup then raise DuplicateKey
    else let! q := gets (fun s => q_add s e (queue s)) in setq q.
  (** discarding None from a non-empty sequence reads [None.time] *)
  Definition queue_discard (o : option nat) : M unit :=
    match o with
    | Some e => let! q := gets (fun s => q_discard s e (queue s)) in setq q
    | None => let! q := gets queue in
              match q with [] => ret tt | _ => raise AttributeError end
    end.
  (** deque.remove (first occurrence; events compare by identity) *)
  Fixpoint remove1 (e : nat) (l : list nat) : list nat :=
    match l with
    | [] => []
    | x :: r => if Nat.eqb e x then r else x :: remove1 e r
    end.
  (** [if ev in immediate: immediate.remove(ev)] *)
  Definition immediate_remove (o : option nat) : M unit :=
    match o with
    | Some e => let! i := gets (fun s => remove1 e (immediate s)) in seti i
    | None => ret tt
    end.

  (** [v.stop_node = n; v.stops_at = now] (lib.py 68-69, parallel.py 298-299,
      434-435, 512-513, 518-519, 530-531) *)
  Definition stop_at (v n : nat) (now : num) : M unit := set_stop_node v n ;; set_stops v now.

  (** ** lib.py 27-119 stop_kvertices *)

  (** lib.py 47-65: the scan; [acc] is the local [sk_node] *)
  Fixpoint stop_scan (V : list nat) (now : num) (acc : option nat) : M (option nat) :=
    match V with
    | [] => ret acc
    | v :: r =>
        let! st := vattr v k_stops in
        let! sa := vattr v k_starts in
        match sa with
        | None => raise TypeError
        | Some sa =>
            if is_some st then let! n := vattr v k_stop_node in stop_scan r now n
            else if near_zero (sa - now) then let! n := vattr v k_start_node in stop_scan r now n
            else set_stops v now ;; stop_scan r now acc
        end
    end.

  (** lib.py 77-85: mean of the positions *)
  Definition mean_position (s : state) (V : list nat) (now : num) : res pt :=
    rbind (rmapl (fun v => position_at s v now) V) (fun l =>
    let sumx := fold_left (fun a p => a + fst p) l n0 in
    let sumy := fold_left (fun a p => a + snd p) l n0 in
    let ct := nofnat (length l) in
    rbind (pdiv sumx ct) (fun x => rbind (pdiv sumy ct) (fun y => Ok (x, y)))).

  (** lib.py 27-119; returns the node and whether it was newly made *)
  Definition stop_kvertices (V : list nat) (step : Z) (now : num) (pos : option pt) : M (nat * bool) :=
    forM V (fun v => let! _ := vattr v k_inf_fast in ret tt) ;;
    let! sk := stop_scan V now None in
    let! r :=
      match sk with
      | Some n =>
          forM V (fun v => stop_at v n now) ;;
          ret (n, false)
      | None =>
          let! p := match pos with
                    | Some p => ret p
                    | None => rd (fun s => mean_position s V now)
                    end in
          let! n := alloc_n (mkNode p step None) in
          forM V (fun v => set_stop_node v n) ;;
          ret (n, true)
      end in
    forM V (fun v =>
      let! n := vattr v k_stop_node in
      assertM (is_some n) ;;
      let! t := vattr v k_stops in
      assertM (match t with Some t => t =? now | None => false end)) ;;
    ret r.

  (** the caller's [if newly_made: skel.sk_nodes.append(sk_node)], which follows
      every call of stop_kvertices *)
  Definition stop_and_register (V : list nat) (step : Z) (now : num) (pos : option pt) : M nat :=
    let! r := stop_kvertices V step now pos in
    whenM (snd r) (add_node (fst r)) ;;
    ret (fst r).

  (** ** lib.py 122-220 compute_new_kvertex (no pause) *)

  (** velocity and position at time 0 (None: not assigned) *)
  Definition new_velocity (ul ur : line2) (now : num) (node_pos : pt) : res (pt * option pt) :=
    let u1 := lw ul in
    let u2 := lw ur in
    let direction := add2 u1 u2 in
    rbind (angle_unit u1 u2) (fun da =>
    let '(d, acos_d) := da in
    if near_zero2 direction
       || (near_zero (acos_d - npi) || (d <? ncos (nradians (lit (179999999#1000000)))))
    then Ok ((n0, n0), None)
    else
      rbind (intersection ul ur) (fun i =>
      match i with
      | NO_INTERSECTION => Ok ((n0, n0), None)
      | POINT p0 =>
          rbind (translated ul (lw ul)) (fun ul_t =>
          rbind (translated ur (lw ur)) (fun ur_t =>
          rbind (intersection ul_t ur_t) (fun j =>
          match j with
          | POINT p1 => Ok (sub2 p1 p0, Some p0)
          | _ => Err AssertionError
          end)))
      | LINE _ =>
          let bi := lw ul in
          Ok (bi, Some (add2 node_pos (mul2s (mul2s bi (lit (-1))) now)))
      end)).

  (** the new vertex; [ul], [ur] are given as wavefront indices *)
  Definition new_kvertex (s : state) (ul ur : option nat) (now : num) (sk_node info : nat)
      (internal : bool) : res kvertex :=
    match ul, ur with
    | Some l, Some r =>
        rbind (new_velocity (wf_line (wfs s l)) (wf_line (wfs s r)) now (sn_pos (ns s sk_node))) (fun vp =>
        let '(velocity, pos_at_t0) := vp in
        rbind (norm_2 velocity) (fun _ =>
        rbind (if pt_eqb velocity (n0, n0) then Ok (true, sn_pos (ns s sk_node))
               else match pos_at_t0 with
                    | Some p => Ok (false, p)
                    | None => Err UnboundLocalError
                    end) (fun fo =>
        let '(fast, origin) := fo in
        Ok (mkKV false origin velocity [] [] (Some now) None (Some sk_node) None
              (Some l) (Some r) None None info fast internal))))
    | _, _ => Err AttributeError
    end.

  (** lib.py 122-220 *)
  Definition compute_new_kvertex (ul ur : option nat) (now : num) (sk_node info : nat)
      (internal : bool) : M nat :=
    let! kv := rd (fun s => new_kvertex s ul ur now sk_node info internal) in
    alloc_v kv.

  (** ** lib.py 295-317 replace_in_queue *)
  Definition replace_in_queue (t : nat) (now : num) : M unit :=
    let! x := tget t in
    match t_event x with
    | Some e => queue_discard (Some e) ;; immediate_remove (Some e)
    | None => ret tt
    end ;;
    let! e := compute_collapse_time t now FindGte in
    match e with
    | Some e => queue_add e
    | None => ret tt
    end.

  (** ** lib.py 240-292 replace_kvertex.  [direction] is cw or ccw; the log
      messages are omitted.  The [while] loop is given fuel; C32 shows that it
      always ends. *)
  Fixpoint replace_walk (fuel : nat) (t : option nat) (v newv : nat) (now : num)
      (direction : side -> side) : M (list nat) :=
    match t with
    | None => ret []
    | Some t =>
        match fuel with
        | O => raise OutOfFuel
        | S fuel =>
            let! x := tget t in
            let! sd := rdr (vindex x v) in
            set_tv t sd newv ;;
            let! fast := vattr newv k_inf_fast in
            match (if fast then t_event x else None) with
            | Some e => queue_discard (Some e) ;; immediate_remove (Some e)
            | None => replace_in_queue t now
            end ;;
            let! y := tget t in
            let! fan := replace_walk fuel (get3 (t_n y) (direction sd)) v newv now direction in
            ret (t :: fan)
        end
    end.
  Definition replace_kvertex (t : nat) (v newv : nat) (now : num) (direction : side -> side) : M (list nat) :=
    let! n := gets nt in
    replace_walk (S (3 * n)) (Some t) v newv now direction.

  (** ** lib.py 320-343 update_circ *)
  Definition update_circ (l r : option nat) (now : num) : M unit :=
    match l with Some v => set_right v r now | None => ret tt end ;;
    match r with Some v => set_left v l now | None => ret tt end.

  (** ** lib.py 346-376 schedule_immediately *)
  Definition schedule_immediately (t : nat) (now : num) : M unit :=
    let! x := tget t in
    queue_discard (t_event x) ;;
    immediate_remove (t_event x) ;;
    let! e := compute_new_edge_collapse_event t now in
    set_tevent t e ;;
    let! x := tget t in
    let! ev := eget e in
    whenM (Nat.eqb (tri_type x) 3)
      (sete e (mkEv (ev_time ev) (ev_tri ev) sides (ev_tp ev) (ev_tritp ev))) ;;
    let! ev := eget e in
    assertM (negb (Nat.eqb (length (ev_side ev)) 0)) ;;
    let! i := gets immediate in
    seti (i ++ [e]).

  (** unlinking: [n.neighbours[n.neighbours.index(t)] = x] *)
  Definition relink (n t : nat) (x : option nat) : M unit :=
    let! y := tget n in
    let! i := rdr (nindex y t) in
    set_tn n i x.
  (** [if n is not None: unlink; if n.event is not None and n.stops_at is None:
      schedule_immediately(n)] (edge.py 238-242, parallel.py 355-358, 449-453) *)
  Definition unlink_and_schedule (n : option nat) (t : nat) (now : num) : M unit :=
    match n with
    | None => ret tt
    | Some n =>
        relink n t None ;;
        let! y := tget n in
        whenM (is_some (t_event y) && is_none (t_stops y)) (schedule_immediately n now)
    end.

  (** [x.left.wfr], [x.right.wfl] (AttributeError if there is no such vertex) *)
  Definition left_wfr (v : nat) : M (option nat) :=
    let! kv := vget v in let! l := deref (kleft kv) in vattr l k_wfr.
  Definition right_wfl (v : nat) : M (option nat) :=
    let! kv := vget v in let! r := deref (kright kv) in vattr r k_wfl.

  (** the line of a wavefront that may be None (line2d.py 335, 349-350, 366-367) *)
  Definition wfline (o : option nat) : M line2 :=
    let! w := deref o in gets (fun s => wf_line (wfs s w)).
  (** line2d.py 333-369 on two wavefronts; the ValueError of
      get_intersection_at_t is caught by every caller *)
  Definition wf_bisector (a b : option nat) : M pt :=
    let! l := wfline a in let! r := wfline b in rdr (get_bisector l r).
  Definition wf_intersection_at (a b : option nat) (now : num) : M (option pt) :=
    let! l := wfline a in let! r := wfline b in
    match get_intersection_at_t l r now with
    | Ok p => ret (Some p)
    | Err ValueError => ret None
    | Err e => raise e
    end.
End EventsLib.
