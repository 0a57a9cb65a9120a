(** Model of src/grassfire/primitives.py: the objects of the kinetic data
    structure, kept in heaps (total functions from references to records, with
    allocation counters), and the state-exception monad of the event code. *)
From Verif Require Import Base Arith Calc VectorOps Line2d.

(** Sides / corners of a triangle: the indices 0, 1, 2.  [cw], [ccw], [apex],
    [orig], [dest] are those of tri.delaunay.tds (external): cw(i) = (i+2)%3,
    ccw(i) = (i+1)%3, apex(i) = i, orig(i) = ccw(i), dest(i) = cw(i). *)
Inductive side := S0 | S1 | S2.
Definition cw (s : side) : side := match s with S0 => S2 | S1 => S0 | S2 => S1 end.
Definition ccw (s : side) : side := match s with S0 => S1 | S1 => S2 | S2 => S0 end.
Definition side_eqb (a b : side) : bool :=
  match a, b with S0, S0 | S1, S1 | S2, S2 => true | _, _ => false end.
Definition sides : list side := [S0; S1; S2].

(** Python lists of length three *)
Record triple (X : Type) := mk3 { x0 : X; x1 : X; x2 : X }.
Arguments mk3 {X}. Arguments x0 {X}. Arguments x1 {X}. Arguments x2 {X}.
Definition get3 {X} (t : triple X) (s : side) : X :=
  match s with S0 => x0 t | S1 => x1 t | S2 => x2 t end.
Definition set3 {X} (t : triple X) (s : side) (x : X) : triple X :=
  match s with
  | S0 => mk3 x (x1 t) (x2 t)
  | S1 => mk3 (x0 t) x (x2 t)
  | S2 => mk3 (x0 t) (x1 t) x
  end.
Definition map3 {X Y} (f : X -> Y) (t : triple X) : triple Y := mk3 (f (x0 t)) (f (x1 t)) (f (x2 t)).
Definition list3 {X} (t : triple X) : list X := [x0 t; x1 t; x2 t].
(** first index whose element satisfies [f]; [list.index] (ValueError if none) *)
Definition find3 {X} (f : X -> bool) (t : triple X) : option side :=
  if f (x0 t) then Some S0 else if f (x1 t) then Some S1 else if f (x2 t) then Some S2 else None.
Definition index3 {X} (f : X -> bool) (t : triple X) : res side :=
  match find3 f t with Some s => Ok s | None => Err ValueError end.
Definition count3 {X} (f : X -> bool) (t : triple X) : nat :=
  (if f (x0 t) then 1 else 0) + (if f (x1 t) then 1 else 0) + (if f (x2 t) then 1 else 0).
(** [[i for i, x in enumerate(t) if f(x)]] *)
Definition where3 {X} (f : X -> bool) (t : triple X) : list side :=
  filter (fun s => f (get3 t s)) sides.

Inductive evtype := Edge | Flip | Split.
Definition evtype_eqb (a b : evtype) : bool :=
  match a, b with Edge, Edge | Flip, Flip | Split, Split => true | _, _ => false end.

(** Which parts of the environment the code observes: [addr] is [id(triangle)]
    (used by the event comparison), [orient2d] the predicate of geompreds,
    [reclimit] the interpreter's recursion limit. *)
Class Env (A : Arith) := {
  addr : nat -> Z;
  orient2d : (num * num) -> (num * num) -> (num * num) -> num;
  reclimit : nat;
}.

Section Primitives.
  Context {A : Arith}.
  Local Open Scope num_scope.
  Local Open Scope res_scope.

  (** primitives.py 64-76 ([step] only serves debugging output, kept as given) *)
  Record sknode := mkNode { sn_pos : pt; sn_step : Z; sn_info : option nat }.

  (** entries of the neighbour history, primitives.py 93-94: (start, stop, vertex) *)
  Definition hitem : Type := num * option num * option nat.

  (** primitives.py 84-121 (KineticVertex) and 216-226 (InfiniteVertex): [k_inf]
      tells the class.  References are heap indices.  An [InfiniteVertex] has only
      origin, velocity, left, right, internal and info; reading any other
      attribute is an AttributeError.  [ul], [ur] are the [line] objects of
      wavefronts (initialize.py 317-318), so they are represented by the index of
      that wavefront.  [turn] is write-only and left out. *)
  Record kvertex := mkKV {
    k_inf : bool;
    k_origin : pt; k_velocity : pt;
    k_left : list hitem; k_right : list hitem;
    k_starts : option num; k_stops : option num;
    k_start_node : option nat; k_stop_node : option nat;
    k_ul : option nat; k_ur : option nat;
    k_wfl : option nat; k_wfr : option nat;
    k_info : nat; k_inf_fast : bool; k_internal : bool }.

  (** primitives.py 256-268; the debugging fields wavefront_directions and
      wavefront_support_lines are not used by the event code *)
  Record ktri := mkTri {
    t_v : triple nat; t_n : triple (option nat);
    t_event : option nat; t_info : nat; t_stops : option num; t_internal : bool }.

  (** primitives.py 7-17 *)
  Record event := mkEv {
    ev_time : num; ev_tri : nat; ev_side : list side; ev_tp : evtype; ev_tritp : nat }.

  (** The object graph, the skeleton (primitives.py 32-41; [transform] is kept
      by [Main]) and the two queues of event_loop.  [queue] is the content of the
      OrderedSequence in iteration order. *)
  Record state := mkSt {
    vs : nat -> kvertex; nv : nat;
    ts : nat -> ktri; nt : nat;
    ns : nat -> sknode; nn : nat;
    es : nat -> event; ne : nat;
    wfs : nat -> wavefront;
    sk_nodes : list nat; sk_vertices : list nat; sk_triangles : list nat;
    queue : list nat; immediate : list nat }.

  Definition upd {X} (f : nat -> X) (i : nat) (x : X) : nat -> X :=
    fun j => if Nat.eqb i j then x else f j.

  (** ** Kinetic vertices *)

  (** attribute that InfiniteVertex does not have *)
  Definition kattr {X} (kv : kvertex) (x : X) : res X :=
    if k_inf kv then Err AttributeError else Ok x.

  (** primitives.py 148-153 and 245-247 *)
  Definition position_at (s : state) (v : nat) (time : num) : res pt :=
    let kv := vs s v in
    if k_inf kv then Ok (k_origin kv)
    else if k_inf_fast kv then
      match k_start_node kv with
      | Some n => Ok (sn_pos (ns s n))
      | None => Err AttributeError
      end
    else Ok (fst (k_origin kv) + time * fst (k_velocity kv),
             snd (k_origin kv) + time * snd (k_velocity kv)).

  (** primitives.py 141-146 and 238-243; pow(x, 2) is x * x *)
  Definition distance2_at (s : state) (v w : nat) (time : num) : res num :=
    '(sx, sy) <-- position_at s v time ;;
    '(ox, oy) <-- position_at s w time ;;
    Ok ((sx - ox) * (sx - ox) + (sy - oy) * (sy - oy)).

  (** primitives.py 135-139 *)
  Definition distance2 (v w : kvertex) : num :=
    let dx := fst (k_origin v) - fst (k_origin w) in
    let dy := snd (k_origin v) - snd (k_origin w) in dx * dx + dy * dy.

  (** primitives.py 167-177 (current neighbour), on a history *)
  Definition hist_last (h : list hitem) : option nat :=
    match rev h with [] => None | (_, _, r) :: _ => r end.

  (** primitives.py 179-197 (the setters) *)
  Definition hist_close (h : list hitem) (time : num) : list hitem :=
    match rev h with
    | [] => []
    | (a, _, r) :: before => rev before ++ [(a, Some time, r)]
    end.
  Definition hist_set (h : list hitem) (ref : option nat) (time : num) : list hitem :=
    hist_close h time ++ [(time, None, ref)].

  (** primitives.py 199-213 *)
  Fixpoint hist_at (h : list hitem) (time : num) : option nat :=
    match h with
    | [] => None
    | (a, b, r) :: rest =>
        if ((a <=? time) && match b with Some b => b >? time | None => false end)
           || ((a <=? time) && is_none b)
        then r else hist_at rest time
    end.

  (** primitives.py 131-133 *)
  Definition is_stopped (kv : kvertex) : bool := is_some (k_stop_node kv).

  (** ** Triangles *)

  (** primitives.py 371-375 *)
  Definition tri_type (t : ktri) : nat := count3 is_none (t_n t).
  (** primitives.py 377-380 *)
  Definition is_finite (s : state) (t : nat) : bool :=
    forallb (fun v => negb (k_inf (vs s v))) (list3 (t_v (ts s t))).
  (** [t.vertices.index(v)], [t.neighbours.index(n)] (identity comparison) *)
  Definition vindex (t : ktri) (v : nat) : res side := index3 (Nat.eqb v) (t_v t).
  Definition nindex (t : ktri) (n : nat) : res side :=
    index3 (fun o => match o with Some m => Nat.eqb n m | None => false end) (t_n t).
  (** [Edge(t, s).segment] (tri.delaunay.tds) *)
  Definition edge_segment (t : ktri) (s : side) : nat * nat :=
    (get3 (t_v t) (ccw s), get3 (t_v t) (cw s)).

  (** ** The state-exception monad *)
  Definition M (X : Type) : Type := state -> res (X * state).
  Definition ret {X} (x : X) : M X := fun s => Ok (x, s).
  Definition bind {X Y} (m : M X) (k : X -> M Y) : M Y :=
    fun s => match m s with Ok (x, s') => k x s' | Err e => Err e end.
  Definition raise {X} (e : exn) : M X := fun _ => Err e.
  (** a read-only computation *)
  Definition rd {X} (f : state -> res X) : M X :=
    fun s => match f s with Ok x => Ok (x, s) | Err e => Err e end.
  Definition gets {X} (f : state -> X) : M X := fun s => Ok (f s, s).
  Definition assertM (b : bool) : M unit := if b then ret tt else raise AssertionError.
  (** [if b: m] *)
  Definition whenM (b : bool) (m : M unit) : M unit := if b then m else ret tt.
  Fixpoint forM {X} (l : list X) (f : X -> M unit) : M unit :=
    match l with [] => ret tt | x :: r => bind (f x) (fun _ => forM r f) end.

  (** ** Primitive updates *)
  Definition setv (v : nat) (kv : kvertex) : M unit := fun s =>
    Ok (tt, mkSt (upd (vs s) v kv) (nv s) (ts s) (nt s) (ns s) (nn s) (es s) (ne s) (wfs s)
              (sk_nodes s) (sk_vertices s) (sk_triangles s) (queue s) (immediate s)).
  Definition sett (t : nat) (x : ktri) : M unit := fun s =>
    Ok (tt, mkSt (vs s) (nv s) (upd (ts s) t x) (nt s) (ns s) (nn s) (es s) (ne s) (wfs s)
              (sk_nodes s) (sk_vertices s) (sk_triangles s) (queue s) (immediate s)).
  Definition sete (e : nat) (x : event) : M unit := fun s =>
    Ok (tt, mkSt (vs s) (nv s) (ts s) (nt s) (ns s) (nn s) (upd (es s) e x) (ne s) (wfs s)
              (sk_nodes s) (sk_vertices s) (sk_triangles s) (queue s) (immediate s)).
  Definition alloc_v (kv : kvertex) : M nat := fun s =>
    Ok (nv s, mkSt (upd (vs s) (nv s) kv) (S (nv s)) (ts s) (nt s) (ns s) (nn s) (es s) (ne s) (wfs s)
              (sk_nodes s) (sk_vertices s) (sk_triangles s) (queue s) (immediate s)).
  Definition alloc_n (x : sknode) : M nat := fun s =>
    Ok (nn s, mkSt (vs s) (nv s) (ts s) (nt s) (upd (ns s) (nn s) x) (S (nn s)) (es s) (ne s) (wfs s)
              (sk_nodes s) (sk_vertices s) (sk_triangles s) (queue s) (immediate s)).
  Definition alloc_e (x : event) : M nat := fun s =>
    Ok (ne s, mkSt (vs s) (nv s) (ts s) (nt s) (ns s) (nn s) (upd (es s) (ne s) x) (S (ne s)) (wfs s)
              (sk_nodes s) (sk_vertices s) (sk_triangles s) (queue s) (immediate s)).
  Definition add_node (n : nat) : M unit := fun s =>
    Ok (tt, mkSt (vs s) (nv s) (ts s) (nt s) (ns s) (nn s) (es s) (ne s) (wfs s)
              (sk_nodes s ++ [n]) (sk_vertices s) (sk_triangles s) (queue s) (immediate s)).
  Definition add_vertex (v : nat) : M unit := fun s =>
    Ok (tt, mkSt (vs s) (nv s) (ts s) (nt s) (ns s) (nn s) (es s) (ne s) (wfs s)
              (sk_nodes s) (sk_vertices s ++ [v]) (sk_triangles s) (queue s) (immediate s)).
  Definition setq (q : list nat) : M unit := fun s =>
    Ok (tt, mkSt (vs s) (nv s) (ts s) (nt s) (ns s) (nn s) (es s) (ne s) (wfs s)
              (sk_nodes s) (sk_vertices s) (sk_triangles s) q (immediate s)).
  Definition seti (i : list nat) : M unit := fun s =>
    Ok (tt, mkSt (vs s) (nv s) (ts s) (nt s) (ns s) (nn s) (es s) (ne s) (wfs s)
              (sk_nodes s) (sk_vertices s) (sk_triangles s) (queue s) i).

  (** attribute assignments on vertices.  Assigning to an attribute that an
      InfiniteVertex does not have would create it in Python; here it raises
      AttributeError (simplification; such assignments can only follow a read of
      [inf_fast] or [stop_node] of the same vertex, which raises, except for
      [v1]/[v2]/[pivot] in parallel.py 514-532 on a triangle with an infinite
      vertex and three wavefront sides). *)
  Definition modv (v : nat) (f : kvertex -> kvertex) : M unit :=
    bind (gets (fun s => vs s v)) (fun kv =>
    if k_inf kv then raise AttributeError else setv v (f kv)).
  Definition kv_stops (kv : kvertex) (x : option num) : kvertex :=
    mkKV (k_inf kv) (k_origin kv) (k_velocity kv) (k_left kv) (k_right kv) (k_starts kv) x
      (k_start_node kv) (k_stop_node kv) (k_ul kv) (k_ur kv) (k_wfl kv) (k_wfr kv)
      (k_info kv) (k_inf_fast kv) (k_internal kv).
  Definition kv_stop_node (kv : kvertex) (x : option nat) : kvertex :=
    mkKV (k_inf kv) (k_origin kv) (k_velocity kv) (k_left kv) (k_right kv) (k_starts kv) (k_stops kv)
      (k_start_node kv) x (k_ul kv) (k_ur kv) (k_wfl kv) (k_wfr kv)
      (k_info kv) (k_inf_fast kv) (k_internal kv).
  Definition kv_wf (kv : kvertex) (l r : option nat) : kvertex :=
    mkKV (k_inf kv) (k_origin kv) (k_velocity kv) (k_left kv) (k_right kv) (k_starts kv) (k_stops kv)
      (k_start_node kv) (k_stop_node kv) (k_ul kv) (k_ur kv) l r
      (k_info kv) (k_inf_fast kv) (k_internal kv).
  Definition kv_left (kv : kvertex) (h : list hitem) : kvertex :=
    mkKV (k_inf kv) (k_origin kv) (k_velocity kv) h (k_right kv) (k_starts kv) (k_stops kv)
      (k_start_node kv) (k_stop_node kv) (k_ul kv) (k_ur kv) (k_wfl kv) (k_wfr kv)
      (k_info kv) (k_inf_fast kv) (k_internal kv).
  Definition kv_right (kv : kvertex) (h : list hitem) : kvertex :=
    mkKV (k_inf kv) (k_origin kv) (k_velocity kv) (k_left kv) h (k_starts kv) (k_stops kv)
      (k_start_node kv) (k_stop_node kv) (k_ul kv) (k_ur kv) (k_wfl kv) (k_wfr kv)
      (k_info kv) (k_inf_fast kv) (k_internal kv).
  Definition set_stops (v : nat) (t : num) : M unit := modv v (fun kv => kv_stops kv (Some t)).
  Definition set_stop_node (v n : nat) : M unit := modv v (fun kv => kv_stop_node kv (Some n)).
  Definition set_wf (v : nat) (l r : option nat) : M unit := modv v (fun kv => kv_wf kv l r).
  (** primitives.py 179-197 *)
  Definition set_left (v : nat) (ref : option nat) (time : num) : M unit :=
    modv v (fun kv => kv_left kv (hist_set (k_left kv) ref time)).
  Definition set_right (v : nat) (ref : option nat) (time : num) : M unit :=
    modv v (fun kv => kv_right kv (hist_set (k_right kv) ref time)).

  Definition modt (t : nat) (f : ktri -> ktri) : M unit :=
    bind (gets (fun s => ts s t)) (fun x => sett t (f x)).
  Definition tri_v (x : ktri) (v : triple nat) : ktri :=
    mkTri v (t_n x) (t_event x) (t_info x) (t_stops x) (t_internal x).
  Definition tri_n (x : ktri) (n : triple (option nat)) : ktri :=
    mkTri (t_v x) n (t_event x) (t_info x) (t_stops x) (t_internal x).
  Definition tri_event (x : ktri) (e : option nat) : ktri :=
    mkTri (t_v x) (t_n x) e (t_info x) (t_stops x) (t_internal x).
  Definition tri_stops (x : ktri) (t : option num) : ktri :=
    mkTri (t_v x) (t_n x) (t_event x) (t_info x) t (t_internal x).
  Definition set_tv (t : nat) (s : side) (v : nat) : M unit := modt t (fun x => tri_v x (set3 (t_v x) s v)).
  Definition set_tn (t : nat) (s : side) (n : option nat) : M unit :=
    modt t (fun x => tri_n x (set3 (t_n x) s n)).
  Definition set_tvs (t : nat) (v : triple nat) : M unit := modt t (fun x => tri_v x v).
  Definition set_tns (t : nat) (n : triple (option nat)) : M unit := modt t (fun x => tri_n x n).
  Definition set_tevent (t e : nat) : M unit := modt t (fun x => tri_event x (Some e)).
  Definition set_tstops (t : nat) (now : num) : M unit := modt t (fun x => tri_stops x (Some now)).

  (** current neighbours; None for an InfiniteVertex (its attributes are None) *)
  Definition kleft (kv : kvertex) : option nat := hist_last (k_left kv).
  Definition kright (kv : kvertex) : option nat := hist_last (k_right kv).

  (** ** Skeleton.segments, primitives.py 44-61.  [back] is the stored
      transform's backward map, if any. *)
  Definition segment : Type := (pt * pt) * (option nat * option nat).
  Definition start_of (s : state) (kv : kvertex) : res sknode :=
    match k_start_node kv with Some n => Ok (ns s n) | None => Err AttributeError end.
  Definition segment_of (s : state) (back : option (pt -> pt)) (v : nat) : res (option segment) :=
    let kv := vs s v in
    if k_inf kv then Err AttributeError else
    match k_stops kv with
    | Some _ =>
        if onat_eqb (k_start_node kv) (k_stop_node kv) then Ok None
        else
          a <-- start_of s kv ;;
          b <-- match k_stop_node kv with Some n => Ok (ns s n) | None => Err AttributeError end ;;
          let f := match back with Some f => f | None => fun p => p end in
          Ok (Some ((f (sn_pos a), f (sn_pos b)), (sn_info a, sn_info b)))
    | None =>
        a <-- start_of s kv ;;
        p <-- position_at s v (lit 1000) ;;
        Ok (Some ((sn_pos a, p), (sn_info a, None)))
    end.
  Definition segments (s : state) (back : option (pt -> pt)) : res (list segment) :=
    l <-- rmapl (segment_of s back) (sk_vertices s) ;; Ok (somes l).
End Primitives.

Arguments kvertex {A}. Arguments ktri {A}. Arguments event {A}. Arguments state {A}.
Arguments sknode {A}. Arguments hitem {A}. Arguments M {A}. Arguments segment {A}.

Declare Scope M_scope.
Delimit Scope M_scope with M.
Notation "'let!' x ':=' m 'in' k" := (bind m (fun x => k))
  (at level 200, x name, m at level 100, k at level 200) : M_scope.
Notation "'let!' ' p ':=' m 'in' k" := (bind m (fun x => match x with p => k end))
  (at level 200, p pattern, m at level 100, k at level 200) : M_scope.
Notation "m ;; k" := (bind m (fun _ => k)) (at level 61, right associativity) : M_scope.
