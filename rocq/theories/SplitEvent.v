(** Model of handle_split_event of src/grassfire/events/split.py *)
From Verif Require Import Base Arith Calc VectorOps Line2d Primitives Collapse EventsLib FlipEvent ParallelEvent.

Section SplitEvent.
  Context {A : Arith} {E : Env A}.
  Local Open Scope num_scope.
  Local Open Scope M_scope.

  (** split.py 80-126: checks on the wavefronts; the bisectors and positions
      computed are not used further, but may raise *)
  Definition split_precheck (v v1 v2 : nat) (now : num) : M unit :=
    let! w1 := vattr v1 k_wfr in
    let! w2 := vattr v2 k_wfl in
    assertM (onat_eqb w1 w2) ;;
    let! a := vattr v k_wfr in
    let! c := vattr v k_wfl in
    let! _ := wf_bisector a w1 in
    let! _ := wf_bisector a c in
    let! _ := wf_intersection_at a w1 now in
    let! _ := wf_intersection_at a c now in
    let! _ := wf_intersection_at w1 c now in
    ret tt.

  (** split.py 64-265; [fans] is what handles the fan of an infinitely fast vertex *)
  Definition handle_split_event_with (fans : list nat -> nat -> num -> turn -> Z -> M unit)
      (evt : event) (step : Z) : M unit :=
    let t := ev_tri evt in
    let now := ev_time evt in
    match ev_side evt with
    | [e] =>
        let! x := tget t in
        let v := get3 (t_v x) e in
        assertM (is_none (get3 (t_n x) e)) ;;
        let v1 := get3 (t_v x) (ccw e) in
        let v2 := get3 (t_v x) (cw e) in
        split_precheck v v1 v2 now ;;
        let! sk_node := stop_and_register [v] step now None in
        let! k := vget v in
        let! k1 := vget v1 in
        let! k2 := vget v2 in
        assertM (onat_eqb (k_ur k1) (k_ul k2)) ;;
        let! len := gets (fun s => length (sk_vertices s)) in
        let! vb := compute_new_kvertex (k_ul k) (k_ul k2) now sk_node (len + 1)
                     (k_internal k || k_internal k2) in
        set_wf vb (k_wfl k) (k_wfl k2) ;;
        add_vertex vb ;;
        let! len := gets (fun s => length (sk_vertices s)) in
        let! va := compute_new_kvertex (k_ur k1) (k_ur k) now sk_node (len + 1)
                     (k_internal k || k_internal k1) in
        set_wf va (k_wfr k1) (k_wfr k) ;;
        add_vertex va ;;
        update_circ (kleft k) (Some vb) now ;;
        update_circ (Some vb) (Some v2) now ;;
        let! kb := vget vb in
        let! wl := left_wfr vb in
        assertM (onat_eqb wl (k_wfl kb)) ;;
        let! wr := right_wfl vb in
        assertM (onat_eqb wr (k_wfr kb)) ;;
        update_circ (Some v1) (Some va) now ;;
        let! k := vget v in
        update_circ (Some va) (kright k) now ;;
        let! ka := vget va in
        let! wl := left_wfr va in
        assertM (onat_eqb wl (k_wfl ka)) ;;
        let! wr := right_wfl va in
        assertM (onat_eqb wr (k_wfr ka)) ;;
        let! x := tget t in
        match get3 (t_n x) (ccw e) with
        | None => raise AssertionError
        | Some b =>
            relink b t None ;;
            let! fan_b := replace_kvertex b v vb now ccw in
            let! x := tget t in
            match get3 (t_n x) (cw e) with
            | None => raise AssertionError
            | Some a =>
                relink a t None ;;
                let! fan_a := replace_kvertex a v va now cw in
                set_tstops t now ;;
                let! fast_a := vattr va k_inf_fast in
                whenM fast_a (fans fan_a va now Cw step) ;;
                let! fast_b := vattr vb k_inf_fast in
                whenM fast_b (fans fan_b vb now Ccw step)
            end
        end
    | _ => raise AssertionError
    end.
  Definition handle_split_event : event -> Z -> M unit :=
    handle_split_event_with (handle_parallel_fan reclimit).
End SplitEvent.
