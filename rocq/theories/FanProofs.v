(** Walks around a vertex: get_fan and replace_kvertex *)
From Verif Require Import Base Arith Calc VectorOps Line2d Primitives Collapse CollapseProofs EventsLib
  FlipEvent ParallelEvent EdgeEvent SplitEvent EventLoop Pass OpSpec Order StopSpec RunBase RunTimed RunLoop Decent Total Fan.

Definition side_eq_dec (a b : side) : {a = b} + {a <> b}.
Proof. decide equality. Defined.

Section FanProofs.
  Context {A : Arith} {E : Env A}.

  (** [is_fan s v d t l]: turning around [v] in direction [d] from [t] passes [l]
      and then leaves the triangulation *)
  Inductive is_fan (s : state) (v : nat) (d : side -> side) : option nat -> list nat -> Prop :=
  | fan_end : is_fan s v d None []
  | fan_step t sd l : get3 (t_v (ts s t)) sd = v -> is_fan s v d (get3 (t_n (ts s t)) (d sd)) l ->
      is_fan s v d (Some t) (t :: l).

  Lemma is_fan_weaken s s1 v d t l : is_fan s1 v d t l ->
    (forall u, t_n (ts s1 u) = t_n (ts s u)) ->
    (forall u sd, get3 (t_v (ts s1 u)) sd = v -> t_v (ts s1 u) = t_v (ts s u)) -> is_fan s v d t l.
  Proof.
    intros H N K. induction H as [|t sd l H _ IH]; [constructor|].
    apply fan_step with sd; [|rewrite <- N; exact IH]. rewrite <- (K _ _ H). exact H.
  Qed.

  Lemma corners_set_eq v newv (x y : ktri) sd : v <> newv -> get3 (t_v x) sd = v -> t_v y = set3 (t_v x) sd newv ->
    S (corners v y) = corners v x.
  Proof.
    intros N H K. unfold corners, count3. rewrite K. subst v.
    destruct sd; cbn in *; rewrite Nat.eqb_refl;
      match goal with |- context [Nat.eqb ?a newv] => destruct (Nat.eqb_spec a newv); [contradiction|] end;
      repeat match goal with |- context [Nat.eqb ?a ?b] => destruct (Nat.eqb a b) end; lia.
  Qed.
  Lemma corners_pos v (x : ktri) sd : get3 (t_v x) sd = v -> 1 <= corners v x.
  Proof.
    intros <-. unfold corners, count3. destruct sd; cbn; rewrite Nat.eqb_refl;
      repeat match goal with |- context [Nat.eqb ?a ?b] => destruct (Nat.eqb a b) end; lia.
  Qed.
  Lemma get_set3 {X} (x : triple X) sd y i : get3 (set3 x sd y) i = if side_eq_dec i sd then y else get3 x i.
  Proof. destruct sd, i; reflexivity. Qed.

  (** one step of the walk leaves links alone and replaces one corner *)
  Lemma walk_step fuel t v newv now d s fan s' :
    replace_walk (S fuel) (Some t) v newv now d s = Ok (fan, s') ->
    exists sd s2 l, get3 (t_v (ts s t)) sd = v /\ fan = t :: l /\
      replace_walk fuel (get3 (t_n (ts s t)) (d sd)) v newv now d s2 = Ok (l, s') /\
      (forall u, t_n (ts s2 u) = t_n (ts s u)) /\
      (forall u, t_v (ts s2 u) = if Nat.eq_dec u t then set3 (t_v (ts s t)) sd newv else t_v (ts s u)).
  Proof.
    cbn [replace_walk]. intros H.
    apply bind_ok in H. destruct H as (x & s1 & H & K). injection H as <- <-.
    apply bind_ok in K. destruct K as (sd & s1 & H & K). unfold rdr in H. apply rd_ok in H. destruct H as [V ->].
    apply vindex_get in V.
    apply bind_ok in K. destruct K as ([] & s1 & H & K). apply modt_spec in H.
    apply bind_ok in K. destruct K as (fast & s1' & H1 & K). unfold vattr in H1. apply rd_ok in H1. destruct H1 as [F ->].
    apply bind_ok in K. destruct K as (u & s2 & H1 & K).
    assert (M : same_mesh s1 s2).
    { destruct (if fast then _ else None); [apply (mesh_forget _ _ _ _ H1)|apply (mesh_riq _ _ _ _ _ H1)]. }
    apply bind_ok in K. destruct K as (y & s3 & H2 & K). injection H2 as <- <-.
    apply bind_ok in K. destruct K as (l & s3 & H2 & K). apply ret_ok in K. destruct K as [-> ->].
    exists sd, s2, l. subst s1.
    assert (N2 : forall u, t_n (ts s2 u) = t_n (ts s u)).
    { intros w. destruct (M w) as [_ ->]. cbn.
      destruct (upd_case (ts s) t (tri_v (ts s t) (set3 (t_v (ts s t)) sd newv)) w) as [[-> ->]|[_ ->]]; reflexivity. }
    rewrite N2 in H2. repeat split; auto.
    intros w. destruct (M w) as [-> _]. cbn. destruct (Nat.eq_dec w t) as [->|D].
    - rewrite upd_same. reflexivity.
    - rewrite upd_other by auto. reflexivity.
  Qed.

  Theorem walk_changes fuel : forall t v newv now d s fan s', v <> newv ->
    replace_walk fuel t v newv now d s = Ok (fan, s') ->
    (forall u, t_n (ts s' u) = t_n (ts s u)) /\
    (forall u, count_occ Nat.eq_dec fan u + corners v (ts s' u) = corners v (ts s u)) /\
    (forall u sd, get3 (t_v (ts s' u)) sd = get3 (t_v (ts s u)) sd \/
       get3 (t_v (ts s u)) sd = v /\ get3 (t_v (ts s' u)) sd = newv /\ In u fan) /\
    ((forall u, In u fan -> corners v (ts s u) <= 1) -> is_fan s v d t fan).
  Proof.
    induction fuel as [|fuel IH]; intros t v newv now d s fan s' N H.
    { cbn [replace_walk] in H. destruct t; [discriminate|]. injection H as <- <-. repeat split; auto. intros _. constructor. }
    destruct t as [t|].
    2:{ cbn [replace_walk] in H. injection H as <- <-. repeat split; auto. intros _. constructor. }
    apply walk_step in H. destruct H as (sd & s2 & l & V & -> & W & N2 & V2).
    apply IH in W; auto. destruct W as (W1 & W2 & W3 & W4).
    split; [intros u; rewrite W1; apply N2|]. split; [|split].
    - intros u. specialize (W2 u). cbn [count_occ].
      destruct (Nat.eq_dec t u) as [<-|D].
      + rewrite <- (corners_set_eq v newv (ts s t) (ts s2 t) sd N V); [lia|].
        rewrite V2. destruct (Nat.eq_dec t t); [reflexivity|contradiction].
      + assert (K : corners v (ts s2 u) = corners v (ts s u)); [|lia].
        unfold corners. rewrite V2. destruct (Nat.eq_dec u t); [congruence|reflexivity].
    - intros u i. specialize (V2 u). destruct (Nat.eq_dec u t) as [->|D].
      + destruct (W3 t i) as [K|(K1 & K2 & K3)].
        * rewrite K, V2, get_set3. destruct (side_eq_dec i sd) as [->|]; [|auto]. right. simpl. auto.
        * rewrite V2, get_set3 in K1. destruct (side_eq_dec i sd); [congruence|]. right. simpl. auto.
      + destruct (W3 u i) as [K|(K1 & K2 & K3)]; rewrite V2 in *; [auto|]. right. simpl. auto.
    - intros C. apply fan_step with sd; [exact V|].
      apply (is_fan_weaken s s2); auto.
      + apply W4. intros u Hu. unfold corners. rewrite V2. destruct (Nat.eq_dec u t) as [->|]; [|apply C; simpl; auto].
        assert (G : S (corners v (ts s2 t)) = corners v (ts s t)).
        { apply (corners_set_eq v newv (ts s t) (ts s2 t) sd N V). rewrite V2. destruct (Nat.eq_dec t t); [reflexivity|contradiction]. }
        unfold corners in G. rewrite V2 in G. destruct (Nat.eq_dec t t); [|contradiction]. specialize (C t (or_introl eq_refl)). unfold corners in C. lia.
      + intros u i Hu. rewrite V2. destruct (Nat.eq_dec u t) as [->|]; [|reflexivity]. exfalso.
        assert (G : S (corners v (ts s2 t)) = corners v (ts s t)).
        { apply (corners_set_eq v newv (ts s t) (ts s2 t) sd N V). rewrite V2. destruct (Nat.eq_dec t t); [reflexivity|contradiction]. }
        specialize (C t (or_introl eq_refl)). apply corners_pos in Hu. lia.
  Qed.

  (** enough fuel makes no difference *)
  Lemma walk_more fuel : forall fuel' t v newv now d s,
    (forall e, replace_walk fuel t v newv now d s = Err e -> e <> OutOfFuel) -> fuel <= fuel' ->
    replace_walk fuel' t v newv now d s = replace_walk fuel t v newv now d s.
  Proof.
    induction fuel as [|fuel IH]; intros fuel' t v newv now d s H L.
    - destruct t as [t|]; [|destruct fuel'; reflexivity]. exfalso. apply (H OutOfFuel); reflexivity.
    - destruct fuel' as [|fuel']; [lia|]. cbn [replace_walk] in *. destruct t as [t|]; [|reflexivity].
      unfold bind in *. destruct (tget t s) as [[x s1]|]; [|reflexivity].
      destruct (rdr (vindex x v) s1) as [[sd s2]|]; [|reflexivity].
      destruct (set_tv t sd newv s2) as [[u s3]|]; [|reflexivity].
      destruct (vattr newv k_inf_fast s3) as [[fast s4]|]; [|reflexivity].
      match type of H with context [match ?m s4 with Ok _ => _ | Err _ => _ end] => destruct (m s4) as [[u2 s5]|] end; [|reflexivity].
      destruct (tget t s5) as [[y s6]|]; [|reflexivity].
      rewrite (IH fuel'); [reflexivity| |lia].
      intros e He. apply H. rewrite He. reflexivity.
  Qed.

  (** ** get_fan *)
  Lemma fan_walk_sound fuel : forall start t v d s fan s',
    fan_walk fuel start t v d s = Ok (fan, s') -> s' = s /\ is_fan s v d t fan.
  Proof.
    induction fuel as [|fuel IH]; intros start t v d s fan s' H.
    - destruct t; [discriminate|]. injection H as <- <-. split; [reflexivity|constructor].
    - destruct t as [t|]; [|injection H as <- <-; split; [reflexivity|constructor]].
      cbn [fan_walk] in H.
      apply bind_ok in H. destruct H as (x & s1 & H & K). injection H as <- <-.
      apply bind_ok in K. destruct K as (sd & s1 & H & K). unfold rdr in H. apply rd_ok in H. destruct H as [V ->].
      apply vindex_get in V. cbv zeta in K.
      apply bind_ok in K. destruct K as (u & s1 & H & K). pose proof (ro_assertM _ _ _ _ H). subst s1.
      apply bind_ok in K. destruct K as (l & s1 & H1 & K). apply ret_ok in K. destruct K as [-> ->].
      apply IH in H1. destruct H1 as [-> H1]. split; [reflexivity|]. apply fan_step with sd; auto.
  Qed.

  (** the triangle after [t] *)
  Definition next (s : state) (v : nat) (d : side -> side) (t : nat) : option nat :=
    match vindex (ts s t) v with Ok sd => get3 (t_n (ts s t)) (d sd) | Err _ => None end.

  Lemma fan_walk_fuel s v d start :
    (forall t sd n, get3 (t_n (ts s t)) sd = Some n -> n < nt s) ->
    (forall t u w, next s v d t = Some w -> next s v d u = Some w -> t = u) ->
    forall fuel t path, NoDup (t :: path) -> Forall (fun u => u < nt s) (t :: path) ->
    (* [path] leads from [start] to [t] *)
    (forall u l r, path = l ++ u :: r -> next s v d u = Some (last l t)) ->
    last path t = start ->
    nt s < fuel + length (t :: path) ->
    forall e, fan_walk fuel start (Some t) v d s = Err e -> e <> OutOfFuel.
  Proof.
    intros HL HI. induction fuel as [|fuel IH]; intros t path ND B C L F e H.
    - exfalso.
      assert (length (t :: path) <= length (seq 0 (nt s))); [|rewrite seq_length in *; simpl in *; lia].
      apply NoDup_incl_length; auto. intros u Hu. rewrite Forall_forall in B. apply in_seq. specialize (B u Hu). lia.
    - cbn [fan_walk] in H. unfold bind at 1, tget, gets in H. unfold bind at 1, rdr, rd in H.
      destruct (vindex (ts s t) v) as [sd|e1] eqn:V.
      2:{ injection H as <-. intros ->. apply pdec_vindex in V. discriminate. }
      assert (NX : next s v d t = get3 (t_n (ts s t)) (d sd)) by (unfold next; rewrite V; reflexivity).
      cbv zeta in H. destruct (get3 (t_n (ts s t)) (d sd)) as [n|] eqn:EN.
      2:{ exfalso. destruct fuel; discriminate. }
      destruct (Nat.eqb_spec n start) as [->|NS]; [injection H as <-; discriminate|].
      unfold bind at 1 in H. cbn [assertM negb ret] in H. unfold bind in H.
      destruct (fan_walk fuel start (Some n) v d s) as [[l s1]|e1] eqn:W; [discriminate|].
      injection H as <-. revert W. apply (IH n (t :: path)).
      + constructor; [|exact ND]. intros K. apply in_split in K. destruct K as (l & r & K).
        destruct r as [|w r].
        * apply NS. rewrite <- L. assert (K1 : last (t :: path) t = n) by (rewrite K; apply last_last).
          rewrite <- K1. destruct path; reflexivity.
        * (* the predecessor of n in the path leads to n too *)
          assert (W : next s v d w = Some n).
          { destruct l as [|x l].
            - injection K as <- K. rewrite (C w [] r K). reflexivity.
            - injection K as <- K.
              rewrite (C w (l ++ [n]) r); [f_equal; apply last_last|]. rewrite <- app_assoc. exact K. }
          assert (w = t) by (eapply HI; [exact W|rewrite NX; reflexivity]). subst w.
          destruct l as [|x l]; injection K as <- K.
          -- inversion ND; subst. apply H1. simpl. auto.
          -- inversion ND; subst. apply H1. apply in_or_app. right. simpl. auto.
      + constructor; [eapply HL, EN|exact B].
      + intros u [|x l] r K; injection K as <- K; [exact NX|].
        rewrite (C u l r K). f_equal. destruct l as [|y l]; [reflexivity|].
        change (last (t :: y :: l) n) with (last (y :: l) n). clear. revert y. induction l; intros y; [reflexivity|].
        change (last (y :: a :: l) t) with (last (a :: l) t). rewrite IHl. reflexivity.
      + rewrite <- L. destruct path as [|x path]; [reflexivity|]. change (last (t :: x :: path) n) with (last (x :: path) n).
        clear. revert x. induction path; intros x; [reflexivity|].
        change (last (a :: path) n = last (a :: path) t). apply IHpath.
      + simpl in *. lia.
  Qed.
End FanProofs.
