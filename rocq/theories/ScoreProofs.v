(** Memoised feasibility of routes, and choosing by score:
    criterions.py, constants.py:48-77. *)
From Coq Require Export Sorted.
From Verif Require Export ValueProofs.

Section frames.
  (** operations that leave all route objects alone *)
  Definition keeps {A} (m : M A) : Prop := forall h, h_routes (m h).2 = h_routes h.
  Lemma keeps_ret {A} (a : A) : keeps (ret a).
  Proof. done. Qed.
  Lemma keeps_raise {A} e : keeps (raise e : M A).
  Proof. done. Qed.
  Lemma keeps_bind {A B} (m : M A) (k : A -> M B) : keeps m -> (forall a, keeps (k a)) -> keeps (bind m k).
  Proof.
    intros Hm Hk h. unfold bind. specialize (Hm h). destruct (m h) as [[a|e] h1]; cbn in *; [|done].
    rewrite <- Hm. apply Hk.
  Qed.
  Lemma keeps_assert b : keeps (py_assert b).
  Proof. by destruct b. Qed.
  Lemma keeps_some {A} (o : option A) : keeps (py_some o).
  Proof. by destruct o. Qed.
  Lemma keeps_nth {A} (l : list A) i : keeps (py_nth l i).
  Proof. unfold py_nth. by destruct (l !! i). Qed.
  Lemma keeps_stop_get s : keeps (stop_get s).
  Proof. intros h. unfold stop_get. by destruct (h_stops h !! s). Qed.
  Lemma keeps_pt_get s : keeps (pt_get s).
  Proof. intros h. unfold pt_get. by destruct (h_pts h !! s). Qed.
  Lemma keeps_route_get s : keeps (route_get s).
  Proof. intros h. unfold route_get. by destruct (h_routes h !! s). Qed.
  Lemma keeps_stop_upd s f : keeps (stop_upd s f).
  Proof. done. Qed.
  Lemma keeps_pt_upd s f : keeps (pt_upd s f).
  Proof. done. Qed.
  Lemma keeps_mapM {A B} (f : A -> M B) l : (forall x, keeps (f x)) -> keeps (mapM f l).
  Proof.
    intros Hf. induction l; cbn; [apply keeps_ret|]. apply keeps_bind; [done|]. intros. apply keeps_bind; [done|]. intros. apply keeps_ret.
  Qed.
  Lemma keeps_foldM {A B} (f : B -> A -> M B) l : (forall b x, keeps (f b x)) -> forall b, keeps (foldM f b l).
  Proof. intros Hf. induction l; intros b; cbn; [apply keeps_ret|]. by apply keeps_bind. Qed.
  Lemma keeps_chain {A} (f : nat -> M A) : (forall n, keeps (f n)) -> keeps (chain_fuel f).
  Proof. intros Hf h. apply Hf. Qed.
End frames.

Ltac keeps :=
  repeat lazymatch goal with
    | |- keeps (ret _) => apply keeps_ret
    | |- keeps (raise _) => apply keeps_raise
    | |- keeps (py_assert _) => apply keeps_assert
    | |- keeps (py_some _) => apply keeps_some
    | |- keeps (py_nth _ _) => apply keeps_nth
    | |- keeps (stop_get _) => apply keeps_stop_get
    | |- keeps (pt_get _) => apply keeps_pt_get
    | |- keeps (route_get _) => apply keeps_route_get
    | |- keeps (stop_upd _ _) => apply keeps_stop_upd
    | |- keeps (pt_upd _ _) => apply keeps_pt_upd
    | |- keeps (bind _ _) => apply keeps_bind; [|intros ?]
    | |- keeps (mapM _ _) => apply keeps_mapM; intros ?
    | |- keeps (foldM _ _ _) => apply keeps_foldM; intros ? ?
    | |- keeps (chain_fuel _) => apply keeps_chain; intros ?
    | |- keeps (match ?x with _ => _ end) => destruct x
    | |- keeps (let x := _ in _) => cbv zeta
    end.

Section frames2.
  Context {W : World}.
  Lemma keeps_trips_of l : keeps (trips_of l).
  Proof. unfold trips_of. keeps. Qed.
  Hint Resolve keeps_trips_of : core.
  Lemma keeps_earliest s : keeps (stop_earliest s).
  Proof. unfold stop_earliest. keeps; auto. Qed.
  Lemma keeps_latest s : keeps (stop_latest s).
  Proof. unfold stop_latest. keeps; auto. Qed.
  Lemma keeps_load_time s : keeps (stop_load_time s).
  Proof. unfold stop_load_time. keeps; auto. Qed.
  Lemma keeps_previous_position s : keeps (previous_position s).
  Proof. unfold previous_position. keeps. Qed.
  Lemma keeps_previous_departure dep s : (forall q, keeps (dep q)) -> keeps (previous_departure_with dep s).
  Proof. intros H. unfold previous_departure_with. keeps; auto. Qed.
  Lemma keeps_transit dep s : (forall q, keeps (dep q)) -> keeps (transit_with dep s).
  Proof. intros H. unfold transit_with. keeps; auto using keeps_previous_position, keeps_previous_departure. Qed.
  Lemma keeps_arrival_with dep s : (forall q, keeps (dep q)) -> keeps (arrival_with dep s).
  Proof. intros H. unfold arrival_with. keeps; auto using keeps_previous_departure, keeps_transit. Qed.
  Lemma keeps_starting_with dep s : (forall q, keeps (dep q)) -> keeps (starting_with dep s).
  Proof. intros H. unfold starting_with. keeps; auto using keeps_arrival_with, keeps_earliest. Qed.
  Lemma keeps_departure_fuel n : forall s, keeps (departure_fuel n s).
  Proof. induction n; intros s; cbn; keeps; auto using keeps_starting_with, keeps_load_time. Qed.
  Lemma keeps_departure s : keeps (departure_time s).
  Proof. unfold departure_time. keeps. apply keeps_departure_fuel. Qed.
  Lemma keeps_arrival s : keeps (arrival_time s).
  Proof. unfold arrival_time. keeps. apply keeps_arrival_with, keeps_departure_fuel. Qed.
  Lemma keeps_starting s : keeps (starting_time s).
  Proof. unfold starting_time. keeps. apply keeps_starting_with, keeps_departure_fuel. Qed.
  Lemma keeps_capacity_fuel n : forall s, keeps (capacity_fuel n s).
  Proof. induction n; intros s; cbn; keeps; auto. Qed.
  Lemma keeps_capacity s : keeps (capacity s).
  Proof. unfold capacity. keeps. apply keeps_capacity_fuel. Qed.
  Lemma keeps_all_previous s : keeps (all_previous s).
  Proof. unfold all_previous. keeps. revert s. induction n; intros s; cbn; keeps; auto. Qed.
  Lemma keeps_stop_feasible s : keeps (stop_feasible s).
  Proof. unfold stop_feasible. keeps; auto using keeps_earliest, keeps_starting, keeps_latest, keeps_capacity. Qed.
  Lemma keeps_pickup_time p : keeps (pickup_time p).
  Proof. unfold pickup_time. keeps. apply keeps_departure. Qed.
  Lemma keeps_delivery_time p : keeps (delivery_time p).
  Proof. unfold delivery_time. keeps. apply keeps_starting. Qed.
  Lemma keeps_pt_duration p : keeps (pt_duration p).
  Proof. unfold pt_duration. keeps; [apply keeps_delivery_time|apply keeps_pickup_time]. Qed.
  Lemma keeps_pt_feasible p : keeps (pt_is_feasible p).
  Proof.
    unfold pt_is_feasible. keeps; auto using keeps_all_previous, keeps_pickup_time, keeps_delivery_time, keeps_stop_feasible, keeps_pt_duration.
  Qed.
  Lemma keeps_route_stops r : keeps (route_stops r).
  Proof. unfold route_stops. keeps. Qed.
  Lemma keeps_planned_trips r : keeps (planned_trips r).
  Proof. unfold planned_trips. keeps. apply keeps_route_stops. Qed.
  Lemma keeps_first_stop r : keeps (first_stop r).
  Proof. unfold first_stop. keeps. apply keeps_route_stops. Qed.
  Lemma keeps_last_stop r : keeps (last_stop r).
  Proof. unfold last_stop. keeps. apply keeps_route_stops. Qed.
  Lemma keeps_last_departure r : keeps (last_departure_time r).
  Proof. unfold last_departure_time. keeps; [apply keeps_last_stop|apply keeps_departure]. Qed.
  Lemma keeps_route_duration r : keeps (route_duration r).
  Proof.
    unfold route_duration, first_departure_time.
    keeps; auto using keeps_last_departure, keeps_first_stop, keeps_departure.
  Qed.
  Lemma keeps_feasible_trips r : keeps (feasible_planned_trips r).
  Proof. unfold feasible_planned_trips. keeps; auto using keeps_planned_trips, keeps_pt_feasible. Qed.

  (** reading feasibility writes only the answer into that route *)
  Lemma route_feasible_memo r h b h' : route_feasible r h = (Ok b, h') ->
    h_routes h' = alter (cache_route_feasible (Some b)) r (h_routes h) /\
    (forall c b0, h_routes h !! r = Some c -> rt_feasible c = Some b0 -> b = b0).
  Proof.
    unfold route_feasible, route_get. unfold bind at 1. destruct (h_routes h !! r) as [c|] eqn:Hc; [|done].
    destruct (rt_feasible c) as [b0|] eqn:Hb.
    - intros [= -> ->]. split; [|congruence].
      apply list_eq. intros i. destruct (decide (i = r)) as [->|Hne]; [|by rewrite list_lookup_alter_ne].
      rewrite list_lookup_alter, Hc. cbn. f_equal. destruct c; cbn in *. by subst.
    - unfold bind at 1. match goal with |- context [ (match ?m h with _ => _ end) ] => set (m0 := m) end.
      assert (K : keeps m0).
      { unfold m0. keeps; auto using keeps_first_stop, keeps_arrival, keeps_last_stop, keeps_last_departure, keeps_route_duration, keeps_feasible_trips. }
      specialize (K h). destruct (m0 h) as [[a|e] h1]; [|done]. cbn in K. intros [= -> <-].
      split; [|intros c' b0 [= <-]; congruence]. cbn. by rewrite K.
  Qed.
End frames2.

Section scores.
  Context {W : World}.

  (** the answer memoised for a route *)
  Definition memo (h : heap) (r : nat) (b : bool) : Prop :=
    exists c, h_routes h !! r = Some c /\ rt_feasible c = Some b.
  (** memoised answers are not lost *)
  Definition mono (h h' : heap) : Prop := soft h h' /\ forall r b, memo h r b -> memo h' r b.
  Lemma mono_refl h : mono h h.
  Proof. split; [apply soft_refl|done]. Qed.
  Lemma mono_trans h1 h2 h3 : mono h1 h2 -> mono h2 h3 -> mono h1 h3.
  Proof. intros [S1 M1] [S2 M2]. split; [by eapply soft_trans|auto]. Qed.
  Lemma mono_quiet h h' : quiet h h' -> mono h h'.
  Proof.
    intros [S (_ & _ & F)]. split; [done|]. intros r b (c & Hc & Hb). specialize (F r). rewrite Hc in F. cbn in F.
    destruct (h_routes h' !! r) as [c'|] eqn:Hc'; [|done]. injection F as F. exists c'. split; [done|congruence].
  Qed.
  Lemma mono_tick h n : mono h (MkHeap (h_stops h) (h_pts h) (h_routes h) n).
  Proof. split; [apply soft_tick|done]. Qed.

  Lemma route_feasible_mono h r v ids L : sane_durations -> sane_capacities -> RouteOK h r v ids L ->
    runs (route_feasible r) h (fun b h' => mono h h' /\ memo h' r b /\ forall b0, memo h r b0 -> b = b0).
  Proof.
    intros SD SC R. pose proof (route_feasible_runs h r v ids L SD SC (proj1 R) (RouteW_nonempty _ _ _ _ _ R)) as H.
    apply runs_eq in H as (b & h' & E & S & _). apply runs_eq. exists b, h'. split; [done|].
    destruct (route_feasible_memo _ _ _ _ E) as [E1 E2].
    destruct (rw_cell _ _ _ _ _ (proj1 R)) as (c & Hc & _).
    assert (Hm : memo h' r b).
    { exists (cache_route_feasible (Some b) c). rewrite E1, list_lookup_alter, Hc. done. }
    split; [|split; [done|]].
    - split; [done|]. intros r2 b2 (c2 & Hc2 & Hb2). destruct (decide (r2 = r)) as [->|Hne].
      + by rewrite (E2 c2 b2 Hc2 Hb2) in Hm.
      + exists c2. rewrite E1, list_lookup_alter_ne by done. done.
    - intros b0 (c0 & Hc0 & Hb0). by eapply E2.
  Qed.

  (** the score that a criterion gives to a route *)
  Definition Score (k : criterion) (h : heap) (r : nat) (x : score) : Prop :=
    exists v ids L b, RouteOK h r v ids L /\ memo h r b /\ x = if b : bool then score_of k v L else worst k.
  Lemma Score_mono k h h' r x : mono h h' -> Score k h r x -> Score k h' r x.
  Proof.
    intros [S Mm] (v & ids & L & b & R & Hm & E). exists v, ids, L, b.
    split; [by eapply RouteOK_soft|]. split; [auto|done].
  Qed.
  Lemma Score_det k h r x y : Score k h r x -> Score k h r y -> x = y.
  Proof.
    intros (v & ids & L & b & R & (c & Hc & Hm) & E) (v' & ids' & L' & b' & R' & (c' & Hc' & Hm') & E').
    assert (b = b') as <- by congruence.
    destruct (RouteW_det _ _ _ _ _ _ _ _ (proj1 R) (proj1 R')) as (<- & <- & <-). congruence.
  Qed.
  Lemma scoring_runs k h r v ids L : sane_durations -> sane_capacities -> RouteOK h r v ids L ->
    runs (scoring k r) h (fun x h' => mono h h' /\ Score k h' r x).
  Proof.
    intros SD SC R. unfold scoring. step. eapply runs_mono; [by eapply route_feasible_mono|].
    intros b h1 (M1 & Hm & _). pose proof (RouteOK_soft _ _ _ _ _ _ (proj1 M1) R) as R1.
    destruct b; cbn.
    - eapply runs_mono; [eapply score_feasible_gives; [apply R1|by eapply RouteW_nonempty]|].
      intros x h2 [-> Q2]. pose proof (mono_quiet _ _ Q2) as M2. split; [by eapply mono_trans|].
      exists v, ids, L, true. split; [eapply RouteOK_soft; [apply Q2|done]|]. split; [by apply M2|done].
    - apply runs_ret. split; [done|]. exists v, ids, L, false. split; [done|]. split; [done|]. by destruct k.
  Qed.

  (** ** Orders on scores *)
  Lemma score_ltb_irrefl x : score_ltb x x = false.
  Proof. destruct x; [done| |done]. cbn. by rewrite (proj2 (Qle_bool_iff q q) (Qle_refl q)). Qed.
  Lemma Qle_bool_false x y : Qle_bool x y = false <-> (y < x)%Q.
  Proof.
    split.
    - intros H. apply Qnot_le_lt. intros Hle. apply Qle_bool_iff in Hle. congruence.
    - intros H. destruct (Qle_bool x y) eqn:E; [|done]. apply Qle_bool_iff in E. exfalso. by eapply Qlt_not_le.
  Qed.
  (** [score_ltb] is a strict weak order *)
  Lemma score_nlt_trans x y z : score_ltb y x = false -> score_ltb z y = false -> score_ltb z x = false.
  Proof.
    destruct x, y, z; cbn; try done. rewrite !negb_false_iff, !Qle_bool_iff. apply Qle_trans.
  Qed.
  Lemma score_lt_nlt x y : score_ltb x y = true -> score_ltb y x = false.
  Proof.
    destruct x, y; cbn; try done. rewrite negb_true_iff, negb_false_iff, Qle_bool_false, Qle_bool_iff. apply Qlt_le_weak.
  Qed.
End scores.

(** ** Choosing *)
Section choice.
  Context {A K : Type} (lt : K -> K -> bool).
  Hypothesis irrefl : forall x, lt x x = false.
  Hypothesis nlt_trans : forall x y z, lt y x = false -> lt z y = false -> lt z x = false.
  Hypothesis lt_nlt : forall x y, lt x y = true -> lt y x = false.

  (** [b] is the first of [l] that no other one exceeds *)
  Definition first_max (l : list (K * A)) (b : K * A) : Prop :=
    exists l1 l2, l = l1 ++ b :: l2 /\
      (forall x, x ∈ l1 -> lt x.1 b.1 = true) /\ (forall x, x ∈ l2 -> lt b.1 x.1 = false).
  Definition first_min (l : list (K * A)) (b : K * A) : Prop :=
    exists l1 l2, l = l1 ++ b :: l2 /\
      (forall x, x ∈ l1 -> lt b.1 x.1 = true) /\ (forall x, x ∈ l2 -> lt x.1 b.1 = false).
  Lemma lt_trans' x y z : lt x y = true -> lt y z = true -> lt x z = true.
  Proof.
    intros H1 H2. destruct (lt x z) eqn:E; [done|]. exfalso.
    (* z not above x, y not... *)
    pose proof (lt_nlt _ _ H2) as H3. pose proof (nlt_trans _ _ _ H3 E). congruence.
  Qed.
  Lemma lt_nlt_trans x y z : lt x y = true -> lt z y = false -> lt x z = true.
  Proof. intros H1 H2. destruct (lt x z) eqn:E; [done|]. pose proof (nlt_trans _ _ _ H2 E). congruence. Qed.
  Lemma max_from_spec (l : list (K * A)) : forall b, first_max (b :: l) (max_from lt b l).
  Proof.
    induction l as [|x l IH]; intros b; cbn.
    - exists [], []. split; [done|]. split; intros ? H; inversion H.
    - destruct (lt b.1 x.1) eqn:E.
      + destruct (IH x) as (l1 & l2 & El & H1 & H2). exists (b :: l1), l2. cbn. rewrite El. split; [done|]. split; [|done].
        intros y [->|Hy]%elem_of_cons; [|auto].
        destruct l1 as [|z l1]; cbn in El; injection El as E1 E2.
        * by rewrite <- E1.
        * eapply lt_trans'; [exact E|]. apply H1. rewrite E1. left.
      + destruct (IH b) as (l1 & l2 & El & H1 & H2). destruct l1 as [|z l1]; cbn in El; injection El as E1 E2.
        * exists [], (x :: l). cbn. rewrite <- E1. split; [done|]. split; [intros ? H; inversion H|].
          intros y [->|Hy]%elem_of_cons; [done|]. rewrite E1. rewrite E2 in Hy. by apply H2.
        * exists (b :: x :: l1), l2. cbn. split; [do 2 f_equal; exact E2|]. split; [|done]. subst z.
          intros y [->|[->|Hy]%elem_of_cons]%elem_of_cons; [apply H1; left| |apply H1; by right].
          assert (Hb : lt b.1 (max_from lt b l).1 = true) by (apply H1; left).
          destruct (lt x.1 (max_from lt b l).1) eqn:E3; [done|].
          pose proof (nlt_trans _ _ _ E3 E). congruence.
  Qed.
  Lemma min_from_spec l : forall b, first_min (b :: l) (min_from lt b l).
  Proof.
    induction l as [|x l IH]; intros b; cbn.
    - exists [], []. split; [done|]. split; intros ? H; inversion H.
    - destruct (lt x.1 b.1) eqn:E.
      + destruct (IH x) as (l1 & l2 & El & H1 & H2). exists (b :: l1), l2. cbn. rewrite El. split; [done|]. split; [|done].
        intros y [->|Hy]%elem_of_cons; [|auto].
        destruct l1 as [|z l1]; cbn in El; injection El as E1 E2.
        * by rewrite <- E1.
        * eapply lt_trans'; [|exact E]. apply H1. rewrite E1. left.
      + destruct (IH b) as (l1 & l2 & El & H1 & H2). destruct l1 as [|z l1]; cbn in El; injection El as E1 E2.
        * exists [], (x :: l). cbn. rewrite <- E1. split; [done|]. split; [intros ? H; inversion H|].
          intros y [->|Hy]%elem_of_cons; [done|]. rewrite E1. rewrite E2 in Hy. by apply H2.
        * exists (b :: x :: l1), l2. cbn. split; [do 2 f_equal; exact E2|]. split; [|done]. subst z.
          intros y [->|[->|Hy]%elem_of_cons]%elem_of_cons; [apply H1; left| |apply H1; by right].
          assert (Hb : lt (min_from lt b l).1 b.1 = true) by (apply H1; left).
          destruct (lt (min_from lt b l).1 x.1) eqn:E3; [done|].
          pose proof (nlt_trans _ _ _ E E3). congruence.
  Qed.

  (** sorted lists *)
  Definition inorder (rev : bool) (x y : K * A) : Prop := before lt rev y.1 x.1 = false.
  Lemma before_nlt_trans rev x y z : before lt rev y x = false -> before lt rev z y = false -> before lt rev z x = false.
  Proof. destruct rev; cbn; eauto. Qed.
  Lemma before_lt_nlt rev x y : before lt rev x y = true -> before lt rev y x = false.
  Proof. destruct rev; cbn; eauto. Qed.
  Lemma insert_keyed_perm rev (x : K * A) l : insert_keyed lt rev x l ≡ₚ x :: l.
  Proof.
    induction l as [|y l IH]; cbn; [done|]. destruct (before lt rev y.1 x.1); [|done]. rewrite IH. apply Permutation_swap.
  Qed.
  Lemma sort_keyed_perm rev (l : list (K * A)) : sort_keyed lt rev l ≡ₚ l.
  Proof. induction l as [|x l IH]; cbn; [done|]. by rewrite insert_keyed_perm, IH. Qed.
  Lemma insert_keyed_sorted rev (x : K * A) l : StronglySorted (inorder rev) l -> StronglySorted (inorder rev) (insert_keyed lt rev x l).
  Proof.
    induction 1 as [|y l Hl IH Hy]; cbn; [repeat constructor|].
    destruct (before lt rev y.1 x.1) eqn:E.
    - constructor; [done|]. apply Forall_forall. intros z Hz. rewrite insert_keyed_perm in Hz.
      apply elem_of_cons in Hz as [->|Hz]; [by apply before_lt_nlt|]. rewrite Forall_forall in Hy. by apply Hy.
    - constructor; [by constructor|]. constructor; [exact E|]. eapply Forall_impl; [exact Hy|].
      intros z Hz. eapply before_nlt_trans; [exact E|exact Hz].
  Qed.
  Lemma sort_keyed_sorted rev (l : list (K * A)) : StronglySorted (inorder rev) (sort_keyed lt rev l).
  Proof. induction l; cbn; [constructor|by apply insert_keyed_sorted]. Qed.
  (** stability: elements with equal keys keep their order *)
  Definition tied (x y : K * A) : Prop := lt x.1 y.1 = false /\ lt y.1 x.1 = false.
  Lemma insert_keyed_stable rev x l (P : K * A -> bool) :
    (P x = true -> forall y, y ∈ l -> P y = true -> before lt rev y.1 x.1 = false) ->
    List.filter P (insert_keyed lt rev x l) = List.filter P (x :: l).
  Proof.
    intros H. induction l as [|y l IH]; [done|]. cbn [insert_keyed].
    destruct (before lt rev y.1 x.1) eqn:E; [|done]. cbn. rewrite IH; [|intros; apply H; [done|by right|done]]. cbn.
    destruct (P x) eqn:Px, (P y) eqn:Py; try done. rewrite (H eq_refl y) in E; [done|left|done].
  Qed.
  Lemma sort_keyed_stable rev l (P : K * A -> bool) :
    (forall x y, x ∈ l -> y ∈ l -> P x = true -> P y = true -> tied x y) ->
    List.filter P (sort_keyed lt rev l) = List.filter P l.
  Proof.
    induction l as [|x l IH]; intros H; [done|]. cbn [sort_keyed foldr]. fold (sort_keyed lt rev l).
    rewrite insert_keyed_stable.
    - cbn. rewrite IH; [done|]. intros y z Hy Hz. apply H; by right.
    - intros Px y Hy Py. rewrite sort_keyed_perm in Hy. destruct (H x y) as [H1 H2]; [left|by right|done|done|].
      by destruct rev.
  Qed.
End choice.
