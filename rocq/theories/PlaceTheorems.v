(** The same instance elsewhere (C87). *)
From Verif Require Import PlaceProofs WitnessPlaces SpecPlaces.

Section theorems.
  Context (g : position -> position) (W W' : World) (E : elsewhere g W W').
  Lemma visit_earliest_put x : @visit_earliest W' (put_visit g x) = @visit_earliest W x.
  Proof. unfold visit_earliest. cbn. by rewrite (maps_same _ _ _ (origin_earliest_same W W' g E)), (maps_same _ _ _ (destination_earliest_same W W' g E)). Qed.
  Lemma visit_duration_put x : @visit_duration W' (put_visit g x) = @visit_duration W x.
  Proof. unfold visit_duration. cbn. by rewrite (maps_same _ _ _ (origin_duration_same W W' g E)), (maps_same _ _ _ (destination_duration_same W W' g E)). Qed.
  Lemma weight_put l : @weight W' l = @weight W l.
  Proof. unfold weight. by rewrite (maps_same _ _ _ (tr_capacity_same W W' g E)). Qed.
  Lemma schedule_put xs : forall now here load, place_of W here -> (forall x, x ∈ xs -> place_of W (vi_place x)) ->
    @schedule W' (now, g here, load) (map (put_visit g) xs) = @schedule W (now, here, load) xs.
  Proof.
    induction xs as [|x xs IH]; intros now here load Hp Hx; [done|]. cbn [map schedule].
    assert (A : @advance W' (now, g here, load) (put_visit g x) = @advance W (now, here, load) x).
    { unfold advance. rewrite visit_earliest_put, visit_duration_put. cbn [put_visit vi_place vi_board vi_alight vi_request].
      rewrite !weight_put, (dist_same W W' g E) by (try done; apply Hx; left). done. }
    rewrite A. f_equal. unfold leave. apply IH; [apply Hx; left|]. intros y Hy. apply Hx. by right.
  Qed.
  Lemma timetable_put v xs : (forall x, x ∈ xs -> place_of W (vi_place x)) ->
    @timetable W' v (map (put_visit g) xs) = @timetable W v xs.
  Proof.
    intros H. unfold timetable, ready. rewrite (v_origin_position_same W W' g E), (v_origin_earliest_same W W' g E).
    apply schedule_put; [apply place_v_origin|done].
  Qed.
  Lemma at_most_put x l : @at_most W' x l <-> @at_most W x l.
  Proof. unfold at_most. by rewrite (eb_same W W' g E). Qed.
  Lemma on_time_put v x T : @on_time W' v (put_visit g x) T <-> @on_time W v x T.
  Proof.
    unfold on_time. rewrite at_most_put, (v_capacity_same W W' g E), (eb_same W W' g E). cbn.
    split; intros (H1 & H2 & H3); (split; [|split; [|done]]); intros t Ht; [specialize (H1 t Ht)|specialize (H2 t Ht)|specialize (H1 t Ht)|specialize (H2 t Ht)];
      rewrite ?at_most_put, ?(origin_earliest_same W W' g E), ?(origin_latest_same W W' g E), ?(destination_earliest_same W W' g E),
        ?(destination_latest_same W W' g E) in *; done.
  Qed.
  Lemma admissible_put v xs : (forall x, x ∈ xs -> place_of W (vi_place x)) ->
    @admissible W' v (map (put_visit g) xs) <-> @admissible W v xs.
  Proof.
    intros H. pose proof (timetable_put v xs H) as T.
    assert (L : forall i, map (put_visit g) xs !! i = put_visit g <$> xs !! i) by (intros i; apply list_lookup_fmap).
    split; intros [A1 A2 A3 A4 A5].
    - rewrite T in *. split.
      + destruct A1 as (y & Hy & Py). destruct xs as [|x xs]; [done|]. cbn in Hy. injection Hy as <-. exists x. split; [done|].
        rewrite (v_origin_position_same W W' g E) in Py. apply (ew_apart _ _ _ E) in Py; [done|apply H; left|apply place_v_origin].
      + destruct A2 as (y & Hy & Py). rewrite last_lookup, map_length, L in Hy. apply fmap_Some in Hy as (x & Hx & ->).
        exists x. split; [by rewrite last_lookup|].
        rewrite (v_destination_position_same W W' g E) in Py.
        apply (ew_apart _ _ _ E) in Py; [done|apply H; by eapply elem_of_list_lookup_2|apply place_v_destination].
      + intros T1 HT. rewrite <- at_most_put, <- (v_destination_latest_same W W' g E). by apply A3.
      + intros T0 T1 H0 HT. rewrite <- at_most_put, <- (v_timeout_same W W' g E). by apply A4.
      + intros t i j x y Ti Tj (x1 & y1 & Hx1 & Hy1 & B & C) Hx Hy HTi HTj.
        destruct (A5 t i j (put_visit g x) (put_visit g y) Ti Tj) as (O1 & O2 & O3); [|by rewrite L, Hx|by rewrite L, Hy|done|done|].
        { exists (put_visit g x1), (put_visit g y1). rewrite !L, Hx1, Hy1. done. }
        rewrite on_time_put in O1, O2. rewrite at_most_put, (tr_timeout_same W W' g E) in O3. done.
    - split; rewrite ?T.
      + destruct A1 as (y & Hy & Py). destruct xs as [|x xs]; [done|]. cbn in Hy. injection Hy as <-. exists (put_visit g x). split; [done|].
        rewrite (v_origin_position_same W W' g E). cbn. by rewrite Py.
      + destruct A2 as (y & Hy & Py). exists (put_visit g y). rewrite last_lookup, map_length, L, <- last_lookup, Hy. split; [done|].
        rewrite (v_destination_position_same W W' g E). cbn. by rewrite Py.
      + intros T1 HT. rewrite at_most_put, (v_destination_latest_same W W' g E). by apply A3.
      + intros T0 T1 H0 HT. rewrite at_most_put, (v_timeout_same W W' g E). by apply A4.
      + intros t i j x y Ti Tj (x1 & y1 & Hx1 & Hy1 & B & C) Hx Hy HTi HTj. rewrite L in Hx, Hy, Hx1, Hy1.
        apply fmap_Some in Hx as (x0 & Hx & ->), Hy as (y0 & Hy & ->). apply fmap_Some in Hx1 as (x2 & Hx1 & ->), Hy1 as (y2 & Hy1 & ->).
        destruct (A5 t i j x0 y0 Ti Tj) as (O1 & O2 & O3); [|done..|].
        { exists x2, y2. done. }
        rewrite !on_time_put, at_most_put, (tr_timeout_same W W' g E). done.
  Qed.
End theorems.

Lemma c87_schedule : forall g W W', elsewhere g W W' -> forall v xs, (forall x, x ∈ xs -> place_of W (vi_place x)) ->
  @timetable W' v (map (put_visit g) xs) = @timetable W v xs.
Proof. intros g W W' E v xs H. by apply timetable_put. Qed.
Lemma c87_limits : forall g W W', elsewhere g W W' -> forall v xs, (forall x, x ∈ xs -> place_of W (vi_place x)) ->
  @admissible W' v (map (put_visit g) xs) <-> @admissible W v xs.
Proof. intros g W W' E v xs H. by apply admissible_put. Qed.
Lemma c87_insertion : forall g W W', elsewhere g W W' -> forall cfg fleet job initial,
  same_run W g (@insertion_optimize W cfg fleet job initial) (@insertion_optimize W' cfg fleet job initial).
Proof. intros g W W' E cfg fleet job i. apply same_same_run. by apply s_insertion_optimize. Qed.
Lemma c87_stateless : forall g W W', elsewhere g W W' -> forall cfg fleet job initial,
  same_run W g (@stateless_optimize W cfg fleet job initial) (@stateless_optimize W' cfg fleet job initial).
Proof. intros g W W' E cfg fleet job i. apply same_same_run. by apply s_stateless_optimize. Qed.
Lemma c87_search : forall g W W', elsewhere g W W' -> forall fuel s o threshold initial,
  same_run W g (@local_search_optimize W fuel s o threshold initial) (@local_search_optimize W' fuel s o threshold initial).
Proof. intros g W W' E fuel s o t i. apply same_same_run. by apply s_local_search_optimize. Qed.
Lemma c87_grasp : forall g W W', elsewhere g W W' -> forall fuel o cfg fleet job episodes first_episodes,
  same_run W g (@grasp_optimize W fuel o cfg fleet job episodes first_episodes) (@grasp_optimize W' fuel o cfg fleet job episodes first_episodes).
Proof. intros g W W' E fuel o cfg fleet job e f. apply same_same_run. by apply s_grasp_optimize. Qed.
Lemma c87_iterative : forall g W W', elsewhere g W W' -> forall o alg alg' restart episodes initial,
  (forall i, same_run W g (alg i) (alg' i)) ->
  same_run W g (@iterative_optimize W o alg restart episodes initial) (@iterative_optimize W' o alg' restart episodes initial).
Proof. intros g W W' E o a a' r e i H. apply same_same_run. apply s_iterative_optimize; [done|]. intros j. by apply same_run_same. Qed.
Lemma c87_sequential : forall g W W', elsewhere g W W' -> forall o algs algs' initial,
  Forall2 (fun alg alg' => forall i, same_run W g (alg i) (alg' i)) algs algs' ->
  same_run W g (@sequential_optimize W o algs initial) (@sequential_optimize W' o algs' initial).
Proof.
  intros g W W' E o a a' i H. apply same_same_run. apply s_sequential_optimize; [done|].
  eapply Forall2_impl; [exact H|]. intros x y Hxy j. by apply same_run_same.
Qed.
Lemma c87_answers : forall g W W', elsewhere g W W' -> forall o r pl,
  same_run W g (@route_feasible W r) (@route_feasible W' r) /\ same_run W g (@planning_feasible W pl) (@planning_feasible W' pl) /\
  same_run W g (@planning_value W o pl) (@planning_value W' o pl) /\ same_run W g (@completed_trips W pl) (@completed_trips W' pl).
Proof.
  intros g W W' E o r pl. split; [|split; [|split]]; apply same_same_run;
    [by apply s_route_feasible|by apply s_planning_feasible|by apply s_planning_value|by apply s_completed_trips].
Qed.

(** ** The town in the mirror *)
Lemma fork_places p : place_of fork_world p -> p = [] \/ exists x, p = [x].
Proof.
  intros [(t & [-> | ->])|(v & [-> | ->])].
  - destruct t as [|[|[|[|t]]]]; cbn; eauto.
  - destruct t as [|[|[|[|t]]]]; cbn; eauto.
  - destruct v as [|[|v]]; cbn; eauto.
  - destruct v as [|[|v]]; cbn; eauto.
Qed.
Lemma mirror_elsewhere : elsewhere mirror fork_world mirror_world.
Proof.
  split; try done.
  - intros [|[|[|[|t]]]]; repeat split.
  - intros [|[|v]]; repeat split.
  - intros p q Hp Hq. apply fork_places in Hp, Hq. destruct Hp as [-> | [x ->]], Hq as [-> | [y ->]]; try done. cbn.
    unfold euclidean, manhattan. cbn -[Z.sqrt Z.mul]. rewrite !Z.add_0_r. replace ((5000 - x - (5000 - y)) * (5000 - x - (5000 - y))) with (Z.abs (x - y) * Z.abs (x - y)) by lia.
    rewrite Z.sqrt_square by lia. done.
  - intros p q Hp Hq. apply fork_places in Hp, Hq. destruct Hp as [-> | [x ->]], Hq as [-> | [y ->]]; try done. cbn. intros H. injection H as H. f_equal. lia.
Qed.
