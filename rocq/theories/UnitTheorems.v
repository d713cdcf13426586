(** The same instance in another unit (C88). *)
From Verif Require Import AdmissibleCheck UnitProofs WitnessUnits SpecUnits.

Section theorems.
  Context (u : Z) (g : position -> position) (W W' : World) (E : other_unit u g W W').
  Notation unit := (in_unit u).
  Lemma max_or_unit l : max_or 0 (map unit l) = unit (max_or 0 l).
  Proof.
    destruct l as [|x l]; [apply unit_0|]. cbn. revert x. induction l as [|y l IH]; intros x; [done|]. cbn. by rewrite (IH x), (unit_max u W W' g E).
  Qed.
  Lemma visit_earliest_unit x : @visit_earliest W' (visit_in_unit u g x) = unit (@visit_earliest W x).
  Proof. unfold visit_earliest. cbn. by rewrite (maps_via unit _ _ _ (origin_earliest_unit u W W' g E)), (maps_via unit _ _ _ (destination_earliest_unit u W W' g E)), <- map_app, max_or_unit. Qed.
  Lemma visit_duration_unit x : @visit_duration W' (visit_in_unit u g x) = unit (@visit_duration W x).
  Proof. unfold visit_duration. cbn. by rewrite (maps_via unit _ _ _ (origin_duration_unit u W W' g E)), (maps_via unit _ _ _ (destination_duration_unit u W W' g E)), <- map_app, max_or_unit. Qed.
  Lemma sum_of_unit l : sum_of (map unit l) = unit (sum_of l).
  Proof. unfold sum_of. induction l as [|x l IH]; [apply unit_0|]. cbn. rewrite IH. apply unit_add. Qed.
  Lemma weight_unit l : @weight W' l = unit (@weight W l).
  Proof. unfold weight. by rewrite (maps_via unit _ _ _ (tr_capacity_unit u W W' g E)), sum_of_unit. Qed.
  Lemma schedule_unit xs : forall now here load, place_of W here -> (forall x, x ∈ xs -> place_of W (vi_place x)) ->
    @schedule W' (unit now, g here, unit load) (map (visit_in_unit u g) xs) = map (timing_in_unit u) (@schedule W (now, here, load) xs).
  Proof.
    induction xs as [|x xs IH]; intros now here load Hp Hx; [done|]. cbn [map schedule].
    assert (A : @advance W' (unit now, g here, unit load) (visit_in_unit u g x) = timing_in_unit u (@advance W (now, here, load) x)).
    { unfold advance. rewrite visit_earliest_unit, visit_duration_unit. cbn [visit_in_unit vi_place vi_board vi_alight vi_request].
      rewrite !weight_unit, (dist_unit u W W' g E) by (try done; apply Hx; left). rewrite !unit_add, unit_sub.
      assert (D : default (unit (now + @dist W here (vi_place x))) (unit <$> vi_request x) = unit (default (now + @dist W here (vi_place x)) (vi_request x))) by by destruct (vi_request x).
      rewrite D, !(unit_max u W W' g E), unit_add. done. }
    rewrite A. f_equal. unfold leave. apply IH; [apply Hx; left|]. intros y Hy. apply Hx. by right.
  Qed.
  Lemma timetable_unit v xs : (forall x, x ∈ xs -> place_of W (vi_place x)) ->
    @timetable W' v (map (visit_in_unit u g) xs) = map (timing_in_unit u) (@timetable W v xs).
  Proof.
    intros H. unfold timetable, ready. rewrite (v_origin_position_same u W W' g E), (v_origin_earliest_unit u W W' g E).
    rewrite (unit_0 u) at 1. apply schedule_unit; [apply place_v_origin|done].
  Qed.
  Lemma at_most_unit x l : @at_most W' (unit x) (lim_in_unit u l) <-> @at_most W x l.
  Proof.
    destruct l as [z|]; cbn; [|done]. rewrite (eb_unit u W W' g E). change (u * z) with (unit z). rewrite unit_add.
    rewrite <- !Z.leb_le. by rewrite (unit_leb u W W' g E).
  Qed.
  Lemma late_unit a b : unit a <= unit b + @eb W' <-> a <= b + @eb W.
  Proof. rewrite (eb_unit u W W' g E), unit_add, <- !Z.leb_le. by rewrite (unit_leb u W W' g E). Qed.
  Lemma on_time_unit v x T : @on_time W' v (visit_in_unit u g x) (timing_in_unit u T) <-> @on_time W v x T.
  Proof.
    unfold on_time. cbn [timing_in_unit tm_start tm_load visit_in_unit vi_board vi_alight].
    change (u * tm_start T) with (unit (tm_start T)). change (u * tm_load T) with (unit (tm_load T)).
    rewrite (v_capacity_unit u W W' g E), at_most_unit.
    split; intros (H1 & H2 & H3); (split; [|split; [|done]]); intros t Ht; [specialize (H1 t Ht)|specialize (H2 t Ht)|specialize (H1 t Ht)|specialize (H2 t Ht)];
      rewrite ?(origin_earliest_unit u W W' g E), ?(origin_latest_unit u W W' g E), ?(destination_earliest_unit u W W' g E),
        ?(destination_latest_unit u W W' g E), ?at_most_unit, ?late_unit in *; done.
  Qed.
  Lemma admissible_unit v xs : (forall x, x ∈ xs -> place_of W (vi_place x)) ->
    @admissible W' v (map (visit_in_unit u g) xs) <-> @admissible W v xs.
  Proof.
    intros H. pose proof (timetable_unit v xs H) as T.
    assert (L : forall i, map (visit_in_unit u g) xs !! i = visit_in_unit u g <$> xs !! i) by (intros i; apply list_lookup_fmap).
    assert (LT : forall i, map (timing_in_unit u) (@timetable W v xs) !! i = timing_in_unit u <$> @timetable W v xs !! i) by (intros i; apply list_lookup_fmap).
    assert (LL : last (map (timing_in_unit u) (@timetable W v xs)) = timing_in_unit u <$> last (@timetable W v xs)) by (apply fmap_last).
    assert (LH : head (map (timing_in_unit u) (@timetable W v xs)) = timing_in_unit u <$> head (@timetable W v xs)) by (by destruct (@timetable W v xs)).
    split; intros [A1 A2 A3 A4 A5].
    - rewrite T in *. split.
      + destruct A1 as (y & Hy & Py). destruct xs as [|x xs]; [done|]. cbn in Hy. injection Hy as <-. exists x. split; [done|].
        rewrite (v_origin_position_same u W W' g E) in Py. apply (ou_apart _ _ _ _ E) in Py; [done|apply H; left|apply place_v_origin].
      + destruct A2 as (y & Hy & Py). rewrite last_lookup, map_length, L in Hy. apply fmap_Some in Hy as (x & Hx & ->).
        exists x. split; [by rewrite last_lookup|].
        rewrite (v_destination_position_same u W W' g E) in Py.
        apply (ou_apart _ _ _ _ E) in Py; [done|apply H; by eapply elem_of_list_lookup_2|apply place_v_destination].
      + intros T1 HT. rewrite <- at_most_unit, <- (v_destination_latest_unit u W W' g E). apply (A3 (timing_in_unit u T1)). by rewrite LL, HT.
      + intros T0 T1 H0 HT. rewrite <- at_most_unit, <- (v_timeout_unit u W W' g E), <- unit_sub.
        apply (A4 (timing_in_unit u T0) (timing_in_unit u T1)); [by rewrite LH, H0|by rewrite LL, HT].
      + intros t i j x y Ti Tj (x1 & y1 & Hx1 & Hy1 & B & C) Hx Hy HTi HTj.
        destruct (A5 t i j (visit_in_unit u g x) (visit_in_unit u g y) (timing_in_unit u Ti) (timing_in_unit u Tj)) as (O1 & O2 & O3);
          [|by rewrite L, Hx|by rewrite L, Hy|by rewrite LT, HTi|by rewrite LT, HTj|].
        { exists (visit_in_unit u g x1), (visit_in_unit u g y1). rewrite !L, Hx1, Hy1. done. }
        rewrite on_time_unit in O1, O2. rewrite (tr_timeout_unit u W W' g E) in O3. split; [done|]. split; [done|].
        apply at_most_unit. rewrite <- unit_sub. exact O3.
    - split; rewrite ?T.
      + destruct A1 as (y & Hy & Py). destruct xs as [|x xs]; [done|]. cbn in Hy. injection Hy as <-. exists (visit_in_unit u g x). split; [done|].
        rewrite (v_origin_position_same u W W' g E). cbn. by rewrite Py.
      + destruct A2 as (y & Hy & Py). exists (visit_in_unit u g y). rewrite last_lookup, map_length, L, <- last_lookup, Hy. split; [done|].
        rewrite (v_destination_position_same u W W' g E). cbn. by rewrite Py.
      + intros T1 HT. rewrite LL in HT. apply fmap_Some in HT as (T2 & HT & ->). rewrite (v_destination_latest_unit u W W' g E). apply at_most_unit. by apply A3.
      + intros T0 T1 H0 HT. rewrite LH in H0. rewrite LL in HT. apply fmap_Some in HT as (T2 & HT & ->), H0 as (T3 & H0 & ->).
        rewrite (v_timeout_unit u W W' g E). cbn [timing_in_unit tm_departure]. rewrite <- Z.mul_sub_distr_l. apply at_most_unit. by apply A4.
      + intros t i j x y Ti Tj (x1 & y1 & Hx1 & Hy1 & B & C) Hx Hy HTi HTj. rewrite L in Hx, Hy, Hx1, Hy1. rewrite LT in HTi, HTj.
        apply fmap_Some in Hx as (x0 & Hx & ->), Hy as (y0 & Hy & ->). apply fmap_Some in Hx1 as (x2 & Hx1 & ->), Hy1 as (y2 & Hy1 & ->).
        apply fmap_Some in HTi as (Ti0 & HTi & ->), HTj as (Tj0 & HTj & ->).
        destruct (A5 t i j x0 y0 Ti0 Tj0) as (O1 & O2 & O3); [|done..|].
        { exists x2, y2. done. }
        rewrite !on_time_unit, (tr_timeout_unit u W W' g E). split; [done|]. split; [done|].
        cbn [timing_in_unit tm_start tm_departure]. rewrite <- Z.mul_sub_distr_l. by apply at_most_unit.
  Qed.
End theorems.

Lemma c88_schedule : forall c g W W', other_unit c g W W' -> forall v xs, (forall x, x ∈ xs -> place_of W (vi_place x)) ->
  @timetable W' v (map (visit_in_unit c g) xs) = map (timing_in_unit c) (@timetable W v xs).
Proof. intros c g W W' E v xs H. by apply timetable_unit. Qed.
Lemma c88_limits : forall c g W W', other_unit c g W W' -> forall v xs, (forall x, x ∈ xs -> place_of W (vi_place x)) ->
  @admissible W' v (map (visit_in_unit c g) xs) <-> @admissible W v xs.
Proof. intros c g W W' E v xs H. by apply admissible_unit. Qed.
Lemma c88_insertion : forall c g W W', other_unit c g W W' -> forall cfg fleet job initial,
  unit_run c g W id (@insertion_optimize W cfg fleet job initial) (@insertion_optimize W' cfg fleet job initial).
Proof. intros c g W W' E cfg fleet job i. apply same_unit_run. by apply s_insertion_optimize. Qed.
Lemma c88_stateless : forall c g W W', other_unit c g W W' -> forall cfg fleet job initial,
  unit_run c g W id (@stateless_optimize W cfg fleet job initial) (@stateless_optimize W' cfg fleet job initial).
Proof. intros c g W W' E cfg fleet job i. apply same_unit_run. by apply s_stateless_optimize. Qed.
Lemma c88_search : forall c g W W', other_unit c g W W' -> forall fuel s o threshold initial,
  unit_run c g W id (@local_search_optimize W fuel s o threshold initial) (@local_search_optimize W' fuel s o threshold initial).
Proof. intros c g W W' E fuel s o t i. apply same_unit_run. by apply s_local_search_optimize. Qed.
Lemma c88_grasp : forall c g W W', other_unit c g W W' -> forall fuel o cfg fleet job episodes first_episodes,
  unit_run c g W id (@grasp_optimize W fuel o cfg fleet job episodes first_episodes) (@grasp_optimize W' fuel o cfg fleet job episodes first_episodes).
Proof. intros c g W W' E fuel o cfg fleet job e f. apply same_unit_run. by apply s_grasp_optimize. Qed.
Lemma c88_iterative : forall c g W W', other_unit c g W W' -> forall o alg alg' restart episodes initial,
  (forall i, unit_run c g W id (alg i) (alg' i)) ->
  unit_run c g W id (@iterative_optimize W o alg restart episodes initial) (@iterative_optimize W' o alg' restart episodes initial).
Proof. intros c g W W' E o a a' r e i H. apply same_unit_run. apply s_iterative_optimize; [done|]. intros j. by apply unit_run_same. Qed.
Lemma c88_sequential : forall c g W W', other_unit c g W W' -> forall o algs algs' initial,
  Forall2 (fun alg alg' => forall i, unit_run c g W id (alg i) (alg' i)) algs algs' ->
  unit_run c g W id (@sequential_optimize W o algs initial) (@sequential_optimize W' o algs' initial).
Proof.
  intros c g W W' E o a a' i H. apply same_unit_run. apply s_sequential_optimize; [done|].
  eapply Forall2_impl; [exact H|]. intros x y Hxy j. by apply unit_run_same.
Qed.
Lemma c88_answers : forall c g W W', other_unit c g W W' -> forall o s r pl,
  unit_run c g W id (@route_feasible W r) (@route_feasible W' r) /\ unit_run c g W id (@planning_feasible W pl) (@planning_feasible W' pl) /\
  unit_run c g W id (@completed_trips W pl) (@completed_trips W' pl) /\
  unit_run c g W (in_unit c) (@arrival_time W s) (@arrival_time W' s) /\ unit_run c g W (in_unit c) (@departure_time W s) (@departure_time W' s) /\
  unit_run c g W (in_unit c) (@capacity W s) (@capacity W' s) /\ unit_run c g W (in_unit c) (@route_duration W r) (@route_duration W' r) /\
  unit_run c g W (value_in_unit c o) (@planning_value W o pl) (@planning_value W' o pl).
Proof.
  intros c g W W' E o s r pl. repeat split_and; try apply same_unit_run; try apply via_unit_run;
    [by apply s_route_feasible|by apply s_planning_feasible|by apply s_completed_trips|by apply v_arrival_time|by apply v_departure_time|by apply v_stop_capacity|by apply v_route_duration|by apply v_planning_value].
Qed.
(** Manhattan distances *)
Lemma manhattan_finer c p : forall q, manhattan (map (Z.mul (Zpos c)) p) (map (Z.mul (Zpos c)) q) = Zpos c * manhattan p q.
Proof.
  unfold manhattan, zsum. induction p as [|x p IH]; intros [|y q]; try (cbn; lia). specialize (IH q). cbn [map zip_with foldr] in *.
  rewrite IH. rewrite <- Z.mul_sub_distr_l, Z.abs_mul. cbn [Z.abs]. lia.
Qed.
Lemma c88_manhattan : forall c W, @w_metric W = Manhattan -> other_unit (Zpos c) (map (Z.mul (Zpos c))) W (finer c W).
Proof.
  intros c W HM. split; try done.
  - intros v. unfold vehicle_in_unit. cbn. unfold ends_at. cbn. by destruct (vh_destination_opt (w_vehicle v)).
  - intros p q _ _. cbn. rewrite HM. apply manhattan_finer.
  - intros p q _ _ H. revert q H. induction p as [|x p IH]; intros [|y q] H; try done. cbn [map] in H.
    assert (H1 : Zpos c * x = Zpos c * y) by exact (f_equal (fun l => match l with a :: _ => a | [] => 0 end) H).
    assert (H2 : map (Z.mul (Zpos c)) p = map (Z.mul (Zpos c)) q) by exact (f_equal (@tl Z) H).
    f_equal; [apply (Z.mul_reg_l _ _ (Zpos c)); [lia|exact H1]|by apply IH].
Qed.
(** a fixed tolerance *)
Lemma late_admissible : @admissible late_world 0 late_visits.
Proof. apply admissibleb_sound. vm_compute. reflexivity. Qed.
Lemma c88_tolerance : exists W v xs, @w_metric W = Manhattan /\ (forall x, x ∈ xs -> place_of W (vi_place x)) /\
  @admissible W v xs /\ @admissible (finer 10 W) v (map (visit_in_unit 10 (map (Z.mul 10))) xs) /\
  ~ @admissible (finer_only 10 W) v (map (visit_in_unit 10 (map (Z.mul 10))) xs).
Proof.
  assert (P : forall x, x ∈ late_visits -> place_of late_world (vi_place x)).
  { intros x Hx. repeat (apply elem_of_cons in Hx as [->|Hx]; [|]); [| | | |by apply elem_of_nil in Hx]; cbn.
    + right. exists 0%nat. by left.
    + left. exists 0%nat. by left.
    + left. exists 0%nat. by right.
    + right. exists 0%nat. by left. }
  exists late_world, 0%nat, late_visits. split; [done|]. split; [exact P|]. split; [exact late_admissible|]. split.
  - apply (c88_limits 10 (map (Z.mul 10)) late_world); [by apply (c88_manhattan 10)|exact P|exact late_admissible].
  - intros [_ _ _ _ A].
    destruct (A 0%nat 1%nat 2%nat (Visit [100] [0%nat] [] None) (Visit [300] [] [0%nat] None) (Timing 100 100 100 10000) (Timing 300 300 300 0)) as ((O & _) & _);
      [|vm_compute; reflexivity..|].
    + exists (Visit [100] [0%nat] [] None), (Visit [300] [] [0%nat] None). split; [vm_compute; reflexivity|]. split; [vm_compute; reflexivity|]. split; apply elem_of_list_here.
    + destruct (O 0%nat) as [_ O2]; [apply elem_of_list_here|]. vm_compute in O2. by apply O2.
Qed.
(** what the algorithm then serves *)
Lemma c88_tolerance_insertion : exists W cfg fleet job pl h h', @w_metric W = Manhattan /\
  @insertion_optimize W cfg fleet job None empty_heap = (Ok pl, h) /\
  fst (@completed_trips W pl h) = Ok job /\ job <> [] /\
  @insertion_optimize (finer 10 W) cfg fleet job None empty_heap = (Ok pl, h') /\ fst (@completed_trips (finer 10 W) pl h') = Ok job /\
  exists pl2 h2, @insertion_optimize (finer_only 10 W) cfg fleet job None empty_heap = (Ok pl2, h2) /\
    fst (@completed_trips (finer_only 10 W) pl2 h2) = Ok [].
Proof.
  exists late_world, (warm_config EarliestLastDeparture), [0%nat], [0%nat]. do 3 eexists.
  split; [done|]. split; [vm_compute; reflexivity|]. split; [vm_compute; reflexivity|]. split; [done|].
  split; [vm_compute; reflexivity|]. split; [vm_compute; reflexivity|]. do 2 eexists. split; vm_compute; reflexivity.
Qed.
