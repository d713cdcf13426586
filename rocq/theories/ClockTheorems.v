(** Moving all times of an instance (C78). *)
From Verif Require Import SpecClock ClockProofs Represents Searches TimeTheorems SubmitTheorems Checker.
From Verif Require Import WitnessClock.

Lemma moved_sane c W W' : moved_world c W W' -> @sane_durations W -> @sane_durations W'.
Proof. intros M H t. unfold origin_duration, destination_duration. rewrite (mw_trip _ _ _ M). apply H. Qed.

Lemma c78_schedule : forall c (W W' : World) v xs, moved_world c W W' -> @sane_durations W ->
  0 <= @v_origin_earliest W v -> 0 <= @v_origin_earliest W' v ->
  @timetable W' v (map (moved_visit c) xs) = map (moved_timing c) (@timetable W v xs).
Proof. intros c W W' v xs M Hs H1 H2. rewrite (moved_opening c W W' M) in H2. by apply timetable_move. Qed.

Lemma c78_limits : forall c (W W' : World) v xs, moved_world c W W' -> @sane_durations W ->
  0 <= @v_origin_earliest W v -> 0 <= @v_origin_earliest W' v ->
  @admissible W' v (map (moved_visit c) xs) <-> @admissible W v xs.
Proof.
  intros c W W' v xs M Hs H1 H2. pose proof H2 as H3. rewrite (moved_opening c W W' M) in H3. split; [|by apply admissible_move].
  intros A. pose proof (moved_world_back _ _ _ M) as M'.
  pose proof (admissible_move (- c) W' W M' v (map (moved_visit c) xs) (moved_sane _ _ _ M Hs) H2) as G.
  rewrite moved_visit_back in G. apply G; [|done]. rewrite (moved_opening c W W' M). lia.
Qed.

Lemma c78_feasible : forall c (W W' : World) h r v ids xs h' r' ids', moved_world c W W' -> @sane W ->
  0 <= @v_origin_earliest W v -> 0 <= @v_origin_earliest W' v ->
  @well_formed W h r v ids xs -> ids <> [] -> unasked h r ids ->
  @well_formed W' h' r' v ids' (map (moved_visit c) xs) -> ids' <> [] -> unasked h' r' ids' ->
  exists b, fst (@route_feasible W r h) = Ok b /\ fst (@route_feasible W' r' h') = Ok b.
Proof.
  intros c W W' h r v ids xs h' r' ids' M [Hs Hc] H1 H2 F N U F' N' U'.
  destruct (@c05_feasible W h r v ids xs Hs Hc F N U) as (b & h1 & E & Hb & _).
  assert (Hc' : @sane_capacities W'). { intros t. rewrite (mw_trip _ _ _ M). apply Hc. }
  destruct (@c05_feasible W' h' r' v ids' _ (moved_sane _ _ _ M Hs) Hc' F' N' U') as (b' & h1' & E' & Hb' & _).
  exists b. rewrite E, E'. split; [done|]. cbn. f_equal. rewrite (c78_limits c W W' v xs M Hs H1 H2) in Hb'.
  apply eq_true_iff_eq. by rewrite Hb, Hb'.
Qed.

Lemma c78_value : forall c (W W' : World) o v xs, moved_world c W W' -> @sane_durations W ->
  0 <= @v_origin_earliest W v -> 0 <= @v_origin_earliest W' v -> @rides W xs ->
  @value_of W' o v (map (moved_visit c) xs) = @value_of W o v xs.
Proof. intros c W W' o v xs M Hs H1 H2 R. rewrite (moved_opening c W W' M) in H2. by apply value_move. Qed.

Lemma move_world_moved c W : moved_world c W (move_world c W) /\ same_chance W (move_world c W).
Proof. split; [by split|]. by split. Qed.

Section bell.
  #[local] Existing Instance bell_world.
  Lemma bell_on_tour : on_tour bell_heap 1 0 (stops_in bell_heap 1) (visits_of bell_heap 1).
  Proof. apply on_tourb_sound. vm_compute. reflexivity. Qed.
  Lemma bell_takes : takes bell_heap [1%nat] 0.
  Proof.
    exists 0%nat, [0%nat]. split; [|left]. exists 1%nat. split; [left|]. eexists _, _. split; [exact bell_on_tour|vm_compute; reflexivity].
  Qed.
End bell.
Section noon.
  #[local] Existing Instance noon_world.
  Lemma noon_on_tour : on_tour noon_heap 0 0 (stops_in noon_heap 0) (visits_of noon_heap 0).
  Proof. apply on_tourb_sound. vm_compute. reflexivity. Qed.
  Lemma noon_leaves : ~ takes noon_heap [0%nat] 0.
  Proof.
    intros (v & us & (r & Hr & ids & xs & R & <-) & Hus). apply elem_of_list_singleton in Hr as ->.
    destruct (on_tour_det _ _ _ _ _ _ _ _ R noon_on_tour) as (_ & _ & ->). vm_compute in Hus. inversion Hus.
  Qed.
End noon.
Lemma c78_refuted : ~ forall c (W W' : World) cfg fleet job pl h pl' h' t,
  moved_world c W W' -> same_chance W W' -> @sane W -> ic_only_feasible cfg = true -> (1 <= ic_random cfg)%nat -> NoDup fleet -> NoDup job ->
  (forall v, 0 <= @v_origin_earliest W v /\ 0 <= @v_origin_earliest W' v) ->
  @insertion_optimize W cfg fleet job None empty_heap = (Ok pl, h) -> @insertion_optimize W' cfg fleet job None empty_heap = (Ok pl', h') ->
  @takes W h pl t -> @takes W' h' pl' t.
Proof.
  intros H. apply noon_leaves.
  apply (H 100000 bell_world noon_world bell_config [0%nat] [0%nat] [1%nat] bell_heap [0%nat] noon_heap 0%nat).
  - apply move_world_moved.
  - apply move_world_moved.
  - split.
    + intros [|[|t]]; cbn; lia.
    + intros [|[|t]]; cbn; lia.
  - reflexivity.
  - cbn. lia.
  - apply NoDup_singleton.
  - apply NoDup_singleton.
  - intros [|[|v]]; cbn; lia.
  - vm_compute. reflexivity.
  - vm_compute. reflexivity.
  - apply bell_takes.
Qed.
