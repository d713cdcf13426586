(** Which hours of the depots the planned tours keep (C81). *)
From Verif Require Import FairTheorems FairSearchTheorems SchedProofs ComputeProofs Plannings Searches Choices Insertion LocalSearch.
From Verif Require Import SpecHours WitnessHours.

Section hours.
  Context {W : World}.
  Lemma leaves_after_opening v xs : sane_durations -> out_after_opening v xs.
  Proof.
    intros S T. destruct xs as [|x xs]; [done|]. cbn. intros [= <-]. cbn.
    pose proof (dist_nonneg (v_origin_position v) (vi_place x)). pose proof (visit_duration_nonneg x S). lia.
  Qed.
  Lemma stays_until_departure v xs T : sane_durations -> last (timetable v xs) = Some T -> tm_arrival T <= tm_departure T.
  Proof.
    intros S. unfold timetable. generalize (ready v). induction xs as [|x xs IH]; intros l; [done|].
    destruct xs as [|y xs].
    - destruct l as [[now here] load]. cbn. intros [= <-]. cbn. pose proof (visit_duration_nonneg x S). lia.
    - intros E. cbn [schedule] in E. apply (IH (leave x (advance l x))). exact E.
  Qed.
  Lemma almost_back v xs : sane_durations -> almost v xs -> back_before_closing v xs.
  Proof. intros S A T E. eapply at_most_le; [|by apply (al_return _ _ A)]. by apply (stays_until_departure v xs). Qed.
End hours.

Lemma c81_always `{W : World} : forall v xs, sane -> out_after_opening v xs.
Proof. intros v xs [S _]. by apply leaves_after_opening. Qed.
Lemma c81_insertion `{W : World} : forall cfg fleet job h,
  sane -> tidy h -> fair h -> ic_only_feasible cfg = true -> NoDup fleet -> NoDup job -> (1 <= ic_random cfg)%nat ->
  exists pl h', insertion_optimize cfg fleet job None h = (Ok pl, h') /\ valid_planning h' fleet job pl /\
    with_passengers out_after_opening h' pl /\ with_passengers back_before_closing h' pl.
Proof.
  intros cfg fleet job h Hs T F Hof Hf Hj Hr. destruct (c06_algorithm cfg fleet job h) as (pl & h' & E & _ & _ & V & A); [done..|].
  exists pl, h'. do 2 (split; [done|]). split; [by intros r v ids xs _ _ _; apply c81_always|].
  intros r v ids xs Hi R B. apply almost_back; [apply Hs|]. by apply (A r v ids xs).
Qed.
Lemma c81_search `{W : World} : forall fuel o threshold h vs ts initial,
  sane -> tidy h -> fair h -> valid_planning h vs ts initial -> single_stops h initial ->
  with_passengers almost h initial ->
  match local_search_optimize fuel Reallocation o threshold initial h with
  | (Raise e, _) => e = Diverge
  | (Ok pl, h') => with_passengers out_after_opening h' pl /\ with_passengers back_before_closing h' pl
  end.
Proof.
  intros fuel o threshold h vs ts initial Hs T F V G A. pose proof (c71_search fuel o threshold h vs ts initial Hs T F V G A) as K.
  destruct (local_search_optimize _ _ _ _ _ _) as [[pl|e] h']; [|done]. destruct K as (_ & _ & _ & _ & K).
  split; [by intros r v ids xs _ _ _; apply c81_always|].
  intros r v ids xs Hi R B. apply almost_back; [apply Hs|]. by apply (K r v ids xs).
Qed.
Lemma c81_grasp `{W : World} : forall fuel o cfg fleet job episodes first h,
  sane -> tidy h -> fair h -> ic_only_feasible cfg = true -> NoDup fleet -> fleet <> [] -> NoDup job ->
  (1 <= ic_random cfg)%nat -> (1 <= episodes)%nat -> (1 <= first)%nat ->
  match grasp_optimize fuel o cfg fleet job episodes first h with
  | (Raise e, _) => e = Diverge
  | (Ok pl, h') => with_passengers out_after_opening h' pl /\ with_passengers back_before_closing h' pl
  end.
Proof.
  intros fuel o cfg fleet job episodes first h Hs T F Hof Hf Hne Hj Hr He Hfi.
  pose proof (c71_grasp fuel o cfg fleet job episodes first h Hs T F Hof Hf Hne Hj Hr He Hfi) as K.
  destruct (grasp_optimize _ _ _ _ _ _ _ _) as [[pl|e] h']; [|done]. destruct K as (_ & _ & _ & _ & K).
  split; [by intros r v ids xs _ _ _; apply c81_always|].
  intros r v ids xs Hi R B. apply almost_back; [apply Hs|]. by apply (K r v ids xs).
Qed.

Lemma depot_hours_sane b : @sane (depot_hours b).
Proof. destruct b; split; intros [|[|[|t]]]; vm_compute; try split; congruence. Qed.
Lemma waiting_run : insertion_optimize (W := depot_hours true) hours_config [0%nat] [0%nat] None empty_heap = (Ok [1%nat], waiting_heap).
Proof. vm_compute. reflexivity. Qed.
Lemma hasty_run : insertion_optimize (W := depot_hours false) hours_config [0%nat] [1%nat] None empty_heap = (Ok [1%nat], hasty_heap).
Proof. vm_compute. reflexivity. Qed.
Lemma waiting_on_tour : @on_tour (depot_hours true) waiting_heap 1 0 (stops_in waiting_heap 1) (visits_of waiting_heap 1).
Proof. apply on_tourb_sound. vm_compute. reflexivity. Qed.
Lemma hasty_on_tour : @on_tour (depot_hours false) hasty_heap 1 0 (stops_in hasty_heap 1) (visits_of hasty_heap 1).
Proof. apply on_tourb_sound. vm_compute. reflexivity. Qed.

Lemma c81_refuted : ~ forall (W : World) cfg fleet job pl h,
  sane -> ic_only_feasible cfg = true -> NoDup fleet -> NoDup job -> (1 <= ic_random cfg)%nat ->
  insertion_optimize cfg fleet job None empty_heap = (Ok pl, h) -> with_passengers out_before_closing h pl.
Proof.
  intros H. specialize (H _ hours_config _ _ _ _ (depot_hours_sane true) eq_refl (NoDup_singleton _) (NoDup_singleton _) (le_n 1) waiting_run
    _ _ _ _ (elem_of_list_here _ _) waiting_on_tour ltac:(discriminate)).
  specialize (H _ eq_refl). vm_compute in H. by apply H.
Qed.
Lemma c81_refuted_back : ~ forall (W : World) cfg fleet job pl h,
  sane -> ic_only_feasible cfg = true -> NoDup fleet -> NoDup job -> (1 <= ic_random cfg)%nat ->
  insertion_optimize cfg fleet job None empty_heap = (Ok pl, h) -> with_passengers back_after_opening h pl.
Proof.
  intros H. specialize (H _ hours_config _ _ _ _ (depot_hours_sane true) eq_refl (NoDup_singleton _) (NoDup_singleton _) (le_n 1) waiting_run
    _ _ _ _ (elem_of_list_here _ _) waiting_on_tour ltac:(discriminate)).
  specialize (H _ eq_refl). vm_compute in H. by apply H.
Qed.
Lemma c81_refuted_work : ~ forall (W : World) cfg fleet job pl h,
  sane -> ic_only_feasible cfg = true -> NoDup fleet -> NoDup job -> (1 <= ic_random cfg)%nat ->
  insertion_optimize cfg fleet job None empty_heap = (Ok pl, h) -> with_passengers out_after_work h pl.
Proof.
  intros H. specialize (H _ hours_config _ _ _ _ (depot_hours_sane false) eq_refl (NoDup_singleton _) (NoDup_singleton _) (le_n 1) hasty_run
    _ _ _ _ (elem_of_list_here _ _) hasty_on_tour ltac:(discriminate)).
  specialize (H _ eq_refl). vm_compute in H. by apply H.
Qed.
Lemma c81_refuted_work_back : ~ forall (W : World) cfg fleet job pl h,
  sane -> ic_only_feasible cfg = true -> NoDup fleet -> NoDup job -> (1 <= ic_random cfg)%nat ->
  insertion_optimize cfg fleet job None empty_heap = (Ok pl, h) -> with_passengers back_before_work h pl.
Proof.
  intros H. specialize (H _ hours_config _ _ _ _ (depot_hours_sane false) eq_refl (NoDup_singleton _) (NoDup_singleton _) (le_n 1) hasty_run
    _ _ _ _ (elem_of_list_here _ _) hasty_on_tour ltac:(discriminate)).
  specialize (H _ eq_refl). vm_compute in H. by apply H.
Qed.
