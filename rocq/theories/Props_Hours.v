(** * The hours of the depots

    [out_after_opening], [out_before_closing], [out_after_work],
    [back_before_closing], [back_after_opening], [back_before_work] and
    [with_passengers] are in SpecHours.v, [fair] and [almost] in SpecFair.v,
    [tidy] and [on_tour] in Represents.v, [valid_planning] in Plannings.v. *)
From Verif Require Import HoursTheorems SpecHours WitnessHours FairTheorems Plannings Searches Choices Insertion LocalSearch FairSearchTheorems ShiftTheorems.

(** ** C81.  Vehicles leave and come back within their windows

    Of the windows and durations that a vehicle has for its origin and its
    destination (vehicles.py:33-92), [Route.feasible] (routes.py:123-136) looks
    at the opening time of the origin and the closing time of the destination
    only. *)
(** a vehicle leaves after the closing time of its origin, as its departure is
    put off for the sake of a passenger who comes later *)
Theorem C81_refuted : ~ forall (W : World) cfg fleet job pl h,
  sane -> ic_only_feasible cfg = true -> NoDup fleet -> NoDup job -> (1 <= ic_random cfg)%nat ->
  insertion_optimize cfg fleet job None empty_heap = (Ok pl, h) -> with_passengers out_before_closing h pl.
Proof. exact c81_refuted. Qed.
Print Assumptions C81_refuted.
(** it returns before the opening time of its destination *)
Theorem C81_refuted_back : ~ forall (W : World) cfg fleet job pl h,
  sane -> ic_only_feasible cfg = true -> NoDup fleet -> NoDup job -> (1 <= ic_random cfg)%nat ->
  insertion_optimize cfg fleet job None empty_heap = (Ok pl, h) -> with_passengers back_after_opening h pl.
Proof. exact c81_refuted_back. Qed.
Print Assumptions C81_refuted_back.
(** it leaves without the time that the work at the origin takes *)
Theorem C81_refuted_work : ~ forall (W : World) cfg fleet job pl h,
  sane -> ic_only_feasible cfg = true -> NoDup fleet -> NoDup job -> (1 <= ic_random cfg)%nat ->
  insertion_optimize cfg fleet job None empty_heap = (Ok pl, h) -> with_passengers out_after_work h pl.
Proof. exact c81_refuted_work. Qed.
Print Assumptions C81_refuted_work.
(** it comes back too late to do the work at the destination *)
Theorem C81_refuted_work_back : ~ forall (W : World) cfg fleet job pl h,
  sane -> ic_only_feasible cfg = true -> NoDup fleet -> NoDup job -> (1 <= ic_random cfg)%nat ->
  insertion_optimize cfg fleet job None empty_heap = (Ok pl, h) -> with_passengers back_before_work h pl.
Proof. exact c81_refuted_work_back. Qed.
Print Assumptions C81_refuted_work_back.
(** no tour leaves before the opening time *)
Theorem C81_opening_partial `{W : World} : forall v xs, sane -> out_after_opening v xs.
Proof. exact c81_always. Qed.
Print Assumptions C81_opening_partial.
(** all reported tours come back before the closing time *)
Theorem C81_insertion_partial `{W : World} : forall cfg fleet job h,
  sane -> tidy h -> fair h -> ic_only_feasible cfg = true -> NoDup fleet -> NoDup job -> (1 <= ic_random cfg)%nat ->
  exists pl h', insertion_optimize cfg fleet job None h = (Ok pl, h') /\ valid_planning h' fleet job pl /\
    with_passengers out_after_opening h' pl /\ with_passengers back_before_closing h' pl.
Proof. exact c81_insertion. Qed.
Print Assumptions C81_insertion_partial.
Theorem C81_search_partial `{W : World} : forall fuel o threshold h vs ts initial,
  sane -> tidy h -> fair h -> valid_planning h vs ts initial -> single_stops h initial ->
  with_passengers almost h initial ->
  match local_search_optimize fuel Reallocation o threshold initial h with
  | (Raise e, _) => e = Diverge
  | (Ok pl, h') => with_passengers out_after_opening h' pl /\ with_passengers back_before_closing h' pl
  end.
Proof. exact c81_search. Qed.
Print Assumptions C81_search_partial.
Theorem C81_grasp_partial `{W : World} : forall fuel o cfg fleet job episodes first h,
  sane -> tidy h -> fair h -> ic_only_feasible cfg = true -> NoDup fleet -> fleet <> [] -> NoDup job ->
  (1 <= ic_random cfg)%nat -> (1 <= episodes)%nat -> (1 <= first)%nat ->
  match grasp_optimize fuel o cfg fleet job episodes first h with
  | (Raise e, _) => e = Diverge
  | (Ok pl, h') => with_passengers out_after_opening h' pl /\ with_passengers back_before_closing h' pl
  end.
Proof. exact c81_grasp. Qed.
Print Assumptions C81_grasp_partial.

Section C81_example.
  (** leaves at 80 instead of 10, is back at 140 instead of 500 *)
  Example C81_case : @sane (depot_hours true) /\ @fair (depot_hours true) empty_heap /\ @tidy (depot_hours true) empty_heap /\
    insertion_optimize (W := depot_hours true) hours_config [0%nat] [0%nat] None empty_heap = (Ok [1%nat], waiting_heap) /\
    @on_tour (depot_hours true) waiting_heap 1 0 (stops_in waiting_heap 1) (visits_of waiting_heap 1) /\
    boards (visits_of waiting_heap 1) = [0%nat] /\
    map tm_departure (@timetable (depot_hours true) 0 (visits_of waiting_heap 1)) = [80000; 100000; 110000; 140000] /\
    @out_latest (depot_hours true) 0 = Lim 10000 /\ @back_earliest (depot_hours true) 0 = 500000.
  Proof.
    split; [apply depot_hours_sane|]. split; [apply empty_fair|]. split; [apply tidyb_sound; reflexivity|].
    split; [apply waiting_run|]. split; [apply waiting_on_tour|]. repeat split; vm_compute; reflexivity.
  Qed.
  Example C81_case_search : @tidy (depot_hours true) waiting_heap /\ @fair (depot_hours true) waiting_heap /\
    @valid_planning (depot_hours true) waiting_heap [0%nat] [0%nat] [1%nat] /\ @single_stops (depot_hours true) waiting_heap [1%nat] /\
    @with_passengers (depot_hours true) (@almost (depot_hours true)) waiting_heap [1%nat].
  Proof.
    destruct (@c06_algorithm (depot_hours true) hours_config [0%nat] [0%nat] empty_heap) as (pl & h & E & T & F & V & A);
      [apply depot_hours_sane|apply tidyb_sound; reflexivity|apply empty_fair|done|apply NoDup_singleton|apply NoDup_singleton|done|].
    rewrite waiting_run in E. pose proof (f_equal fst E) as Ep. apply (f_equal snd) in E. cbn [fst snd] in Ep, E. injection Ep as <-. subst h.
    split; [exact T|]. split; [exact F|]. split; [exact V|].
    split; [|intros r v ids xs Hr R B; exact (proj1 (A r v ids xs Hr R B))].
    refine (proj2 (valid_one _ _ _ _ _ waiting_on_tour _)). apply simpleb_sound. vm_compute. reflexivity.
  Qed.
  (** leaves at once, is back at 60, when 57 would be needed *)
  Example C81_case_work :
    insertion_optimize (W := depot_hours false) hours_config [0%nat] [1%nat] None empty_heap = (Ok [1%nat], hasty_heap) /\
    @on_tour (depot_hours false) hasty_heap 1 0 (stops_in hasty_heap 1) (visits_of hasty_heap 1) /\
    map tm_departure (@timetable (depot_hours false) 0 (visits_of hasty_heap 1)) = [0; 20000; 30000; 60000] /\
    @out_duration (depot_hours false) 0 = 5000 /\ @back_duration (depot_hours false) 0 = 5000 /\
    @v_destination_latest (depot_hours false) 0 = Lim 62000.
  Proof. split; [apply hasty_run|]. split; [apply hasty_on_tour|]. repeat split; vm_compute; reflexivity. Qed.
End C81_example.
