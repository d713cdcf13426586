(** * The hours of the depots

    [out_after_opening], [out_before_closing], [out_after_work],
    [back_before_closing], [back_after_opening], [back_before_work] and
    [with_passengers] are in SpecHours.v, [fair] and [almost] in SpecFair.v,
    [tidy] and [on_tour] in Represents.v, [valid_planning] in Plannings.v. *)
From Verif Require Import HoursTheorems SpecHours WitnessHours FairTheorems Plannings Searches Choices Insertion LocalSearch FairSearchTheorems ShiftTheorems.

(** ** C81.  Vehicles leave and come back within their windows

    Of the windows and durations that a vehicle has for its origin and its
    destination (vehicles.py:33-92), [Route.feasible] (routes.py:123-136) looks
    at the opening time of the origin and the closing time of the destination
    only. *)
(** a vehicle leaves after the closing time of its origin, as its departure is
    put off for the sake of a passenger who comes later *)
@C81_refuted c81_refuted
(** it returns before the opening time of its destination *)
@C81_refuted_back c81_refuted_back
(** it leaves without the time that the work at the origin takes *)
@C81_refuted_work c81_refuted_work
(** it comes back too late to do the work at the destination *)
@C81_refuted_work_back c81_refuted_work_back
(** no tour leaves before the opening time *)
@C81_opening_partial c81_always
(** all reported tours come back before the closing time *)
@C81_insertion_partial c81_insertion
@C81_search_partial c81_search
@C81_grasp_partial c81_grasp

Section C81_example.
  (** leaves at 80 instead of 10, is back at 140 instead of 500 *)
  Example C81_case : @sane (depot_hours true) /\ @fair (depot_hours true) empty_heap /\ @tidy (depot_hours true) empty_heap /\
    insertion_optimize (W := depot_hours true) hours_config [0%nat] [0%nat] None empty_heap = (Ok [1%nat], waiting_heap) /\
    @on_tour (depot_hours true) waiting_heap 1 0 (stops_in waiting_heap 1) (visits_of waiting_heap 1) /\
    boards (visits_of waiting_heap 1) = [0%nat] /\
    map tm_departure (@timetable (depot_hours true) 0 (visits_of waiting_heap 1)) = [80000; 100000; 110000; 140000] /\
    @out_latest (depot_hours true) 0 = Lim 10000 /\ @back_earliest (depot_hours true) 0 = 500000.
  Proof.
    split; [apply depot_hours_sane|]. split; [apply empty_fair|]. split; [apply tidyb_sound; reflexivity|].
    split; [apply waiting_run|]. split; [apply waiting_on_tour|]. repeat split; vm_compute; reflexivity.
  Qed.
  Example C81_case_search : @tidy (depot_hours true) waiting_heap /\ @fair (depot_hours true) waiting_heap /\
    @valid_planning (depot_hours true) waiting_heap [0%nat] [0%nat] [1%nat] /\ @single_stops (depot_hours true) waiting_heap [1%nat] /\
    @with_passengers (depot_hours true) (@almost (depot_hours true)) waiting_heap [1%nat].
  Proof.
    destruct (@c06_algorithm (depot_hours true) hours_config [0%nat] [0%nat] empty_heap) as (pl & h & E & T & F & V & A);
      [apply depot_hours_sane|apply tidyb_sound; reflexivity|apply empty_fair|done|apply NoDup_singleton|apply NoDup_singleton|done|].
    rewrite waiting_run in E. pose proof (f_equal fst E) as Ep. apply (f_equal snd) in E. cbn [fst snd] in Ep, E. injection Ep as <-. subst h.
    split; [exact T|]. split; [exact F|]. split; [exact V|].
    split; [|intros r v ids xs Hr R B; exact (proj1 (A r v ids xs Hr R B))].
    refine (proj2 (valid_one _ _ _ _ _ waiting_on_tour _)). apply simpleb_sound. vm_compute. reflexivity.
  Qed.
  (** leaves at once, is back at 60, when 57 would be needed *)
  Example C81_case_work :
    insertion_optimize (W := depot_hours false) hours_config [0%nat] [1%nat] None empty_heap = (Ok [1%nat], hasty_heap) /\
    @on_tour (depot_hours false) hasty_heap 1 0 (stops_in hasty_heap 1) (visits_of hasty_heap 1) /\
    map tm_departure (@timetable (depot_hours false) 0 (visits_of hasty_heap 1)) = [0; 20000; 30000; 60000] /\
    @out_duration (depot_hours false) 0 = 5000 /\ @back_duration (depot_hours false) 0 = 5000 /\
    @v_destination_latest (depot_hours false) 0 = Lim 62000.
  Proof. split; [apply hasty_run|]. split; [apply hasty_on_tour|]. repeat split; vm_compute; reflexivity. Qed.
End C81_example.
