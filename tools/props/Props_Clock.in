(** C78: moving all times of an instance.  SpecClock.v has [moved_world c W W']
    ([W'] is [W] with the windows of all trips and vehicles moved by [c]),
    [same_chance] (sets and random choices behave alike), [moved_visit] (a
    requested start moves too) and [moved_timing]. *)
From Verif Require Import ClockTheorems WitnessClock Checker Searches AdmissibleCheck.

(** ** C78.  Moving an instance in time moves its plans

    Refuted for the insertion algorithm: a vehicle may be away for 5, the
    passenger can be picked up from 10 on at distance 1, so the vehicle has to
    leave at 9.  If everything happens 100 later, the vehicle is told to leave at
    9, not at 109, hence leaves at 100 and would be away for too long; the
    passenger is left behind.  What holds: as long as vehicles do not start
    before time 0, the schedule of a tour moves along, and limits, answers and
    objective values stay the same. *)
@C78_refuted c78_refuted
@C78_schedule_partial c78_schedule
@C78_limits_partial c78_limits
@C78_feasible_partial c78_feasible
@C78_value_partial c78_value

Section C78_example.
  Example C78_case : moved_world 100000 bell_world noon_world /\ @sane bell_world /\
    0 <= @v_origin_earliest bell_world 0 /\ 0 <= @v_origin_earliest noon_world 0 /\
    (let xs := visits_of bell_heap 1 in
     @on_tour bell_world bell_heap 1 0 (stops_in bell_heap 1) xs /\ @admissible bell_world 0 xs /\ boards xs = [0%nat] /\
     map tm_start (@timetable bell_world 0 xs) = [9000; 10000; 11000; 13000] /\
     map tm_start (@timetable noon_world 0 (map (moved_visit 100000) xs)) = [109000; 110000; 111000; 113000] /\
     @value_of noon_world DialARide 0 (map (moved_visit 100000) xs) = [1; -4000]).
  Proof.
    split; [apply move_world_moved|]. split; [split; intros [|[|t]]; cbn; lia|]. split; [cbn; lia|]. split; [cbn; lia|].
    cbv zeta. split; [exact bell_on_tour|]. split; [apply admissibleb_sound; vm_compute; reflexivity|].
    split; [vm_compute; reflexivity|]. split; [vm_compute; reflexivity|]. split; vm_compute; reflexivity.
  Qed.
  Example C78_case_missed : @insertion_optimize noon_world bell_config [0%nat] [0%nat] None empty_heap = (Ok [0%nat], noon_heap) /\
    boards (visits_of noon_heap 0) = [] /\ @admissible noon_world 0 (map (moved_visit 100000) (visits_of bell_heap 1)).
  Proof.
    split; [vm_compute; reflexivity|]. split; [vm_compute; reflexivity|]. apply admissibleb_sound. vm_compute. reflexivity.
  Qed.
End C78_example.
Section C78_example_feasible.
  Example C78_case_feasible : moved_world 100000 dawn_world dusk_world /\ @sane dawn_world /\
    @well_formed dawn_world dawn_heap 2 0 (stops_in dawn_heap 2) (visits_of dawn_heap 2) /\ unasked dawn_heap 2 (stops_in dawn_heap 2) /\
    @well_formed dusk_world dusk_heap 2 0 (stops_in dusk_heap 2) (visits_of dusk_heap 2) /\ unasked dusk_heap 2 (stops_in dusk_heap 2) /\
    visits_of dusk_heap 2 = map (moved_visit 100000) (visits_of dawn_heap 2) /\ boards (visits_of dawn_heap 2) = [0%nat] /\
    fst (@route_feasible dawn_world 2 dawn_heap) = Ok true.
  Proof.
    split; [apply move_world_moved|]. split; [split; intros [|[|t]]; cbn; lia|].
    split; [apply well_formedb_sound; vm_compute; reflexivity|]. split; [apply unaskedb_sound; vm_compute; reflexivity|].
    split; [apply well_formedb_sound; vm_compute; reflexivity|]. split; [apply unaskedb_sound; vm_compute; reflexivity|].
    split; [vm_compute; reflexivity|]. split; vm_compute; reflexivity.
  Qed.
End C78_example_feasible.
