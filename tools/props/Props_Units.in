(** * Units of measurement

    [other_unit], [in_unit], [value_in_unit], [visit_in_unit], [timing_in_unit],
    [state_in_unit], [unit_run], [finer] and [finer_only] are in SpecUnits.v,
    [place_of] and [inside] in SpecPlaces.v, [timetable] and [admissible] in
    Spec.v. *)
From Verif Require Import AdmissibleCheck OrderTheorems WitnessUnits SpecPlaces SpecUnits UnitTheorems.

(** ** C88.  The unit of measurement *)
(** an instance given in another unit, with the tolerance in that unit: all
    times and loads are converted, the limits hold as before, *)
@C88_schedule c88_schedule
@C88_limits c88_limits
(** all algorithms make the same calls with the same results, *)
@C88_insertion c88_insertion
@C88_stateless c88_stateless
@C88_search c88_search
@C88_grasp c88_grasp
@C88_iterative c88_iterative
@C88_sequential c88_sequential
(** and answers to all questions are converted *)
@C88_answers c88_answers
(** every instance with Manhattan distances can be given in finer units *)
@C88_manhattan c88_manhattan
(** with the tolerance fixed, as in the code, limits and results do depend on the
    unit *)
@C88_tolerance c88_tolerance
@C88_tolerance_insertion c88_tolerance_insertion

Section C88_example.
  Example C88_case : @w_metric fork_world = Manhattan /\ other_unit 10 tens fork_world (finer 10 fork_world) /\ inside fork_world fork_after /\
    @insertion_optimize fork_world (warm_config EarliestLastDeparture) [0%nat] [0; 1; 2]%nat None empty_heap = (Ok [15%nat], fork_after) /\
    @insertion_optimize (finer 10 fork_world) (warm_config EarliestLastDeparture) [0%nat] [0; 1; 2]%nat None empty_heap =
      (Ok [15%nat], state_in_unit 10 tens fork_after) /\
    state_in_unit 10 tens fork_after <> fork_after /\
    (exists x, fst (@planning_value fork_world DialARide [15%nat] fork_after) = Ok [2; x] /\ x <> 0 /\
      fst (@planning_value (finer 10 fork_world) DialARide [15%nat] (state_in_unit 10 tens fork_after)) = Ok [2; 10 * x]).
  Proof.
    pose proof (c88_manhattan 10 fork_world eq_refl) as E.
    assert (I0 : inside fork_world empty_heap) by (intros c Hc; inversion Hc).
    destruct (c88_insertion 10 tens fork_world (finer 10 fork_world) E (warm_config EarliestLastDeparture) [0%nat] [0; 1; 2]%nat None empty_heap I0) as [I1 _].
    rewrite fork_run in I1.
    split; [reflexivity|]. split; [exact E|]. split; [exact I1|]. split; [exact fork_run|].
    split; [vm_compute; reflexivity|]. split; [discriminate|]. eexists. split; [vm_compute; reflexivity|]. split; [discriminate|vm_compute; reflexivity].
  Qed.
  (** from that state a search and GRASP, in either unit *)
  Example C88_case_search :
    fst (@local_search_optimize (finer 10 fork_world) 5 Reallocation DialARide 1 [15%nat] (state_in_unit 10 tens fork_after)) =
      fst (@local_search_optimize fork_world 5 Reallocation DialARide 1 [15%nat] fork_after) /\
    (exists pl, fst (@local_search_optimize fork_world 5 Reallocation DialARide 1 [15%nat] fork_after) = Ok pl) /\
    (exists pl, fst (@grasp_optimize (finer 10 fork_world) 3 DialARide (warm_config EarliestLastDeparture) [0%nat] [0; 2]%nat 1 1 empty_heap) = Ok pl).
  Proof. split; [vm_compute; reflexivity|]. split; eexists; vm_compute; reflexivity. Qed.
  (** a ride *)
  Example C88_case_visits : (forall x, x ∈ late_visits -> place_of late_world (vi_place x)) /\
    @timetable late_world 0 late_visits !! 2%nat = Some (Timing 30 30 30 0) /\
    @timetable (finer 10 late_world) 0 (map (visit_in_unit 10 tens) late_visits) !! 2%nat = Some (Timing 300 300 300 0) /\
    @admissible late_world 0 late_visits.
  Proof.
    split.
    - intros x Hx. repeat (apply elem_of_cons in Hx as [->|Hx]; [|]); [| | | |by apply elem_of_nil in Hx]; cbn.
      + right. exists 0%nat. by left.
      + left. exists 0%nat. by left.
      + left. exists 0%nat. by right.
      + right. exists 0%nat. by left.
    - split; [vm_compute; reflexivity|]. split; [vm_compute; reflexivity|]. apply admissibleb_sound. vm_compute. reflexivity.
  Qed.
End C88_example.
