(** * What depends on the iteration order of sets

    [reordered], [same_people] and [no_ties] are in SpecOrder.v, [timetable]
    and [admissible] in Spec.v, [value_of] and [score_of] in SpecValue.v,
    [total_worth], [answered], [a_tour] and [well_planned] in Values.v,
    [well_formed] and [unasked] in Represents.v. *)
From Verif Require Import WarmTheorems WitnessOrder SpecOrder OrderTheorems.

(** ** C86.  The iteration order of sets does not change what is found *)
(** it does: the insertion algorithm keeps the first of equally good
    candidates, and the order of the set of trips left decides which that is *)
@C86_refuted c86_refuted
(** the order within the sets of passengers of the stops changes neither the
    times and loads, *)
@C86_schedule_partial c86_schedule
(** nor what is within the limits, *)
@C86_limits_partial c86_limits
(** nor the answers about routes, *)
@C86_feasible_partial c86_feasible
(** nor values and scores *)
@C86_value_partial c86_value
(** the order of routes matters only among equal scores, *)
@C86_sorted_partial c86_sorted
(** and not for the value of a planning *)
@C86_total_partial c86_total

Section C86_example.
  (** one configuration and one list of trips, with the set of three trips read
      forwards and backwards *)
  Example C86_case : @sane fork_world /\ krof_world = reordered fork_world last_first last_first_perm /\
    @insertion_optimize fork_world (warm_config EarliestLastDeparture) [0%nat] [0; 1; 2]%nat None empty_heap = (Ok [15%nat], fork_after) /\
    @insertion_optimize krof_world (warm_config EarliestLastDeparture) [0%nat] [0; 1; 2]%nat None empty_heap = (Ok [2%nat], krof_after) /\
    (exists x, @total_worth fork_world DialARide fork_after [15%nat] [2; x]) /\
    (exists x, @total_worth krof_world DialARide krof_after [2%nat] [1; x]).
  Proof.
    split; [exact fork_sane|]. split; [reflexivity|]. split; [exact fork_run|]. split; [exact krof_run|].
    split; eexists; [exact (one_worth DialARide _ _ _ _ _ fork_tour)|exact (one_worth DialARide _ _ _ _ _ krof_tour)].
  Qed.
  (** two passengers board at one stop, the second of them slowly *)
  Example C86_case_people : @sane pair_world /\ Forall2 same_people (pair_visits [0; 1]%nat) (pair_visits [1; 0]%nat) /\
    pair_visits [0; 1]%nat <> pair_visits [1; 0]%nat /\
    @well_formed pair_world (pair_heap [0; 1]%nat) 0 0 [0; 1; 2; 3; 4]%nat (pair_visits [0; 1]%nat) /\ unasked (pair_heap [0; 1]%nat) 0 [0; 1; 2; 3; 4]%nat /\
    @well_formed (reordered pair_world last_first last_first_perm) (pair_heap [1; 0]%nat) 0 0 [0; 1; 2; 3; 4]%nat (pair_visits [1; 0]%nat) /\
    unasked (pair_heap [1; 0]%nat) 0 [0; 1; 2; 3; 4]%nat /\
    fst (@route_feasible pair_world 0 (pair_heap [0; 1]%nat)) = Ok true /\
    (@timetable pair_world 0 (pair_visits [1; 0]%nat)) !! 1%nat = Some (Timing 5000 5000 8000 2000).
  Proof.
    split; [split; intros [|[|[|t]]]; vm_compute; try split; congruence|].
    split; [repeat constructor|]. split; [discriminate|].
    split; [apply well_formedb_sound; vm_compute; reflexivity|]. split; [apply unaskedb_sound; vm_compute; reflexivity|].
    split; [apply well_formedb_sound; vm_compute; reflexivity|]. split; [apply unaskedb_sound; vm_compute; reflexivity|].
    split; vm_compute; reflexivity.
  Qed.
  (** three routes with different scores, ranked from any order *)
  Example C86_case_ranked : @sane meter /\ (forall r, r ∈ [4; 2; 3]%nat -> @a_tour meter ranked_town r) /\
    @no_ties meter LongestUtilTime ranked_town [4; 2; 3]%nat /\
    (@criterion_sorted meter LongestUtilTime [4; 2; 3]%nat ranked_town).1 = Ok [2; 4; 3]%nat /\
    (@criterion_sorted meter LongestUtilTime [3; 4; 2]%nat ranked_town).1 = Ok [2; 4; 3]%nat /\
    @well_planned meter ranked_town [2; 4]%nat /\
    (@planning_value meter DialARide [4; 2]%nat ranked_town).1 = Ok [3; -18000].
  Proof.
    assert (H : forall r, r ∈ [4; 2; 3]%nat -> @a_tour meter ranked_town r).
    { intros r Hr. exists (if decide (r = 2%nat) then 0%nat else 1%nat), (stops_in ranked_town r), (visits_of ranked_town r).
      repeat (apply elem_of_cons in Hr as [->|Hr]; [apply on_tourb_sound; vm_compute; reflexivity|]). by apply elem_of_nil in Hr. }
    split; [exact meter_sane|]. split; [exact H|]. split; [exact ranked_no_ties|].
    split; [vm_compute; reflexivity|]. split; [vm_compute; reflexivity|]. split; [|vm_compute; reflexivity].
    intros r Hr. destruct (H r) as (v & ids & xs & T & _); [set_solver|]. by exists v, ids, xs.
  Qed.
End C86_example.
