(** C27-C30: local search. *)
From Verif Require Import LocalTheorems TwoOptTheorems TwoOptEnds ShiftTheorems OneShiftTheorems GraspTheorems WitnessSearch.

(** ** C27.  Local search never returns a worse planning and leaves the initial
    result untouched

    For plannings whose inner stops are each for one boarding or one alighting,
    as in every planning the insertion algorithms return (C27_reach_cold,
    C27_reach_warm). *)
@C27_keeps c27_keeps
(** one application of the strategy: each vehicle keeps its trips and the value
    stays, or one trip changes vehicle and the value rises *)
@C27_step c27_step
(** for the objectives whose values are whole numbers the search ends *)
@C27_ends c27_ends
@C27_reach_cold c17_single
@C27_reach_warm c19_single

Section C27_example.
  #[local] Existing Instance loop.
  (** a search that moves a trip to the other vehicle *)
  Example C27_case : sane /\ tidy split_loop /\
    valid_planning split_loop [1; 0]%nat [0; 1]%nat [1; 3]%nat /\ single_stops split_loop [1; 3]%nat /\
    local_search_optimize 5 Reallocation DialARide 1 [1; 3]%nat split_loop = (Ok [6; 11]%nat, joined_loop) /\
    result (mapM route_trips [1; 3]%nat) split_loop = Ok [[0]; [1]]%nat /\
    result (mapM route_trips [6; 11]%nat) joined_loop = Ok [[]; [1; 0]]%nat /\
    result (planning_value DialARide [1; 3]%nat) split_loop = Ok [2; -100000] /\
    result (planning_value DialARide [6; 11]%nat) joined_loop = Ok [2; -40000].
  Proof.
    split; [apply loop_sane|]. split; [apply tidyb_sound; reflexivity|].
    destruct (validb_sound split_loop [1; 0]%nat [0; 1]%nat [1; 3]%nat [(1, [0]); (0, [1])]%nat) as [V S]; [reflexivity|].
    split; [exact V|]. split; [exact S|]. split; [vm_compute; reflexivity|].
    split; [vm_compute; reflexivity|]. split; [vm_compute; reflexivity|]. split; vm_compute; reflexivity.
  Qed.
  (** the strategy applied to that planning and to its result *)
  Example C27_case_step :
    fst (ls_improve Reallocation DialARide [1; 3]%nat split_loop) = Ok [6; 11]%nat /\
    fst (ls_improve Reallocation DialARide [6; 11]%nat joined_loop) = Ok [26; 27]%nat /\
    result (mapM route_trips [26; 27]%nat) (after (ls_improve Reallocation DialARide [6; 11]%nat) joined_loop) = Ok [[]; [1; 0]]%nat.
  Proof. split; [vm_compute; reflexivity|]. split; vm_compute; reflexivity. Qed.
End C27_example.

(** ** C28.  2-opt keeps one route per vehicle

    It does not: every improving reversal adds a route for the same vehicle,
    and only the routes of the initial planning are replaced
    (two_opt.py:28-58, strategies/abc.py:57-66). *)
@C28_refuted c28_refuted
(** What it does keep.  One step: every route of the result is a route of the
    initial planning, or one with a stretch of it driven in reverse, which is
    strictly better and, if recorded feasibility answers are [fair], keeps the
    constraints; no vehicle is left without a route.  Missing for C28: that
    there is only one route per vehicle. *)
@C28_step_partial c28_step
(** the whole search *)
@C28_search_partial c28_search
(** it takes the same passengers, each with the same vehicle *)
@C28_takes_partial c28_takes

Section C28_example.
  #[local] Existing Instance loop.
  (** a route with two detours becomes two routes, each without one of them *)
  Example C28_case : sane /\ tidy detour_loop /\ fair detour_loop /\ a_tour detour_loop 3 /\ valid_planning detour_loop [0]%nat (boards (visits_of detour_loop 3)) [3%nat] /\
    fst (ls_improve TwoOpt DialARide [3%nat] detour_loop) = Ok [5; 8]%nat /\
    on_tour twice_loop 5 0 (stops_in twice_loop 5) (turned 1 3 (visits_of detour_loop 3)) /\
    on_tour twice_loop 8 0 (stops_in twice_loop 8) (turned 4 3 (visits_of detour_loop 3)) /\
    value_of DialARide 0 (visits_of detour_loop 3) = [3; -84000] /\
    value_of DialARide 0 (visits_of twice_loop 5) = [3; -82000] /\
    value_of DialARide 0 (visits_of twice_loop 8) = [3; -44000] /\
    fst (local_search_optimize 6 TwoOpt DialARide 1 [3%nat] detour_loop) = Ok [14; 17]%nat.
  Proof.
    split; [apply loop_sane|]. split; [apply tidyb_sound; reflexivity|]. split.
    { assert (F1 : fair first_loop) by (apply never_asked_fair; reflexivity).
      assert (F2 : fair second_loop).
      { apply (one_fair first_loop second_loop 0 1 0 0 1 0 (stops_in first_loop 0) (visits_of first_loop 0)); [apply loop_sane|apply tidyb_sound; reflexivity|done|apply on_tourb_sound; reflexivity|apply (bool_decide_unpack _); reflexivity|cbn; lia|vm_compute; reflexivity]. }
      assert (F3 : fair third_loop).
      { apply (one_fair second_loop third_loop 1 2 1 1 3 0 (stops_in second_loop 1) (visits_of second_loop 1)); [apply loop_sane|apply tidyb_sound; reflexivity|done|apply on_tourb_sound; reflexivity|apply (bool_decide_unpack _); reflexivity|cbn; lia|vm_compute; reflexivity]. }
      apply (one_fair third_loop detour_loop 2 3 2 2 5 0 (stops_in third_loop 2) (visits_of third_loop 2)); [apply loop_sane|apply tidyb_sound; reflexivity|done|apply on_tourb_sound; reflexivity|apply (bool_decide_unpack _); reflexivity|cbn; lia|vm_compute; reflexivity]. }
    assert (R : on_tour detour_loop 3 0 (stops_in detour_loop 3) (visits_of detour_loop 3)) by (apply on_tourb_sound; reflexivity).
    split; [eexists _, _, _; exact R|]. split; [apply (valid_one _ _ _ _ _ R); apply simpleb_sound; reflexivity|].
    split; [vm_compute; reflexivity|]. split; [apply on_tourb_sound; reflexivity|]. split; [apply on_tourb_sound; reflexivity|].
    split; [vm_compute; reflexivity|]. split; [vm_compute; reflexivity|]. split; vm_compute; reflexivity.
  Qed.
End C28_example.

(** ** C29.  One-shift keeps routes feasible and ending at the depot

    It does not: the swap of the last two stops moves the end of the tour, and
    the memoised feasibility is not recomputed (one_shift.py:26-52).
    [C29_refuted]: an admissible planning becomes one whose route ends
    elsewhere and is infeasible once its memoised values are flushed.
    [C29_refuted_times]: its arrival times are stale. *)
@C29_refuted c29_refuted
@C29_refuted_times c29_times
(** What remains true: the initial planning is left alone, and each returned
    route has the visits of its original, linked one after the other, in an
    order reached by exchanging neighbours; the first visit stays first and
    everybody boards before alighting.  Missing: the final depot, time windows
    and loads (see above). *)
@C29_order_partial c29_order

Section C29_example.
  #[local] Existing Instance loop.
  (** trips 3 and 4 are on board together; the order of the visits changes *)
  Example C29_case : tidy home_loop /\ valid_planning home_loop [1%nat] (boards (visits_of home_loop 2)) [2%nat] /\
    ls_improve OneShift DialARide [2%nat] home_loop = (Ok [3%nat], away_loop) /\
    boards (visits_of home_loop 2) = [3; 4]%nat /\ visits_of away_loop 3 <> visits_of home_loop 2.
  Proof.
    split; [apply tidyb_sound; reflexivity|].
    assert (R : on_tour home_loop 2 1 (stops_in home_loop 2) (visits_of home_loop 2)) by (apply on_tourb_sound; reflexivity).
    destruct (valid_one _ _ _ _ _ R) as [V S]; [apply simpleb_sound; reflexivity|].
    split; [exact V|]. split; [vm_compute; reflexivity|]. split; [reflexivity|vm_compute; congruence].
  Qed.
End C29_example.

(** ** C30.  Swapping two neighbouring stops twice restores the route *)
@C30_swap c30_swap
@C30_back c30_back
@C30_refuses c30_refuses

Section C30_example.
  #[local] Existing Instance loop.
  Example C30_case : NoDup ([6; 7; 10] ++ 11 :: 8 :: [9])%nat /\ in_order home_loop 2 ([6; 7; 10] ++ 11 :: 8 :: [9])%nat /\
    linked_up home_loop ([6; 7; 10] ++ 11 :: 8 :: [9])%nat /\
    stops_in (after (LocalSearch.flip 2 11 8 (Some 9)) home_loop)%nat 2 = [6; 7; 10; 8; 11; 9]%nat.
  Proof.
    split; [apply (bool_decide_unpack _); reflexivity|]. split; [eexists; split; reflexivity|].
    split; [apply linked_upb_sound; reflexivity|]. vm_compute; reflexivity.
  Qed.
  (** a call with stops that are no neighbours *)
  Example C30_case_refuses : exists c cf, h_stops home_loop !! 8%nat = Some c /\ h_stops home_loop !! 9%nat = Some cf /\
    st_previous c <> Some 10%nat /\ LocalSearch.flip 2 10 8 (Some 9%nat) home_loop = (Raise AssertionError, home_loop).
  Proof.
    eexists _, _. split; [vm_compute; reflexivity|]. split; [vm_compute; reflexivity|]. split; [vm_compute; congruence|].
    vm_compute; reflexivity.
  Qed.
End C30_example.

(** ** C62.  The 2-opt search comes to an end

    The value of the planning alone does not show it, because routes of one
    vehicle can multiply; but every new route is better than the one it comes
    from, and there are only so many orders of the visits. *)
@C62_ends c28_ends

Section C62_example.
  #[local] Existing Instance loop.
  (** the search of [C28_case] takes more than one round *)
  Example C62_case : sane /\ tidy detour_loop /\ a_tour detour_loop 3 /\
    fst (local_search_optimize 1 TwoOpt DialARide 1 [3%nat] detour_loop) = Raise Diverge /\
    fst (local_search_optimize 6 TwoOpt DialARide 1 [3%nat] detour_loop) = Ok [14; 17]%nat.
  Proof.
    split; [apply loop_sane|]. split; [apply tidyb_sound; reflexivity|].
    split; [exists 0%nat, (stops_in detour_loop 3), (visits_of detour_loop 3); apply on_tourb_sound; reflexivity|]. split; vm_compute; reflexivity.
  Qed.
End C62_example.
