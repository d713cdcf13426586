(** C27-C30: local search. *)
From Verif Require Import LocalTheorems TwoOptTheorems TwoOptEnds ShiftTheorems OneShiftTheorems GraspTheorems WitnessSearch.

(** ** C27.  Local search never returns a worse planning and leaves the initial
    result untouched

    For plannings whose inner stops are each for one boarding or one alighting,
    as in every planning the insertion algorithms return (C27_reach_cold,
    C27_reach_warm). *)
Theorem C27_keeps `{W : World} : forall fuel o threshold h vs ts initial,
  sane -> tidy h -> valid_planning h vs ts initial -> single_stops h initial ->
  match local_search_optimize fuel Reallocation o threshold initial h with
  | (Raise e, _) => e = Diverge
  | (Ok pl, h') => tidy h' /\ valid_planning h' vs ts pl /\ single_stops h' pl /\
      (forall t, takes h' pl t <-> takes h initial t) /\
      (forall x y, total_worth o h initial x -> total_worth o h' pl y -> at_least x y) /\
      routes_kept h h'
  end.
Proof. exact c27_keeps. Qed.
Print Assumptions C27_keeps.
(** one application of the strategy: each vehicle keeps its trips and the value
    stays, or one trip changes vehicle and the value rises *)
Theorem C27_step `{W : World} : forall o h vs ts initial,
  sane -> tidy h -> valid_planning h vs ts initial -> single_stops h initial ->
  exists pl h', ls_improve Reallocation o initial h = (Ok pl, h') /\
    tidy h' /\ valid_planning h' vs ts pl /\ single_stops h' pl /\ routes_kept h h' /\
    ((same_duties h initial h' pl /\ forall x, total_worth o h initial x <-> total_worth o h' pl x) \/
     (exists t v w, handed_over h initial h' pl t v w) /\
     exists x y, total_worth o h initial x /\ total_worth o h' pl y /\ lex_lt x y).
Proof. exact c27_step. Qed.
Print Assumptions C27_step.
(** for the objectives whose values are whole numbers the search ends *)
Theorem C27_ends `{W : World} : forall o threshold h vs ts initial,
  sane -> tidy h -> valid_planning h vs ts initial -> single_stops h initial -> o <> TaxiSharing ->
  exists n, forall fuel, (n <= fuel)%nat ->
    exists pl h', local_search_optimize fuel Reallocation o threshold initial h = (Ok pl, h').
Proof. exact c27_ends. Qed.
Print Assumptions C27_ends.
Theorem C27_reach_cold `{W : World} : forall cfg fleet job h pl h',
  sane -> tidy h -> NoDup fleet -> NoDup job -> (1 <= ic_random cfg)%nat ->
  insertion_optimize cfg fleet job None h = (Ok pl, h') -> single_stops h' pl.
Proof. exact c17_single. Qed.
Print Assumptions C27_reach_cold.
Theorem C27_reach_warm `{W : World} : forall cfg fleet job h vs ts rs0 pl h',
  sane -> tidy h -> valid_planning h vs ts rs0 -> single_stops h rs0 -> NoDup job -> (1 <= ic_random cfg)%nat ->
  insertion_optimize cfg fleet job (Some rs0) h = (Ok pl, h') -> single_stops h' pl.
Proof. exact c19_single. Qed.
Print Assumptions C27_reach_warm.

Section C27_example.
  #[local] Existing Instance loop.
  (** a search that moves a trip to the other vehicle *)
  Example C27_case : sane /\ tidy split_loop /\
    valid_planning split_loop [1; 0]%nat [0; 1]%nat [1; 3]%nat /\ single_stops split_loop [1; 3]%nat /\
    local_search_optimize 5 Reallocation DialARide 1 [1; 3]%nat split_loop = (Ok [6; 11]%nat, joined_loop) /\
    result (mapM route_trips [1; 3]%nat) split_loop = Ok [[0]; [1]]%nat /\
    result (mapM route_trips [6; 11]%nat) joined_loop = Ok [[]; [1; 0]]%nat /\
    result (planning_value DialARide [1; 3]%nat) split_loop = Ok [2; -100000] /\
    result (planning_value DialARide [6; 11]%nat) joined_loop = Ok [2; -40000].
  Proof.
    split; [apply loop_sane|]. split; [apply tidyb_sound; reflexivity|].
    destruct (validb_sound split_loop [1; 0]%nat [0; 1]%nat [1; 3]%nat [(1, [0]); (0, [1])]%nat) as [V S]; [reflexivity|].
    split; [exact V|]. split; [exact S|]. split; [vm_compute; reflexivity|].
    split; [vm_compute; reflexivity|]. split; [vm_compute; reflexivity|]. split; vm_compute; reflexivity.
  Qed.
  (** the strategy applied to that planning and to its result *)
  Example C27_case_step :
    fst (ls_improve Reallocation DialARide [1; 3]%nat split_loop) = Ok [6; 11]%nat /\
    fst (ls_improve Reallocation DialARide [6; 11]%nat joined_loop) = Ok [26; 27]%nat /\
    result (mapM route_trips [26; 27]%nat) (after (ls_improve Reallocation DialARide [6; 11]%nat) joined_loop) = Ok [[]; [1; 0]]%nat.
  Proof. split; [vm_compute; reflexivity|]. split; vm_compute; reflexivity. Qed.
End C27_example.

(** ** C28.  2-opt keeps one route per vehicle

    It does not: every improving reversal adds a route for the same vehicle,
    and only the routes of the initial planning are replaced
    (two_opt.py:28-58, strategies/abc.py:57-66). *)
Theorem C28_refuted : exists (W : World) o h vs ts pl pl' h' r r' v us us' t,
  sane /\ tidy h /\ valid_planning h vs ts pl /\ single_stops h pl /\
  ls_improve TwoOpt o pl h = (Ok pl', h') /\ tidy h' /\
  r ∈ pl' /\ r' ∈ pl' /\ r <> r' /\
  route_serves h' r v us /\ route_serves h' r' v us' /\ t ∈ us /\ t ∈ us'.
Proof. exact c28_refuted. Qed.
Print Assumptions C28_refuted.
(** What it does keep.  One step: every route of the result is a route of the
    initial planning, or one with a stretch of it driven in reverse, which is
    strictly better and, if recorded feasibility answers are [fair], keeps the
    constraints; no vehicle is left without a route.  Missing for C28: that
    there is only one route per vehicle. *)
Theorem C28_step_partial `{W : World} : forall o h initial,
  sane -> tidy h -> (forall r, r ∈ initial -> a_tour h r) ->
  exists pl h', ls_improve TwoOpt o initial h = (Ok pl, h') /\ tidy h' /\ (fair h -> fair h') /\ routes_kept h h' /\
    (forall r', r' ∈ pl -> exists r v ids xs ids' ys, r ∈ initial /\ on_tour h r v ids xs /\ on_tour h' r' v ids' ys /\
       (ys = xs \/ turns xs ys /\ lex_lt (value_of o v xs) (value_of o v ys) /\ (fair h -> almost v ys /\ brief v ys))) /\
    (forall r v ids xs, r ∈ initial -> on_tour h r v ids xs -> exists r' ids' ys, r' ∈ pl /\ on_tour h' r' v ids' ys /\
       (ys = xs \/ exists r0 ids0 xs0, r0 ∈ initial /\ on_tour h r0 v ids0 xs0 /\ turns xs0 ys)).
Proof. exact c28_step. Qed.
Print Assumptions C28_step_partial.
(** the whole search *)
Theorem C28_search_partial `{W : World} : forall fuel o threshold h initial,
  sane -> tidy h -> (forall r, r ∈ initial -> a_tour h r) ->
  match local_search_optimize fuel TwoOpt o threshold initial h with
  | (Raise e, _) => e = Diverge
  | (Ok pl, h') => tidy h' /\ (fair h -> fair h') /\ routes_kept h h' /\
      (forall r', r' ∈ pl -> exists r v ids xs ids' ys, r ∈ initial /\ on_tour h r v ids xs /\ on_tour h' r' v ids' ys /\
         many_turns xs ys /\
         (ys = xs \/ lex_lt (value_of o v xs) (value_of o v ys) /\ (fair h -> almost v ys /\ brief v ys))) /\
      (forall r v ids xs, r ∈ initial -> on_tour h r v ids xs -> exists r' ids' ys, r' ∈ pl /\ on_tour h' r' v ids' ys) /\
      (forall x y, total_worth o h initial x -> total_worth o h' pl y -> at_least x y)
  end.
Proof. exact c28_search. Qed.
Print Assumptions C28_search_partial.
(** it takes the same passengers, each with the same vehicle *)
Theorem C28_takes_partial `{W : World} : forall fuel o threshold h vs ts initial pl h',
  sane -> tidy h -> valid_planning h vs ts initial ->
  local_search_optimize fuel TwoOpt o threshold initial h = (Ok pl, h') ->
  (forall t, takes h' pl t <-> takes h initial t) /\
  (forall v us', planned_for h' pl v us' -> exists us, planned_for h initial v us /\ us' ≡ₚ us) /\
  (forall v us, planned_for h initial v us -> exists us', planned_for h' pl v us').
Proof. exact c28_takes. Qed.
Print Assumptions C28_takes_partial.

Section C28_example.
  #[local] Existing Instance loop.
  (** a route with two detours becomes two routes, each without one of them *)
  Example C28_case : sane /\ tidy detour_loop /\ fair detour_loop /\ a_tour detour_loop 3 /\ valid_planning detour_loop [0]%nat (boards (visits_of detour_loop 3)) [3%nat] /\
    fst (ls_improve TwoOpt DialARide [3%nat] detour_loop) = Ok [5; 8]%nat /\
    on_tour twice_loop 5 0 (stops_in twice_loop 5) (turned 1 3 (visits_of detour_loop 3)) /\
    on_tour twice_loop 8 0 (stops_in twice_loop 8) (turned 4 3 (visits_of detour_loop 3)) /\
    value_of DialARide 0 (visits_of detour_loop 3) = [3; -84000] /\
    value_of DialARide 0 (visits_of twice_loop 5) = [3; -82000] /\
    value_of DialARide 0 (visits_of twice_loop 8) = [3; -44000] /\
    fst (local_search_optimize 6 TwoOpt DialARide 1 [3%nat] detour_loop) = Ok [14; 17]%nat.
  Proof.
    split; [apply loop_sane|]. split; [apply tidyb_sound; reflexivity|]. split.
    { assert (F1 : fair first_loop) by (apply never_asked_fair; reflexivity).
      assert (F2 : fair second_loop).
      { apply (one_fair first_loop second_loop 0 1 0 0 1 0 (stops_in first_loop 0) (visits_of first_loop 0)); [apply loop_sane|apply tidyb_sound; reflexivity|done|apply on_tourb_sound; reflexivity|apply (bool_decide_unpack _); reflexivity|cbn; lia|vm_compute; reflexivity]. }
      assert (F3 : fair third_loop).
      { apply (one_fair second_loop third_loop 1 2 1 1 3 0 (stops_in second_loop 1) (visits_of second_loop 1)); [apply loop_sane|apply tidyb_sound; reflexivity|done|apply on_tourb_sound; reflexivity|apply (bool_decide_unpack _); reflexivity|cbn; lia|vm_compute; reflexivity]. }
      apply (one_fair third_loop detour_loop 2 3 2 2 5 0 (stops_in third_loop 2) (visits_of third_loop 2)); [apply loop_sane|apply tidyb_sound; reflexivity|done|apply on_tourb_sound; reflexivity|apply (bool_decide_unpack _); reflexivity|cbn; lia|vm_compute; reflexivity]. }
    assert (R : on_tour detour_loop 3 0 (stops_in detour_loop 3) (visits_of detour_loop 3)) by (apply on_tourb_sound; reflexivity).
    split; [eexists _, _, _; exact R|]. split; [apply (valid_one _ _ _ _ _ R); apply simpleb_sound; reflexivity|].
    split; [vm_compute; reflexivity|]. split; [apply on_tourb_sound; reflexivity|]. split; [apply on_tourb_sound; reflexivity|].
    split; [vm_compute; reflexivity|]. split; [vm_compute; reflexivity|]. split; vm_compute; reflexivity.
  Qed.
End C28_example.

(** ** C29.  One-shift keeps routes feasible and ending at the depot

    It does not: the swap of the last two stops moves the end of the tour, and
    the memoised feasibility is not recomputed (one_shift.py:26-52).
    [C29_refuted]: an admissible planning becomes one whose route ends
    elsewhere and is infeasible once its memoised values are flushed.
    [C29_refuted_times]: its arrival times are stale. *)
Theorem C29_refuted : exists (W : World) o h vs ts pl pl' h' r c s sc,
  sane /\ tidy h /\ valid_planning h vs ts pl /\ single_stops h pl /\
  (forall q v ids xs, q ∈ pl -> on_tour h q v ids xs -> admissible v xs) /\
  ls_improve OneShift o pl h = (Ok pl', h') /\ r ∈ pl' /\
  h_routes h' !! r = Some c /\ last (rt_stops c) = Some s /\ h_stops h' !! s = Some sc /\
  st_position sc <> v_destination_position (rt_vehicle c) /\
  returns (route_feasible r) h' true /\ returns (route_flush r ;;; route_feasible r) h' false.
Proof. exact c29_refuted. Qed.
Print Assumptions C29_refuted.
Theorem C29_refuted_times : exists (W : World) o h vs ts pl pl' h' r s z z',
  sane /\ tidy h /\ valid_planning h vs ts pl /\ single_stops h pl /\
  ls_improve OneShift o pl h = (Ok pl', h') /\ r ∈ pl' /\
  (exists ids, in_order h' r ids /\ s ∈ ids) /\
  returns (arrival_time s) h' z /\ returns (route_flush r ;;; arrival_time s) h' z' /\ z <> z'.
Proof. exact c29_times. Qed.
Print Assumptions C29_refuted_times.
(** What remains true: the initial planning is left alone, and each returned
    route has the visits of its original, linked one after the other, in an
    order reached by exchanging neighbours; the first visit stays first and
    everybody boards before alighting.  Missing: the final depot, time windows
    and loads (see above). *)
Theorem C29_order_partial `{W : World} : forall o h vs ts initial,
  tidy h -> valid_planning h vs ts initial ->
  untouched h (ls_improve OneShift o initial h).2 /\
  forall pl h', ls_improve OneShift o initial h = (Ok pl, h') ->
    Forall2 (fun r r' => forall v ids xs, on_tour h r v ids xs ->
      exists ys, visits_in_order h' r' v ys /\ many_passes xs ys /\
        head ys = head xs /\ rides ys /\ boards ys ≡ₚ boards xs) initial pl.
Proof. exact c29_order. Qed.
Print Assumptions C29_order_partial.

Section C29_example.
  #[local] Existing Instance loop.
  (** trips 3 and 4 are on board together; the order of the visits changes *)
  Example C29_case : tidy home_loop /\ valid_planning home_loop [1%nat] (boards (visits_of home_loop 2)) [2%nat] /\
    ls_improve OneShift DialARide [2%nat] home_loop = (Ok [3%nat], away_loop) /\
    boards (visits_of home_loop 2) = [3; 4]%nat /\ visits_of away_loop 3 <> visits_of home_loop 2.
  Proof.
    split; [apply tidyb_sound; reflexivity|].
    assert (R : on_tour home_loop 2 1 (stops_in home_loop 2) (visits_of home_loop 2)) by (apply on_tourb_sound; reflexivity).
    destruct (valid_one _ _ _ _ _ R) as [V S]; [apply simpleb_sound; reflexivity|].
    split; [exact V|]. split; [vm_compute; reflexivity|]. split; [reflexivity|vm_compute; congruence].
  Qed.
End C29_example.

(** ** C30.  Swapping two neighbouring stops twice restores the route *)
Theorem C30_swap `{W : World} : forall h r X a b Y,
  NoDup (X ++ a :: b :: Y) -> in_order h r (X ++ a :: b :: Y) -> linked_up h (X ++ a :: b :: Y) ->
  exists h', LocalSearch.flip r a b (head Y) h = (Ok tt, h') /\ in_order h' r (X ++ b :: a :: Y) /\ linked_up h' (X ++ b :: a :: Y) /\
    changes_only h h' r (a :: b :: take 1 Y).
Proof. exact c30_swap. Qed.
Print Assumptions C30_swap.
Theorem C30_back `{W : World} : forall h r X a b Y,
  NoDup (X ++ a :: b :: Y) -> in_order h r (X ++ a :: b :: Y) -> linked_up h (X ++ a :: b :: Y) ->
  exists h1 h2, LocalSearch.flip r a b (head Y) h = (Ok tt, h1) /\ LocalSearch.flip r b a (head Y) h1 = (Ok tt, h2) /\
    in_order h2 r (X ++ a :: b :: Y) /\ changes_only h h2 r [].
Proof. exact c30_back. Qed.
Print Assumptions C30_back.
Theorem C30_refuses `{W : World} : forall h r a b c f cf,
  h_stops h !! b = Some c -> h_stops h !! f = Some cf ->
  (st_previous c <> Some a -> LocalSearch.flip r a b None h = (Raise AssertionError, h)) /\
  (st_previous cf <> Some b -> LocalSearch.flip r a b (Some f) h = (Raise AssertionError, h)) /\
  (st_previous cf = Some b -> st_previous c <> Some a -> LocalSearch.flip r a b (Some f) h = (Raise AssertionError, h)).
Proof. exact c30_refuses. Qed.
Print Assumptions C30_refuses.

Section C30_example.
  #[local] Existing Instance loop.
  Example C30_case : NoDup ([6; 7; 10] ++ 11 :: 8 :: [9])%nat /\ in_order home_loop 2 ([6; 7; 10] ++ 11 :: 8 :: [9])%nat /\
    linked_up home_loop ([6; 7; 10] ++ 11 :: 8 :: [9])%nat /\
    stops_in (after (LocalSearch.flip 2 11 8 (Some 9)) home_loop)%nat 2 = [6; 7; 10; 8; 11; 9]%nat.
  Proof.
    split; [apply (bool_decide_unpack _); reflexivity|]. split; [eexists; split; reflexivity|].
    split; [apply linked_upb_sound; reflexivity|]. vm_compute; reflexivity.
  Qed.
  (** a call with stops that are no neighbours *)
  Example C30_case_refuses : exists c cf, h_stops home_loop !! 8%nat = Some c /\ h_stops home_loop !! 9%nat = Some cf /\
    st_previous c <> Some 10%nat /\ LocalSearch.flip 2 10 8 (Some 9%nat) home_loop = (Raise AssertionError, home_loop).
  Proof.
    eexists _, _. split; [vm_compute; reflexivity|]. split; [vm_compute; reflexivity|]. split; [vm_compute; congruence|].
    vm_compute; reflexivity.
  Qed.
End C30_example.

(** ** C62.  The 2-opt search comes to an end

    The value of the planning alone does not show it, because routes of one
    vehicle can multiply; but every new route is better than the one it comes
    from, and there are only so many orders of the visits. *)
Theorem C62_ends `{W : World} : forall o threshold h initial,
  sane -> tidy h -> (forall r, r ∈ initial -> a_tour h r) ->
  exists n, forall fuel, (n <= fuel)%nat ->
    exists pl h', local_search_optimize fuel TwoOpt o threshold initial h = (Ok pl, h').
Proof. exact c28_ends. Qed.
Print Assumptions C62_ends.

Section C62_example.
  #[local] Existing Instance loop.
  (** the search of [C28_case] takes more than one round *)
  Example C62_case : sane /\ tidy detour_loop /\ a_tour detour_loop 3 /\
    fst (local_search_optimize 1 TwoOpt DialARide 1 [3%nat] detour_loop) = Raise Diverge /\
    fst (local_search_optimize 6 TwoOpt DialARide 1 [3%nat] detour_loop) = Ok [14; 17]%nat.
  Proof.
    split; [apply loop_sane|]. split; [apply tidyb_sound; reflexivity|].
    split; [exists 0%nat, (stops_in detour_loop 3), (visits_of detour_loop 3); apply on_tourb_sound; reflexivity|]. split; vm_compute; reflexivity.
  Qed.
End C62_example.
