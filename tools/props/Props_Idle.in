(** * Vehicles that stay idle and trips that are left over

    [valid_planning], [planned_for] and [route_serves] are in Plannings.v,
    [admissible] and [serve] in Spec.v, [tidy] and [on_tour] in Represents.v,
    [fits] and [honest] in SpecFair.v. *)
From Verif Require Import IdleTheorems IdleRefute MissTheorems MissRefute.

(** ** C66.  A warm start never uses a vehicle that was idle in the initial planning *)
@C66_idle c66_idle

Section C66_example.
  #[local] Existing Instance town.
  (** vehicle 0 is idle, vehicle 1 serves trip 2; the run adds trip 3 to
      vehicle 1, leaves trip 1 over, and vehicle 0 stays idle *)
  Example C66_case : sane /\ tidy partly_town /\ valid_planning partly_town [0; 1]%nat [2]%nat partly_routes /\
    NoDup [1; 3]%nat /\ (1 <= ic_random all_pairs_config)%nat /\
    planned_for partly_town partly_routes 1 [2]%nat /\ planned_for partly_town partly_routes 0 [] /\
    insertion_optimize all_pairs_config [0; 1]%nat [1; 3]%nat (Some partly_routes) partly_town = (Ok partly_result, partly_end) /\
    planned_for partly_end partly_result 0 [] /\ planned_for partly_end partly_result 1 [3; 2]%nat.
  Proof.
    split; [apply town_sane|]. split; [apply tidyb_sound; reflexivity|]. split.
    { eapply (valid_two _ _ _ _ _ (stops_in partly_town 0) (stops_in partly_town 2) (visits_of partly_town 0) (visits_of partly_town 2)).
      - apply on_tourb_sound; reflexivity.
      - apply on_tourb_sound; reflexivity.
      - done.
      - intros t Ht. change (boards (visits_of partly_town 0)) with (@nil nat) in Ht. inversion Ht.
      - intros t Ht. exact Ht. }
    split; [apply (bool_decide_unpack _); reflexivity|]. split; [cbn; lia|].
    split; [exists 2%nat; split; [right; left|]; exists (stops_in partly_town 2), (visits_of partly_town 2); split; [apply on_tourb_sound; reflexivity|reflexivity]|].
    split; [exists 0%nat; split; [left|]; exists (stops_in partly_town 0), (visits_of partly_town 0); split; [apply on_tourb_sound; reflexivity|reflexivity]|].
    split; [vm_compute; reflexivity|].
    split; [exists spare; split; [left|]; exists (stops_in partly_end spare), (visits_of partly_end spare); split; [apply on_tourb_sound; reflexivity|reflexivity]|].
    exists used; split; [right; left|]; exists (stops_in partly_end used), (visits_of partly_end used); split; [apply on_tourb_sound; reflexivity|reflexivity].
  Qed.
End C66_example.

(** ** C67.  No trip left over at the end fits into a route of the result *)
(** Full statement: if [insertion_optimize] with the exhaustive strategy returns
    the planning [pl] without trip [t] of the job, then no insertion of [t] into
    a route of [pl] gives an admissible tour.  It is false of the code.  A cold
    start tries one of several idle vehicles and never the others; a warm start
    with a busy vehicle never tries the idle ones ([C66_idle]).  And a busy
    vehicle with a limit on the duration of its route may not get a trip that
    fits anywhere on its route, because the attempt moves its departure to an
    earlier time. *)
@C67_refuted c67_refuted
@C67_refuted_warm c67_refuted_warm
@C67_refuted_busy c67_refuted_busy

(** What holds: no trip that is left over fits into the route of a busy vehicle
    behind its first visit, if the extended route would keep the duration limit
    even when the vehicle left as early as it can.  Missing: idle vehicles, the
    place right behind the departure, and routes that keep the duration limit
    only because the vehicle leaves later. *)
@C67_busy_partial c67_busy
@C67_busy_warm_partial c67_warm_busy

Section C67_example.
  #[local] Existing Instance town.
  (** vehicle 1 serves trips 3 and 2; trip 1 is left over *)
  Example C67_case : sane /\ tidy empty_heap /\ honest empty_heap /\ NoDup [1]%nat /\ NoDup [1; 2; 3]%nat /\
    (1 <= ic_random late_config)%nat /\ ic_strategy late_config = Intensive /\ ic_only_feasible late_config = true /\
    ic_size late_config = None /\
    insertion_optimize late_config [1]%nat [1; 2; 3]%nat None empty_heap = (Ok unmet_routes, unmet_town) /\
    (forall q w us, q ∈ unmet_routes -> route_serves unmet_town q w us -> 1%nat ∉ us) /\
    unmet_routes = [unmet_route] /\ planned_for unmet_town unmet_routes 1 [3; 2]%nat.
  Proof.
    split; [apply town_sane|]. split; [apply tidyb_sound; reflexivity|]. split; [apply honest_empty|].
    split; [apply (bool_decide_unpack _); reflexivity|]. split; [apply (bool_decide_unpack _); reflexivity|].
    split; [cbn; lia|]. do 3 (split; [reflexivity|]). split; [exact unmet_run|]. split.
    { intros q w us ->%elem_of_list_singleton (ids & xs & R & <-). apply on_tour_RouteOK in R as [R _].
      pose proof (proj1 (proj1 (on_tour_RouteOK _ _ _ _ _) unmet_tour)) as R0.
      destruct (RouteW_det _ _ _ _ _ _ _ _ R R0) as (_ & _ & ->). apply (bool_decide_unpack _); reflexivity. }
    split; [reflexivity|]. exists unmet_route. split; [left|]. eexists _, _. split; [exact unmet_tour|reflexivity].
  Qed.
  (** and the result is a start for another run, with trip 1 and a new trip *)
  Example C67_case_warm : tidy unmet_town /\ honest unmet_town /\ valid_planning unmet_town [1]%nat [2; 3]%nat unmet_routes /\ NoDup [1; 4]%nat.
  Proof.
    split; [apply tidyb_sound; reflexivity|]. split; [exact unmet_honest|]. split; [|apply (bool_decide_unpack _); reflexivity].
    assert (U : forall r v us, r ∈ unmet_routes -> route_serves unmet_town r v us -> r = unmet_route /\ us = [3; 2]%nat).
    { intros r v us ->%elem_of_list_singleton (ids & xs & R & <-). apply on_tour_RouteOK in R as [R _].
      pose proof (proj1 (proj1 (on_tour_RouteOK _ _ _ _ _) unmet_tour)) as R0.
      destruct (RouteW_det _ _ _ _ _ _ _ _ R R0) as (_ & _ & ->). done. }
    split.
    - apply NoDup_singleton.
    - exists [1]%nat. split; [done|]. constructor; [|constructor]. eexists _, _, _. split; [exact unmet_tour|reflexivity].
    - intros r v us t Hr S Ht. destruct (U _ _ _ Hr S) as [-> ->]. set_solver.
    - intros r r' v v' us us' t Hr Hr' S S' _ _. destruct (U _ _ _ Hr S) as [-> _], (U _ _ _ Hr' S') as [-> _]. done.
  Qed.
End C67_example.
