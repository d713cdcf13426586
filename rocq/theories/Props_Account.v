(** C56: where the time of a ride and of a route goes.  [driven_between],
    [waited_between] and [served_between] (SpecAccount.v) are sums over the
    timetable of the visits after one position and up to another. *)
From Verif Require Import SpecAccount AccountTheorems Witness.

(** ** C56.  The durations of rides and routes are driving, waiting and serving,
    each counted once *)
Theorem C56_ride `{W : World} : forall h r v ids xs ps h1 p pc,
  well_formed h r v ids xs -> planned_trips r h = (Ok ps, h1) -> p ∈ ps -> h_pts h !! p = Some pc ->
  exists i j x y, ride xs (pt_trip pc) i j /\ xs !! i = Some x /\ xs !! j = Some y /\
    returns (pt_transit_time p) h (driven_between xs i j) /\
    returns (pt_waiting_time p) h (waited_between v xs i j) /\
    returns (pt_load_time p) h (visit_duration x + visit_duration y) /\
    returns (pt_duration p) h (driven_between xs i j + waited_between v xs i j + served_between xs i (j - 1)).
Proof. exact c56_ride. Qed.
Print Assumptions C56_ride.
Theorem C56_route `{W : World} : forall h r v ids xs x T, well_formed h r v ids xs -> head xs = Some x -> head (timetable v xs) = Some T ->
  exists d w, returns (route_distance r) h d /\ returns (route_waiting_time r) h w /\
    d = dist (v_origin_position v) (vi_place x) + driven_between xs 0 (length xs - 1) /\
    w = (tm_start T - tm_arrival T) + waited_between v xs 0 (length xs - 1) /\
    returns (route_duration r) h
      (driven_between xs 0 (length xs - 1) + waited_between v xs 0 (length xs - 1) + served_between xs 0 (length xs - 1)).
Proof. exact c56_route. Qed.
Print Assumptions C56_route.
(** [Route.transit_time] is the time of the passengers, not of the vehicle *)
Theorem C56_passengers `{W : World} : forall h r v ids xs, well_formed h r v ids xs ->
  returns (route_transit_time r) h (sum_of (map (ride_time v xs) (boards xs))).
Proof. exact c56_passengers. Qed.
Print Assumptions C56_passengers.

Section C56_example.
  #[local] Existing Instance town.
  (** trip 3 waits on board while trip 2 is not ready; trip 2 sits through the
      alighting of trip 3 *)
  Example C56_case : well_formed errand_town 2 0 errand_stops errand_visits /\
    fst (planned_trips 2 errand_town) = Ok [1; 2]%nat /\
    fst (pt_duration 1 errand_town) = Ok (3000 + 96500 + 0) /\ fst (pt_duration 2 errand_town) = Ok (5000 + 0 + 500) /\
    fst (route_duration 2 errand_town) = Ok (14000 + 96500 + 1000) /\ fst (route_transit_time 2 errand_town) = Ok 105000.
  Proof. split; [apply well_formedb_sound; reflexivity|]. by vm_compute. Qed.
End C56_example.
