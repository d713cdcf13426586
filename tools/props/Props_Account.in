(** C56: where the time of a ride and of a route goes.  [driven_between],
    [waited_between] and [served_between] (SpecAccount.v) are sums over the
    timetable of the visits after one position and up to another. *)
From Verif Require Import SpecAccount AccountTheorems Witness.

(** ** C56.  The durations of rides and routes are driving, waiting and serving,
    each counted once *)
@C56_ride c56_ride
@C56_route c56_route
(** [Route.transit_time] is the time of the passengers, not of the vehicle *)
@C56_passengers c56_passengers

Section C56_example.
  #[local] Existing Instance town.
  (** trip 3 waits on board while trip 2 is not ready; trip 2 sits through the
      alighting of trip 3 *)
  Example C56_case : well_formed errand_town 2 0 errand_stops errand_visits /\
    fst (planned_trips 2 errand_town) = Ok [1; 2]%nat /\
    fst (pt_duration 1 errand_town) = Ok (3000 + 96500 + 0) /\ fst (pt_duration 2 errand_town) = Ok (5000 + 0 + 500) /\
    fst (route_duration 2 errand_town) = Ok (14000 + 96500 + 1000) /\ fst (route_transit_time 2 errand_town) = Ok 105000.
  Proof. split; [apply well_formedb_sound; reflexivity|]. by vm_compute. Qed.
End C56_example.
