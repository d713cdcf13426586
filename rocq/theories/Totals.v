(** Objective values in double precision: jinete/models/objectives.py and
    routes.py with rounded additions as in Doubles.v.

    A route is given by the distances of its stops, or by the durations of the
    planned trips picked up at its stops; a planning by its routes in the order
    in which the set is read.  Simplified: no overflow; numbers of trips are
    whole numbers and exact, so they are left out. *)
From Verif Require Export Doubles.

(** routes.py:218-220 *)
Definition d_route_distance (stops : list R) : R := fsum stops.
(** objectives.py:80-85, 111-112: the second number, of which the largest is best *)
Definition d_dial_a_ride (routes : list (list R)) : R := fsum (map (fun r => - d_route_distance r) routes).
(** objectives.py:94-99 with 129-132: durations of the planned trips picked up at a stop
    (0 for those without passengers) *)
Definition d_stop_taxi (rides : list R) : R := fsum rides.
(** objectives.py:87-92 *)
Definition d_route_taxi (stops : list (list R)) : R := fsum (map d_stop_taxi stops).
(** objectives.py:80-85 *)
Definition d_taxi_sharing (routes : list (list (list R))) : R := fsum (map d_route_taxi routes).
