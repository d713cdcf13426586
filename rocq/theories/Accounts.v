(** Totals over a route: jinete/models/routes.py:210-216. *)
From Verif Require Export Routes.

Section accounts.
  Context {W : World}.
  (** routes.py:210-212: [sum((planned_trip.duration for ...), 0.0)] *)
  Definition route_transit_time (r : nat) : M Z :=
    let! ps := planned_trips r in
    let! l := mapM pt_duration ps in ret (zsum l).
  (** routes.py:214-216 *)
  Definition route_waiting_time (r : nat) : M Z :=
    let! ss := route_stops r in
    let! l := mapM waiting_time ss in ret (zsum l).
End accounts.
