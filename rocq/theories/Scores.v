(** HashCode scores in double precision: jinete/models/objectives.py:135-148.

    Simplified as Totals.v; [dt_time] stands for [trip.distance] too, which is the
    same number (surfaces.py: a unit of distance takes a unit of time). *)
From Verif Require Export Totals.

(** objectives.py:144-148 for a trip picked up at stop [i] of the route: the pickup
    time is the departure from that stop (planned_trips.py:64-66), and numbers are
    compared with [==] *)
Definition d_hash_score (r : droute) (i : nat) (t : dtrip) (bonus : R) : R :=
  if Req_EM_T (d_origin_earliest t) (dm_departure (dr_at r i)) then fadd (dt_time t) bonus else dt_time t.
(** objectives.py:80-99: scores of the planned trips picked up at the stops of the routes *)
Definition d_hash_code (routes : list (list (list R))) : R := fsum (map (fun r => fsum (map fsum r)) routes).
