(** How routes are called and printed: models/routes.py (identifier,
    vehicle_identifier, __iter__).

    The text that [Model.__repr__] (abc.py:51-57) makes of the pairs of
    [__iter__] is in Shows.v.  Simplified: routes always have a vehicle here, so that
    [vehicle_identifier] is never [None] (routes.py:224-225). *)
From Verif Require Export Report.

Section names.
  Context {W : World}.

  (** routes.py:94-96 *)
  Definition route_identifier (r : nat) : M string :=
    let! ss := route_stops r in
    let! names := mapM stop_identifier ss in
    ret (String.concat "|" names).

  (** routes.py:222-226 *)
  Definition vehicle_identifier (r : nat) : M string :=
    let! c := route_get r in
    ret (vh_identifier (w_vehicle (rt_vehicle c))).

  (** routes.py:228-232; the values of the two pairs *)
  Definition route_iter (r : nat) : M (string * list string) :=
    let! v := vehicle_identifier r in
    let! ss := route_stops r in
    let! names := mapM stop_identifier ss in
    ret (v, names).
End names.
