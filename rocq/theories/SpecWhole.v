(** Whole numbers as data. *)
From Verif Require Export SpecDouble SpecTotals.

Definition whole (x : R) : Prop := exists z : Z, x = IZR z.
Definition whole_limit (l : option R) : Prop := forall x, l = Some x -> whole x.
Record whole_trip (t : dtrip) : Prop := {
  wt_earliest : whole (dt_origin_earliest t) /\ whole (dt_destination_earliest t);
  wt_latest : whole_limit (dt_origin_latest t) /\ whole_limit (dt_destination_latest t) /\ whole_limit (dt_timeout t);
  wt_duration : whole (dt_origin_duration t) /\ whole (dt_destination_duration t) /\ whole (dt_time t)
}.
Record whole_stop (s : dstop) : Prop := {
  ws_travel : whole (ds_travel s);
  ws_request : whole_limit (ds_request s);
  ws_pickups : forall t, In t (ds_pickups s) -> whole_trip t;
  ws_deliveries : forall t, In t (ds_deliveries s) -> whole_trip t
}.
Record whole_route (r : droute) : Prop := {
  wr_earliest : whole (dr_earliest r);
  wr_limits : whole_limit (dr_latest r) /\ whole_limit (dr_timeout r);
  wr_stops : forall s, In s (dr_stops r) -> whole_stop s;
  wr_rides : forall i j t, In (i, j, t) (dr_rides r) -> whole_trip t
}.
(** 2^53, up to which all whole numbers are doubles, and 2^50 *)
Definition two53 : R := 9007199254740992.
Definition two50 : R := 1125899906842624.
