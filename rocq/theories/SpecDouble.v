(** What the times of a route are in exact arithmetic, and when it keeps its
    limits up to a slack.  Of the model only the data types are used. *)
From Verif Require Export Doubles.

(** exact windows of a trip: as tight as its other window and its longest ride allow *)
Definition opens_pickup (t : dtrip) : R :=
  match dt_timeout t with
  | None => dt_origin_earliest t
  | Some m => Rmax (dt_destination_earliest t - dt_destination_duration t - m) (dt_origin_earliest t)
  end.
Definition opens_delivery (t : dtrip) : R :=
  Rmax (dt_origin_earliest t + dt_origin_duration t + dt_time t) (dt_destination_earliest t).
(** [x] is not later than the limit plus [slack] *)
Definition up_to (slack x : R) (l : option R) : Prop := match l with None => True | Some l => x <= l + slack end.
Definition pickup_in_time (slack x : R) (t : dtrip) : Prop :=
  up_to slack x (dt_origin_latest t) /\
  forall l, dt_destination_latest t = Some l -> x <= l - dt_destination_duration t - dt_time t + slack.
Definition delivery_in_time (slack x : R) (t : dtrip) : Prop :=
  up_to slack x (dt_destination_latest t) /\
  forall l m, dt_origin_latest t = Some l -> dt_timeout t = Some m -> x <= l + dt_origin_duration t + m + slack.

(** the exact timetable *)
Definition opens (s : dstop) : R := max_of (map opens_pickup (ds_pickups s) ++ map opens_delivery (ds_deliveries s)).
Definition lasts (s : dstop) : R := max_of (map dt_origin_duration (ds_pickups s) ++ map dt_destination_duration (ds_deliveries s)).
Fixpoint timetable (now : R) (ss : list dstop) : list dtimes :=
  match ss with
  | [] => []
  | s :: ss =>
      let a := now + ds_travel s in
      let b := Rmax (Rmax (match ds_request s with None => a | Some v => v end) (opens s)) a in
      DTimes a b (b + lasts s) :: timetable (b + lasts s) ss
  end.
Definition truly (r : droute) (i : nat) : dtimes := nth i (timetable (dr_earliest r) (dr_stops r)) no_times.

(** the route exceeds none of its limits by more than [slack] *)
Record keeps_limits (slack : R) (r : droute) : Prop := {
  kl_back : up_to slack (dm_departure (truly r (length (dr_stops r) - 1))) (dr_latest r);
  kl_duration : up_to slack (dm_departure (truly r (length (dr_stops r) - 1)) - dm_departure (truly r 0)) (dr_timeout r);
  kl_rides : forall i j t, In (i, j, t) (dr_rides r) ->
    up_to slack (dm_start (truly r j) - dm_departure (truly r i)) (dt_timeout t) /\
    forall k, (k = i \/ k = j) ->
      (forall t', In t' (ds_pickups (nth k (dr_stops r) no_stop)) -> pickup_in_time slack (dm_start (truly r k)) t') /\
      (forall t', In t' (ds_deliveries (nth k (dr_stops r) no_stop)) -> delivery_in_time slack (dm_start (truly r k)) t')
}.

(** all data are doubles; nothing takes negative time *)
Record double_trip (t : dtrip) : Prop := {
  bt_origin_earliest : double (dt_origin_earliest t);
  bt_destination_earliest : double (dt_destination_earliest t);
  bt_origin_duration : double (dt_origin_duration t) /\ 0 <= dt_origin_duration t;
  bt_destination_duration : double (dt_destination_duration t) /\ 0 <= dt_destination_duration t
}.
Record double_stop (s : dstop) : Prop := {
  bs_travel : double (ds_travel s) /\ 0 <= ds_travel s;
  bs_pickups : forall t, In t (ds_pickups s) -> double_trip t;
  bs_deliveries : forall t, In t (ds_deliveries s) -> double_trip t;
  bs_request : forall v, ds_request s = Some v -> double v
}.
(** pickups come before deliveries, among the stops *)
Definition rides_forward (r : droute) : Prop :=
  forall i j t, In (i, j, t) (dr_rides r) -> (i < j < length (dr_stops r))%nat.

(** no number is larger than [M], and nothing takes negative time *)
Definition at_most (M : R) (l : option R) : Prop := match l with None => True | Some x => Rabs x <= M end.
Record moderate_trip (M : R) (t : dtrip) : Prop := {
  mt_earliest : Rabs (dt_origin_earliest t) <= M /\ Rabs (dt_destination_earliest t) <= M;
  mt_latest : at_most M (dt_origin_latest t) /\ at_most M (dt_destination_latest t) /\ at_most M (dt_timeout t);
  mt_duration : 0 <= dt_origin_duration t <= M /\ 0 <= dt_destination_duration t <= M /\ 0 <= dt_time t <= M
}.
Record moderate (M : R) (r : droute) : Prop := {
  mo_one : 1 <= M;
  mo_vehicle : 0 <= dr_earliest r /\ at_most M (dr_latest r) /\ at_most M (dr_timeout r);
  mo_stops : forall s, In s (dr_stops r) -> 0 <= ds_travel s /\ at_most M (ds_request s) /\
    (forall t, In t (ds_pickups s) -> moderate_trip M t) /\ (forall t, In t (ds_deliveries s) -> moderate_trip M t);
  mo_rides : forall i j t, In (i, j, t) (dr_rides r) -> moderate_trip M t;
  mo_some : dr_stops r <> [];
  mo_back : dm_departure (truly r (length (dr_stops r) - 1)) <= M
}.
(** a bound on what rounding can add up to in [n] stops: 2^53 = 9007199254740992 *)
Definition rounding (M : R) (n : nat) : R := (6 * INR n + 4) * (5 * M / 9007199254740992).

(** exact city-block distance over the coordinates both positions have *)
Definition blocks (a b : list R) : R :=
  fold_right Rplus 0 (map (fun i => Rabs (nth i a 0 - nth i b 0)) (seq 0 (Nat.min (length a) (length b)))).
(** half the distance between 1 and the next double: 2^-53 *)
Definition unit_roundoff : R := 1 / 9007199254740992.
