(** Times and feasibility in floating point arithmetic:
    jinete/models/trips.py, stops.py, planned_trips.py and routes.py once more,
    with the IEEE 754 binary64 numbers Python computes with instead of whole
    ticks.  Each addition and subtraction is rounded to the nearest double,
    ties to even (Flocq's [round] with the format FLT(-1074, 53)).

    Simplified: no overflow, so finite numbers stay finite ([None]: infinity,
    for limits only); memoised values are left out, each value is computed from
    its definition; a route is its list of stops with the planned trips as
    positions in that list; travel times are given doubles, whatever
    [Surface.time] returned; capacities and places are not part of it. *)
From Coq Require Export Reals List Bool.
From Flocq.Core Require Export Core.
Export ListNotations.
#[global] Open Scope R_scope.

Definition binary64 : Z -> Z := FLT_exp (-1074) 53.
Definition double (x : R) : Prop := generic_format radix2 binary64 x.
Definition rnd (x : R) : R := round radix2 binary64 ZnearestE x.
Definition fadd (x y : R) : R := rnd (x + y).
Definition fsub (x y : R) : R := rnd (x - y).
Definition fle (x y : R) : bool := if Rle_dec x y then true else false.

(** [max(...)], [min(...)] of an iterable, with its default *)
Definition max_of (l : list R) : R := match l with [] => 0 | x :: l => fold_right Rmax x l end.
Definition lmin (a b : option R) : option R :=
  match a, b with
  | Some x, Some y => Some (Rmin x y)
  | Some x, None | None, Some x => Some x
  | None, None => None
  end.
Definition min_of (l : list (option R)) : option R := fold_right lmin None l.
(** [x <= limit + ERROR_BOUND] *)
Definition ERROR_BOUND : R := rnd (1 / 1000).
Definition within (x : R) (l : option R) : bool :=
  match l with None => true | Some l => fle x (fadd l ERROR_BOUND) end.

(** data of a trip (models/trips.py:89-112, services.py); [dt_time]:
    [origin.time_to(destination)] *)
Record dtrip : Type := DTrip {
  dt_origin_earliest : R;
  dt_origin_latest : option R;
  dt_origin_duration : R;
  dt_destination_earliest : R;
  dt_destination_latest : option R;
  dt_destination_duration : R;
  dt_timeout : option R;
  dt_time : R
}.
(** trips.py:118-120; [x - inf] is less than everything *)
Definition d_origin_earliest (t : dtrip) : R :=
  match dt_timeout t with
  | None => dt_origin_earliest t
  | Some m => Rmax (fsub (fsub (dt_destination_earliest t) (dt_destination_duration t)) m) (dt_origin_earliest t)
  end.
(** trips.py:122-127 *)
Definition d_origin_latest (t : dtrip) : option R :=
  lmin (match dt_destination_latest t with
        | None => None
        | Some l => Some (fsub (fsub l (dt_destination_duration t)) (dt_time t))
        end) (dt_origin_latest t).
(** trips.py:137-142 *)
Definition d_destination_earliest (t : dtrip) : R :=
  Rmax (fadd (fadd (dt_origin_earliest t) (dt_origin_duration t)) (dt_time t)) (dt_destination_earliest t).
(** trips.py:144-146 *)
Definition d_destination_latest (t : dtrip) : option R :=
  lmin (match dt_origin_latest t, dt_timeout t with
        | Some l, Some m => Some (fadd (fadd l (dt_origin_duration t)) m)
        | _, _ => None
        end) (dt_destination_latest t).

(** a stop: travel time from the previous position, trips picked up and
    delivered, requested start (stops.py:39-76) *)
Record dstop : Type := DStop {
  ds_travel : R;
  ds_pickups : list dtrip;
  ds_deliveries : list dtrip;
  ds_request : option R
}.
(** stops.py:189-217 *)
Definition d_earliest (s : dstop) : R :=
  max_of (map d_origin_earliest (ds_pickups s) ++ map d_destination_earliest (ds_deliveries s)).
Definition d_latest (s : dstop) : option R :=
  min_of (map d_origin_latest (ds_pickups s) ++ map d_destination_latest (ds_deliveries s)).
Definition d_load_time (s : dstop) : R :=
  max_of (map dt_origin_duration (ds_pickups s) ++ map dt_destination_duration (ds_deliveries s)).

(** arrival, start and departure (stops.py:153-182), from the departure before *)
Record dtimes : Type := DTimes { dm_arrival : R; dm_start : R; dm_departure : R }.
Definition d_visit (now : R) (s : dstop) : dtimes :=
  let a := fadd now (ds_travel s) in
  let value := match ds_request s with None => a | Some v => v end in
  let b := Rmax (Rmax value (d_earliest s)) a in
  DTimes a b (fadd b (d_load_time s)).
Fixpoint d_times (now : R) (ss : list dstop) : list dtimes :=
  match ss with
  | [] => []
  | s :: ss => let t := d_visit now s in t :: d_times (dm_departure t) ss
  end.

(** a route: its vehicle (earliest start, latest return, longest duration), its
    stops, and for each planned trip the places of pickup and delivery in the
    list of stops *)
Record droute : Type := DRoute {
  dr_earliest : R;
  dr_latest : option R;
  dr_timeout : option R;
  dr_stops : list dstop;
  dr_rides : list (nat * nat * dtrip)
}.
Definition no_stop : dstop := DStop 0 [] [] None.
Definition no_times : dtimes := DTimes 0 0 0.
Definition dr_times (r : droute) : list dtimes := d_times (dr_earliest r) (dr_stops r).
Definition dr_at (r : droute) (i : nat) : dtimes := nth i (dr_times r) no_times.
Definition dr_last (r : droute) : nat := length (dr_stops r) - 1.

(** stops.py:130-141, without the capacity *)
Definition d_stop_feasible (r : droute) (i : nat) : bool :=
  let s := nth i (dr_stops r) no_stop in
  fle (d_earliest s) (fadd (dm_start (dr_at r i)) ERROR_BOUND) &&
  within (dm_start (dr_at r i)) (d_latest s).
(** planned_trips.py:122-136; [None]: AssertionError *)
Definition d_ride_feasible (r : droute) (p : nat * nat * dtrip) : option bool :=
  let '(i, j, t) := p in
  let pickup_time := dm_departure (dr_at r i) in
  let delivery_time := dm_start (dr_at r j) in
  if negb (fle pickup_time delivery_time) then None else
  Some (d_stop_feasible r i && d_stop_feasible r j && within (fsub delivery_time pickup_time) (dt_timeout t)).
(** routes.py:118-120: all of them are asked *)
Fixpoint d_rides_feasible (r : droute) (ps : list (nat * nat * dtrip)) : option bool :=
  match ps with
  | [] => Some true
  | p :: ps =>
      match d_ride_feasible r p, d_rides_feasible r ps with
      | Some a, Some b => Some (a && b)
      | _, _ => None
      end
  end.
(** routes.py:122-136, without the places *)
Definition d_feasible (r : droute) : option bool :=
  if negb (fle (fsub (dr_earliest r) ERROR_BOUND) (dm_arrival (dr_at r 0))) then Some false else
  if negb (within (dm_departure (dr_at r (dr_last r))) (dr_latest r)) then Some false else
  if negb (within (fsub (dm_departure (dr_at r (dr_last r))) (dm_departure (dr_at r 0))) (dr_timeout r)) then Some false else
  d_rides_feasible r (dr_rides r).

(** distances (models/constants.py:79-96): the built-in [sum] adds from the left,
    starting with 0.  Simplified: [pow(x, 2)] is the rounded square, [sum] rounds
    each addition (as it did before Python 3.12). *)
Definition fsum (l : list R) : R := fold_left fadd l 0.
Definition d_manhattan (a b : list R) : R := fsum (map (fun '(x, y) => Rabs (fsub x y)) (combine a b)).
Definition d_euclidean (a b : list R) : R := rnd (sqrt (fsum (map (fun '(x, y) => rnd (fsub x y * fsub x y)) (combine a b)))).
