(** What a recorded feasibility answer is worth.

    [Stop.flush] keeps [Stop.feasible] (stops.py:225-233), so that a recorded
    [True] may be out of date after start times were moved.  These definitions
    say what such an answer still guarantees. *)
From Verif Require Export Represents.

Section fair.
  Context {W : World}.
  (** no start time is requested for the visits up to number [k], except for
      the departure from the depot *)
  Definition calm (xs : list visit) (k : nat) : Prop :=
    forall i x, (0 < i <= k)%nat -> xs !! i = Some x -> vi_request x = None.
  (** at visit [k] the vehicle is not overloaded, and if no start time was
      requested so far, all windows are respected *)
  Definition heeded (v : nat) (xs : list visit) (k : nat) : Prop :=
    forall x T, xs !! k = Some x -> timetable v xs !! k = Some T ->
      at_most (tm_load T) (v_capacity v) /\ (calm xs k -> on_time v x T).
  (** the ride of [t] from visit [i] to visit [j] moreover is not too long *)
  Definition ridden (v t : nat) (xs : list visit) (i j : nat) : Prop :=
    heeded v xs i /\ heeded v xs j /\
    forall Ti Tj, timetable v xs !! i = Some Ti -> timetable v xs !! j = Some Tj ->
      at_most (tm_start Tj - tm_departure Ti) (tr_timeout (w_trip t)).
  (** the vehicle is back in time and all rides are as above *)
  Definition nearly (v : nat) (xs : list visit) : Prop :=
    (forall T, last (timetable v xs) = Some T -> at_most (tm_departure T) (v_destination_latest v)) /\
    (forall t i j, ride xs t i j -> ridden v t xs i j).
  (** the vehicle is not on the way for too long *)
  Definition brief (v : nat) (xs : list visit) : Prop :=
    forall T T', head (timetable v xs) = Some T -> last (timetable v xs) = Some T' ->
      at_most (tm_departure T' - tm_departure T) (v_timeout v).

  (** not even when it left as early as it can *)
  Definition brisk (v : nat) (xs : list visit) : Prop :=
    forall T, last (timetable v xs) = Some T -> at_most (tm_departure T - v_origin_earliest v) (v_timeout v).
  (** a tour that keeps all limits, however early the vehicle leaves *)
  Definition fits (v : nat) (xs : list visit) : Prop := admissible v xs /\ brisk v xs.

  (** no trip limits its riding time *)
  Definition limitless : Prop := forall t, tr_timeout (w_trip t) = Inf.

  (** all constraints of [admissible] except the longest duration of the route
      and the latest start of a visit after a visit with a requested start *)
  Record almost (v : nat) (xs : list visit) : Prop := {
    al_origin : exists x, head xs = Some x /\ vi_place x = v_origin_position v;
    al_destination : exists x, last xs = Some x /\ vi_place x = v_destination_position v;
    al_return : forall T, last (timetable v xs) = Some T -> at_most (tm_departure T) (v_destination_latest v);
    al_rides : forall t i j x y Ti Tj, ride xs t i j -> xs !! i = Some x -> xs !! j = Some y ->
      timetable v xs !! i = Some Ti -> timetable v xs !! j = Some Tj ->
      origin_earliest (w_trip t) <= tm_start Ti + eb /\ destination_earliest (w_trip t) <= tm_start Tj + eb /\
      at_most (tm_load Ti) (v_capacity v) /\ at_most (tm_load Tj) (v_capacity v) /\
      at_most (tm_start Tj - tm_departure Ti) (tr_timeout (w_trip t)) /\
      (calm xs i -> on_time v x Ti) /\ (calm xs j -> on_time v y Tj)
  }.

  (** visit [k] breaks a window or the capacity *)
  Definition late (v : nat) (xs : list visit) (k : nat) : Prop :=
    forall x T, xs !! k = Some x -> timetable v xs !! k = Some T -> ~ on_time v x T.
  (** so does one end of the ride of [t] from visit [i] to visit [j], or the
      ride is too long *)
  Definition missed (v t : nat) (xs : list visit) (i j : nat) : Prop :=
    forall x y Ti Tj, xs !! i = Some x -> xs !! j = Some y ->
      timetable v xs !! i = Some Ti -> timetable v xs !! j = Some Tj ->
      ~ (on_time v x Ti /\ on_time v y Tj /\
         at_most (tm_start Tj - tm_departure Ti) (tr_timeout (w_trip t))).

  (** every answer [True] recorded for a stop, a planned trip or a route has at
      least this meaning *)
  Definition fair (h : heap) : Prop := forall r v ids xs, on_tour h r v ids xs ->
    (forall i s c, ids !! i = Some s -> h_stops h !! s = Some c -> st_feasible c = Some true -> heeded v xs i) /\
    (forall i j s d c p pc, ids !! i = Some s -> ids !! j = Some d ->
       h_stops h !! s = Some c -> p ∈ st_pickups c -> h_pts h !! p = Some pc ->
       pt_pickup pc = Some s -> pt_delivery pc = Some d -> pt_feasible pc = Some true ->
       ridden v (pt_trip pc) xs i j) /\
    (forall rc, h_routes h !! r = Some rc -> rt_feasible rc = Some true -> nearly v xs).
  (** every answer [False] recorded for a stop or a planned trip is right *)
  Definition honest (h : heap) : Prop := forall r v ids xs, on_tour h r v ids xs ->
    (forall i s c, ids !! i = Some s -> h_stops h !! s = Some c -> st_feasible c = Some false -> late v xs i) /\
    (forall i j s d c p pc, ids !! i = Some s -> ids !! j = Some d ->
       h_stops h !! s = Some c -> p ∈ st_pickups c -> h_pts h !! p = Some pc ->
       pt_pickup pc = Some s -> pt_delivery pc = Some d -> pt_feasible pc = Some false ->
       missed v (pt_trip pc) xs i j).
End fair.
