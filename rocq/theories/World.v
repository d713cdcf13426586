(** Immutable data: positions, distance metrics, services, trips, vehicles,
    and the "world" in which an execution of jinete takes place. *)
From Verif Require Export Prelude.

(** ** Positions (jinete/models/positions.py:82-120)

    A [GeometricPosition] is its coordinate tuple: [__eq__] compares
    coordinates (positions.py:106-107).  Coordinates are integers counted in
    ticks, see DESIGN.md (floating point rounding is not modelled). *)
Definition position : Type := list Z.

(** ** Metrics (jinete/models/constants.py:79-95)

    [zip] stops at the shorter coordinate list.  The Euclidean distance is
    rounded down to whole ticks (simplification: Python uses a float). *)
Inductive metric : Type := Euclidean | Manhattan.

(** constants.py:80-82 *)
Definition euclidean (a b : position) : Z :=
  Z.sqrt (zsum (zip_with (fun x y => (x - y) * (x - y)) a b)).
(** constants.py:84-86 *)
Definition manhattan (a b : position) : Z :=
  zsum (zip_with (fun x y => Z.abs (x - y)) a b).
Definition metric_distance (m : metric) : position -> position -> Z :=
  match m with Euclidean => euclidean | Manhattan => manhattan end.

(** ** Services (jinete/models/services.py:33-113) *)
Record service : Type := Service {
  sv_position : position;
  sv_earliest : Z;
  sv_latest : lim;
  sv_duration : Z
}.

(** ** Trips (jinete/models/trips.py:40-112).  [on_time_bonus] and [capacity]
    are in ticks as well, so that one unit of ERROR_BOUND is [w_eb] ticks for
    every quantity. *)
Record trip : Type := Trip {
  tr_identifier : string;
  tr_origin : service;
  tr_destination : service;
  tr_capacity : Z;
  tr_bonus : Z;
  tr_timeout : lim
}.

(** ** Vehicles (jinete/models/vehicles.py:33-110) *)
Record vehicle : Type := Vehicle {
  vh_identifier : string;
  vh_origin : service;
  vh_destination_opt : option service;
  vh_capacity : lim;
  vh_timeout : lim
}.
(** vehicles.py:71-75 *)
Definition vh_destination (v : vehicle) : service :=
  match vh_destination_opt v with None => vh_origin v | Some s => s end.

(** ** The world

    - [w_eb]: ERROR_BOUND (constants.py:44), an arbitrary positive number of
      ticks: the unit of time is 1000 * [w_eb] ticks, so every finite set of
      rational inputs can be scaled to ticks.
    - [w_metric]: the metric of the surface shared by all positions.
    - [w_trip], [w_vehicle]: the immutable objects by identity.  Equality of
      trips and vehicles is Python object identity (no [__eq__] is defined), so
      it is equality of ids.
    - [w_shuffle k l]: the iteration order of the Python set with elements [l]
      at the [k]-th nondeterministic event of the run.
    - [w_choice k n]: the outcome of [random.choice] on a list of length [n].
    - [w_sample k n c]: the index pairs returned by the random branch of
      [sample_index_pairs] (jinete/utils/random.py:28-44; the loop itself is
      modelled in Utils.v, where every terminating run is shown to return such
      a list). *)
Class World : Type := mk_world {
  w_eb : positive;
  w_metric : metric;
  w_trip : nat -> trip;
  w_vehicle : nat -> vehicle;
  w_shuffle : nat -> list nat -> list nat;
  w_shuffle_perm : forall k l, w_shuffle k l ≡ₚ l;
  w_choice : nat -> nat -> nat;
  w_choice_lt : forall k n, (0 < n)%nat -> (w_choice k n < n)%nat;
  w_sample : nat -> nat -> nat -> list (nat * nat);
  w_sample_lt : forall k n c i j, (i, j) ∈ w_sample k n c -> (i < j < n)%nat;
  w_sample_nodup : forall k n c, NoDup (w_sample k n c)
}.

Section world.
  Context {W : World}.

  Definition eb : Z := Zpos w_eb.

  (** [Position.distance_to] and [time_to] on a [GeometricSurface]
      (positions.py:48-76, surfaces.py:90-100): time equals distance and does
      not depend on [now].  The distance cache is modelled in Surface.v. *)
  Definition dist (a b : position) : Z := metric_distance w_metric a b.

  Definition svc_dist (a b : service) : Z := dist (sv_position a) (sv_position b).

  (** trips.py:118-120 *)
  Definition origin_earliest (t : trip) : Z :=
    max_sub_lim (sv_earliest (tr_destination t) - sv_duration (tr_destination t))
                (tr_timeout t) (sv_earliest (tr_origin t)).
  (** trips.py:122-127 *)
  Definition origin_latest (t : trip) : lim :=
    lim_min (lim_add (sv_latest (tr_destination t))
               (- sv_duration (tr_destination t) - svc_dist (tr_origin t) (tr_destination t)))
            (sv_latest (tr_origin t)).
  (** trips.py:129-131 *)
  Definition origin_duration (t : trip) : Z := sv_duration (tr_origin t).
  (** trips.py:137-142 *)
  Definition destination_earliest (t : trip) : Z :=
    Z.max (sv_earliest (tr_origin t) + sv_duration (tr_origin t)
             + svc_dist (tr_origin t) (tr_destination t))
          (sv_earliest (tr_destination t)).
  (** trips.py:144-146 *)
  Definition destination_latest (t : trip) : lim :=
    lim_min (match tr_timeout t with
             | Inf => Inf
             | Lim x => lim_add (sv_latest (tr_origin t)) (sv_duration (tr_origin t) + x)
             end)
            (sv_latest (tr_destination t)).
  (** trips.py:148-150 *)
  Definition destination_duration (t : trip) : Z := sv_duration (tr_destination t).
  (** trips.py:152-154 *)
  Definition trip_empty (t : trip) : bool := tr_capacity t =? 0.
  (** trips.py:156-158 *)
  Definition trip_distance (t : trip) : Z :=
    dist (sv_position (tr_origin t)) (sv_position (tr_destination t)).

  (** trips.py:114-116, 133-135 *)
  Definition origin_position (t : trip) : position := sv_position (tr_origin t).
  Definition destination_position (t : trip) : position := sv_position (tr_destination t).

  (** vehicles.py:55-90 *)
  Definition v_origin_position (v : nat) : position := sv_position (vh_origin (w_vehicle v)).
  Definition v_origin_earliest (v : nat) : Z := sv_earliest (vh_origin (w_vehicle v)).
  Definition v_destination_position (v : nat) : position :=
    sv_position (vh_destination (w_vehicle v)).
  Definition v_destination_latest (v : nat) : lim := sv_latest (vh_destination (w_vehicle v)).
  Definition v_capacity (v : nat) : lim := vh_capacity (w_vehicle v).
  Definition v_timeout (v : nat) : lim := vh_timeout (w_vehicle v).
End world.
