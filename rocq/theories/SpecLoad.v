(** Problem instances and the files they are written to, independently of the
    loaders. *)
From stdpp Require Export pretty.
From Verif Require Export World.

(** ** Cordeau-Laporte files

    First line: number of vehicles, number of pickup and delivery points,
    longest tour, capacity, longest ride.  Second line: the depot.  Then the
    pickups of all trips, then their deliveries in the same order.  A line
    holds the point's number, coordinates, service duration, load, and the
    opening and closing times.  Times and loads are in ticks. *)
Record point : Type := Point {
  pt_number : Z; pt_x : Z; pt_y : Z; pt_duration : Z; pt_load : Z; pt_open : Z; pt_close : Z
}.
Record dial_a_ride : Type := DialARideFile {
  dr_vehicles : nat;
  dr_longest_tour : Z;
  dr_capacity : Z;
  dr_longest_ride : Z;
  dr_depot : point;
  dr_pickups : list point;
  dr_deliveries : list point
}.
(** [ticks] in a unit *)
Definition point_line (p : point) : list Z :=
  [pt_number p; pt_x p; pt_y p; pt_duration p; pt_load p; pt_open p; pt_close p].
Definition dial_a_ride_file (ticks : Z) (i : dial_a_ride) : list (list Z) :=
  [Z.of_nat (dr_vehicles i) * ticks; 2 * Z.of_nat (length (dr_pickups i)) * ticks;
   dr_longest_tour i; dr_capacity i; dr_longest_ride i] ::
  point_line (dr_depot i) :: map point_line (dr_pickups i) ++ map point_line (dr_deliveries i).
(** one delivery for each pickup, unloading what was loaded *)
Definition paired (i : dial_a_ride) : Prop :=
  Forall2 (fun p d => pt_load d = - pt_load p) (dr_pickups i) (dr_deliveries i).

(** [s] asks for what [p] says *)
Definition service_at (p : point) (s : service) : Prop :=
  sv_position s = [pt_x p; pt_y p] /\ sv_duration s = pt_duration p /\
  sv_earliest s = pt_open p /\ sv_latest s = Lim (pt_close p).

(** In a table that need not be well formed: line [k] is there with all seven
    values *)
Definition full_line (d : list (list Z)) (k : nat) (row : list Z) : Prop :=
  d !! k = Some row /\ (7 <= length row)%nat.
(** the lines of trip [i] out of [n] are there and their loads match *)
Definition sound_trip (d : list (list Z)) (n i : nat) : Prop :=
  exists p q, full_line d (i + 2) p /\ full_line d (i + 2 + n) q /\
    nth 4 p 0 = - nth 4 q 0.

(** the number of trips announced by the header *)
Definition announces (ticks : Z) (hd : list Z) (n : nat) : Prop :=
  exists x, hd !! 1%nat = Some x /\ Z.of_nat n * (2 * ticks) <= x < (Z.of_nat n + 1) * (2 * ticks).

(** ** HashCode files

    First line: rows, columns, vehicles, rides, bonus, number of steps; then
    one line per ride: start, finish, earliest start, latest finish. *)
Record ride_line : Type := RideLine {
  rd_from_x : Z; rd_from_y : Z; rd_to_x : Z; rd_to_y : Z; rd_earliest : Z; rd_latest : Z
}.
Record hash_code : Type := HashCodeFile {
  hc_rows : Z;
  hc_columns : Z;
  hc_vehicles : nat;
  hc_bonus : Z;
  hc_steps : Z;
  hc_rides : list ride_line
}.
Definition hash_code_file (ticks : Z) (i : hash_code) : list (list Z) :=
  [hc_rows i; hc_columns i; Z.of_nat (hc_vehicles i) * ticks;
   Z.of_nat (length (hc_rides i)) * ticks; hc_bonus i; hc_steps i] ::
  map (fun r => [rd_from_x r; rd_from_y r; rd_to_x r; rd_to_y r; rd_earliest r; rd_latest r]) (hc_rides i).

(** ** Worlds that hold given vehicles and trips, numbered in order *)
Definition holds `{W : World} (vs : list vehicle) (ts : list trip) : Prop :=
  (forall k v, vs !! k = Some v -> w_vehicle k = v) /\
  (forall k t, ts !! k = Some t -> w_trip k = t).
