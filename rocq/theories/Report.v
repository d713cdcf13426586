(** The readable report: jinete/storers/formatters/columnar.py.

    A report is kept as the values which the f-strings of the code refer to, in
    the order of the text.  Left out: the labels and the tabulation characters,
    how Python writes a number with a given width, the time of computation, the
    unique number of the planning, the names of the objective and of its
    direction (constants of the objective, objectives.py:50-55). *)
From Verif Require Export Accounts Objectives Storers.

(** columnar.py:62-71 *)
Record vehicle_rows : Type := VehicleRows {
  vr_identifier : string;
  vr_initial : position;
  vr_final : position;
  vr_earliest : Z;
  vr_latest : lim;
  vr_capacity : lim
}.
(** columnar.py:73-86 *)
Record trip_row : Type := TripRow {
  tw_identifier : string;
  tw_origin : position;
  tw_destination : position;
  tw_earliest : Z;
  tw_latest : lim;
  tw_waiting : Z;
  tw_transit : Z;
  tw_load_time : Z;
  tw_duration : Z;
  tw_pickup : Z;
  tw_delivery : Z;
  tw_capacity : Z
}.
(** columnar.py:88-100 *)
Record stop_row : Type := StopRow {
  sw_identifier : string;
  sw_position : position;
  sw_earliest : Z;
  sw_latest : lim;
  sw_waiting : Z;
  sw_transit : Z;
  sw_load_time : Z;
  sw_departure : Z;
  sw_capacity : Z
}.
(** columnar.py:50-60 *)
Record route_block : Type := RouteBlock {
  rb_vehicle : vehicle_rows;
  rb_trip_count : nat;
  rb_trips : list trip_row;
  rb_stop_count : nat;
  rb_stops : list stop_row
}.
(** columnar.py:32-48 *)
Record report : Type := Report {
  rp_count : nat;
  rp_routes : list route_block;
  rp_coverage : Q;
  rp_value : list Z;
  rp_feasible : bool
}.

Section columnar.
  Context {W : World}.

  (** stops.py:78-86; the two sets of planned trips in iteration order *)
  Definition stop_identifier (s : nat) : M string :=
    let! c := stop_get s in
    let! ps := set_order (st_pickups c) in
    let! ps := trips_of ps in
    let! ds := set_order (st_deliveries c) in
    let! ds := trips_of ds in
    ret ("[" +:+ String.concat "|" (map (fun t => "P" +:+ tr_identifier (w_trip t)) ps ++
                                    map (fun t => "D" +:+ tr_identifier (w_trip t)) ds) +:+ "]").

  (** columnar.py:62-71; vehicles.py:51-53, 59-61, 67-69 *)
  Definition vehicle_to_str (v : nat) : vehicle_rows :=
    VehicleRows (vh_identifier (w_vehicle v)) (v_origin_position v) (v_destination_position v)
      (v_origin_earliest v) (sv_latest (vh_origin (w_vehicle v))) (v_capacity v).

  (** columnar.py:73-86 *)
  Definition planned_trip_to_str (p : nat) : M trip_row :=
    let! c := pt_get p in
    let t := w_trip (pt_trip c) in
    let! wt := pt_waiting_time p in
    let! nt := pt_transit_time p in
    let! lt := pt_load_time p in
    let! total := pt_duration p in
    let! pk := pickup_time p in
    let! dl := delivery_time p in
    ret (TripRow (tr_identifier t) (origin_position t) (destination_position t)
           (origin_earliest t) (destination_latest t) wt nt lt total pk dl (tr_capacity t)).

  (** columnar.py:88-100 *)
  Definition stop_to_str (s : nat) : M stop_row :=
    let! name := stop_identifier s in
    let! c := stop_get s in
    let! e := stop_earliest s in
    let! l := stop_latest s in
    let! wt := waiting_time s in
    let! nt := transit_time s in
    let! lt := stop_load_time s in
    let! dt := departure_time s in
    let! q := capacity s in
    ret (StopRow name (st_position c) e l wt nt lt dt q).

  (** columnar.py:50-60 *)
  Definition route_to_str (r : nat) : M route_block :=
    let! ps := planned_trips r in
    let! trips := mapM planned_trip_to_str ps in
    let! ss := route_stops r in
    let! stops := mapM stop_to_str ss in
    let! c := route_get r in
    let! ps := planned_trips r in
    let! ss := route_stops r in
    ret (RouteBlock (vehicle_to_str (rt_vehicle c)) (length ps) trips (length ss) stops).

  (** columnar.py:32-48; [_routes] is evaluated twice, first for the rows;
      results.py:68-77, 79-81, 91-93 *)
  Definition columnar_format (remove_empty_routes : bool) (o : objective) (pl job : list nat) : M report :=
    let! rs := formatter_routes remove_empty_routes pl in
    let! rs' := formatter_routes remove_empty_routes pl in
    let! rs := set_order rs in
    let! blocks := mapM route_to_str rs in
    let! coverage := coverage_rate pl job in
    let! value := planning_value o pl in
    let! feasible := planning_feasible pl in
    ret (Report (length rs') blocks coverage value feasible).
End columnar.
