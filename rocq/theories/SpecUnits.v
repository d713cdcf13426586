(** The same instance in another unit: all times, distances, loads, bonuses and
    the tolerance are [c] times as large. *)
From Verif Require Export SpecPlaces Objectives.

Section units.
  Variables (c : Z) (g : position -> position).
  Definition in_unit (x : Z) : Z := c * x.
  Definition lim_in_unit (l : lim) : lim := match l with Lim z => Lim (c * z) | Inf => Inf end.
  Definition service_in_unit (s : service) : service :=
    Service (g (sv_position s)) (c * sv_earliest s) (lim_in_unit (sv_latest s)) (c * sv_duration s).
  Definition trip_in_unit (t t' : trip) : Prop :=
    tr_origin t' = service_in_unit (tr_origin t) /\ tr_destination t' = service_in_unit (tr_destination t) /\
    tr_capacity t' = c * tr_capacity t /\ tr_bonus t' = c * tr_bonus t /\ tr_timeout t' = lim_in_unit (tr_timeout t).
  Definition vehicle_in_unit (v v' : vehicle) : Prop :=
    sv_position (vh_origin v') = g (sv_position (vh_origin v)) /\ sv_earliest (vh_origin v') = c * sv_earliest (vh_origin v) /\
    sv_position (ends_at v') = g (sv_position (ends_at v)) /\ sv_latest (ends_at v') = lim_in_unit (sv_latest (ends_at v)) /\
    vh_capacity v' = lim_in_unit (vh_capacity v) /\ vh_timeout v' = lim_in_unit (vh_timeout v).
  (** [W'] is [W] in the other unit, with [g p] for every place [p] *)
  Record other_unit (W W' : World) : Prop := {
    ou_pos : 0 < c;
    ou_bound : Zpos (@w_eb W') = c * Zpos (@w_eb W);
    ou_trip : forall t, trip_in_unit (@w_trip W t) (@w_trip W' t);
    ou_vehicle : forall v, vehicle_in_unit (@w_vehicle W v) (@w_vehicle W' v);
    ou_shuffle : forall k l, @w_shuffle W' k l = @w_shuffle W k l;
    ou_choice : forall k n, @w_choice W' k n = @w_choice W k n;
    ou_sample : forall k n m, @w_sample W' k n m = @w_sample W k n m;
    ou_distance : forall p q, place_of W p -> place_of W q ->
      metric_distance (@w_metric W') (g p) (g q) = c * metric_distance (@w_metric W) p q;
    ou_apart : forall p q, place_of W p -> place_of W q -> g p = g q -> p = q
  }.

  (** a state in the other unit *)
  Definition stop_in_unit (s : stop) : stop := MkStop (st_vehicle s) (g (st_position s)) (st_pickups s) (st_deliveries s)
    (st_previous s) (in_unit <$> st_starting s) (in_unit <$> st_arrival s) (in_unit <$> st_departure s)
    (in_unit <$> st_capacity s) (st_feasible s).
  Definition state_in_unit (h : heap) : heap := MkHeap (map stop_in_unit (h_stops h)) (h_pts h) (h_routes h) (h_tick h).
  (** objective values: the number of passengers is not measured in units *)
  Definition value_in_unit (o : objective) (x : list Z) : list Z :=
    match o, x with
    | DialARide, n :: l => n :: map in_unit l
    | _, _ => map in_unit x
    end.
  Definition visit_in_unit (x : visit) : visit := Visit (g (vi_place x)) (vi_board x) (vi_alight x) (in_unit <$> vi_request x).
  Definition timing_in_unit (T : timing) : timing :=
    Timing (c * tm_arrival T) (c * tm_start T) (c * tm_departure T) (c * tm_load T).
End units.
(** [m] and [m'] do the same in either unit; results are converted by [f] *)
Definition unit_run {A} (c : Z) (g : position -> position) (W : World) (f : A -> A) (m m' : M A) : Prop :=
  forall h, inside W h -> inside W (snd (m h)) /\ snd (m' (state_in_unit c g h)) = state_in_unit c g (snd (m h)) /\
    fst (m' (state_in_unit c g h)) = match fst (m h) with Ok a => Ok (f a) | Raise e => Raise e end.

(** a world with places of a line, a plane, … and Manhattan distances, in a
    finer unit *)
Definition finer (c : positive) (W : World) : World :=
  let s x := service_in_unit (Zpos c) (map (Z.mul (Zpos c))) x in
  mk_world (c * w_eb) w_metric
    (fun t => let x := w_trip t in Trip (tr_identifier x) (s (tr_origin x)) (s (tr_destination x))
       (Zpos c * tr_capacity x) (Zpos c * tr_bonus x) (lim_in_unit (Zpos c) (tr_timeout x)))
    (fun v => let x := w_vehicle v in Vehicle (vh_identifier x) (s (vh_origin x)) (s <$> vh_destination_opt x)
       (lim_in_unit (Zpos c) (vh_capacity x)) (lim_in_unit (Zpos c) (vh_timeout x)))
    w_shuffle w_shuffle_perm w_choice w_choice_lt w_sample w_sample_lt w_sample_nodup.
(** and the same with the tolerance as before *)
Definition finer_only (c : positive) (W : World) : World :=
  mk_world (@w_eb W) (@w_metric (finer c W)) (@w_trip (finer c W)) (@w_vehicle (finer c W))
    w_shuffle w_shuffle_perm w_choice w_choice_lt w_sample w_sample_lt w_sample_nodup.
