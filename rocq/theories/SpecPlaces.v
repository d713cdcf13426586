(** The same instance elsewhere: other places and another metric, but the same
    distances; trips and vehicles may have other identifiers, and depots other
    hours and durations as far as the code does not look at them. *)
From Verif Require Export Represents.

(** the place where a vehicle ends *)
Definition ends_at (v : vehicle) : service := match vh_destination_opt v with Some s => s | None => vh_origin v end.
(** the places that an instance speaks about *)
Definition place_of (W : World) (p : position) : Prop :=
  (exists t, p = sv_position (tr_origin (w_trip t)) \/ p = sv_position (tr_destination (w_trip t))) \/
  (exists v, p = sv_position (vh_origin (w_vehicle v)) \/ p = sv_position (ends_at (w_vehicle v))).

Section places.
  Variable g : position -> position.
  Definition put_service (s : service) : service := Service (g (sv_position s)) (sv_earliest s) (sv_latest s) (sv_duration s).
  Definition same_trip (t t' : trip) : Prop :=
    tr_origin t' = put_service (tr_origin t) /\ tr_destination t' = put_service (tr_destination t) /\
    tr_capacity t' = tr_capacity t /\ tr_bonus t' = tr_bonus t /\ tr_timeout t' = tr_timeout t.
  (** when a depot closes where the vehicle starts, when it opens where the
      vehicle ends, and how long the work at depots takes is left open *)
  Definition same_vehicle (v v' : vehicle) : Prop :=
    sv_position (vh_origin v') = g (sv_position (vh_origin v)) /\ sv_earliest (vh_origin v') = sv_earliest (vh_origin v) /\
    sv_position (ends_at v') = g (sv_position (ends_at v)) /\ sv_latest (ends_at v') = sv_latest (ends_at v) /\
    vh_capacity v' = vh_capacity v /\ vh_timeout v' = vh_timeout v.
  (** [W'] is [W] with [g p] for every place [p] *)
  Record elsewhere (W W' : World) : Prop := {
    ew_bound : @w_eb W' = @w_eb W;
    ew_trip : forall t, same_trip (@w_trip W t) (@w_trip W' t);
    ew_vehicle : forall v, same_vehicle (@w_vehicle W v) (@w_vehicle W' v);
    ew_shuffle : forall k l, @w_shuffle W' k l = @w_shuffle W k l;
    ew_choice : forall k n, @w_choice W' k n = @w_choice W k n;
    ew_sample : forall k n c, @w_sample W' k n c = @w_sample W k n c;
    ew_distance : forall p q, place_of W p -> place_of W q ->
      metric_distance (@w_metric W') (g p) (g q) = metric_distance (@w_metric W) p q;
    ew_apart : forall p q, place_of W p -> place_of W q -> g p = g q -> p = q
  }.

  (** a state with [g p] for every place [p] *)
  Definition put_stop (c : stop) : stop := MkStop (st_vehicle c) (g (st_position c)) (st_pickups c) (st_deliveries c)
    (st_previous c) (st_starting c) (st_arrival c) (st_departure c) (st_capacity c) (st_feasible c).
  Definition put_state (h : heap) : heap := MkHeap (map put_stop (h_stops h)) (h_pts h) (h_routes h) (h_tick h).
End places.
(** all stops are at places of the instance *)
Definition inside (W : World) (h : heap) : Prop := forall c, c ∈ h_stops h -> place_of W (st_position c).
(** [m] and [m'] do the same, in either place *)
Definition same_run {A} (W : World) (g : position -> position) (m m' : M A) : Prop :=
  forall h, inside W h -> m' (put_state g h) = (fst (m h), put_state g (snd (m h))) /\ inside W (snd (m h)).
Definition put_visit (g : position -> position) (x : visit) : visit := Visit (g (vi_place x)) (vi_board x) (vi_alight x) (vi_request x).
