(** What a readable report has to show, in terms of the timetable (Spec.v) and
    of where the time of passengers goes (SpecAccount.v). *)
From Verif Require Export SpecPlan SpecAccount SpecStore Report.

Definition within (z : Z) (l : lim) : Prop := match l with Lim y => z <= y | Inf => True end.
Definition bar : ascii := "|".
(** the character does not occur *)
Fixpoint free_of (c : ascii) (s : string) : Prop :=
  match s with EmptyString => True | String a s => a <> c /\ free_of c s end.

Section shown.
  Context {W : World}.

  (** how the events of a visit are called *)
  Definition boarding_name (t : nat) : string := String "P" (tr_identifier (w_trip t)).
  Definition alighting_name (t : nat) : string := String "D" (tr_identifier (w_trip t)).
  Definition event_names (x : visit) : list string :=
    map boarding_name (vi_board x) ++ map alighting_name (vi_alight x).
  (** [name] is a pair of brackets around the names of all events of [x],
      separated by bars *)
  Definition names_visit (x : visit) (name : string) : Prop :=
    exists inner, name = String "[" (String.append inner "]") /\
      (event_names x = [] -> inner = EmptyString) /\
      (event_names x <> [] -> Forall (free_of bar) (event_names x) -> split_on bar inner ≡ₚ event_names x).

  (** row [w] tells about visit [i] *)
  Definition shows_visit (v : nat) (xs : list visit) (i : nat) (w : stop_row) : Prop :=
    exists x T, xs !! i = Some x /\ timetable v xs !! i = Some T /\
      names_visit x (sw_identifier w) /\
      sw_position w = vi_place x /\
      sw_earliest w = visit_earliest x /\
      (forall z, within z (sw_latest w) <->
         (forall t, t ∈ vi_board x -> within z (origin_latest (w_trip t))) /\
         (forall t, t ∈ vi_alight x -> within z (destination_latest (w_trip t)))) /\
      sw_waiting w = tm_start T - tm_arrival T /\
      sw_transit w = dist (place_before v xs i) (vi_place x) /\
      sw_load_time w = visit_duration x /\
      sw_departure w = tm_departure T /\
      sw_capacity w = weight (on_board (take (S i) xs)).

  (** row [w] tells about the ride of trip [t] *)
  Definition shows_ride (v : nat) (xs : list visit) (t : nat) (w : trip_row) : Prop :=
    exists i j x y Ti Tj, ride xs t i j /\ xs !! i = Some x /\ xs !! j = Some y /\
      timetable v xs !! i = Some Ti /\ timetable v xs !! j = Some Tj /\
      tw_identifier w = tr_identifier (w_trip t) /\
      tw_origin w = vi_place x /\ tw_destination w = vi_place y /\
      tw_earliest w = origin_earliest (w_trip t) /\ tw_latest w = destination_latest (w_trip t) /\
      tw_waiting w = waited_between v xs i j /\
      tw_transit w = driven_between xs i j /\
      tw_load_time w = visit_duration x + visit_duration y /\
      tw_pickup w = tm_departure Ti /\ tw_delivery w = tm_start Tj /\
      tw_duration w = tw_transit w + tw_waiting w + served_between xs i (j - 1) /\
      tw_capacity w = tr_capacity (w_trip t).

  Definition shows_vehicle (v : nat) (w : vehicle_rows) : Prop :=
    let o := vh_origin (w_vehicle v) in
    vr_identifier w = vh_identifier (w_vehicle v) /\ vr_initial w = sv_position o /\
    vr_final w = sv_position (default o (vh_destination_opt (w_vehicle v))) /\
    vr_earliest w = sv_earliest o /\ vr_latest w = sv_latest o /\ vr_capacity w = vh_capacity (w_vehicle v).

  (** the block tells about route [r]: one row for every ride, in the order of
      pickup, and one for every visit *)
  Definition shows_route (h : heap) (r : nat) (b : route_block) : Prop :=
    exists v ids xs, well_formed h r v ids xs /\
      shows_vehicle v (rb_vehicle b) /\
      rb_trip_count b = length (boards xs) /\ Forall2 (shows_ride v xs) (boards xs) (rb_trips b) /\
      rb_stop_count b = length xs /\ length (rb_stops b) = length xs /\
      forall i w, rb_stops b !! i = Some w -> shows_visit v xs i w.
End shown.
