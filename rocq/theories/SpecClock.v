(** The same instance with all times moved by [c]. *)
From Verif Require Export Values.

Definition moved_limit (c : Z) (l : lim) : lim := match l with Lim z => Lim (z + c) | Inf => Inf end.
Definition moved_service (c : Z) (s : service) : service :=
  Service (sv_position s) (sv_earliest s + c) (moved_limit c (sv_latest s)) (sv_duration s).
Definition moved_trip (c : Z) (t : trip) : trip :=
  Trip (tr_identifier t) (moved_service c (tr_origin t)) (moved_service c (tr_destination t)) (tr_capacity t) (tr_bonus t) (tr_timeout t).
Definition moved_vehicle (c : Z) (v : vehicle) : vehicle :=
  Vehicle (vh_identifier v) (moved_service c (vh_origin v)) (moved_service c <$> vh_destination_opt v) (vh_capacity v) (vh_timeout v).

(** world [W'] is world [W] with all windows moved by [c] *)
Record moved_world (c : Z) (W W' : World) : Prop := {
  mw_eb : @w_eb W' = @w_eb W;
  mw_metric : @w_metric W' = @w_metric W;
  mw_trip : forall t, @w_trip W' t = moved_trip c (@w_trip W t);
  mw_vehicle : forall v, @w_vehicle W' v = moved_vehicle c (@w_vehicle W v)
}.
(** moreover sets are iterated and random choices are made alike *)
Definition same_chance (W W' : World) : Prop :=
  (forall k l, @w_shuffle W' k l = @w_shuffle W k l) /\ (forall k n, @w_choice W' k n = @w_choice W k n) /\
  (forall k n m, @w_sample W' k n m = @w_sample W k n m).

Definition moved_visit (c : Z) (x : visit) : visit :=
  Visit (vi_place x) (vi_board x) (vi_alight x) ((fun z => z + c) <$> vi_request x).
Definition moved_timing (c : Z) (T : timing) : timing :=
  Timing (tm_arrival T + c) (tm_start T + c) (tm_departure T + c) (tm_load T).
