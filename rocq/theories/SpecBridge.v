(** A route of the model with whole ticks as a route with doubles.

    A unit of time is [1000 * w_eb] ticks, see World.v. *)
From Verif Require Export Spec.
From Verif Require Export SpecWhole.

Section bridge.
  Context {W : World}.
  Definition ticks_per_unit : Z := (1000 * Zpos w_eb)%Z.
  Definition real (z : Z) : R := IZR z / IZR ticks_per_unit.
  Definition limit (l : lim) : option R := match l with Lim z => Some (real z) | Inf => None end.
  Definition real_trip (t : trip) : dtrip :=
    DTrip (real (sv_earliest (tr_origin t))) (limit (sv_latest (tr_origin t))) (real (sv_duration (tr_origin t)))
          (real (sv_earliest (tr_destination t))) (limit (sv_latest (tr_destination t))) (real (sv_duration (tr_destination t)))
          (limit (tr_timeout t)) (real (World.dist (sv_position (tr_origin t)) (sv_position (tr_destination t)))).
  Fixpoint real_stops (here : position) (xs : list visit) : list dstop :=
    match xs with
    | [] => []
    | x :: xs =>
        DStop (real (World.dist here (vi_place x))) (map (fun t => real_trip (w_trip t)) (vi_board x))
              (map (fun t => real_trip (w_trip t)) (vi_alight x)) (option_map real (vi_request x)) :: real_stops (vi_place x) xs
    end.
  (** the route of vehicle [v] with visits [xs] and rides [rs]: trip [t] from visit [i] to visit [j] *)
  Definition real_route (v : nat) (xs : list visit) (rs : list (nat * nat * nat)) : droute :=
    DRoute (real (v_origin_earliest v)) (limit (v_destination_latest v)) (limit (v_timeout v))
           (real_stops (v_origin_position v) xs) (map (fun '(i, j, t) => (i, j, real_trip (w_trip t))) rs).
  Definition real_timing (T : timing) : dtimes := DTimes (real (tm_arrival T)) (real (tm_start T)) (real (tm_departure T)).

  (** every vehicle must begin and end where it should and carry no more than
      it can at the visits where somebody boards or alights *)
  Definition in_place (v : nat) (xs : list visit) : Prop :=
    (exists x, hd_error xs = Some x /\ vi_place x = v_origin_position v) /\
    (exists x, stdpp.list.last xs = Some x /\ vi_place x = v_destination_position v).
  Definition not_overloaded (v : nat) (xs : list visit) : Prop :=
    forall t i j k T, ride xs t i j -> (k = i \/ k = j) -> Spec.timetable v xs !! k = Some T -> Spec.at_most (tm_load T) (v_capacity v).
End bridge.
