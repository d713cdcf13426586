(** Specification vocabulary, independent of the heap model.

    A route is seen as the list of its visits, and what a user calls "the
    schedule" is a plain forward recurrence over that list. *)
From Verif Require Export World.

(** One visit: where, who boards, who alights (trip numbers), and the start
    time requested by the user ([None]: as soon as possible). *)
Record visit : Type := Visit {
  vi_place : position;
  vi_board : list nat;
  vi_alight : list nat;
  vi_request : option Z
}.

(** what a visit looks like when requested start times are ignored *)
Definition anytime (x : visit) : visit := Visit (vi_place x) (vi_board x) (vi_alight x) None.

Record timing : Type := Timing {
  tm_arrival : Z;
  tm_start : Z;
  tm_departure : Z;
  tm_load : Z
}.

Definition max_or (d : Z) (l : list Z) : Z :=
  match l with [] => d | x :: l => foldr Z.max x l end.
Definition sum_of (l : list Z) : Z := foldr Z.add 0 l.

Section spec.
  Context {W : World}.

  (** the service may not start before any of the windows opens (time 0 when
      nobody boards or alights) *)
  Definition visit_earliest (x : visit) : Z :=
    max_or 0 (map (fun t => origin_earliest (w_trip t)) (vi_board x) ++
              map (fun t => destination_earliest (w_trip t)) (vi_alight x)).
  (** the service lasts as long as its longest part *)
  Definition visit_duration (x : visit) : Z :=
    max_or 0 (map (fun t => origin_duration (w_trip t)) (vi_board x) ++
              map (fun t => destination_duration (w_trip t)) (vi_alight x)).
  Definition weight (ts : list nat) : Z := sum_of (map (fun t => tr_capacity (w_trip t)) ts).

  (** departure time, place and load before a visit *)
  Definition leg : Type := Z * position * Z.

  Definition advance (l : leg) (x : visit) : timing :=
    let '(now, here, load) := l in
    let a := now + dist here (vi_place x) in
    let s := Z.max (Z.max (default a (vi_request x)) (visit_earliest x)) a in
    Timing a s (s + visit_duration x) (load + weight (vi_board x) - weight (vi_alight x)).
  Definition leave (x : visit) (t : timing) : leg := (tm_departure t, vi_place x, tm_load t).

  Fixpoint schedule (l : leg) (xs : list visit) : list timing :=
    match xs with
    | [] => []
    | x :: xs => let t := advance l x in t :: schedule (leave x t) xs
    end.

  (** a vehicle is ready at its origin, empty, at its earliest time *)
  Definition ready (v : nat) : leg := (v_origin_earliest v, v_origin_position v, 0).
  Definition timetable (v : nat) (xs : list visit) : list timing := schedule (ready v) xs.

  (** all trips boarding / alighting along a list of visits *)
  Definition boards (xs : list visit) : list nat := flat_map vi_board xs.
  Definition alights (xs : list visit) : list nat := flat_map vi_alight xs.

  (** trips on board after the visits [xs] *)
  Definition on_board (xs : list visit) : list nat :=
    filter (fun t => t ∉ alights xs) (boards xs).

  (** every trip boards at most once, exactly the boarded trips alight, each
      strictly after it boarded, at the right places *)
  Record rides (xs : list visit) : Prop := {
    rides_once : NoDup (boards xs);
    rides_all : alights xs ≡ₚ boards xs;
    rides_order : forall t, t ∈ boards xs -> exists a b, [a; b] `sublist_of` xs /\
                   t ∈ vi_board a /\ t ∈ vi_alight b;
    rides_places : forall x, x ∈ xs ->
                   (forall t, t ∈ vi_board x -> vi_place x = origin_position (w_trip t)) /\
                   (forall t, t ∈ vi_alight x -> vi_place x = destination_position (w_trip t))
  }.
  (** a tour of vehicle [v] moreover begins at its origin and ends at its
      destination, without passengers *)
  Record tour (v : nat) (xs : list visit) : Prop := {
    tour_first : exists x0 rest, xs = x0 :: rest /\ rest <> [] /\
                   vi_place x0 = v_origin_position v /\ vi_board x0 = [] /\ vi_alight x0 = [];
    tour_last : exists front xn, xs = front ++ [xn] /\
                   vi_place xn = v_destination_position v /\ vi_board xn = [] /\ vi_alight xn = [];
    tour_rides : rides xs
  }.

  (** every inner visit is for exactly one boarding or one alighting *)
  Definition events (x : visit) : nat := length (vi_board x) + length (vi_alight x).
  Definition simple (xs : list visit) : Prop :=
    exists x0 mid xn, xs = x0 :: mid ++ [xn] /\ Forall (fun x => events x = 1%nat) mid.

  (** visits made for one trip *)
  Definition pick_up (t : nat) : visit := Visit (origin_position (w_trip t)) [t] [] None.
  Definition drop_off (t : nat) : visit := Visit (destination_position (w_trip t)) [] [t] None.
  (** trip [t] picked up right after position [i] and dropped right before
      (old) position [j] *)
  Definition serve (t i j : nat) (xs : list visit) : list visit :=
    take (S i) xs ++ pick_up t :: drop (S i) (take j xs) ++ drop_off t :: drop j xs.

  (** the visits not made for trip [t] *)
  Definition mentions (t : nat) (x : visit) : Prop := t ∈ vi_board x \/ t ∈ vi_alight x.
  Definition without (t : nat) (xs : list visit) : list visit :=
    filter (fun x => ~ (t ∈ vi_board x ++ vi_alight x)) xs.
  (** the visits of trip [t] serve nobody else *)
  Definition dedicated (t : nat) (xs : list visit) : Prop :=
    forall x, x ∈ xs -> mentions t x -> events x = 1%nat.

  (** the same visits with the same service, except for when the vehicle is
      asked to leave, and leaves, its origin (and hence arrives at, and waits
      for, the second visit) *)
  Definition service_of (T : timing) : Z * Z * Z := (tm_start T, tm_departure T, tm_load T).
  Definition similar (v : nat) (xs ys : list visit) : Prop :=
    map anytime xs = map anytime ys /\ drop 1 xs = drop 1 ys /\
    drop 1 (map service_of (timetable v xs)) = drop 1 (map service_of (timetable v ys)).

  (** ** Constraints of the problem, up to the tolerance [eb] *)
  Definition at_most (x : Z) (l : lim) : Prop := match l with Lim z => x <= z + eb | Inf => True end.
  (** a visit takes place within all its windows and with an allowed load *)
  Definition on_time (v : nat) (x : visit) (T : timing) : Prop :=
    (forall t, t ∈ vi_board x -> origin_earliest (w_trip t) <= tm_start T + eb /\
                                at_most (tm_start T) (origin_latest (w_trip t))) /\
    (forall t, t ∈ vi_alight x -> destination_earliest (w_trip t) <= tm_start T + eb /\
                                 at_most (tm_start T) (destination_latest (w_trip t))) /\
    at_most (tm_load T) (v_capacity v).
  (** the ride of [t] from visit [i] to visit [j] *)
  Definition ride (xs : list visit) (t i j : nat) : Prop :=
    exists x y, xs !! i = Some x /\ xs !! j = Some y /\ t ∈ vi_board x /\ t ∈ vi_alight y.
  Record admissible (v : nat) (xs : list visit) : Prop := {
    ad_origin : exists x, head xs = Some x /\ vi_place x = v_origin_position v;
    ad_destination : exists x, last xs = Some x /\ vi_place x = v_destination_position v;
    ad_return : forall T, last (timetable v xs) = Some T -> at_most (tm_departure T) (v_destination_latest v);
    ad_duration : forall T0 T, head (timetable v xs) = Some T0 -> last (timetable v xs) = Some T ->
                    at_most (tm_departure T - tm_departure T0) (v_timeout v);
    ad_rides : forall t i j x y Ti Tj, ride xs t i j ->
                 xs !! i = Some x -> xs !! j = Some y ->
                 timetable v xs !! i = Some Ti -> timetable v xs !! j = Some Tj ->
                 on_time v x Ti /\ on_time v y Tj /\
                 at_most (tm_start Tj - tm_departure Ti) (tr_timeout (w_trip t))
  }.

  (** worlds with non-negative service durations *)
  Definition sane_durations : Prop :=
    forall t, 0 <= origin_duration (w_trip t) /\ 0 <= destination_duration (w_trip t).
  Definition sane_capacities : Prop := forall t, 0 <= tr_capacity (w_trip t).
End spec.
