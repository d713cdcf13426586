(** Specification of objective values and criterion scores, as functions of
    the visits of a route (Spec.v) only.  Of Objectives.v only the names of the
    objectives and criteria are used. *)
From Verif Require Export Spec Objectives.

Section values.
  Context {W : World}.

  (** [f] of the timing of the first visit satisfying [b] *)
  Definition moment (b : visit -> bool) (f : timing -> Z) (v : nat) (xs : list visit) : Z :=
    match List.filter (fun p : visit * timing => b p.1) (zip xs (timetable v xs)) with
    | [] => 0
    | p :: _ => f p.2
    end.
  (** when the vehicle leaves the pickup of [t], and when [t] is dropped off *)
  Definition picked_up_at (v : nat) (xs : list visit) (t : nat) : Z :=
    moment (fun x => bool_decide (t ∈ vi_board x)) tm_departure v xs.
  Definition dropped_off_at (v : nat) (xs : list visit) (t : nat) : Z :=
    moment (fun x => bool_decide (t ∈ vi_alight x)) tm_start v xs.
  Definition ride_time (v : nat) (xs : list visit) (t : nat) : Z :=
    dropped_off_at v xs t - picked_up_at v xs t.

  (** distance driven, from the vehicle's origin on *)
  Fixpoint driven (here : position) (xs : list visit) : Z :=
    match xs with [] => 0 | x :: xs => dist here (vi_place x) + driven (vi_place x) xs end.
  Definition travelled (v : nat) (xs : list visit) : Z := driven (v_origin_position v) xs.

  (** HashCode: the ride itself, and a bonus (see C26 for what "on time" means
      in the code) *)
  Definition ride_score (v : nat) (xs : list visit) (t : nat) : Z :=
    trip_distance (w_trip t) +
    (if decide (picked_up_at v xs t = origin_earliest (w_trip t)) then tr_bonus (w_trip t) else 0).
  Definition unless_empty (t : nat) (x : Z) : Z := if decide (tr_capacity (w_trip t) = 0) then 0 else x.

  Definition value_of (o : objective) (v : nat) (xs : list visit) : list Z :=
    match o with
    | DialARide => [Z.of_nat (length (boards xs)); - travelled v xs]
    | TaxiSharing => [sum_of (map (fun t => unless_empty t (ride_time v xs t)) (boards xs))]
    | HashCode => [sum_of (map (fun t => unless_empty t (ride_score v xs t)) (boards xs))]
    end.
  Definition total_value (o : objective) (vs : list (list Z)) : list Z :=
    foldr (zip_with Z.add) (match o with DialARide => [0; 0] | _ => [0] end) vs.

  (** last and first departure of a route *)
  Definition returned_at (v : nat) (xs : list visit) : Z :=
    default 0 (tm_departure <$> last (timetable v xs)).
  Definition left_at (v : nat) (xs : list visit) : Z :=
    default 0 (tm_departure <$> head (timetable v xs)).
  Definition score_of (k : criterion) (v : nat) (xs : list visit) : score :=
    match k with
    | EarliestLastDeparture => SFin (inject_Z (returned_at v xs))
    | ShortestAverageDuration =>
        match boards xs with
        | [] => SFin 0
        | _ => SFin (sum_of (map (ride_time v xs) (boards xs)) # Pos.of_nat (length (boards xs)))
        end
    | ShortestTime | LongestTime => SFin (inject_Z (returned_at v xs - left_at v xs))
    | LongestUtilTime => SFin (inject_Z (sum_of (map (fun t => trip_distance (w_trip t)) (boards xs))))
    | HashCodeCriterion => SFin (inject_Z (sum_of (map (ride_score v xs) (boards xs))))
    end.
  (** the score of a route that is not feasible *)
  Definition worst (k : criterion) : score :=
    match k with
    | EarliestLastDeparture | ShortestAverageDuration | ShortestTime => SPInf
    | _ => SNInf
    end.
End values.
