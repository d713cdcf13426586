(** The hours and services that vehicles have at their depots. *)
From Verif Require Export SpecFair.

Section hours.
  Context {W : World}.
  (** vehicles.py:64-65, 68-69, 82-83 and 90-91 *)
  Definition out_latest (v : nat) : lim := sv_latest (vh_origin (w_vehicle v)).
  Definition out_duration (v : nat) : Z := sv_duration (vh_origin (w_vehicle v)).
  Definition back_earliest (v : nat) : Z := sv_earliest (vh_destination (w_vehicle v)).
  Definition back_duration (v : nat) : Z := sv_duration (vh_destination (w_vehicle v)).

  (** the vehicle leaves its origin after the opening time *)
  Definition out_after_opening (v : nat) (xs : list visit) : Prop :=
    forall T, head (timetable v xs) = Some T -> v_origin_earliest v <= tm_departure T.
  (** and before the closing time *)
  Definition out_before_closing (v : nat) (xs : list visit) : Prop :=
    forall T, head (timetable v xs) = Some T -> at_most (tm_departure T) (out_latest v).
  (** when the work at the origin is done *)
  Definition out_after_work (v : nat) (xs : list visit) : Prop :=
    forall T, head (timetable v xs) = Some T -> v_origin_earliest v + out_duration v <= tm_departure T + eb.
  (** it is at its destination before the closing time *)
  Definition back_before_closing (v : nat) (xs : list visit) : Prop :=
    forall T, last (timetable v xs) = Some T -> at_most (tm_arrival T) (v_destination_latest v).
  (** and after the opening time *)
  Definition back_after_opening (v : nat) (xs : list visit) : Prop :=
    forall T, last (timetable v xs) = Some T -> back_earliest v <= tm_departure T + eb.
  (** and early enough to do the work there *)
  Definition back_before_work (v : nat) (xs : list visit) : Prop :=
    forall T, last (timetable v xs) = Some T -> at_most (tm_arrival T + back_duration v) (v_destination_latest v).

  (** all routes of [pl] with passengers have the property [P] *)
  Definition with_passengers (P : nat -> list visit -> Prop) (h : heap) (pl : list nat) : Prop :=
    forall r v ids xs, r ∈ pl -> on_tour h r v ids xs -> boards xs <> [] -> P v xs.
End hours.
