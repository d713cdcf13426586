(** Vocabulary of the theorems about reading times from stops. *)
From Verif Require Export Represents SpecValue.

Section reads.
  Context {W : World}.

  (** the quantities one can read from a stop, and the getter for each
      (stops.py:98-110, 153-182) *)
  Inductive reading : Type := Arrival | Start | Departure | Transit | Waiting | Load.
  Definition read (k : reading) (s : nat) : M Z :=
    match k with
    | Arrival => arrival_time s | Start => starting_time s | Departure => departure_time s
    | Transit => transit_time s | Waiting => waiting_time s | Load => capacity s
    end.

  (** where the vehicle comes from when it drives to visit [i] *)
  Definition place_before (v : nat) (xs : list visit) (i : nat) : position :=
    match i with
    | O => v_origin_position v
    | S j => match xs !! j with Some x => vi_place x | None => [] end
    end.
  (** [z] is the quantity [k] of visit [i] in the schedule *)
  Definition right (v : nat) (xs : list visit) (k : reading) (i : nat) (z : Z) : Prop :=
    exists x T, xs !! i = Some x /\ timetable v xs !! i = Some T /\
      z = match k with
          | Arrival => tm_arrival T | Start => tm_start T | Departure => tm_departure T
          | Transit => dist (place_before v xs i) (vi_place x)
          | Waiting => tm_start T - tm_arrival T | Load => tm_load T
          end.

  (** the computation returns [a] *)
  Definition returns {A} (m : M A) (h : heap) (a : A) : Prop := exists h', m h = (Ok a, h').
  (** nothing but memoised times and loads changed: all routes stand for the
      same visits, and no feasibility answer was recorded *)
  Definition only_memoised (h h' : heap) : Prop :=
    routes_kept h h' /\ (forall r ids, unasked h r ids -> unasked h' r ids).

  (** visit [i] asks to start at [z] *)
  Definition ask (z : Z) (x : visit) : visit := Visit (vi_place x) (vi_board x) (vi_alight x) (Some z).

  (** a vehicle which does nothing *)
  Definition doing_nothing (v : nat) : list visit :=
    [Visit (v_origin_position v) [] [] None; Visit (v_destination_position v) [] [] None].
End reads.
