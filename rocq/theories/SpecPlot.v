(** What a drawing of a solution has to show. *)
From Verif Require Export Values Plots.

Section drawn.
  Context {W : World}.
  (** route [r] goes from [p] directly to [q] *)
  Definition drives (h : heap) (r : nat) (p q : position) : Prop :=
    exists v ids xs i x y, well_formed h r v ids xs /\ xs !! i = Some x /\ xs !! S i = Some y /\
      vi_place x = p /\ vi_place y = q.
  (** someone gets on or off at [p] *)
  Definition meeting_place (job : list nat) (p : position) : Prop :=
    exists t, t ∈ job /\ (origin_position (w_trip t) = p \/ destination_position (w_trip t) = p).
  (** the label [l] names a trip of the job that starts or ends at [p] *)
  Definition names_trip_at (job : list nat) (p : position) (l : string) : Prop :=
    exists t, t ∈ job /\
      (origin_position (w_trip t) = p /\ l = ("+" +:+ tr_identifier (w_trip t)) \/
       destination_position (w_trip t) = p /\ l = ("-" +:+ tr_identifier (w_trip t))).
  (** no two of the places of the job are the same *)
  Definition places_apart (job : list nat) : Prop :=
    (forall t t', t ∈ job -> t' ∈ job -> origin_position (w_trip t) <> destination_position (w_trip t')) /\
    (forall t t', t ∈ job -> t' ∈ job -> origin_position (w_trip t) = origin_position (w_trip t') -> t = t') /\
    (forall t t', t ∈ job -> t' ∈ job -> destination_position (w_trip t) = destination_position (w_trip t') -> t = t').
End drawn.
