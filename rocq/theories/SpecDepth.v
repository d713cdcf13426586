(** Vocabulary for limits on nested calls (C83). *)
From Verif Require Export Represents.

(** no times of these stops have been read since the last flush *)
Definition unread (h : heap) (ids : list nat) : Prop :=
  forall s c, s ∈ ids -> h_stops h !! s = Some c -> st_arrival c = None /\ st_departure c = None.

(** the planned trip [p] boards at stop [s] of the route with the stops [ids] *)
Definition picked (h : heap) (ids : list nat) (s p : nat) : Prop :=
  exists i c, ids !! i = Some s /\ h_stops h !! s = Some c /\ p ∈ st_pickups c.
