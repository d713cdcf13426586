(** Detours. *)
From Verif Require Export Spec.

Section detour.
  Context {W : World}.
  (** going through a third of these places is never shorter *)
  Definition no_shortcuts (ps : list position) : Prop :=
    forall a b c, a ∈ ps -> b ∈ ps -> c ∈ ps -> dist a c <= dist a b + dist b c.
  (** nothing happens later, and the vehicle carries no more *)
  Definition sooner (T T' : timing) : Prop :=
    tm_arrival T <= tm_arrival T' /\ tm_start T <= tm_start T' /\ tm_departure T <= tm_departure T' /\ tm_load T <= tm_load T'.
End detour.
