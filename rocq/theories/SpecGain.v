(** Objectives for which more trips are never worth less. *)
From Verif Require Export Searches.

Definition gaining `{W : World} (o : objective) : Prop :=
  o = DialARide \/ o = HashCode /\ forall t, tr_bonus (w_trip t) = 0.
