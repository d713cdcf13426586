(** Plannings without requested start times. *)
From Verif Require Export SpecFair.

(** no start time is requested along the routes of [pl], except for the
    departure from the depot, and routes with passengers keep all limits but
    perhaps the one on how long the vehicle is on the way *)
Definition untimed {W : World} (h : heap) (pl : list nat) : Prop :=
  forall r v ids xs, r ∈ pl -> on_tour h r v ids xs ->
    calm xs (length xs) /\ (boards xs <> [] -> almost v xs /\ (brief v xs -> admissible v xs)).
(** every route of [pl] with passengers keeps all limits *)
Definition all_admissible {W : World} (h : heap) (pl : list nat) : Prop :=
  forall r v ids xs, r ∈ pl -> on_tour h r v ids xs -> boards xs <> [] -> admissible v xs.
