(** Vocabulary of the theorems about what a 2-opt search leaves undone. *)
From Verif Require Export Searches Represents.

Section turning.
  Context {W : World}.

  (** [ys] is a better tour of vehicle [v] than [xs], keeps all constraints,
      and differs from [xs] in that one stretch of at least two visits, without
      the first and the last one, is driven in reverse order *)
  Definition better_turn (o : objective) (v : nat) (xs ys : list visit) (i k : nat) : Prop :=
    (1 <= i)%nat /\ (2 <= k)%nat /\ (i + k < length xs)%nat /\ ys = turned i k xs /\
    tour v ys /\ admissible v ys /\ lex_lt (value_of o v xs) (value_of o v ys).
  (** stretches of two visits are tried at the end of the route only *)
  Definition tried (i k n : nat) : Prop := k <> 2%nat \/ (i + 3)%nat = n.

  (** no two routes of the planning are for the same vehicle *)
  Definition one_each (h : heap) (pl : planning) : Prop :=
    forall i j r r' v ids ids' xs xs', pl !! i = Some r -> pl !! j = Some r' ->
      on_tour h r v ids xs -> on_tour h r' v ids' xs' -> i = j.
  (** a route with enough stops to reverse some takes somebody *)
  Definition no_idle_stops (h : heap) (pl : planning) : Prop :=
    forall r v ids xs, r ∈ pl -> on_tour h r v ids xs -> (4 <= length xs)%nat -> boards xs <> [].
End turning.
