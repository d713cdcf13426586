(** Moving one trip from one vehicle to another. *)
From Verif Require Export Searches SpecFair.

Section moves.
  Context {W : World}.
  (** the number the search by reallocation looks at: the last component of the
      value of a route *)
  Definition price (o : objective) (v : nat) (xs : list visit) : Z := default 0 (last (value_of o v xs)).
  (** trip [t] can go from vehicle [v] with tour [xs] to vehicle [w] with tour
      [ys], to be served from its visit [i] to its visit [j], and this brings at
      least [gain], no matter when exactly both vehicles leave their origins, as
      long as their visits are not affected *)
  Definition move (o : objective) (v : nat) (xs : list visit) (w : nat) (ys : list visit) (t i j : nat) (gain : Z) : Prop :=
    t ∈ boards xs /\ (i < j < length ys)%nat /\
    forall xs' ys', tour v xs' -> similar v xs xs' -> tour w ys' -> similar w ys ys' ->
      fits v (without t xs') /\ fits w (serve t i j ys') /\
      gain <= price o v (without t xs') + price o w (serve t i j ys') - price o v xs - price o w ys.
  (** such a move between two routes of a planning, the second one with at most
      16 stops *)
  Definition open_move (o : objective) (h : heap) (pl : planning) (gain : Z) : Prop :=
    exists q r v w ids ids' xs ys t i j, q ∈ pl /\ r ∈ pl /\ q <> r /\ on_tour h q v ids xs /\ on_tour h r w ids' ys /\
      (length ys <= 16)%nat /\ move o v xs w ys t i j gain.
End moves.
