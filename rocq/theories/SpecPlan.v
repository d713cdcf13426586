(** What can be said about the feasibility of a planning. *)
From Verif Require Export Values.

Section verdicts.
  Context {W : World}.
  (** the answer to be given when the feasibility of route [r] is asked: the one
      recorded earlier, or the right one when nothing about the route, its stops
      and its planned trips was asked before *)
  Definition verdict (h : heap) (r : nat) (b : bool) : Prop :=
    exists v ids xs, on_tour h r v ids xs /\
      (answered h r b \/ unasked h r ids /\ (b = true <-> admissible v xs)).
  (** no stop belongs to two routes *)
  Definition separate (h : heap) (pl : list nat) : Prop :=
    forall r r' v v' ids ids' xs xs' s, r ∈ pl -> r' ∈ pl ->
      well_formed h r v ids xs -> well_formed h r' v' ids' xs' -> s ∈ ids -> s ∈ ids' -> r = r'.
End verdicts.
