(** Vocabulary of the theorems about the other insertion iterators. *)
From Verif Require Export Plannings Values.

Section iterators.
  Context {W : World}.

  (** [n] turns of the loop of algorithm.py:44-51 with the stateless iterator,
      each accepting a route *)
  Inductive turns : nat -> stateless -> heap -> stateless -> heap -> Prop :=
  | turns_none k h : turns 0 k h k h
  | turns_more n k h r k1 h1 h2 k' h3 k'' h'' :
      stateless_next k h = (Ok (Some r, k1), h1) ->
      route_feasible r h1 = (Ok true, h2) ->
      stateless_set_route k1 r h2 = (Ok k', h3) ->
      turns n k' h3 k'' h'' ->
      turns (S n) k h k'' h''.
  (** the planning the iterator stands for, and the trips it still has to place *)
  Definition holds (k : stateless) : list nat := it_route_set (sl_it k).
  Definition waiting (k : stateless) : list nat := it_pending (sl_it k).
  Definition begin (cfg : insertion_config) (fleet job : list nat) (initial : option (list nat)) : M stateless :=
    let! i := iterator_init (ic_strategy cfg) (ic_only_feasible cfg) (ic_criterion cfg) fleet job initial in
    ret (MkStateless i None).

  (** a list of scored candidates, best first *)
  Definition best_first (c : criterion) (h : heap) (l : list nat) : Prop :=
    forall i j a b x y, (i < j)%nat -> l !! i = Some a -> l !! j = Some b ->
      scored c h a x -> scored c h b y -> ~ beats c y x.
  (** the candidates of a ranking, and its criterion *)
  Definition candidate (k : ranking) (r : nat) : Prop := exists v sub, (v, sub) ∈ rk_table k /\ r ∈ sub.
  Definition chosen_by (k : ranking) : criterion := it_criterion (rk_it k).
  (** every candidate has a score, and every sub-ranking is sorted by it *)
  Definition ranked (k : ranking) (h : heap) : Prop :=
    (forall r, candidate k r -> exists x, scored (chosen_by k) h r x) /\
    (forall v sub, (v, sub) ∈ rk_table k -> best_first (chosen_by k) h sub).
  (** no candidate of the ranking has a better score than [r] *)
  Definition unbeaten (k : ranking) (h : heap) (r : nat) : Prop :=
    candidate k r /\ forall r' x x', candidate k r' -> scored (chosen_by k) h r x ->
      scored (chosen_by k) h r' x' -> ~ beats (chosen_by k) x' x.
End iterators.
