(** Vocabulary of the theorems about scores, objective values and choices. *)
From Verif Require Export Plannings SpecValue Meta.

(** ** Comparing scores: numbers with two infinities *)
Inductive score_lt : score -> score -> Prop :=
| lt_low_fin q : score_lt SNInf (SFin q)
| lt_low_high : score_lt SNInf SPInf
| lt_fin p q : (p < q)%Q -> score_lt (SFin p) (SFin q)
| lt_fin_high p : score_lt (SFin p) SPInf.

(** score [x] is strictly better than [y] for criterion [k] *)
Definition beats (k : criterion) (x y : score) : Prop :=
  match k with
  | EarliestLastDeparture | ShortestAverageDuration | ShortestTime => score_lt x y
  | LongestTime | LongestUtilTime | HashCodeCriterion => score_lt y x
  end.

(** ** Comparing objective values: the first component that differs decides *)
Inductive lex_lt : list Z -> list Z -> Prop :=
| lex_here x y l l' : x < y -> lex_lt (x :: l) (y :: l')
| lex_later x l l' : lex_lt l l' -> lex_lt (x :: l) (x :: l').

(** position [i] holds the first occurrence of its element *)
Definition first_at {A} (l : list A) (i : nat) (x : A) : Prop :=
  l !! i = Some x /\ forall j, (j < i)%nat -> l !! j <> Some x.

Section values.
  Context {W : World}.

  (** the answer given when the feasibility of route [r] was asked *)
  Definition answered (h : heap) (r : nat) (b : bool) : Prop :=
    exists c, h_routes h !! r = Some c /\ rt_feasible c = Some b.
  (** the score of route [r], whose feasibility was asked: the worst possible
      one for an infeasible route *)
  Definition scored (k : criterion) (h : heap) (r : nat) (x : score) : Prop :=
    exists v ids xs b, on_tour h r v ids xs /\ answered h r b /\
      x = if b : bool then score_of k v xs else worst k.
  Definition a_tour (h : heap) (r : nat) : Prop := exists v ids xs, on_tour h r v ids xs.

  (** the value of a route *)
  Definition worth (o : objective) (h : heap) (r : nat) (x : list Z) : Prop :=
    exists v ids xs, well_formed h r v ids xs /\ x = value_of o v xs.
  (** the value of a planning: the sum of the values of its routes *)
  Definition total_worth (o : objective) (h : heap) (pl : planning) (x : list Z) : Prop :=
    exists xs, Forall2 (worth o h) pl xs /\ x = total_value o xs.
  Definition well_planned (h : heap) (pl : planning) : Prop :=
    forall r, r ∈ pl -> exists v ids xs, well_formed h r v ids xs.

  (** when the service of the pickup of [t] starts *)
  Definition boarded_at (v : nat) (xs : list visit) (t : nat) : Z :=
    moment (fun x => bool_decide (t ∈ vi_board x)) tm_start v xs.
  (** [p] is the planned trip of [t] in route [r] *)
  Definition planned_as (h : heap) (ids : list nat) (p t : nat) : Prop :=
    exists s c pc, s ∈ ids /\ h_stops h !! s = Some c /\ p ∈ st_pickups c /\
      h_pts h !! p = Some pc /\ pt_trip pc = t.
  (** HashCode points of a ride begun at [z] that is on time at [e] *)
  Definition points (t : nat) (e z : Z) : Z :=
    if decide (tr_capacity (w_trip t) = 0) then 0 else
    trip_distance (w_trip t) + (if decide (z = e) then tr_bonus (w_trip t) else 0).

  (** [t] is one of the passengers of planning [pl] *)
  Definition carried (h : heap) (pl : planning) (t : nat) : Prop :=
    exists r v ids xs, r ∈ pl /\ well_formed h r v ids xs /\ t ∈ boards xs.
End values.

(** what Python's comparisons need to make [min], [max] and [sorted] meaningful *)
Record weak_order {K} (lt : K -> K -> bool) : Prop := {
  wo_irrefl : forall x, lt x x = false;
  wo_asym : forall x y, lt x y = true -> lt y x = false;
  wo_trans : forall x y z, lt y x = false -> lt z y = false -> lt z x = false
}.
(** key [x] is strictly better than [y] *)
Definition ahead {K} (lt : K -> K -> bool) (d : direction) (x y : K) : Prop :=
  match d with Minimization => lt x y = true | Maximization => lt y x = true end.

(** [l'] is [l] in the order of the criterion, ties in their original order *)
Definition ordered_by `{W : World} (k : criterion) (h : heap) (l l' : list nat) : Prop :=
  l' ≡ₚ l /\
  (forall i j a b x y, (i < j)%nat -> l' !! i = Some a -> l' !! j = Some b ->
     scored k h a x -> scored k h b y -> ~ beats k y x) /\
  (forall P : nat -> bool,
     (forall a b x y, a ∈ l -> b ∈ l -> P a = true -> P b = true -> scored k h a x -> scored k h b y -> ~ beats k x y) ->
     List.filter P l' = List.filter P l).
