(** Vocabulary of the theorems about local search and metaheuristics. *)
From Verif Require Export Values Reads Meta.

(** value [y] is at least [x] *)
Definition at_least (x y : list Z) : Prop := y = x \/ lex_lt x y.

Section searches.
  Context {W : World}.

  (** every inner stop of the planning is for one boarding or one alighting, as
      in all routes the insertion algorithms build *)
  Definition single_stops (h : heap) (pl : planning) : Prop :=
    forall r v ids xs, r ∈ pl -> on_tour h r v ids xs -> simple xs.
  (** the planning takes the passenger of trip [t] *)
  Definition takes (h : heap) (pl : planning) (t : nat) : Prop :=
    exists v us, planned_for h pl v us /\ t ∈ us.

  (** each vehicle serves the same trips as before *)
  Definition same_duties (h : heap) (pl : planning) (h' : heap) (pl' : planning) : Prop :=
    forall v us, planned_for h' pl' v us <-> planned_for h pl v us.
  (** vehicle [v] has handed trip [t] over to vehicle [w], and nothing else *)
  Definition handed_over (h : heap) (pl : planning) (h' : heap) (pl' : planning) (t v w : nat) : Prop :=
    v <> w /\
    (exists us us', planned_for h pl v us /\ planned_for h' pl' v us' /\ us ≡ₚ t :: us') /\
    (exists us us', planned_for h pl w us /\ planned_for h' pl' w us' /\ us' ≡ₚ t :: us) /\
    (forall u us, u <> v -> u <> w -> (planned_for h' pl' u us <-> planned_for h pl u us)).

  (** the [k] visits from number [i] on, in reverse order *)
  Definition turned (i k : nat) (xs : list visit) : list visit :=
    take i xs ++ reverse (take k (drop i xs)) ++ drop (i + k) xs.
  (** a stretch of at least two visits, without the first and the last one, is
      driven in reverse order *)
  Definition turns (xs ys : list visit) : Prop :=
    exists i k, (1 <= i)%nat /\ (2 <= k)%nat /\ (i + k < length xs)%nat /\ ys = turned i k xs.
  (** any number of such reversals, one after the other *)
  Inductive many_turns : list visit -> list visit -> Prop :=
  | no_turn xs : many_turns xs xs
  | one_turn_more xs ys zs : many_turns xs ys -> turns ys zs -> many_turns xs zs.

  (** [b] is the first of the plannings [l] with the largest value *)
  Definition leads (o : objective) (h : heap) (l : list planning) (b : planning) : Prop :=
    exists i x, l !! i = Some b /\ total_worth o h b x /\
      (forall j q y, (j < i)%nat -> l !! j = Some q -> total_worth o h q y -> lex_lt y x) /\
      (forall j q y, l !! j = Some q -> total_worth o h q y -> at_least y x).

  (** ** Episodes of the iterative algorithm: [l] are the results so far *)
  Section episodes.
    Context (o : objective) (alg : algorithm) (restart : bool) (init : option planning).
    (** the first episode, and with [restart] each one, begins with [init]; the
        others begin with the best planning so far *)
    Definition begins (h : heap) (l : list planning) (start : option planning) : Prop :=
      start = init /\ (l = [] \/ restart = true) \/
      restart = false /\ exists b, leads o h l b /\ start = Some b.
    (** between two episodes only values are computed *)
    Inductive episodes (h : heap) : list planning -> heap -> Prop :=
    | no_episode : episodes h [] h
    | next_episode l h1 start pl h2 h3 :
        episodes h l h1 -> begins h1 l start ->
        optimize o (alg start) h1 = (Ok pl, h2) -> only_memoised h2 h3 ->
        episodes h (l ++ [pl]) h3.
    (** while [I] holds of the state and [G] of the plannings, an episode yields
        a well-formed planning and leaves all existing routes as they are *)
    Record steady (I : heap -> Prop) (G : heap -> planning -> Prop) : Prop := {
      sd_planned : forall h pl, I h -> G h pl -> well_planned h pl;
      sd_episode : forall h start pl h', I h -> start = init \/ (exists b, start = Some b /\ G h b) ->
        optimize o (alg start) h = (Ok pl, h') ->
        I h' /\ G h' pl /\ routes_kept h h' /\ (forall b, G h b -> G h' b);
      sd_compare : forall h l w h', I h -> (forall b, b ∈ l -> G h b) -> objective_best o l h = (Ok w, h') ->
        I h' /\ (forall b, G h b -> G h' b)
    }.
  End episodes.

  (** ** Stages of the sequential algorithm: [ps] are the results of the first
      stages and [hs] the states before and after each of them *)
  Definition given (init : option planning) (ps : list planning) (i : nat) : option planning :=
    match i with O => init | S j => ps !! j end.
  Record trail (o : objective) (algs : list algorithm) (init : option planning) (h : heap)
      (ps : list planning) (hs : list heap) : Prop := {
    tl_results : (length ps <= length algs)%nat;
    tl_states : length hs = S (length ps);
    tl_first : hs !! 0%nat = Some h;
    tl_stage : forall i a p h1 h2, algs !! i = Some a -> ps !! i = Some p -> hs !! i = Some h1 -> hs !! S i = Some h2 ->
      optimize o (a (given init ps i)) h1 = (Ok p, h2)
  }.

  (** the stops of route [r], and stops that are linked one after the other *)
  Definition in_order (h : heap) (r : nat) (ids : list nat) : Prop :=
    exists c, h_routes h !! r = Some c /\ rt_stops c = ids.
  Definition linked_up (h : heap) (ids : list nat) : Prop :=
    forall i s, ids !! i = Some s -> exists c, h_stops h !! s = Some c /\ st_previous c = before_at ids i.
  (** everything is as before, apart from memoised values, the stops of route
      [r] and the predecessors of the stops [l] *)
  Record changes_only (h h' : heap) (r : nat) (l : list nat) : Prop := {
    co_stops : forall s c, h_stops h !! s = Some c -> exists c', h_stops h' !! s = Some c' /\
      if decide (s ∈ l) then same_stop (set_previous (st_previous c') c) c' else same_stop c c';
    co_pts : forall p c, h_pts h !! p = Some c -> exists c', h_pts h' !! p = Some c' /\
      pt_vehicle c' = pt_vehicle c /\ pt_trip c' = pt_trip c /\ pt_pickup c' = pt_pickup c /\ pt_delivery c' = pt_delivery c;
    co_routes : forall q c, h_routes h !! q = Some c -> exists c', h_routes h' !! q = Some c' /\
      rt_vehicle c' = rt_vehicle c /\ (q <> r -> rt_stops c' = rt_stops c)
  }.
End searches.
