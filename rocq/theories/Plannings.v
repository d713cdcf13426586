(** Vocabulary of the theorems about whole plannings and runs of the insertion
    algorithm. *)
From Verif Require Export Choices.

Section plannings.
  Context {W : World}.

  (** route [r] is a tour of vehicle [v] that serves exactly the trips [ts] *)
  Definition route_serves (h : heap) (r v : nat) (ts : list nat) : Prop :=
    exists ids xs, on_tour h r v ids xs /\ boards xs = ts.

  (** the planning [pl] has exactly one route for each of the vehicles [vs], it
      serves only trips of [job], and no trip is served twice *)
  Record valid_planning (h : heap) (vs job pl : list nat) : Prop := {
    vp_vehicles : NoDup vs;
    vp_routes : exists ws, ws ≡ₚ vs /\ Forall2 (fun r v => exists ts, route_serves h r v ts) pl ws;
    vp_only : forall r v ts t, r ∈ pl -> route_serves h r v ts -> t ∈ ts -> t ∈ job;
    vp_once : forall r r' v v' ts ts' t, r ∈ pl -> r' ∈ pl ->
      route_serves h r v ts -> route_serves h r' v' ts' -> t ∈ ts -> t ∈ ts' -> r = r'
  }.

  (** what vehicle [v] serves in planning [pl] *)
  Definition planned_for (h : heap) (pl : list nat) (v : nat) (ts : list nat) : Prop :=
    exists r, r ∈ pl /\ route_serves h r v ts.

  (** [n] turns of the loop of algorithm.py:44-51, each accepting a route *)
  Inductive rounds : nat -> ranking -> heap -> ranking -> heap -> Prop :=
  | rounds_none k h : rounds 0 k h k h
  | rounds_more n k h r h1 h2 k' h3 k'' h'' :
      ranking_next k h = (Ok (Some r), h1) ->
      route_feasible r h1 = (Ok true, h2) ->
      ranking_set_route k r h2 = (Ok k', h3) ->
      rounds n k' h3 k'' h'' ->
      rounds (S n) k h k'' h''.
  (** the planning an iterator stands for, and the trips it still has to place *)
  Definition current (k : ranking) : list nat := it_route_set (rk_it k).
  Definition pending (k : ranking) : list nat := it_pending (rk_it k).
  Definition start (cfg : insertion_config) (fleet job : list nat) (initial : option (list nat)) : M ranking :=
    ranking_init (ic_strategy cfg) (ic_only_feasible cfg) (ic_criterion cfg) fleet job
      initial (ic_size cfg) (ic_random cfg).

  (** every stop, planned trip and route that exists in [h] is the same, field
      by field and including memoised values, in [h'] *)
  Definition untouched (h h' : heap) : Prop :=
    (forall s, (s < length (h_stops h))%nat -> h_stops h' !! s = h_stops h !! s) /\
    (forall p, (p < length (h_pts h))%nat -> h_pts h' !! p = h_pts h !! p) /\
    (forall r, (r < length (h_routes h))%nat -> h_routes h' !! r = h_routes h !! r).
End plannings.
