(** The objective and the constraints of the three-index model:
    jinete/algorithms/exacts/models/three_index.py:75-95, 151-163, 229-325.

    A constraint is what it says of an assignment: true or false.  Solvers work
    with tolerances; here the constraints hold exactly.  [u] and [w] are whole
    numbers of ticks.

    Infinite data: [expr <= inf] says nothing.  An infinite coefficient (the
    latest time of a node or the capacity of a vehicle in lines 276-287) has no
    meaning in a linear model; what the solver makes of such a constraint is the
    arbitrary function [odd]. *)
From Verif Require Export Milp.

(** building lists with functions that may raise *)
Definition rbind {A B} (m : res A) (k : A -> res B) : res B :=
  match m with Ok a => k a | Raise e => Raise e end.
Fixpoint rmap {A B} (f : A -> res B) (l : list A) : res (list B) :=
  match l with
  | [] => Ok []
  | x :: l => rbind (f x) (fun y => rbind (rmap f l) (fun ys => Ok (y :: ys)))
  end.
Definition rconcat {A} (m : res (list (list A))) : res (list A) := rbind m (fun l => Ok (concat l)).

Definition qsum (l : list Q) : Q := foldr Qplus 0%Q l.

Section model.
  Context {W : World} (vs ts : list nat) (odd : nat -> nat -> nat -> bool) (a : assignment).
  Notation x := (as_x a).
  Notation u := (as_u a).
  Notation w := (as_w a).

  (** three_index.py:165-179 *)
  Definition pickups_indexer : list nat := seq 1 (trip_count ts).
  Definition nodes_indexer : list nat := seq 1 (trip_count ts * 2).
  Definition routes_indexer : list nat := seq 0 (length vs).
  Definition positions_indexer : list nat := seq 0 (node_count ts).
  (** [self._x[k][i][-1]] *)
  Definition last_node : nat := node_count ts - 1.

  (** three_index.py:49, 151-163 *)
  Definition big : Z := 10000 * (1000 * eb).
  Definition cost (i j : nat) : Z :=
    if bool_decide (pos vs ts i = pos vs ts j) then big else dist (pos vs ts i) (pos vs ts j).
  (** three_index.py:75-80 *)
  Definition objective_value : Q :=
    qsum (map (fun '(k, (i, j)) => x k i j * inject_Z (cost i j))%Q
      (product2 routes_indexer (product2 positions_indexer positions_indexer))).

  (** three_index.py:229-243 *)
  Definition uniqueness_constraints : list bool :=
    flat_map (fun i =>
      Qeq_bool (qsum (map (fun '(j, k) => x k i j) (product2 positions_indexer routes_indexer))) 1 ::
      map (fun k => Qeq_bool (qsum (map (fun j => x k i j) positions_indexer) -
                              qsum (map (fun j => x k (trip_count ts + i)%nat j) positions_indexer)) 0)
        routes_indexer) pickups_indexer.

  (** three_index.py:245-262 *)
  Definition connectivity_constraints : list bool :=
    flat_map (fun k =>
      Qeq_bool (qsum (map (fun j => x k 0%nat j) positions_indexer)) 1 ::
      map (fun i => Qeq_bool (qsum (map (fun j => x k j i) positions_indexer) -
                              qsum (map (fun j => x k i j) positions_indexer)) 0) nodes_indexer ++
      [Qeq_bool (qsum (map (fun i => x k i last_node) positions_indexer)) 1]) routes_indexer.

  (** [v >= lhs - cons * (1 - x)] *)
  Definition conditional (n : bool) (v lhs : Z) (cons : lim) (x : Q) : bool :=
    match cons with
    | Inf => n
    | Lim c => Qle_bool (inject_Z lhs - inject_Z c * (1 - x)) (inject_Z v)
    end.
  (** three_index.py:264-289; [max(0, _)] on an infinite value is infinite *)
  Definition arc_constraints (k i j : nat) : res (list bool) :=
    rbind (load_time_by_position_idx ts i) (fun load_time_i =>
    let travel_time := dist (pos vs ts i) (pos vs ts j) in
    rbind (time_window_by_position_idx vs ts i) (fun '(earliest_i, latest_i) =>
    rbind (time_window_by_position_idx vs ts j) (fun '(earliest_j, latest_j) =>
    let cons := match latest_i with
                | Inf => Inf
                | Lim l => Lim (Z.max 0 (l + load_time_i + travel_time - earliest_j))
                end in
    let time := conditional (odd k i j) (u k j) (u k i + load_time_i + travel_time) cons (x k i j) in
    rbind (capacity_by_position_idx ts i) (fun capacity_i =>
    rbind (capacity_by_position_idx ts j) (fun capacity_j =>
    let cons := lim_add (v_capacity (nth k vs 0%nat)) (Z.min 0 capacity_i) in
    let load := conditional (odd k i j) (w k j) (w k i + capacity_j) cons (x k i j) in
    Ok [time; load]))))).
  Definition time_constraints : res (list bool) :=
    rconcat (rmap (fun k => rconcat (rmap (fun '(i, j) => arc_constraints k i j)
      (product2 positions_indexer positions_indexer))) routes_indexer).

  (** three_index.py:298-301 *)
  Definition window_constraints (k i : nat) : res (list bool) :=
    rbind (time_window_by_position_idx vs ts i) (fun '(earliest, latest) =>
    Ok [earliest <=? u k i; lim_ge (u k i) latest]).
  (** three_index.py:303-313 *)
  Definition ride_constraints (k i : nat) : res (list bool) :=
    rbind (load_time_by_position_idx ts i) (fun load_time =>
    rbind (timeout_by_position_idx ts i) (fun timeout =>
    let travel_time := dist (pos vs ts i) (pos vs ts (i + trip_count ts)) in
    let ride := u k (i + trip_count ts)%nat - (u k i + load_time) in
    Ok [travel_time <=? ride; lim_ge ride timeout])).
  (** three_index.py:315-323 *)
  Definition load_constraints (k i : nat) : res (list bool) :=
    rbind (capacity_by_position_idx ts i) (fun capacity =>
    Ok [Z.max 0 capacity <=? w k i; lim_ge (w k i) (lim_add (v_capacity (nth k vs 0%nat)) (Z.min 0 capacity))]).
  (** three_index.py:291-325 *)
  Definition feasibility_constraints : res (list bool) :=
    rconcat (rmap (fun k =>
      rbind (rconcat (rmap (window_constraints k) positions_indexer)) (fun windows =>
      rbind (rconcat (rmap (ride_constraints k) pickups_indexer)) (fun rides =>
      rbind (rconcat (rmap (load_constraints k) positions_indexer)) (fun loads =>
      Ok (lim_ge (u k last_node - u k 0%nat) (v_timeout (nth k vs 0%nat)) :: windows ++ rides ++ loads)))))
      routes_indexer).

  (** three_index.py:82-95; building the model needs [_positions], which raises
      IndexError for an empty fleet *)
  Definition constraints : res (list bool) :=
    rbind (positions vs ts) (fun _ =>
    rbind time_constraints (fun time =>
    rbind feasibility_constraints (fun feasibility =>
    Ok (uniqueness_constraints ++ connectivity_constraints ++ time ++ feasibility)))).

  (** the domains of the variables, three_index.py:97-131 *)
  Definition in_domain : bool :=
    forallb (fun k => forallb (fun i =>
      (0 <=? u k i) && (0 <=? w k i) &&
      forallb (fun j => Qeq_bool (x k i j) 0 || Qeq_bool (x k i j) 1) positions_indexer)
      positions_indexer) routes_indexer.
End model.
