(** From a solution of the three-index model to routes:
    jinete/algorithms/exacts/models/three_index.py:327-337, 378-452 and
    jinete/algorithms/exacts/milp.py.  The values found by the solver are given
    by [a]; whether they satisfy the constraints is not checked here either. *)
From Verif Require Export Milp.

Section translate.
  Context {W : World} (vs ts : list nat) (a : assignment).

  (** three_index.py:430-438 *)
  Fixpoint stops_loop (v last : nat) (ps : list position) : M (list nat) :=
    match ps with
    | [] => ret []
    | p :: ps =>
        let! c := stop_get last in
        if bool_decide (p = st_position c) then stops_loop v last ps
        else let! s := new_stop v p (Some last) None in
             let! l := stops_loop v s ps in ret (s :: l)
    end.
  Definition positions_to_stops (r : nat) (ps : list position) : M (list nat) :=
    let! f := first_stop r in
    let! c := route_get r in
    let! l := stops_loop (rt_vehicle c) f ps in ret (f :: l).

  (** three_index.py:398-407 *)
  Definition positions_to_trips (ps : list position) : list nat :=
    foldl (fun trips p =>
      match List.find (fun t => bool_decide (origin_position (w_trip t) = p)) ts with
      | None => trips
      | Some t => if bool_decide (t ∈ trips) then trips else trips ++ [t]
      end) [] ps.

  (** three_index.py:440-445; [mapper[p]] are the stops paired with [p], in order *)
  Definition stop_mapper (ss : list nat) : M (list (position * nat)) :=
    mapM (fun s => let! c := stop_get s in ret (st_position c, s)) ss.
  (** [mapper[p].pop(0)] *)
  Fixpoint pop_stop (p : position) (m : list (position * nat)) : option (nat * list (position * nat)) :=
    match m with
    | [] => None
    | (q, s) :: m =>
        if bool_decide (q = p) then Some (s, m)
        else match pop_stop p m with Some (s', m') => Some (s', (q, s) :: m') | None => None end
    end.
  Definition py_pop {A} (o : option A) : M A :=
    match o with Some x => ret x | None => raise IndexError end.
  (** three_index.py:409-418 *)
  Fixpoint planned_loop (v : nat) (m : list (position * nat)) (trips : list nat) : M (list nat) :=
    match trips with
    | [] => ret []
    | t :: trips =>
        let! (pickup, m1) := py_pop (pop_stop (origin_position (w_trip t)) m) in
        let! (delivery, m2) := py_pop (pop_stop (destination_position (w_trip t)) m1) in
        let! p := new_planned_trip v t (Some pickup) (Some delivery) in
        let! l := planned_loop v m2 trips in ret (p :: l)
    end.
  Definition build_planned_trips (v : nat) (trips ss : list nat) : M (list nat) :=
    let! m := stop_mapper ss in planned_loop v m trips.

  (** three_index.py:190-191: [self._positions.index(position)] *)
  Fixpoint position_index (p : position) (l : list position) : option nat :=
    match l with
    | [] => None
    | q :: l => if bool_decide (q = p) then Some 0%nat else S <$> position_index p l
    end.
  Definition idx_by_position (p : position) : M nat :=
    match positions vs ts with
    | Raise e => raise e
    | Ok l => match position_index p l with Some i => ret i | None => raise ValueError end
    end.
  (** three_index.py:447-451 *)
  Definition adjust_waiting_times (ss : list nat) (k : nat) : M unit :=
    iterM (fun s =>
      stop_flush s ;;;
      let! c := stop_get s in
      let! i := idx_by_position (st_position c) in
      set_starting_time s (as_u a k i)) ss.

  (** three_index.py:381-395 *)
  Definition solution_to_route (k v : nat) : M nat :=
    let! r := new_route v in
    let ps := solution_to_positions vs ts a k in
    let! ss := positions_to_stops r ps in
    let trips := positions_to_trips ps in
    build_planned_trips v trips ss ;;;
    adjust_waiting_times ss k ;;;
    iterM (fun s => insert_stop r s ;;; ret tt) ss ;;;
    ret r.
  (** three_index.py:378-396 (the set of routes, in the order they are built) *)
  Definition solution_to_routes : M (list nat) :=
    mapM (fun kv : nat * nat => solution_to_route kv.1 kv.2) (zip (seq 0 (length vs)) vs).

  (** three_index.py:327-337, after the solver has run; milp.py:51-56 *)
  Definition milp_optimize : M (list nat) :=
    match validate vs ts a with
    | Raise e => raise e
    | Ok _ => solution_to_routes
    end.
End translate.
