(** Routes and route cloning: jinete/models/routes.py. *)
From Verif Require Export Heap.

Section routes.
  Context {W : World}.

  Definition route_stops (r : nat) : M (list nat) :=
    let! c := route_get r in ret (rt_stops c).

  (** routes.py:66-78, [stops is None] *)
  Definition new_route (v : nat) : M nat :=
    let! first := new_stop v (v_origin_position v) None None in
    let! last := new_stop v (v_destination_position v) (Some first) None in
    alloc_route (MkRoute v [first; last] None).

  (** routes.py:102-104 (pickups, also planned_trips, 98-100) *)
  Definition planned_trips (r : nat) : M (list nat) :=
    let! ss := route_stops r in
    let! l := mapM (fun s => let! c := stop_get s in ret (st_pickups c)) ss in
    ret (concat l).
  (** routes.py:150-152 *)
  Definition route_trips (r : nat) : M (list nat) :=
    let! ps := planned_trips r in trips_of ps.
  (** routes.py:146-148; a [PlannedTrip] is always truthy *)
  Definition route_loaded (r : nat) : M bool :=
    let! ps := planned_trips r in ret (negb (bool_decide (ps = []))).
  (** routes.py:154-160 *)
  Definition route_loaded_trips (r : nat) : M (list nat) :=
    let! ts := route_trips r in ret (List.filter (fun t => negb (trip_empty (w_trip t))) ts).

  (** routes.py:166-170 *)
  Definition first_stop (r : nat) : M nat :=
    let! ss := route_stops r in
    let! s := py_nth ss 0 in
    let! c := stop_get s in
    py_assert (bool_decide (st_previous c = None)) ;;; ret s.
  (** routes.py:176-179 *)
  Definition last_stop (r : nat) : M nat :=
    let! ss := route_stops r in
    match last ss with Some s => ret s | None => raise IndexError end.
  (** routes.py:172-174, 181-183 *)
  Definition first_departure_time (r : nat) : M Z :=
    let! s := first_stop r in departure_time s.
  Definition last_departure_time (r : nat) : M Z :=
    let! s := last_stop r in departure_time s.
  (** routes.py:206-208 *)
  Definition route_duration (r : nat) : M Z :=
    let! l := last_departure_time r in
    let! f := first_departure_time r in ret (l - f).
  (** routes.py:218-220 *)
  Definition route_distance (r : nat) : M Z :=
    let! ss := route_stops r in
    let! l := mapM stop_distance ss in ret (zsum l).
  (** routes.py:189-192: [self.stops[-2]] *)
  Definition current_stop (r : nat) : M nat :=
    let! ss := route_stops r in
    if (length ss <? 2)%nat then raise IndexError else py_nth ss (length ss - 2).

  (** routes.py:118-120: [reduce(and_, ...)] evaluates every planned trip *)
  Definition feasible_planned_trips (r : nat) : M bool :=
    let! ps := planned_trips r in
    foldM (fun acc p => let! b := pt_is_feasible p in ret (acc && b)) true ps.

  (** routes.py:122-136 *)
  Definition route_feasible (r : nat) : M bool :=
    let! c := route_get r in
    match rt_feasible c with
    | Some b => ret b
    | None =>
        let v := rt_vehicle c in
        let! b :=
          let! f := first_stop r in
          let! fc := stop_get f in
          if negb (bool_decide (st_position fc = v_origin_position v)) then ret false else
          let! f2 := first_stop r in
          let! a := arrival_time f2 in
          if negb (v_origin_earliest v - eb <=? a) then ret false else
          let! l := last_stop r in
          let! lc := stop_get l in
          if negb (bool_decide (st_position lc = v_destination_position v)) then ret false else
          let! ld := last_departure_time r in
          if negb (lim_ge ld (lim_add (v_destination_latest v) eb)) then ret false else
          let! du := route_duration r in
          if negb (lim_ge du (lim_add (v_timeout v) eb)) then ret false else
          let! fp := feasible_planned_trips r in
          if negb fp then ret false else ret true in
        route_upd r (cache_route_feasible (Some b)) ;;; ret b
    end.

  (** routes.py:138-144 *)
  Definition route_flush (r : nat) : M unit :=
    route_upd r (cache_route_feasible None) ;;;
    let! ss := route_stops r in
    iterM stop_flush ss ;;;
    let! ps := planned_trips r in
    iterM pt_flush ps.

  (** [l.insert(i, x)] for [i <= len(l)] and [l.pop(i)] *)
  Definition list_insert_at {A} (i : nat) (x : A) (l : list A) : list A := take i l ++ x :: drop i l.
  Definition list_remove_at {A} (i : nat) (l : list A) : list A := take i l ++ drop (S i) l.

  (** routes.py:244-257.  The loop variable of line 254 shadows the argument,
      so the value returned is the last stop of the route. *)
  Definition insert_stop_at (r i s : nat) : M nat :=
    let! ss := route_stops r in
    let! following := py_nth ss i in
    let! c := stop_get s in
    py_assert (bool_decide (set_diff (st_pickups c) (st_deliveries c) = st_pickups c)) ;;;
    stop_upd following (set_previous (Some s)) ;;;
    let ss' := list_insert_at i s ss in
    route_upd r (set_route_stops ss') ;;;
    iterM stop_flush (drop i ss') ;;;
    ret (default s (last ss')).

  (** routes.py:259-270; [stops[idx - 1]] is the last stop when [idx = 0] *)
  Definition remove_stop_at (r i : nat) : M nat :=
    let! ss := route_stops r in
    let! previous := match i with
                     | O => match last ss with Some s => ret s | None => raise IndexError end
                     | S j => py_nth ss j
                     end in
    let! following := py_nth ss (S i) in
    stop_upd following (set_previous (Some previous)) ;;;
    let! removed := py_nth ss i in
    let ss' := list_remove_at i ss in
    route_upd r (set_route_stops ss') ;;;
    iterM stop_flush (drop i ss') ;;;
    ret removed.

  (** index of the first occurrence, as in the loop of routes.py:238-241 *)
  Fixpoint index_of (s : nat) (l : list nat) : option nat :=
    match l with
    | [] => None
    | x :: l => if decide (x = s) then Some O else S <$> index_of s l
    end.

  (** routes.py:234-242 *)
  Definition insert_stop (r s : nat) : M nat :=
    let! c := stop_get s in
    match st_previous c with
    | None => remove_stop_at r 0 ;;; insert_stop_at r 0 s
    | Some q =>
        let! ss := route_stops r in
        match index_of q ss with
        | Some i => insert_stop_at r (S i) s
        | None => raise PreviousStopNotInRouteException
        end
    end.

  (** [zip(self.stops[:-1], self.stops[1:])] *)
  Definition consecutive (ss : list nat) : list (nat * nat) :=
    zip ss (tail ss).

  (** the two assertions of routes.py:275-276, 281-282, 296-297 and
      local_search/strategies/abc.py:44-45, 51-53 *)
  Definition assert_linked (r : nat) : M unit :=
    let! ss := route_stops r in
    let! b := allM (fun p : nat * nat => let! c := stop_get p.2 in
                      ret (bool_decide (st_previous c = Some p.1))) (consecutive ss) in
    py_assert b.
  Definition assert_monotone (r : nat) : M unit :=
    let! ss := route_stops r in
    let! b := allM (fun p : nat * nat => let! d := departure_time p.1 in
                      let! a := arrival_time p.2 in ret (d <=? a)) (consecutive ss) in
    py_assert b.

  (** routes.py:272-283 *)
  Definition append_planned_trip (r p : nat) : M unit :=
    let! c := pt_get p in
    py_assert (bool_decide (pt_delivery c ≠ None)) ;;;
    py_assert (bool_decide (pt_pickup c ≠ None)) ;;;
    assert_linked r ;;;
    assert_monotone r ;;;
    let! pk := py_some (pt_pickup c) in
    insert_stop r pk ;;;
    let! dl := py_some (pt_delivery c) in
    insert_stop r dl ;;;
    assert_linked r ;;;
    assert_monotone r.

  (** [trip not in stop.trips] (stops.py:94-96) *)
  Definition stop_has_trip (t s : nat) : M bool :=
    let! c := stop_get s in
    let! ts := trips_of (st_pickups c ++ st_deliveries c) in
    ret (memb t ts).

  (** routes.py:285-297: indices in descending order, each read from the
      current list of stops *)
  Fixpoint remove_trip_loop (r t : nat) (n : nat) : M unit :=
    match n with
    | O => ret tt
    | S i =>
        let! ss := route_stops r in
        let! s := py_nth ss i in
        let! b := stop_has_trip t s in
        (if b then remove_stop_at r i ;;; ret tt else ret tt) ;;;
        remove_trip_loop r t i
    end.
  Definition remove_trip (r t : nat) : M unit :=
    let! ss := route_stops r in
    remove_trip_loop r t (length ss) ;;;
    let! ss' := route_stops r in
    py_assert (length ss - 2 =? length ss')%nat ;;;
    assert_linked r ;;;
    assert_monotone r.

  (** ** Cloning: [RouteCloner] (routes.py:300-376) *)

  (** routes.py:328-338: the loop counting [idx] down from [len(stops)] *)
  Fixpoint cloner_loop (ss : list nat) (desired idx : nat)
      (mapper : list (nat * nat)) (mism : list nat) : M (nat * list (nat * nat) * list nat) :=
    match idx with
    | O => ret (O, mapper, mism)
    | S i =>
        if bool_decide (mism ≠ []) || negb (S i <? desired)%nat then
          let! s := py_nth ss i in
          let! c := stop_get s in
          let! mapper' := foldM (fun m p =>
              let! pc := pt_get p in
              let! p' := new_planned_trip (pt_vehicle pc) (pt_trip pc) None None in
              ret (dict_set p p' m)) mapper (st_deliveries c) in
          cloner_loop ss desired i mapper' (set_diff (set_union mism (st_deliveries c)) (st_pickups c))
        else ret (S i, mapper, mism)
    end.
  (** routes.py:328-343 *)
  Definition cloner_init (ss : list nat) (desired : nat) : M (nat * list (nat * nat)) :=
    let! (idx, mapper, mism) := cloner_loop ss desired (length ss) [] [] in
    let idx := (if decide (idx = 1%nat) then 0 else idx)%nat in
    py_assert (bool_decide (mism = [])) ;;;
    ret (idx, mapper).

  (** routes.py:345-353 *)
  Definition map_planned (mapper : list (nat * nat)) (f : ptrip -> ptrip) (p : nat) : M nat :=
    match dict_get p mapper with
    | Some p' => pt_upd p' f ;;; ret p'
    | None => raise KeyError
    end.
  (** routes.py:358-373, one iteration *)
  Definition clone_stop (mapper : list (nat * nat)) (cloned : list nat) (s : nat) : M (list nat) :=
    let! c := stop_get s in
    let! n := new_stop (st_vehicle c) (st_position c) (last cloned) (st_starting c) in
    let! ps := mapM (map_planned mapper (set_pickup (Some n))) (st_pickups c) in
    stop_upd n (set_pickups ps) ;;;
    let! ds := mapM (map_planned mapper (set_delivery (Some n))) (st_deliveries c) in
    stop_upd n (set_deliveries ds) ;;;
    ret (cloned ++ [n]).
  (** routes.py:355-376; returns the clone and [cloner.idx] *)
  Definition cloner_clone (r desired : nat) : M (nat * nat) :=
    let! rc := route_get r in
    let ss := rt_stops rc in
    let! (threshold, mapper) := cloner_init ss desired in
    let! cloned := foldM (clone_stop mapper) (take threshold ss) (drop threshold ss) in
    let! r' := alloc_route (MkRoute (rt_vehicle rc) cloned None) in
    ret (r', threshold).
  (** routes.py:90-92 *)
  Definition route_clone (r idx : nat) : M nat :=
    let! (r', _) := cloner_clone r idx in ret r'.

  (** ** Deep copies

      [deepcopy(routes)] (insertion/iterators/abc.py:73) and
      [deepcopy(result)] (local_search/strategies/abc.py:24).  Every stop and
      planned trip reachable from the routes is copied once, together with its
      [__dict__] (the caches); trips and vehicles are shared
      (trips.py:163-164, vehicles.py:102-103); [Route.__deepcopy__]
      (routes.py:80-88) does not copy the cached [feasible] of the route.
      Simplification: the model copies all stops and planned trips of the heap,
      also those not reachable from [rs]; the unreachable copies are garbage. *)
  Definition shift_stop (a b : nat) (c : stop) : stop :=
    MkStop (st_vehicle c) (st_position c) (map (fun p => b + p)%nat (st_pickups c))
      (map (fun p => b + p)%nat (st_deliveries c)) ((fun s => a + s)%nat <$> st_previous c)
      (st_starting c) (st_arrival c) (st_departure c) (st_capacity c) (st_feasible c).
  Definition shift_pt (a : nat) (p : ptrip) : ptrip :=
    MkPtrip (pt_vehicle p) (pt_trip p) ((fun s => a + s)%nat <$> pt_pickup p)
      ((fun s => a + s)%nat <$> pt_delivery p) (pt_feasible p).
  Definition copy_objects : M (nat * nat) :=
    fun h => let a := length (h_stops h) in
             let b := length (h_pts h) in
             (Ok (a, b), MkHeap (h_stops h ++ map (shift_stop a b) (h_stops h))
                                (h_pts h ++ map (shift_pt a) (h_pts h)) (h_routes h) (h_tick h)).
  Definition deepcopy_routes (rs : list nat) : M (list nat) :=
    let! (a, _) := copy_objects in
    mapM (fun r => let! c := route_get r in
                   alloc_route (MkRoute (rt_vehicle c) (map (fun s => a + s)%nat (rt_stops c)) None)) rs.

  (** iteration order of a Python set of objects *)
  Definition set_order (l : list nat) : M (list nat) :=
    let! k := tick in ret (w_shuffle k l).
End routes.
