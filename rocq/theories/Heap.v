(** Mutable objects and the getters of [Stop] and [PlannedTrip].

    jinete/models/stops.py and jinete/models/planned_trips.py.

    Objects live in a heap and are referred to by ids (Python references);
    object identity is equality of ids, as in Python (no [__eq__] on [Stop],
    [PlannedTrip] and [Route]).  [cached_property] values are explicit optional
    fields: [Some x] when the key is present in [__dict__]. *)
From Verif Require Export World.

(** jinete/models/stops.py:40-77 ([Stop.__init__] and the cached properties of
    lines 98, 130, 153, 173).  The two sets of planned trips are duplicate-free
    lists of planned-trip ids in insertion order. *)
Record stop : Type := MkStop {
  st_vehicle : nat;
  st_position : position;
  st_pickups : list nat;
  st_deliveries : list nat;
  st_previous : option nat;
  st_starting : option Z;            (* _starting_time *)
  st_arrival : option Z;             (* cache of arrival_time *)
  st_departure : option Z;           (* cache of departure_time *)
  st_capacity : option Z;            (* cache of capacity *)
  st_feasible : option bool          (* cache of feasible *)
}.

(** jinete/models/planned_trips.py:39-62 *)
Record ptrip : Type := MkPtrip {
  pt_vehicle : nat;
  pt_trip : nat;
  pt_pickup : option nat;
  pt_delivery : option nat;
  pt_feasible : option bool          (* cache of feasible *)
}.

(** jinete/models/routes.py:57-78 *)
Record route : Type := MkRoute {
  rt_vehicle : nat;
  rt_stops : list nat;
  rt_feasible : option bool          (* cache of feasible *)
}.

(** [h_tick] counts nondeterministic events (set iteration, random numbers). *)
Record heap : Type := MkHeap {
  h_stops : list stop;
  h_pts : list ptrip;
  h_routes : list route;
  h_tick : nat
}.

Definition empty_heap : heap := MkHeap [] [] [] 0.

Definition M (A : Type) : Type := ST heap A.

(** ** Field updates *)
Definition set_pickups x c := MkStop (st_vehicle c) (st_position c) x (st_deliveries c)
  (st_previous c) (st_starting c) (st_arrival c) (st_departure c) (st_capacity c) (st_feasible c).
Definition set_deliveries x c := MkStop (st_vehicle c) (st_position c) (st_pickups c) x
  (st_previous c) (st_starting c) (st_arrival c) (st_departure c) (st_capacity c) (st_feasible c).
Definition set_previous x c := MkStop (st_vehicle c) (st_position c) (st_pickups c) (st_deliveries c)
  x (st_starting c) (st_arrival c) (st_departure c) (st_capacity c) (st_feasible c).
Definition set_starting x c := MkStop (st_vehicle c) (st_position c) (st_pickups c) (st_deliveries c)
  (st_previous c) x (st_arrival c) (st_departure c) (st_capacity c) (st_feasible c).
Definition cache_arrival x c := MkStop (st_vehicle c) (st_position c) (st_pickups c) (st_deliveries c)
  (st_previous c) (st_starting c) x (st_departure c) (st_capacity c) (st_feasible c).
Definition cache_departure x c := MkStop (st_vehicle c) (st_position c) (st_pickups c) (st_deliveries c)
  (st_previous c) (st_starting c) (st_arrival c) x (st_capacity c) (st_feasible c).
Definition cache_capacity x c := MkStop (st_vehicle c) (st_position c) (st_pickups c) (st_deliveries c)
  (st_previous c) (st_starting c) (st_arrival c) (st_departure c) x (st_feasible c).
Definition cache_feasible x c := MkStop (st_vehicle c) (st_position c) (st_pickups c) (st_deliveries c)
  (st_previous c) (st_starting c) (st_arrival c) (st_departure c) (st_capacity c) x.
(** the keys popped by stops.py:226-231 *)
Definition clear_caches c := MkStop (st_vehicle c) (st_position c) (st_pickups c) (st_deliveries c)
  (st_previous c) (st_starting c) None None None (st_feasible c).

Definition set_pickup x p := MkPtrip (pt_vehicle p) (pt_trip p) x (pt_delivery p) (pt_feasible p).
Definition set_delivery x p := MkPtrip (pt_vehicle p) (pt_trip p) (pt_pickup p) x (pt_feasible p).
Definition cache_pt_feasible x p :=
  MkPtrip (pt_vehicle p) (pt_trip p) (pt_pickup p) (pt_delivery p) x.

Definition set_route_stops x r := MkRoute (rt_vehicle r) x (rt_feasible r).
Definition cache_route_feasible x r := MkRoute (rt_vehicle r) (rt_stops r) x.

Definition with_stops f h := MkHeap (f (h_stops h)) (h_pts h) (h_routes h) (h_tick h).
Definition with_pts f h := MkHeap (h_stops h) (f (h_pts h)) (h_routes h) (h_tick h).
Definition with_routes f h := MkHeap (h_stops h) (h_pts h) (f (h_routes h)) (h_tick h).

(** ** Primitive heap operations *)
Definition stop_get (s : nat) : M stop :=
  fun h => match h_stops h !! s with Some c => (Ok c, h) | None => (Raise Dangling, h) end.
Definition stop_upd (s : nat) (f : stop -> stop) : M unit :=
  fun h => (Ok tt, with_stops (alter f s) h).
Definition pt_get (p : nat) : M ptrip :=
  fun h => match h_pts h !! p with Some c => (Ok c, h) | None => (Raise Dangling, h) end.
Definition pt_upd (p : nat) (f : ptrip -> ptrip) : M unit :=
  fun h => (Ok tt, with_pts (alter f p) h).
Definition route_get (r : nat) : M route :=
  fun h => match h_routes h !! r with Some c => (Ok c, h) | None => (Raise Dangling, h) end.
Definition route_upd (r : nat) (f : route -> route) : M unit :=
  fun h => (Ok tt, with_routes (alter f r) h).
Definition alloc_stop (c : stop) : M nat :=
  fun h => (Ok (length (h_stops h)), with_stops (fun l => l ++ [c]) h).
Definition alloc_pt (c : ptrip) : M nat :=
  fun h => (Ok (length (h_pts h)), with_pts (fun l => l ++ [c]) h).
Definition alloc_route (c : route) : M nat :=
  fun h => (Ok (length (h_routes h)), with_routes (fun l => l ++ [c]) h).
Definition tick : M nat :=
  fun h => (Ok (h_tick h), MkHeap (h_stops h) (h_pts h) (h_routes h) (S (h_tick h))).

(** stops.py:55-77 with empty sets of planned trips *)
Definition new_stop (v : nat) (p : position) (prev : option nat) (start : option Z) : M nat :=
  alloc_stop (MkStop v p [] [] prev start None None None None).

Section getters.
  Context {W : World}.

  (** the trips of a list of planned trips, e.g. [pt.trip for pt in ...] *)
  Definition trips_of (l : list nat) : M (list nat) :=
    mapM (fun p => let! c := pt_get p in ret (pt_trip c)) l.

  (** stops.py:189-197 *)
  Definition stop_earliest (s : nat) : M Z :=
    let! c := stop_get s in
    let! ps := trips_of (st_pickups c) in
    let! ds := trips_of (st_deliveries c) in
    ret (py_max 0 (map (fun t => origin_earliest (w_trip t)) ps ++
                   map (fun t => destination_earliest (w_trip t)) ds)).
  (** stops.py:199-207 *)
  Definition stop_latest (s : nat) : M lim :=
    let! c := stop_get s in
    let! ps := trips_of (st_pickups c) in
    let! ds := trips_of (st_deliveries c) in
    ret (py_min_lim (map (fun t => origin_latest (w_trip t)) ps ++
                     map (fun t => destination_latest (w_trip t)) ds)).
  (** stops.py:209-217 *)
  Definition stop_load_time (s : nat) : M Z :=
    let! c := stop_get s in
    let! ps := trips_of (st_pickups c) in
    let! ds := trips_of (st_deliveries c) in
    ret (py_max 0 (map (fun t => origin_duration (w_trip t)) ps ++
                   map (fun t => destination_duration (w_trip t)) ds)).

  (** stops.py:143-147 *)
  Definition previous_position (s : nat) : M position :=
    let! c := stop_get s in
    match st_previous c with
    | None => ret (v_origin_position (st_vehicle c))
    | Some q => let! d := stop_get q in ret (st_position d)
    end.
  (** stops.py:149-151 *)
  Definition stop_distance (s : nat) : M Z :=
    let! c := stop_get s in
    let! pp := previous_position s in
    ret (dist (st_position c) pp).

  (** stops.py:157-161; [dep] is the recursive [departure_time]. *)
  Definition previous_departure_with (dep : nat -> M Z) (s : nat) : M Z :=
    let! c := stop_get s in
    match st_previous c with
    | None => ret (v_origin_earliest (st_vehicle c))
    | Some q => dep q
    end.
  (** stops.py:163-165: the departure time is evaluated and passed as [now],
      which geometric surfaces ignore. *)
  Definition transit_with (dep : nat -> M Z) (s : nat) : M Z :=
    let! c := stop_get s in
    let! pp := previous_position s in
    let! _ := previous_departure_with dep s in
    ret (dist pp (st_position c)).
  (** stops.py:153-155 *)
  Definition arrival_with (dep : nat -> M Z) (s : nat) : M Z :=
    let! c := stop_get s in
    match st_arrival c with
    | Some a => ret a
    | None =>
        let! pd := previous_departure_with dep s in
        let! tr := transit_with dep s in
        let a := pd + tr in
        stop_upd s (cache_arrival (Some a)) ;;; ret a
    end.
  (** stops.py:177-182 *)
  Definition starting_with (dep : nat -> M Z) (s : nat) : M Z :=
    let! c := stop_get s in
    let! value := match st_starting c with
                  | Some x => ret x
                  | None => arrival_with dep s
                  end in
    let! e := stop_earliest s in
    let! a := arrival_with dep s in
    ret (Z.max (Z.max value e) a).
  (** stops.py:173-175.  The recursion through [previous] is by fuel: running
      out of it is Python's RecursionError on a cyclic chain. *)
  Fixpoint departure_fuel (fuel : nat) (s : nat) : M Z :=
    match fuel with
    | O => raise RecursionError
    | S fuel =>
        let! c := stop_get s in
        match st_departure c with
        | Some d => ret d
        | None =>
            let! st := starting_with (departure_fuel fuel) s in
            let! lt := stop_load_time s in
            let d := st + lt in
            stop_upd s (cache_departure (Some d)) ;;; ret d
        end
    end.
  (** A chain of distinct stops is not longer than the number of stops, so this
      fuel is only exhausted by a cycle. *)
  Definition chain_fuel {A} (f : nat -> M A) : M A :=
    fun h => f (S (length (h_stops h))) h.

  Definition departure_time (s : nat) : M Z := chain_fuel (fun n => departure_fuel n s).
  Definition arrival_time (s : nat) : M Z := chain_fuel (fun n => arrival_with (departure_fuel n) s).
  Definition starting_time (s : nat) : M Z := chain_fuel (fun n => starting_with (departure_fuel n) s).
  Definition transit_time (s : nat) : M Z := chain_fuel (fun n => transit_with (departure_fuel n) s).
  (** stops.py:167-171 *)
  Definition waiting_time (s : nat) : M Z :=
    let! st := starting_time s in
    let! a := arrival_time s in
    py_assert (0 - eb <=? st - a) ;;;
    ret (st - a).

  (** stops.py:98-110.  [trip.capacity] there is [PlannedTrip.capacity]
      (planned_trips.py:118-120), the capacity of the trip. *)
  Fixpoint capacity_fuel (fuel : nat) (s : nat) : M Z :=
    match fuel with
    | O => raise RecursionError
    | S fuel =>
        let! c := stop_get s in
        match st_capacity c with
        | Some x => ret x
        | None =>
            let! prev := match st_previous c with
                         | None => ret 0
                         | Some q => capacity_fuel fuel q
                         end in
            let! ps := trips_of (st_pickups c) in
            let! ds := trips_of (st_deliveries c) in
            let r := prev + zsum (map (fun t => tr_capacity (w_trip t)) ps)
                          - zsum (map (fun t => tr_capacity (w_trip t)) ds) in
            py_assert (0 <=? r) ;;;
            stop_upd s (cache_capacity (Some r)) ;;; ret r
        end
    end.
  Definition capacity (s : nat) : M Z := chain_fuel (fun n => capacity_fuel n s).

  (** stops.py:130-141 *)
  Definition stop_feasible (s : nat) : M bool :=
    let! c := stop_get s in
    match st_feasible c with
    | Some b => ret b
    | None =>
        let! b :=
          let! e := stop_earliest s in
          let! st := starting_time s in
          if negb (e <=? st + eb) then ret false else
          let! st2 := starting_time s in
          let! l := stop_latest s in
          if negb (lim_ge st2 (lim_add l eb)) then ret false else
          let! cap := capacity s in
          if negb (lim_ge cap (lim_add (v_capacity (st_vehicle c)) eb)) then ret false else
          ret true in
        stop_upd s (cache_feasible (Some b)) ;;; ret b
    end.

  (** stops.py:112-116 *)
  Fixpoint all_previous_fuel (fuel : nat) (s : nat) : M (list nat) :=
    match fuel with
    | O => raise RecursionError
    | S fuel =>
        let! c := stop_get s in
        match st_previous c with
        | None => ret []
        | Some q => let! l := all_previous_fuel fuel q in ret (q :: l)
        end
    end.
  Definition all_previous (s : nat) : M (list nat) := chain_fuel (fun n => all_previous_fuel n s).

  (** planned_trips.py:154-156 *)
  Definition pt_flush (p : nat) : M unit := pt_upd p (cache_pt_feasible None).
  (** stops.py:225-233 (note that the key "feasible" is not popped) *)
  Definition stop_flush (s : nat) : M unit :=
    stop_upd s clear_caches ;;;
    let! c := stop_get s in
    iterM pt_flush (st_pickups c ++ st_deliveries c).
  (** stops.py:184-187 *)
  Definition set_starting_time (s : nat) (x : Z) : M unit :=
    stop_upd s (set_starting (Some x)) ;;; stop_flush s.

  (** stops.py:122-128 *)
  Definition append_pickup (s p : nat) : M unit :=
    let! c := stop_get s in
    let! t := pt_get p in
    py_assert (bool_decide (origin_position (w_trip (pt_trip t)) = st_position c)) ;;;
    stop_upd s (fun c => set_pickups (set_add p (st_pickups c)) c).
  Definition append_delivery (s p : nat) : M unit :=
    let! c := stop_get s in
    let! t := pt_get p in
    py_assert (bool_decide (destination_position (w_trip (pt_trip t)) = st_position c)) ;;;
    stop_upd s (fun c => set_deliveries (set_add p (st_deliveries c)) c).

  (** planned_trips.py:52-62 *)
  Definition new_planned_trip (v t : nat) (pickup delivery : option nat) : M nat :=
    let! p := alloc_pt (MkPtrip v t pickup delivery None) in
    match pickup with Some s => append_pickup s p | None => ret tt end ;;;
    match delivery with Some s => append_delivery s p | None => ret tt end ;;;
    ret p.

  (** planned_trips.py:64-70, 114-116 *)
  Definition pickup_time (p : nat) : M Z :=
    let! c := pt_get p in
    let! s := py_some (pt_pickup c) in departure_time s.
  Definition delivery_time (p : nat) : M Z :=
    let! c := pt_get p in
    let! s := py_some (pt_delivery c) in starting_time s.
  Definition pt_duration (p : nat) : M Z :=
    let! d := delivery_time p in
    let! s := pickup_time p in ret (d - s).

  (** planned_trips.py:122-136 *)
  Definition pt_is_feasible (p : nat) : M bool :=
    let! c := pt_get p in
    match pt_feasible c with
    | Some b => ret b
    | None =>
        let! b :=
          let! d := py_some (pt_delivery c) in
          let! prevs := all_previous d in
          let! s := py_some (pt_pickup c) in
          py_assert (memb s prevs) ;;;
          let! tp := pickup_time p in
          let! td := delivery_time p in
          py_assert (tp <=? td) ;;;
          let! fp := stop_feasible s in
          if negb fp then ret false else
          let! fd := stop_feasible d in
          if negb fd then ret false else
          let! du := pt_duration p in
          if negb (lim_ge du (lim_add (tr_timeout (w_trip (pt_trip c))) eb)) then ret false else
          ret true in
        pt_upd p (cache_pt_feasible (Some b)) ;;; ret b
    end.

  (** planned_trips.py:92-108: [while current != self.pickup], [f] is the
      per-stop term; [None.x] raises AttributeError. *)
  Fixpoint ride_sum_fuel (fuel : nat) (f : nat -> M Z) (pickup : option nat)
      (current : option nat) (acc : Z) : M Z :=
    match fuel with
    | O => raise Diverge
    | S fuel =>
        if decide (current = pickup) then ret acc else
        let! s := py_some current in
        let! x := f s in
        let! c := stop_get s in
        ride_sum_fuel fuel f pickup (st_previous c) (acc + x)
    end.
  Definition pt_waiting_time (p : nat) : M Z :=
    let! c := pt_get p in
    chain_fuel (fun n => ride_sum_fuel n waiting_time (pt_pickup c) (pt_delivery c) 0).
  Definition pt_transit_time (p : nat) : M Z :=
    let! c := pt_get p in
    chain_fuel (fun n => ride_sum_fuel n transit_time (pt_pickup c) (pt_delivery c) 0).
  (** planned_trips.py:110-112 *)
  Definition pt_load_time (p : nat) : M Z :=
    let! c := pt_get p in
    let! d := py_some (pt_delivery c) in
    let! x := stop_load_time d in
    let! s := py_some (pt_pickup c) in
    let! y := stop_load_time s in ret (x + y).
End getters.
