(** Reading times, loads and feasibility under a limit on nested calls.

    Python gives up with RecursionError when calls nest too deeply
    (sys.getrecursionlimit()).  [departure_time], [capacity] and
    [all_previous] of a stop call themselves on the previous stop
    (stops.py:98-116, 153-182); nothing else in models/*.py nests with the
    length of a route.  Here [n] is how many of these calls may be open at the
    same time; every definition repeats the one of Heap.v or Routes.v named in
    its comment with [n] in place of a fuel that no chain exhausts.

    Simplification: a call of [departure_time] on the previous stop goes through
    [starting_time], [arrival_time] and [previous_departure_time], so it takes
    several Python frames; [n] counts the stops, not the frames.  The three
    kinds of calls never nest in each other. *)
From Verif Require Export Routes.

Section within.
  Context {W : World} (n : nat).

  (** stops.py:173-175 ([departure_time]) *)
  Definition departure_within (s : nat) : M Z := departure_fuel n s.
  (** stops.py:153-155 ([arrival_time]) *)
  Definition arrival_within (s : nat) : M Z := arrival_with (departure_fuel n) s.
  (** stops.py:177-182 ([starting_time]) *)
  Definition starting_within (s : nat) : M Z := starting_with (departure_fuel n) s.
  (** stops.py:98-110 ([capacity]) *)
  Definition capacity_within (s : nat) : M Z := capacity_fuel n s.
  (** stops.py:112-116 ([all_previous]) *)
  Definition all_previous_within (s : nat) : M (list nat) := all_previous_fuel n s.

  (** stops.py:130-141 ([stop_feasible]) *)
  Definition stop_feasible_within (s : nat) : M bool :=
    let! c := stop_get s in
    match st_feasible c with
    | Some b => ret b
    | None =>
        let! b :=
          let! e := stop_earliest s in
          let! st := starting_within s in
          if negb (e <=? st + eb) then ret false else
          let! st2 := starting_within s in
          let! l := stop_latest s in
          if negb (lim_ge st2 (lim_add l eb)) then ret false else
          let! cap := capacity_within s in
          if negb (lim_ge cap (lim_add (v_capacity (st_vehicle c)) eb)) then ret false else
          ret true in
        stop_upd s (cache_feasible (Some b)) ;;; ret b
    end.

  (** planned_trips.py:64-70, 114-116 ([pickup_time], [delivery_time], [pt_duration]) *)
  Definition pickup_within (p : nat) : M Z :=
    let! c := pt_get p in
    let! s := py_some (pt_pickup c) in departure_within s.
  Definition delivery_within (p : nat) : M Z :=
    let! c := pt_get p in
    let! s := py_some (pt_delivery c) in starting_within s.
  Definition pt_duration_within (p : nat) : M Z :=
    let! d := delivery_within p in
    let! s := pickup_within p in ret (d - s).

  (** planned_trips.py:122-136 ([pt_is_feasible]) *)
  Definition pt_feasible_within (p : nat) : M bool :=
    let! c := pt_get p in
    match pt_feasible c with
    | Some b => ret b
    | None =>
        let! b :=
          let! d := py_some (pt_delivery c) in
          let! prevs := all_previous_within d in
          let! s := py_some (pt_pickup c) in
          py_assert (memb s prevs) ;;;
          let! tp := pickup_within p in
          let! td := delivery_within p in
          py_assert (tp <=? td) ;;;
          let! fp := stop_feasible_within s in
          if negb fp then ret false else
          let! fd := stop_feasible_within d in
          if negb fd then ret false else
          let! du := pt_duration_within p in
          if negb (lim_ge du (lim_add (tr_timeout (w_trip (pt_trip c))) eb)) then ret false else
          ret true in
        pt_upd p (cache_pt_feasible (Some b)) ;;; ret b
    end.

  (** routes.py:118-120, 172-174, 181-183, 206-208 ([feasible_planned_trips],
      [first_departure_time], [last_departure_time], [route_duration]) *)
  Definition trips_feasible_within (r : nat) : M bool :=
    let! ps := planned_trips r in
    foldM (fun acc p => let! b := pt_feasible_within p in ret (acc && b)) true ps.
  Definition first_departure_within (r : nat) : M Z :=
    let! s := first_stop r in departure_within s.
  Definition last_departure_within (r : nat) : M Z :=
    let! s := last_stop r in departure_within s.
  Definition duration_within (r : nat) : M Z :=
    let! l := last_departure_within r in
    let! f := first_departure_within r in ret (l - f).

  (** routes.py:122-136 ([route_feasible]) *)
  Definition feasible_within (r : nat) : M bool :=
    let! c := route_get r in
    match rt_feasible c with
    | Some b => ret b
    | None =>
        let v := rt_vehicle c in
        let! b :=
          let! f := first_stop r in
          let! fc := stop_get f in
          if negb (bool_decide (st_position fc = v_origin_position v)) then ret false else
          let! f2 := first_stop r in
          let! a := arrival_within f2 in
          if negb (v_origin_earliest v - eb <=? a) then ret false else
          let! l := last_stop r in
          let! lc := stop_get l in
          if negb (bool_decide (st_position lc = v_destination_position v)) then ret false else
          let! ld := last_departure_within r in
          if negb (lim_ge ld (lim_add (v_destination_latest v) eb)) then ret false else
          let! du := duration_within r in
          if negb (lim_ge du (lim_add (v_timeout v) eb)) then ret false else
          let! fp := trips_feasible_within r in
          if negb fp then ret false else ret true in
        route_upd r (cache_route_feasible (Some b)) ;;; ret b
    end.
End within.
