(** Objectives, criteria, plannings and results:
    jinete/models/objectives.py, criterions.py, plannings.py, results.py,
    constants.py (OptimizationDirection). *)
From Verif Require Export Routes Utils.

(** A planning is its set of routes (plannings.py:44-55); a duplicate-free list
    of route ids. *)
Definition planning : Type := list nat.

(** objectives.py:105-148 *)
Inductive objective : Type := DialARide | TaxiSharing | HashCode.
Definition dimension (o : objective) : nat :=
  match o with DialARide => 2%nat | _ => 1%nat end.

Section objectives.
  Context {W : World}.

  (** objectives.py:115-119: walk back from the delivery to the pickup *)
  Fixpoint ride_distance_fuel (fuel : nat) (pickup current : option nat) (acc : Z) : M Z :=
    match fuel with
    | O => raise Diverge
    | S fuel =>
        if decide (current = pickup) then ret acc else
        let! s := py_some current in
        let! c := stop_get s in
        match st_previous c with
        | None => ret acc
        | Some q => let! d := stop_distance s in
                    ride_distance_fuel fuel pickup (Some q) (acc - d)
        end
    end.
  (** objectives.py:114-120, 129-132 and 141-148 *)
  Definition planned_trip_value (o : objective) (p : nat) : M (list Z) :=
    let! c := pt_get p in
    let t := w_trip (pt_trip c) in
    match o with
    | DialARide =>
        let! d := chain_fuel (fun n => ride_distance_fuel n (pt_pickup c) (pt_delivery c) 0) in
        ret [1; d]
    | TaxiSharing =>
        if tr_capacity t =? 0 then ret [0] else
        let! d := pt_duration p in ret [d]
    | HashCode =>
        if tr_capacity t =? 0 then ret [0] else
        let! s := pickup_time p in
        ret [trip_distance t + (if origin_earliest t =? s then tr_bonus t else 0)]
    end.
  Definition tuple_zero (o : objective) : list Z := replicate (dimension o) 0.
  (** objectives.py:94-99 *)
  Definition stop_value (o : objective) (s : nat) : M (list Z) :=
    let! c := stop_get s in
    foldM (fun acc p => let! x := planned_trip_value o p in ret (tuple_add acc x))
          (tuple_zero o) (st_pickups c).
  (** objectives.py:87-92, 111-112 *)
  Definition route_value (o : objective) (r : nat) : M (list Z) :=
    match o with
    | DialARide =>
        let! ts := route_trips r in
        let! d := route_distance r in
        ret [Z.of_nat (length ts); - d]
    | _ =>
        let! ss := route_stops r in
        foldM (fun acc s => let! x := stop_value o s in ret (tuple_add acc x)) (tuple_zero o) ss
    end.
  (** objectives.py:77-85 *)
  Definition planning_value (o : objective) (pl : planning) : M (list Z) :=
    let! rs := set_order pl in
    foldM (fun acc r => let! x := route_value o r in ret (tuple_add acc x)) (tuple_zero o) rs.
  (** objectives.py:58-59 on results: [direction] is always MAXIMIZATION
      (objectives.py:55).  Returns the position of the chosen argument. *)
  Definition objective_best (o : objective) (l : list planning) : M (option nat) :=
    let! ks := mapM (planning_value o) l in
    ret (max_keyed tuple_ltb (zip ks (seq 0 (length l)))).

  (** plannings.py:75-77: [reduce] without initial value *)
  Definition planning_feasible (pl : planning) : M bool :=
    let! rs := set_order pl in
    match rs with
    | [] => raise TypeError
    | r :: rs =>
        let! b := route_feasible r in
        foldM (fun acc r => let! b := route_feasible r in ret (acc && b)) b rs
    end.

  (** results.py:72-77 *)
  Definition completed_trips (pl : planning) : M (list nat) :=
    let! rs := set_order pl in
    foldM (fun acc r => let! ts := route_loaded_trips r in
                        ret (set_union acc (remove_duplicates Nat.eqb ts))) [] rs.
  (** results.py:79-81, as an exact fraction *)
  Definition coverage_rate (pl : planning) (job : list nat) : M Q :=
    let! ts := completed_trips pl in
    match length job with
    | O => raise ZeroDivisionError
    | S n => ret (Z.of_nat (length ts) # Pos.of_succ_nat n)
    end.
End objectives.

(** ** Criteria (criterions.py:53-139) *)
Inductive criterion : Type :=
| EarliestLastDeparture | ShortestAverageDuration | ShortestTime
| LongestTime | LongestUtilTime | HashCodeCriterion.
(** constants.py:47-50 and criterions.py:53-132: the direction of each criterion *)
Inductive direction : Type := Maximization | Minimization.
Definition criterion_direction (c : criterion) : direction :=
  match c with
  | EarliestLastDeparture | ShortestAverageDuration | ShortestTime => Minimization
  | LongestTime | LongestUtilTime | HashCodeCriterion => Maximization
  end.

Section criteria.
  Context {W : World}.

  (** the value returned for a feasible route *)
  Definition score_feasible (k : criterion) (r : nat) : M score :=
    match k with
    | EarliestLastDeparture =>                                (* criterions.py:63 *)
        let! x := last_departure_time r in ret (sfin x)
    | ShortestAverageDuration =>                              (* criterions.py:76-79 *)
        let! ps := planned_trips r in
        match ps with
        | [] => ret (sfin 0)
        | _ => let! ds := mapM pt_duration ps in
               ret (SFin (zsum ds # Pos.of_nat (length ps)))
        end
    | ShortestTime | LongestTime =>                           (* criterions.py:92, 105 *)
        let! x := route_duration r in ret (sfin x)
    | LongestUtilTime =>                                      (* criterions.py:118-121 *)
        let! ts := route_trips r in
        ret (sfin (zsum (map (fun t => trip_distance (w_trip t)) ts)))
    | HashCodeCriterion =>                                    (* criterions.py:134-139 *)
        let! ps := planned_trips r in
        let! xs := mapM (fun p =>
            let! c := pt_get p in
            let t := w_trip (pt_trip c) in
            let! s := pickup_time p in
            ret (trip_distance t + (if s =? origin_earliest t then tr_bonus t else 0))) ps in
        ret (sfin (zsum xs))
    end.
  (** criterions.py:59-63 and the other [scoring] methods *)
  Definition scoring (k : criterion) (r : nat) : M score :=
    let! b := route_feasible r in
    if negb b then
      ret (match criterion_direction k with Minimization => SPInf | Maximization => SNInf end)
    else score_feasible k r.

  (** constants.py:52-53 called through criterions.py:43-44 *)
  Definition dir_best {A K} (lt : K -> K -> bool) (d : direction) (l : list (K * A)) : option A :=
    match d with Maximization => max_keyed lt l | Minimization => min_keyed lt l end.
  Definition criterion_best (k : criterion) (l : list nat) : M (option nat) :=
    let! ks := mapM (scoring k) l in
    ret (dir_best score_ltb (criterion_direction k) (zip ks l)).
  (** the call with [None] among the arguments (criterions.py:44): the generator
      drops them *)
  Definition criterion_best_args (k : criterion) (l : list (option nat)) : M (option nat) :=
    criterion_best k (omap id l).
  (** constants.py:58-69, criterions.py:46-47 *)
  Definition dir_sorted {A K} (lt : K -> K -> bool) (d : direction) (l : list (K * A)) : list A :=
    map snd (sort_keyed lt (match d with Maximization => true | Minimization => false end) l).
  Definition criterion_sorted (k : criterion) (l : list nat) : M (list nat) :=
    let! ks := mapM (scoring k) l in
    ret (dir_sorted score_ltb (criterion_direction k) (zip ks l)).
  (** constants.py:71-75: heapq.nlargest/nsmallest return the same list as
      [sorted(...)[:n]] (documented in the Python library reference) *)
  Definition criterion_nbest (k : criterion) (n : nat) (l : list nat) : M (list nat) :=
    let! s := criterion_sorted k l in ret (take n s).
End criteria.
