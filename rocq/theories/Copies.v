(** [copy.deepcopy] object by object, under a limit on nested calls:
    models/routes.py (__deepcopy__), models/plannings.py (__deepcopy__), as
    called by insertion/iterators/abc.py:73 and local_search/strategies/abc.py:24.

    [deepcopy] keeps a memo of the objects it has met.  Stops and planned trips
    have no [__deepcopy__]: a new object without attributes is made and put into
    the memo, then the attributes are copied in the order of [__slots__]
    (stops.py:41-48, planned_trips.py:38-43) and given to the new object, memoised
    values included.  Trips, vehicles, services and positions are shared
    (trips.py:163-164, vehicles.py:102-103, services.py:80-81, positions.py:78-79).

    [n] is how many stops and planned trips may be under way at the same time;
    RecursionError beyond that.  Simplifications: Python takes several frames for
    each of them; sets are copied in the order of their lists; what [deepcopy]
    returns for an object is read off the memo; routes are not put into it (no
    route is twice in a set); the attributes of a new object
    without attributes are arbitrary. *)
From Verif Require Export Routes.

Inductive object : Type := AtStop (s : nat) | AtPlanned (p : nat).
Definition object_eqb (x y : object) : bool :=
  match x, y with
  | AtStop s, AtStop t => Nat.eqb s t
  | AtPlanned p, AtPlanned q => Nat.eqb p q
  | _, _ => false
  end.
Definition memo : Type := list (object * nat).
Fixpoint memo_get (x : object) (m : memo) : option nat :=
  match m with
  | [] => None
  | (z, y) :: m => if object_eqb x z then Some y else memo_get x m
  end.
(** what [deepcopy] returns for an object that it has met *)
Definition image (m : memo) (x : object) : nat := default 0%nat (memo_get x m).

(** stops.py:41-48: [pickup_planned_trips], [delivery_planned_trips], [previous] *)
Definition stop_refs (c : stop) : list object :=
  map AtPlanned (st_pickups c) ++ map AtPlanned (st_deliveries c) ++
  match st_previous c with Some q => [AtStop q] | None => [] end.
(** planned_trips.py:38-43: [pickup], [delivery] *)
Definition pt_refs (c : ptrip) : list object :=
  match pt_pickup c with Some q => [AtStop q] | None => [] end ++
  match pt_delivery c with Some q => [AtStop q] | None => [] end.
Definition renamed_stop (m : memo) (c : stop) : stop :=
  MkStop (st_vehicle c) (st_position c) (map (fun p => image m (AtPlanned p)) (st_pickups c))
    (map (fun p => image m (AtPlanned p)) (st_deliveries c)) ((fun s => image m (AtStop s)) <$> st_previous c)
    (st_starting c) (st_arrival c) (st_departure c) (st_capacity c) (st_feasible c).
Definition renamed_pt (m : memo) (c : ptrip) : ptrip :=
  MkPtrip (pt_vehicle c) (pt_trip c) ((fun s => image m (AtStop s)) <$> pt_pickup c)
    ((fun s => image m (AtStop s)) <$> pt_delivery c) (pt_feasible c).
Definition blank_stop : stop := MkStop 0 [] [] [] None None None None None None.
Definition blank_pt : ptrip := MkPtrip 0 0 None None None.

(** [copy.deepcopy(x, memo)] for a stop or a planned trip; gives the memo *)
Fixpoint copy_object (n : nat) (m : memo) (x : object) : M memo :=
  match memo_get x m with
  | Some _ => ret m
  | None =>
      match n with
      | O => raise RecursionError
      | S n =>
          match x with
          | AtStop s =>
              let! c := stop_get s in
              let! y := alloc_stop blank_stop in
              let! m := foldM (copy_object n) ((x, y) :: m) (stop_refs c) in
              stop_upd y (fun _ => renamed_stop m c) ;;; ret m
          | AtPlanned p =>
              let! c := pt_get p in
              let! y := alloc_pt blank_pt in
              let! m := foldM (copy_object n) ((x, y) :: m) (pt_refs c) in
              pt_upd y (fun _ => renamed_pt m c) ;;; ret m
          end
      end
  end.

Section copies.
  Context {W : World} (n : nat).
  (** routes.py:80-88; [Route(vehicle)] makes two stops which nobody refers to
      in the end *)
  Definition copy_route (m : memo) (r : nat) : M (nat * memo) :=
    let! c := route_get r in
    let! r' := new_route (rt_vehicle c) in
    let! m := foldM (copy_object n) m (map AtStop (rt_stops c)) in
    route_upd r' (set_route_stops (map (fun s => image m (AtStop s)) (rt_stops c))) ;;;
    ret (r', m).
  (** insertion/iterators/abc.py:73, plannings.py:82-88: a set of routes *)
  Fixpoint copy_all (m : memo) (rs : list nat) : M (list nat) :=
    match rs with
    | [] => ret []
    | r :: rs => let! (r', m) := copy_route m r in
                 let! rs' := copy_all m rs in ret (r' :: rs')
    end.
  Definition deepcopy_within (rs : list nat) : M (list nat) := copy_all [] rs.
End copies.
