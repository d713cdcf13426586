(** Which route objects of the heap stand for which lists of visits.

    The theorems of the Props files speak about heaps through these
    definitions: [linked] for the chain of stops and its memoised times,
    [well_formed] when moreover the planned trips point to their stops, and
    [on_tour] when moreover the route begins and ends at the vehicle's depots. *)
From Verif Require Export Spec Heap.

(** a memoised value is absent or right *)
Definition memoised {B} (o : option B) (b : B) : Prop := o = None \/ o = Some b.

(** the planned trips [ps] (object numbers) are for the trips [ts] *)
Definition plans (h : heap) (ps ts : list nat) : Prop :=
  Forall2 (fun p t => exists pc, h_pts h !! p = Some pc /\ pt_trip pc = t) ps ts.

Section represents.
  Context {W : World}.

  (** the stop object [c] stands for the visit [x] with timing [T]; [prev] is
      the stop before it *)
  Record stop_shows (h : heap) (v : nat) (prev : option nat) (c : stop) (x : visit) (T : timing) : Prop := {
    sh_vehicle : st_vehicle c = v;
    sh_previous : st_previous c = prev;
    sh_place : st_position c = vi_place x;
    sh_request : st_starting c = vi_request x;
    sh_board : plans h (st_pickups c) (vi_board x);
    sh_alight : plans h (st_deliveries c) (vi_alight x);
    sh_arrival : memoised (st_arrival c) (tm_arrival T);
    sh_departure : memoised (st_departure c) (tm_departure T);
    sh_load : memoised (st_capacity c) (tm_load T)
  }.
  Definition before_at (ids : list nat) (i : nat) : option nat :=
    match i with O => None | S j => ids !! j end.

  (** route [r] of vehicle [v] has the stops [ids], linked one after the other,
      which stand for the visits [xs] *)
  Record linked (h : heap) (r v : nat) (ids : list nat) (xs : list visit) : Prop := {
    lk_route : exists c, h_routes h !! r = Some c /\ rt_vehicle c = v /\ rt_stops c = ids;
    lk_length : length ids = length xs;
    lk_stops : forall i s x T, ids !! i = Some s -> xs !! i = Some x -> timetable v xs !! i = Some T ->
                 exists c, h_stops h !! s = Some c /\ stop_shows h v (before_at ids i) c x T
  }.

  (** the planned trip [p] knows its vehicle, its pickup stop and its delivery
      stop *)
  Definition planned_between (h : heap) (v p s d : nat) : Prop :=
    exists pc, h_pts h !! p = Some pc /\ pt_vehicle pc = v /\
      pt_pickup pc = Some s /\ pt_delivery pc = Some d.
  Record well_formed (h : heap) (r v : nat) (ids : list nat) (xs : list visit) : Prop := {
    wf_linked : linked h r v ids xs;
    wf_rides : rides xs;
    wf_pickups : forall i s c p, ids !! i = Some s -> h_stops h !! s = Some c -> p ∈ st_pickups c ->
      exists j d dc, (i < j)%nat /\ ids !! j = Some d /\ h_stops h !! d = Some dc /\
        p ∈ st_deliveries dc /\ planned_between h v p s d;
    wf_deliveries : forall j d dc p, ids !! j = Some d -> h_stops h !! d = Some dc -> p ∈ st_deliveries dc ->
      exists i s c, (i < j)%nat /\ ids !! i = Some s /\ h_stops h !! s = Some c /\
        p ∈ st_pickups c /\ planned_between h v p s d
  }.
  Definition on_tour (h : heap) (r v : nat) (ids : list nat) (xs : list visit) : Prop :=
    well_formed h r v ids xs /\ tour v xs.

  (** a stop object that is not yet part of a route: it names [q] as its
      previous stop and stands for the visit [x] *)
  Definition waits_after (h : heap) (v s q : nat) (x : visit) : Prop :=
    exists c, h_stops h !! s = Some c /\ st_vehicle c = v /\ st_previous c = Some q /\
      st_position c = vi_place x /\ st_starting c = vi_request x /\
      plans h (st_pickups c) (vi_board x) /\ plans h (st_deliveries c) (vi_alight x) /\
      (forall p, p ∈ st_pickups c -> p ∉ st_deliveries c).
  (** the two objects differ in memoised values only *)
  Definition same_stop (c c' : stop) : Prop :=
    st_vehicle c' = st_vehicle c /\ st_position c' = st_position c /\ st_pickups c' = st_pickups c /\
    st_deliveries c' = st_deliveries c /\ st_previous c' = st_previous c /\ st_starting c' = st_starting c.
  (** every stop is as before, except for the predecessor of [f] *)
  Definition relinked (h h' : heap) (f q : nat) : Prop :=
    (forall s c, s <> f -> h_stops h !! s = Some c -> exists c', h_stops h' !! s = Some c' /\ same_stop c c') /\
    (forall c, h_stops h !! f = Some c ->
       exists c', h_stops h' !! f = Some c' /\ same_stop (set_previous (Some q) c) c').

  (** [p] is a planned trip for [t] whose two stops [pk] and [dl] are not part of
      the route [ids] yet: the pickup is to come right after position [i], the
      delivery right before (old) position [j] *)
  Record joins_at (h : heap) (v : nat) (ids : list nat) (t p pk dl i j : nat) : Prop := {
    jn_planned : exists pc, h_pts h !! p = Some pc /\ pt_vehicle pc = v /\ pt_trip pc = t /\
      pt_pickup pc = Some pk /\ pt_delivery pc = Some dl;
    jn_new : pk ∉ ids /\ dl ∉ ids /\ pk <> dl;
    jn_pickup : exists c, h_stops h !! pk = Some c /\ st_vehicle c = v /\
      st_position c = origin_position (w_trip t) /\ st_pickups c = [p] /\ st_deliveries c = [] /\
      st_starting c = None /\ st_previous c = ids !! i;
    jn_delivery : exists c, h_stops h !! dl = Some c /\ st_vehicle c = v /\
      st_position c = destination_position (w_trip t) /\ st_pickups c = [] /\ st_deliveries c = [p] /\
      st_starting c = None /\ st_previous c = (if decide (S i = j) then Some pk else ids !! (j - 1)%nat);
    jn_order : (i < j < length ids)%nat
  }.

  (** feasibility answers have never been asked for these stops, their planned
      trips and the route *)
  Definition unasked (h : heap) (r : nat) (ids : list nat) : Prop :=
    (forall c, h_routes h !! r = Some c -> rt_feasible c = None) /\
    (forall s c, s ∈ ids -> h_stops h !! s = Some c -> st_feasible c = None) /\
    (forall s c p pc, s ∈ ids -> h_stops h !! s = Some c -> p ∈ st_pickups c -> h_pts h !! p = Some pc ->
       pt_feasible pc = None).

  (** every linked route of [h] is still there in [h'], with the same stops
      standing for the same visits *)
  Definition routes_kept (h h' : heap) : Prop :=
    (forall r v ids xs, linked h r v ids xs -> linked h' r v ids xs) /\
    (forall r v ids xs, well_formed h r v ids xs -> well_formed h' r v ids xs).

  (** the state of a program that only edits routes through jinete's own
      operations: every route is a tour of its vehicle, and routes beginning
      with the same stop object also share the second one (clones share either
      none of their stops or at least the first two, routes.py:340-341) *)
  Definition tidy (h : heap) : Prop :=
    (forall r c, h_routes h !! r = Some c -> exists xs, on_tour h r (rt_vehicle c) (rt_stops c) xs) /\
    (forall r1 r2 c1 c2 s, h_routes h !! r1 = Some c1 -> h_routes h !! r2 = Some c2 ->
       rt_stops c1 !! 0%nat = Some s -> rt_stops c2 !! 0%nat = Some s ->
       rt_stops c1 !! 1%nat = rt_stops c2 !! 1%nat).
End represents.
