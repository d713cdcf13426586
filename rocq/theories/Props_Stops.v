(** C01-C05 and C50: times, loads and feasibility of routes.

    [linked], [well_formed], [on_tour], [unasked] (Represents.v) say which
    visits a route object stands for; [timetable] and [admissible] (Spec.v) are
    the schedule and the constraints of the problem; [read] and [right]
    (Reads.v) pair each getter with the quantity it should return. *)
From Verif Require Import TimeTheorems RefuteTheorems Witness.

(** ** C01.  Reading a stop's times gives the schedule recurrence, whatever was
    read before *)

(** Any list of reads (of times), in any order and with repetitions, on any
    linked chain; memoised values may or may not be present beforehand. *)
Theorem C01_times `{W : World} : forall h r v ids xs (qs : list (reading * nat)),
  linked h r v ids xs ->
  (forall k i, (k, i) ∈ qs -> (i < length ids)%nat /\ k <> Load) ->
  exists zs h',
    mapM (fun q : reading * nat => let! s := py_nth ids q.2 in read q.1 s) qs h = (Ok zs, h') /\
    Forall2 (fun q z => right v xs q.1 q.2 z) qs zs /\
    linked h' r v ids xs /\ only_memoised h h'.
Proof. exact c01_times. Qed.
Print Assumptions C01_times.
(** The same including the load, whose getter asserts that it is not negative. *)
Theorem C01_reads `{W : World} : forall h r v ids xs (qs : list (reading * nat)),
  sane_capacities -> well_formed h r v ids xs ->
  (forall k i, (k, i) ∈ qs -> (i < length ids)%nat) ->
  exists zs h',
    mapM (fun q : reading * nat => let! s := py_nth ids q.2 in read q.1 s) qs h = (Ok zs, h') /\
    Forall2 (fun q z => right v xs q.1 q.2 z) qs zs /\
    well_formed h' r v ids xs /\ only_memoised h h'.
Proof. exact c01_all. Qed.
Print Assumptions C01_reads.

Section C01_example.
  #[local] Existing Instance town.
  (** a route with six stops, all of whose times have been read before *)
  Example C01_case : linked busy_town 2 0 busy_stops busy_visits /\ well_formed busy_town 2 0 busy_stops busy_visits /\
    sane_capacities /\ length busy_stops = 6%nat /\
    right 0 busy_visits Departure 4 5000 /\ right 0 busy_visits Load 2 2000 /\ right 0 busy_visits Transit 5 5000.
  Proof.
    split; [apply linkedb_sound; reflexivity|]. split; [apply well_formedb_sound; reflexivity|].
    split; [apply town_sane|]. split; [reflexivity|]. split_and!; eexists _, _; split_and!; reflexivity.
  Qed.
End C01_example.

(** ** C02.  Time never runs backwards along a route *)
Theorem C02_stop `{W : World} : forall h r v ids xs i s,
  sane_durations -> linked h r v ids xs -> ids !! i = Some s ->
  exists a b d w, returns (arrival_time s) h a /\ returns (starting_time s) h b /\
    returns (departure_time s) h d /\ returns (waiting_time s) h w /\
    a <= b <= d /\ w = b - a /\ 0 <= w.
Proof. exact c02_stop. Qed.
Print Assumptions C02_stop.
Theorem C02_next `{W : World} : forall h r v ids xs i s s',
  linked h r v ids xs -> ids !! i = Some s -> ids !! S i = Some s' ->
  exists d a, returns (departure_time s) h d /\ returns (arrival_time s') h a /\ d <= a.
Proof. exact c02_next. Qed.
Print Assumptions C02_next.
Theorem C02_route `{W : World} : forall h r v ids xs,
  sane_durations -> well_formed h r v ids xs -> ids <> [] ->
  exists d, returns (route_duration r) h d /\ 0 <= d.
Proof. exact c02_route. Qed.
Print Assumptions C02_route.
(** the assertions made while editing routes (routes.py:273-283) hold *)
Theorem C02_assertions `{W : World} : forall h r v ids xs,
  linked h r v ids xs ->
  (exists h', assert_linked r h = (Ok tt, h') /\ only_memoised h h') /\
  (exists h', assert_monotone r h = (Ok tt, h') /\ only_memoised h h').
Proof. exact c02_asserts. Qed.
Print Assumptions C02_assertions.

Section C02_example.
  #[local] Existing Instance town.
  Example C02_case : sane_durations /\ well_formed busy_town 2 0 busy_stops busy_visits /\
    busy_stops !! 2%nat = Some 10%nat /\ busy_stops !! 3%nat = Some 8%nat.
  Proof. split; [apply town_sane|]. split; [apply well_formedb_sound; reflexivity|]. by vm_compute. Qed.
End C02_example.

(** ** C03.  Vehicle load accounting *)
Theorem C03_load `{W : World} : forall h r v ids xs i s,
  sane_capacities -> well_formed h r v ids xs -> ids !! i = Some s ->
  exists q h', capacity s h = (Ok q, h') /\ only_memoised h h' /\
    q = weight (on_board (take (S i) xs)) /\ 0 <= q.
Proof. exact c03_load. Qed.
Print Assumptions C03_load.
Theorem C03_end `{W : World} : forall h r v ids xs s,
  sane_capacities -> well_formed h r v ids xs -> last ids = Some s ->
  returns (capacity s) h 0.
Proof. exact c03_end. Qed.
Print Assumptions C03_end.

Section C03_example.
  #[local] Existing Instance town.
  Example C03_case : sane_capacities /\ well_formed busy_town 2 0 busy_stops busy_visits /\
    on_board (take 3 busy_visits) = [0; 1]%nat /\ weight [0; 1]%nat = 2000 /\ last busy_stops = Some 9%nat.
  Proof. split; [apply town_sane|]. split; [apply well_formedb_sound; reflexivity|]. by vm_compute. Qed.
End C03_example.

(** ** C04.  Changing a stop's start time is reflected everywhere after a route
    flush

    True of times and loads; of feasibility only if the feasibility of the
    stops had not been read before, because [Stop.flush] keeps [Stop.feasible]
    (stops.py:225-233). *)
Theorem C04_times `{W : World} : forall h r v ids xs i s x z (qs : list (reading * nat)),
  linked h r v ids xs -> ids !! i = Some s -> xs !! i = Some x ->
  (forall k j, (k, j) ∈ qs -> (j < length ids)%nat /\ k <> Load) ->
  exists h' zs h'', (set_starting_time s z ;;; route_flush r) h = (Ok tt, h') /\
    linked h' r v ids (<[i := ask z x]> xs) /\
    mapM (fun q : reading * nat => let! s := py_nth ids q.2 in read q.1 s) qs h' = (Ok zs, h'') /\
    Forall2 (fun q y => right v (<[i := ask z x]> xs) q.1 q.2 y) qs zs.
Proof. exact c04_times. Qed.
Print Assumptions C04_times.
Theorem C04_feasible_partial `{W : World} : forall h r v ids xs i s x z (qs : list (reading * nat)),
  sane_durations -> sane_capacities ->
  well_formed h r v ids xs -> ids !! i = Some s -> xs !! i = Some x ->
  (forall s c, s ∈ ids -> h_stops h !! s = Some c -> st_feasible c = None) ->
  (forall k j, (k, j) ∈ qs -> (j < length ids)%nat) ->
  exists h', (set_starting_time s z ;;; route_flush r) h = (Ok tt, h') /\
    well_formed h' r v ids (<[i := ask z x]> xs) /\
    (exists zs h'', mapM (fun q : reading * nat => let! s := py_nth ids q.2 in read q.1 s) qs h' = (Ok zs, h'') /\
       Forall2 (fun q y => right v (<[i := ask z x]> xs) q.1 q.2 y) qs zs) /\
    exists b, returns (route_feasible r) h' b /\ (b = true <-> admissible v (<[i := ask z x]> xs)).
Proof. exact c04_feasible. Qed.
Print Assumptions C04_feasible_partial.
Theorem C04_refuted : exists (W : World) h r v ids xs i s x z h',
  sane /\ well_formed h r v ids xs /\ ids !! i = Some s /\ xs !! i = Some x /\
  (set_starting_time s z ;;; route_flush r) h = (Ok tt, h') /\
  well_formed h' r v ids (<[i := ask z x]> xs) /\
  returns (route_feasible r) h' true /\ ~ admissible v (<[i := ask z x]> xs).
Proof. exact c04_refuted. Qed.
Print Assumptions C04_refuted.

Section C04_example.
  #[local] Existing Instance town.
  Example C04_case : sane /\ well_formed unread_town 3 0 unread_stops busy_visits /\
    unread_stops !! 1%nat = Some 13%nat /\ unasked unread_town 3 unread_stops.
  Proof.
    split; [apply town_sane|]. split; [apply well_formedb_sound; reflexivity|].
    split; [reflexivity|apply unaskedb_sound; reflexivity].
  Qed.
End C04_example.

(** ** C05.  Route.feasible decides exactly the problem constraints *)
Theorem C05_feasible `{W : World} : forall h r v ids xs,
  sane_durations -> sane_capacities ->
  well_formed h r v ids xs -> ids <> [] -> unasked h r ids ->
  exists b h', route_feasible r h = (Ok b, h') /\ (b = true <-> admissible v xs) /\
    routes_kept h h' /\ route_feasible r h' = (Ok b, h').
Proof. exact c05_feasible. Qed.
Print Assumptions C05_feasible.

Section C05_example.
  #[local] Existing Instance town.
  (** [unread_town] has a route whose feasibility was never asked; it satisfies
      the constraints, and violates them when the first pickup waits *)
  Example C05_case : sane /\ well_formed unread_town 3 0 unread_stops busy_visits /\
    unasked unread_town 3 unread_stops /\ result (route_feasible 3) unread_town = Ok true.
  Proof.
    split; [apply town_sane|]. split; [apply well_formedb_sound; reflexivity|].
    split; [apply unaskedb_sound; reflexivity|reflexivity].
  Qed.
  Example C05_case_not : well_formed late_town 3 0 unread_stops late_visits /\
    unasked late_town 3 unread_stops /\ result (route_feasible 3) late_town = Ok false.
  Proof.
    split; [apply well_formedb_sound; reflexivity|].
    split; [apply unaskedb_sound; reflexivity|reflexivity].
  Qed.
End C05_example.

(** ** C50.  A fresh route is correct *)
Theorem C50_fresh `{W : World} : forall v h,
  exists r ids h', new_route v h = (Ok r, h') /\
    on_tour h' r v ids (doing_nothing v) /\ length ids = 2%nat /\ unasked h' r ids /\
    h_routes h !! r = None /\ (forall s, s ∈ ids -> h_stops h !! s = None) /\
    routes_kept h h' /\ (tidy h -> tidy h').
Proof. exact c50_fresh. Qed.
Print Assumptions C50_fresh.
Theorem C50_feasible `{W : World} : forall v h r h',
  sane_durations -> sane_capacities ->
  new_route v h = (Ok r, h') ->
  exists b, returns (route_feasible r) h' b /\
    (b = true <->
      at_most (Z.max 0 (v_origin_earliest v) + dist (v_origin_position v) (v_destination_position v)) (v_destination_latest v) /\
      at_most (dist (v_origin_position v) (v_destination_position v)) (v_timeout v)).
Proof. exact c50_feasible. Qed.
Print Assumptions C50_feasible.

Section C50_example.
  #[local] Existing Instance town.
  Example C50_case : sane /\ (exists r h', new_route 0 busy_town = (Ok r, h') /\ r = 3%nat) /\ tidy busy_town.
  Proof. split; [apply town_sane|]. split; [by eexists _, _|apply tidyb_sound; reflexivity]. Qed.
End C50_example.
