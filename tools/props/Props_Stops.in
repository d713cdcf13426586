(** C01-C05 and C50: times, loads and feasibility of routes.

    [linked], [well_formed], [on_tour], [unasked] (Represents.v) say which
    visits a route object stands for; [timetable] and [admissible] (Spec.v) are
    the schedule and the constraints of the problem; [read] and [right]
    (Reads.v) pair each getter with the quantity it should return. *)
From Verif Require Import TimeTheorems RefuteTheorems Witness.

(** ** C01.  Reading a stop's times gives the schedule recurrence, whatever was
    read before *)

(** Any list of reads (of times), in any order and with repetitions, on any
    linked chain; memoised values may or may not be present beforehand. *)
@C01_times c01_times
(** The same including the load, whose getter asserts that it is not negative. *)
@C01_reads c01_all

Section C01_example.
  #[local] Existing Instance town.
  (** a route with six stops, all of whose times have been read before *)
  Example C01_case : linked busy_town 2 0 busy_stops busy_visits /\ well_formed busy_town 2 0 busy_stops busy_visits /\
    sane_capacities /\ length busy_stops = 6%nat /\
    right 0 busy_visits Departure 4 5000 /\ right 0 busy_visits Load 2 2000 /\ right 0 busy_visits Transit 5 5000.
  Proof.
    split; [apply linkedb_sound; reflexivity|]. split; [apply well_formedb_sound; reflexivity|].
    split; [apply town_sane|]. split; [reflexivity|]. split_and!; eexists _, _; split_and!; reflexivity.
  Qed.
End C01_example.

(** ** C02.  Time never runs backwards along a route *)
@C02_stop c02_stop
@C02_next c02_next
@C02_route c02_route
(** the assertions made while editing routes (routes.py:273-283) hold *)
@C02_assertions c02_asserts

Section C02_example.
  #[local] Existing Instance town.
  Example C02_case : sane_durations /\ well_formed busy_town 2 0 busy_stops busy_visits /\
    busy_stops !! 2%nat = Some 10%nat /\ busy_stops !! 3%nat = Some 8%nat.
  Proof. split; [apply town_sane|]. split; [apply well_formedb_sound; reflexivity|]. by vm_compute. Qed.
End C02_example.

(** ** C03.  Vehicle load accounting *)
@C03_load c03_load
@C03_end c03_end

Section C03_example.
  #[local] Existing Instance town.
  Example C03_case : sane_capacities /\ well_formed busy_town 2 0 busy_stops busy_visits /\
    on_board (take 3 busy_visits) = [0; 1]%nat /\ weight [0; 1]%nat = 2000 /\ last busy_stops = Some 9%nat.
  Proof. split; [apply town_sane|]. split; [apply well_formedb_sound; reflexivity|]. by vm_compute. Qed.
End C03_example.

(** ** C04.  Changing a stop's start time is reflected everywhere after a route
    flush

    True of times and loads; of feasibility only if the feasibility of the
    stops had not been read before, because [Stop.flush] keeps [Stop.feasible]
    (stops.py:225-233). *)
@C04_times c04_times
@C04_feasible_partial c04_feasible
@C04_refuted c04_refuted

Section C04_example.
  #[local] Existing Instance town.
  Example C04_case : sane /\ well_formed unread_town 3 0 unread_stops busy_visits /\
    unread_stops !! 1%nat = Some 13%nat /\ unasked unread_town 3 unread_stops.
  Proof.
    split; [apply town_sane|]. split; [apply well_formedb_sound; reflexivity|].
    split; [reflexivity|apply unaskedb_sound; reflexivity].
  Qed.
End C04_example.

(** ** C05.  Route.feasible decides exactly the problem constraints *)
@C05_feasible c05_feasible

Section C05_example.
  #[local] Existing Instance town.
  (** [unread_town] has a route whose feasibility was never asked; it satisfies
      the constraints, and violates them when the first pickup waits *)
  Example C05_case : sane /\ well_formed unread_town 3 0 unread_stops busy_visits /\
    unasked unread_town 3 unread_stops /\ result (route_feasible 3) unread_town = Ok true.
  Proof.
    split; [apply town_sane|]. split; [apply well_formedb_sound; reflexivity|].
    split; [apply unaskedb_sound; reflexivity|reflexivity].
  Qed.
  Example C05_case_not : well_formed late_town 3 0 unread_stops late_visits /\
    unasked late_town 3 unread_stops /\ result (route_feasible 3) late_town = Ok false.
  Proof.
    split; [apply well_formedb_sound; reflexivity|].
    split; [apply unaskedb_sound; reflexivity|reflexivity].
  Qed.
End C05_example.

(** ** C50.  A fresh route is correct *)
@C50_fresh c50_fresh
@C50_feasible c50_feasible

Section C50_example.
  #[local] Existing Instance town.
  Example C50_case : sane /\ (exists r h', new_route 0 busy_town = (Ok r, h') /\ r = 3%nat) /\ tidy busy_town.
  Proof. split; [apply town_sane|]. split; [by eexists _, _|apply tidyb_sound; reflexivity]. Qed.
End C50_example.
