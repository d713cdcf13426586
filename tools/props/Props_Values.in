(** C24-C26, C44, C46, C47: scores, objective values and choices. *)
From Verif Require Import ValueTheorems WitnessValues.

(** ** C24.  best, sorted and nbest *)
(** for every key function, every order on keys and both directions *)
@C24_any_best c24_any_best
@C24_any_sorted c24_any_sorted
(** for the criteria: the score itself, and the three choices *)
@C24_scoring c24_scoring
@C24_best c24_best
@C24_sorted c24_sorted
@C24_nbest c24_nbest

Section C24_example.
  #[local] Existing Instance meter.
  Example C24_case : sane /\ (forall r, r ∈ [4; 2; 3]%nat -> a_tour meter_town r) /\
    (criterion_best_args LongestTime [None; Some 4; Some 2; Some 3]%nat meter_town).1 = Ok (Some 2%nat) /\
    (criterion_sorted LongestUtilTime [4; 2; 3]%nat meter_town).1 = Ok [2; 4; 3]%nat /\
    (criterion_nbest EarliestLastDeparture 2 [4; 2; 3]%nat meter_town).1 = Ok [2; 3]%nat.
  Proof.
    split; [apply meter_sane|]. split; [|split; [vm_compute; reflexivity|split; vm_compute; reflexivity]].
    intros r Hr. exists (if decide (r = 2%nat) then 0%nat else 1%nat), (meter_stops r), (meter_visits r).
    repeat (apply elem_of_cons in Hr as [->|Hr]; [apply on_tourb_sound; reflexivity|]). by apply elem_of_nil in Hr.
  Qed.
  Example C24_case_any : weak_order Z.ltb /\
    dir_best Z.ltb Maximization [(3, "a"); (5, "b"); (5, "c")]%string = Some "b"%string /\
    dir_sorted Z.ltb Maximization [(3, "a"); (5, "b"); (5, "c"); (4, "d")]%string = ["b"; "c"; "d"; "a"]%string.
  Proof.
    split; [|split; reflexivity]. split.
    - apply Z.ltb_irrefl.
    - intros x y. rewrite Z.ltb_lt, Z.ltb_ge. lia.
    - intros x y z. rewrite !Z.ltb_ge. lia.
  Qed.
End C24_example.

(** ** C25.  Objective values of routes and plannings, and their comparison *)
@C25_route c25_route
@C25_sum c25_sum
@C25_order c25_order
@C25_best c25_best

Section C25_example.
  #[local] Existing Instance meter.
  Example C25_case : well_planned meter_town [2; 4]%nat /\ well_planned meter_town [3]%nat /\
    (planning_value DialARide [2; 4]%nat meter_town).1 = Ok [3; -18000] /\
    (planning_value TaxiSharing [2; 4]%nat meter_town).1 = Ok [6000] /\
    (objective_best HashCode [[3]; [4; 2]; [2; 4]]%nat meter_town).1 = Ok (Some 1%nat).
  Proof.
    assert (H : forall r, r ∈ [2; 4; 3]%nat -> exists v ids xs, well_formed meter_town r v ids xs).
    { intros r Hr. exists (if decide (r = 2%nat) then 0%nat else 1%nat), (meter_stops r), (meter_visits r).
      repeat (apply elem_of_cons in Hr as [->|Hr]; [apply well_formedb_sound; reflexivity|]). by apply elem_of_nil in Hr. }
    split; [intros r Hr; apply H; set_solver|]. split; [intros r Hr; apply H; set_solver|].
    split; [vm_compute; reflexivity|]. split; vm_compute; reflexivity.
  Qed.
End C25_example.

(** ** C26.  HashCode score of a ride

    The bonus is not paid for a service that starts on time: the code compares
    the earliest start with [PlannedTrip.pickup_time], which is the departure
    from the pickup stop (objectives.py:146, planned_trips.py:64-66). *)
@C26_refuted c26_refuted
(** what is compared is the departure *)
@C26_departure_partial c26_departure
(** the claim holds for pickups that take no time, of trips without timeout *)
@C26_instant_partial c26_instant

Section C26_example.
  #[local] Existing Instance meter.
  Example C26_case : well_formed meter_town 2 0 (meter_stops 2) (meter_visits 2) /\
    planned_as meter_town (meter_stops 2) 2 1 /\
    (exists x, meter_visits 2 !! 3%nat = Some x /\ vi_board x = [1]%nat /\ vi_alight x = [] /\
       sv_duration (tr_origin (w_trip 1)) = 0) /\
    tr_timeout (w_trip 1) = Inf /\ points 1 5500 (boarded_at 0 (meter_visits 2) 1) = 2700.
  Proof.
    split; [apply well_formedb_sound; reflexivity|]. split.
    { exists 10%nat. do 2 eexists. split; [apply (bool_decide_unpack _); reflexivity|].
      split; [vm_compute; reflexivity|]. split; [apply (bool_decide_unpack _); reflexivity|]. split; vm_compute; reflexivity. }
    split; [|split; reflexivity]. eexists. split; [vm_compute; reflexivity|]. done.
  Qed.
End C26_example.

(** ** C44.  remove_duplicates *)
@C44_first c44_first
@C44_same c44_same

Section C44_example.
  Example C44_case : (forall x y, Nat.eqb x y = true <-> x = y) /\
    remove_duplicates Nat.eqb [3; 1; 3; 2; 1]%nat = [3; 1; 2]%nat.
  Proof. split; [apply Nat.eqb_eq|reflexivity]. Qed.
End C44_example.

(** ** C46.  Coverage rate *)
@C46_rate c46_rate
@C46_bounds c46_bounds
@C46_empty c46_empty

Section C46_example.
  #[local] Existing Instance meter.
  Example C46_case : well_planned meter_town [2; 4]%nat /\ NoDup [0; 1; 3; 5]%nat /\
    (coverage_rate [2; 4]%nat [0; 1; 3; 5]%nat meter_town).1 = Ok (3 # 4) /\
    (forall t, t ∈ [0; 1; 3; 5]%nat -> tr_capacity (w_trip t) <> 0).
  Proof.
    split.
    { intros r Hr. exists (if decide (r = 2%nat) then 0%nat else 1%nat), (meter_stops r), (meter_visits r).
      repeat (apply elem_of_cons in Hr as [->|Hr]; [apply well_formedb_sound; reflexivity|]). by apply elem_of_nil in Hr. }
    split; [apply (bool_decide_unpack _); reflexivity|]. split; [vm_compute; reflexivity|].
    intros t Ht. repeat (apply elem_of_cons in Ht as [->|Ht]; [vm_compute; congruence|]). by apply elem_of_nil in Ht.
  Qed.
End C46_example.

(** ** C47.  optimize() works on an empty planning

    It raises TypeError: [Planning.feasible] reduces without an initial value
    (plannings.py:75-77) and [Algorithm.optimize] evaluates it for its log
    message (abc.py:68-72). *)
@C47_refuted c47_naive
@C47_refuted_fleet c47_fleet
(** it works for plannings that have a route *)
@C47_nonempty_partial c47_works

Section C47_example.
  #[local] Existing Instance meter.
  Example C47_case : sane /\ (optimize HashCode (ret [4; 2]%nat) meter_town).1 = Ok [4; 2]%nat /\
    (forall r, r ∈ [4; 2]%nat -> a_tour meter_town r).
  Proof.
    split; [apply meter_sane|]. split; [vm_compute; reflexivity|].
    intros r Hr. exists (if decide (r = 2%nat) then 0%nat else 1%nat), (meter_stops r), (meter_visits r).
    repeat (apply elem_of_cons in Hr as [->|Hr]; [apply on_tourb_sound; reflexivity|]). by apply elem_of_nil in Hr.
  Qed.
End C47_example.
