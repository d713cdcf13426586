(** C59-C60: the feasibility of plannings and the readable report.  [verdict]
    and [separate] are in SpecPlan.v; [shows_route] and its parts in
    SpecReport.v. *)
From Verif Require Import SpecPlan SpecReport FeasibleTheorems ReportTheorems WitnessPlan.

(** ** C59.  A planning is reported feasible exactly when all its routes are

    [C59_exact]: when nothing was asked before.  [C59_recorded]: in general the
    answers recorded by earlier questions are repeated (whether those are
    right is C04).  [C59_empty]: a planning without routes has no answer. *)
@C59_exact c59_exact
@C59_recorded c59_recorded
@C59_again c59_again
@C59_empty c59_empty

Section C59_example.
  #[local] Existing Instance town.
  (** a feasible planning and one with a route that is too late *)
  Example C59_case : sane /\ valid_planning day_town [1; 0]%nat [0; 1; 3]%nat [11; 10]%nat /\
    valid_planning day_town [1; 0]%nat [0; 1; 3]%nat [14; 10]%nat /\
    (forall r, r ∈ [10; 11; 14]%nat -> unasked day_town r (stops_in day_town r)) /\
    fst (planning_feasible [11; 10]%nat day_town) = Ok true /\ fst (planning_feasible [14; 10]%nat day_town) = Ok false.
  Proof.
    split; [apply town_sane|].
    split; [apply (validb_sound _ _ _ _ [(1, []); (0, [3; 0])]%nat); reflexivity|].
    split; [apply (validb_sound _ _ _ _ [(1, [1]); (0, [3; 0])]%nat); reflexivity|].
    split; [|split; vm_compute; reflexivity].
    intros r Hr. repeat (apply elem_of_cons in Hr as [->|Hr]; [apply unaskedb_sound; reflexivity|]). by apply elem_of_nil in Hr.
  Qed.
  (** one route answered, the other not *)
  Example C59_case_recorded : separate asked_day [11; 10]%nat /\
    (forall r, r ∈ [11; 10]%nat -> verdict asked_day r true).
  Proof.
    assert (V : valid_planning asked_day [1; 0]%nat [0; 1; 3]%nat [11; 10]%nat)
      by (apply (validb_sound _ _ _ _ [(1, []); (0, [3; 0])]%nat); reflexivity).
    assert (U : unasked asked_day 11 (stops_in asked_day 11)) by (apply unaskedb_sound; reflexivity).
    split; [exact (valid_separate _ _ _ _ V)|]. intros r Hr.
    apply elem_of_cons in Hr as [->|Hr]; [|apply elem_of_list_singleton in Hr as ->].
    - assert (T : on_tour asked_day 11 1 (stops_in asked_day 11) (visits_of asked_day 11)) by (apply on_tourb_sound; reflexivity).
      destruct (verdict_total _ _ _ _ _ town_sane T U) as [[] Vd]; [exact Vd|].
      assert (P : valid_planning asked_day [1]%nat []%nat [11]%nat)
        by (apply (validb_sound _ _ _ _ [(1, [])]%nat); reflexivity).
      destruct (C59_recorded asked_day [11]%nat town_sane ltac:(done) (valid_separate _ _ _ _ P)) as (b & h' & E & _ & Hb & _).
      { intros r Hr. apply elem_of_list_singleton in Hr as ->. by eexists. }
      assert (b = true) as -> by (vm_compute in E; by injection E). apply Hb; [done|left].
    - exists 0%nat, (stops_in asked_day 10), route_10. split; [apply on_tourb_sound; reflexivity|].
      left. eexists. split; [vm_compute; reflexivity|reflexivity].
  Qed.
End C59_example.

(** ** C60.  The readable report tells what the routes do

    Every number of the report is the one of the timetable of the route it
    appears under. *)
@C60_report c60_report
(** without trips to serve, or without routes, there is no report *)
@C60_no_trips c60_no_trips
@C60_no_routes c60_no_routes

Section C60_example.
  #[local] Existing Instance town.
  Example C60_case : sane /\ NoDup [11; 10]%nat /\ separate asked_day [11; 10]%nat /\
    (forall r, r ∈ [11; 10]%nat -> exists b, verdict asked_day r b) /\
    exists rp h' b, columnar_format true DialARide [11; 10]%nat [0; 1; 3]%nat asked_day = (Ok rp, h') /\
      rp_count rp = 1%nat /\ rp_routes rp = [b] /\ rp_coverage rp = 2 # 3 /\ rp_feasible rp = true /\
      map tw_identifier (rb_trips b) = ["C"; "A"]%string /\ map tw_pickup (rb_trips b) = [1500; 4000] /\
      map sw_identifier (rb_stops b) = ["[]"; "[PC]"; "[DC]"; "[PA]"; "[DA]"; "[]"]%string.
  Proof.
    split; [apply town_sane|]. split; [apply (bool_decide_unpack _); reflexivity|].
    split; [apply C59_case_recorded|]. split; [intros r Hr; exists true; by apply C59_case_recorded|].
    eexists _, _, _. split; [vm_compute; reflexivity|]. repeat split.
  Qed.
End C60_example.
