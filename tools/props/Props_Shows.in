(** * Printing

    [text] (what is printed), [value_of_optimizable] and [optimization_function]
    are in Shows.v.  SpecShow.v has [same_objects] (the same stops, planned trips
    and routes, memoised answers included), [cannot_fail], [not_planned] and
    [made_of_routes]. *)
From Verif Require Import ShowTheorems SpecShow Shows Witness Checker Choices Values Reads.

(** ** C89.  Printing changes nothing *)
(** in no state, and it does not raise *)
@C89_quiet c89_quiet
(** nor does printing what an algorithm is given *)
@C89_inputs c89_inputs
(** there is something to print for all well-formed routes and their stops *)
@C89_gives c89_gives
(** so the value that is returned together with a line in the log is the value
    computed without *)
@C89_value c89_value
@C89_error c89_error
(** for plannings: the sum over the routes *)
@C89_total c89_total
(** printing a planned trip asks whether it is feasible: the answer of a route
    may change *)
@C89_refuted c89_refuted
(** it cannot be done before the trip has its stops *)
@C89_unplaced c89_unplaced
(** the answer is still right if nothing is changed in between.  Missing: the
    answers after changes *)
@C89_planned_partial c89_planned_partial

Section C89_example.
  #[local] Existing Instance town.
  Definition some_formats : formats :=
    Formats (fun _ => "(..)") (fun s => "'" +:+ s +:+ "'") (fun _ => "..") (fun _ => "..") "<Objective>" "Nobody".
  Example C89_case : not_planned (APlanning [2; 3]%nat) /\ made_of_routes unread_town (APlanning [2; 3]%nat) /\
    made_of_routes unread_town (ARoute 3) /\ made_of_routes unread_town (AStop 14) /\
    fst (text some_formats (ARoute 3) unread_town) = Ok "Route(vehicle_identifier=v, stops_identifiers=('[]', '[PA]', '[PX]', '[DA]', '[DX]', '[]'))"%string /\
    fst (text some_formats (AStop 14) unread_town) = Ok "Stop(position=(..), identifier=[PX])"%string /\
    fst (text some_formats (APlanned 3) unread_town) = Ok "PlannedTrip(trip_identifier=X, pickup=Stop(position=(..), identifier=[PX]), delivery=Stop(position=(..), identifier=[DX]), feasible=True)"%string.
  Proof.
    assert (H2 : well_formed unread_town 2 0 busy_stops busy_visits) by (apply well_formedb_sound; vm_compute; reflexivity).
    assert (H3 : well_formed unread_town 3 0 unread_stops busy_visits) by (apply well_formedb_sound; vm_compute; reflexivity).
    split; [done|]. split; [intros r Hr; rewrite !elem_of_cons in Hr; destruct Hr as [->|[->|Hr]]; [exists 0%nat; exists busy_stops; exists busy_visits; exact H2|exists 0%nat; exists unread_stops; exists busy_visits; exact H3|by apply elem_of_nil in Hr]|].
    split; [exists 0%nat; exists unread_stops; exists busy_visits; exact H3|]. split; [exists 3%nat; exists 0%nat; exists unread_stops; exists busy_visits; split; [done|apply elem_of_list_lookup_2 with 2%nat; reflexivity]|].
    split; [vm_compute; reflexivity|]. split; vm_compute; reflexivity.
  Qed.
  (** the value of the route is computed and the route printed *)
  Example C89_case_value : exists h1, value_of_optimizable DialARide (ARoute 3) unread_town = (Ok [2; -10000], h1) /\
    fst (optimization_function some_formats DialARide (ARoute 3) unread_town) = Ok [2; -10000].
  Proof. eexists. split; vm_compute; reflexivity. Qed.
  Example C89_case_unplaced : exists p h1, new_planned_trip 0 1 None None unread_town = (Ok p, h1).
  Proof. eexists. eexists. vm_compute. reflexivity. Qed.
  (** what is required of the town of [C89_refuted] is what [C89_planned_partial]
      needs *)
  Example C89_case_planned : sane /\ well_formed unread_town 3 0 unread_stops busy_visits /\ unasked unread_town 3 unread_stops /\
    14%nat ∈ unread_stops /\ exists c, h_stops unread_town !! 14%nat = Some c /\ 3%nat ∈ st_pickups c.
  Proof.
    split; [apply town_sane|]. split; [apply well_formedb_sound; vm_compute; reflexivity|]. split; [apply unaskedb_sound; vm_compute; reflexivity|].
    split; [apply elem_of_list_lookup_2 with 2%nat; reflexivity|]. eexists. split; [reflexivity|left].
  Qed.
End C89_example.
