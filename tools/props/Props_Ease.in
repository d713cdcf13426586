(** C79: raising limits.  SpecEase.v has [higher] (limits) and [eased_world
    strict W W'] ([W'] is [W] with services that close later, longer rides and
    routes, larger vehicles; with [strict] the earliest pickups, which the code
    derives from the longest ride, stay the same). *)
From Verif Require Import EaseTheorems WitnessEase Checker AdmissibleCheck.

(** ** C79.  A route that keeps all limits also keeps higher ones

    Refuted: the code derives from the longest ride of a passenger how early the
    passenger can be picked up.  One who must not arrive before 100 and may ride
    for 20 is picked up at 80, and with a longest ride of 100 at 0; a second
    passenger picked up on the way then rides for 100 instead of 20, more than
    the second passenger may.  What holds: raising limits without moving the
    earliest pickup keeps every route that keeps the limits, and the answer. *)
@C79_refuted c79_refuted
@C79_limits_partial c79_limits
@C79_feasible_partial c79_feasible

Section C79_example.
  Example C79_case : eased_world True tight_world share_world /\ @admissible tight_world 0 share_visits /\
    @sane tight_world /\
    map tm_start (@timetable tight_world 0 share_visits) = [0; 80000; 81000; 100000; 101000; 104000].
  Proof.
    split; [exact tight_eased|]. split; [apply admissibleb_sound; vm_compute; reflexivity|].
    split; [split; intros [|[|[|t]]]; cbn; lia|]. vm_compute. reflexivity.
  Qed.
  Example C79_case_feasible :
    @well_formed tight_world tight_heap 2 0 (stops_in tight_heap 2) (visits_of tight_heap 2) /\ unasked tight_heap 2 (stops_in tight_heap 2) /\
    @well_formed share_world loose_heap 2 0 (stops_in loose_heap 2) (visits_of loose_heap 2) /\ unasked loose_heap 2 (stops_in loose_heap 2) /\
    visits_of loose_heap 2 = visits_of tight_heap 2 /\ boards (visits_of tight_heap 2) = [1%nat] /\
    fst (@route_feasible tight_world 2 tight_heap) = Ok true.
  Proof.
    split; [apply well_formedb_sound; vm_compute; reflexivity|]. split; [apply unaskedb_sound; vm_compute; reflexivity|].
    split; [apply well_formedb_sound; vm_compute; reflexivity|]. split; [apply unaskedb_sound; vm_compute; reflexivity|].
    split; [vm_compute; reflexivity|]. split; vm_compute; reflexivity.
  Qed.
End C79_example.
