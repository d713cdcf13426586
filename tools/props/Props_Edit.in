(** C07-C13: the operations that edit routes. *)
From Verif Require Import EditTheorems RefuteTheorems Witness.

(** ** C07.  insert_stop puts the stop right after its predecessor and keeps
    everything else *)
@C07_insert c07_insert
@C07_unknown_predecessor c07_unknown
@C07_after_last c07_after_last

Section C07_example.
  #[local] Existing Instance town.
  Example C07_case : linked detour_town 2 0 busy_stops busy_visits /\ busy_stops !! 1%nat = Some 7%nat /\
    busy_stops !! 2%nat = Some 10%nat /\ 12%nat ∉ busy_stops /\ waits_after detour_town 0 12 7 detour.
  Proof.
    split; [apply linkedb_sound; reflexivity|]. split; [reflexivity|]. split; [reflexivity|].
    split; [apply (bool_decide_unpack _); reflexivity|apply waits_afterb_sound; reflexivity].
  Qed.
  Example C07_case_unknown : exists h c, linked h 2 0 busy_stops busy_visits /\ h_stops h !! 12%nat = Some c /\
    st_previous c = Some 4%nat /\ 4%nat ∉ busy_stops.
  Proof.
    exists (after (new_stop 0 [7000] (Some 4%nat) None) busy_town). eexists.
    split; [apply linkedb_sound; reflexivity|]. split; [vm_compute; reflexivity|].
    split; [reflexivity|apply (bool_decide_unpack _); reflexivity].
  Qed.
  Example C07_case_last : exists h c, linked h 2 0 busy_stops busy_visits /\ h_stops h !! 12%nat = Some c /\
    st_previous c = Some 9%nat /\ last busy_stops = Some 9%nat.
  Proof.
    exists (after (new_stop 0 [7000] (Some 9%nat) None) busy_town). eexists.
    split; [apply linkedb_sound; reflexivity|]. by vm_compute.
  Qed.
End C07_example.

(** ** C08.  insert_stop returns the inserted stop

    It never does: it returns the last stop of the route, because the variable
    of its flush loop shadows the parameter (routes.py:229-234). *)
@C08_refuted c08_refuted
@C08_returns_last c08_last

(** (the hypotheses of [C08_returns_last] are those of [C07_insert]) *)
Section C08_example.
  #[local] Existing Instance town.
  Example C08_case : result (insert_stop 2 12) detour_town = Ok 9%nat /\ last busy_stops = Some 9%nat.
  Proof. by vm_compute. Qed.
End C08_example.

(** ** C09.  remove_stop_at removes exactly one stop and relinks its neighbours *)
@C09_remove c09_remove
@C09_last c09_last

Section C09_example.
  #[local] Existing Instance town.
  Example C09_case : linked busy_town 2 0 busy_stops busy_visits /\
    busy_stops !! 1%nat = Some 7%nat /\ busy_stops !! 2%nat = Some 10%nat /\ busy_stops !! 3%nat = Some 8%nat /\
    result (remove_stop_at 2 2) busy_town = Ok 10%nat.
  Proof. split; [apply linkedb_sound; reflexivity|]. by vm_compute. Qed.
End C09_example.

(** ** C10.  Removing the first stop keeps the chain consistent

    It never does: the previous stop of the new first stop becomes the last
    stop (index -1, routes.py:198-200), so that the route's first stop can no
    longer be asked for and reading any time recurses for ever. *)
@C10_refuted c10_cycle

Section C10_example.
  #[local] Existing Instance town.
  Example C10_case : linked busy_town 2 0 busy_stops busy_visits /\ busy_stops = 6%nat :: 7%nat :: [10; 8; 11; 9]%nat /\
    result (remove_stop_at 2 0 ;;; departure_time 8) busy_town = Raise RecursionError.
  Proof. split; [apply linkedb_sound; reflexivity|]. by vm_compute. Qed.
End C10_example.

(** ** C11.  Appending a planned trip adds exactly that trip, pickup before
    delivery *)
@C11_append c11_append
(** [serve] is what the property asks for: all old visits in their order, the
    two new ones in this order, and nothing else *)
@C11_serve c11_loses_nothing

Section C11_example.
  #[local] Existing Instance town.
  Example C11_case : on_tour join_town 3 0 unread_stops busy_visits /\
    joins_at join_town 0 unread_stops 2 5 18 19 2 4 /\ 2%nat ∉ boards busy_visits.
  Proof.
    split; [apply on_tourb_sound; reflexivity|]. split; [apply joins_atb_sound; reflexivity|].
    apply (bool_decide_unpack _); reflexivity.
  Qed.
End C11_example.

(** ** C12.  remove_trip removes exactly that trip *)
@C12_remove c12_remove
@C12_undo c12_undo

Section C12_example.
  #[local] Existing Instance town.
  Example C12_case : on_tour busy_town 2 0 busy_stops busy_visits /\ 1%nat ∈ boards busy_visits /\
    dedicated 1 busy_visits /\ map vi_board (without 1 busy_visits) = [[]; [0]; []; []]%nat.
  Proof.
    split; [apply on_tourb_sound; reflexivity|]. split; [apply (bool_decide_unpack _); reflexivity|].
    split; [|reflexivity]. intros x Hx Hm. unfold busy_visits in Hx.
    repeat (apply elem_of_cons in Hx as [->|Hx]; [destruct Hm as [Hm|Hm]; try reflexivity; by apply elem_of_nil in Hm|]).
    by apply elem_of_nil in Hx.
  Qed.
End C12_example.

(** ** C13.  Cloning gives an equal route and editing the clone never changes
    the original *)
@C13_clone c13_clone
(** a stop inserted into the clone at or behind the requested place *)
@C13_edit c13_edit

Section C13_example.
  #[local] Existing Instance town.
  Example C13_case : on_tour shift_town 2 1 shift_stops shift_visits /\
    exists r' h1 h2, route_clone 2 5 shift_town = (Ok r', h1) /\
      linked h2 r' 1 (stops_in h2 r') shift_visits /\
      take 4 (stops_in h2 r') = take 3 shift_stops ++ [12%nat] /\ h2 = after (new_stop 1 [7000] (Some 13%nat) None) h1 /\
      waits_after h2 1 15 13 detour /\ stops_in h2 r' !! 4%nat = Some 13%nat /\ stops_in h2 r' !! 5%nat = Some 14%nat.
  Proof.
    split; [apply on_tourb_sound; reflexivity|].
    do 2 eexists. exists (after (new_stop 1 [7000] (Some 13%nat) None) (after (route_clone 2 5) shift_town)).
    split; [vm_compute; reflexivity|]. split; [apply linkedb_sound; reflexivity|].
    split; [vm_compute; reflexivity|]. split; [vm_compute; reflexivity|]. split; [apply waits_afterb_sound; reflexivity|].
    split; reflexivity.
  Qed.
End C13_example.
