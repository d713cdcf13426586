(** C51 - C54: what the solutions of the three-index model mean. *)
From Verif Require Import SpecDarp DarpTheorems WitnessDarp DarpRefute.

(** ** C51.  Solutions are plans *)
(** a solution whose arcs take time stands for a plan: same routes, same times *)
@C51_sound_partial c51_sound
(** a small objective implies that arcs take time *)
@C51_modest c53_modest
(** without it, deliveries may be isolated loops, and routes may run backwards *)
@C51_refuted c51_loop
@C51_reversed_refuted c51_reversed
(** and deliveries last as long as the pickup, whatever the trip says *)
@C51_rushed_refuted c51_rushed

Section C51_example.
  #[local] Existing Instance cross_world.
  Notation two := [0; 1]%nat.
  Example C51_case : NoDup two /\ one_depot two /\ finite two two /\ moving two /\ one_space two two /\
    (forall t, t ∈ two -> 0 <= destination_duration (w_trip t) <= origin_duration (w_trip t)) /\
    (forall v, v ∈ two -> v_origin_earliest v <= 0 /\ below day (v_destination_latest v)) /\
    solves two two (fun _ _ _ => false) cross_solution /\ modest two two cross_solution /\ takes_time two two cross_solution.
  Proof.
    destruct cross_instance as (H1 & H2 & H3 & H4 & _ & _ & H7). do 5 (split; [done|]).
    split; [apply elem_pair; vm_compute; by split|]. split; [apply elem_pair; vm_compute; by split|].
    split; [apply cross_solves|]. split; [apply cross_modest|apply cross_takes_time].
  Qed.
End C51_example.

(** ** C52.  Plans are solutions *)
(** every plan within the day is a solution with the same routes and times *)
@C52_complete_partial c52_complete
@C52_direct c52_manhattan
(** one vehicle too small for one trip, or not at the first vehicle's depot, and
    the model has no solution at all *)
@C52_refuted c52_small
@C52_depots_refuted c52_depots

Section C52_example.
  #[local] Existing Instance cross_world.
  Notation two := [0; 1]%nat.
  Example C52_case : NoDup two /\ one_depot two /\ finite two two /\ moving two /\ direct two two /\ roomy two two /\
    (forall t, t ∈ two -> 0 <= origin_duration (w_trip t) <= destination_duration (w_trip t)) /\
    plan two two [shuttle 0 0; shuttle 1 1] /\ within_day two [shuttle 0 0; shuttle 1 1] /\
    w_metric = Manhattan /\ one_space two two.
  Proof.
    destruct cross_instance as (H1 & H2 & H3 & H4 & H5 & H6 & H7). do 6 (split; [done|]).
    split; [apply elem_pair; vm_compute; by split|]. split; [apply cross_plan|]. split; [apply cross_day|]. done.
  Qed.
End C52_example.

(** ** C53.  The objective *)
(** it is the length of the tours, where staying costs 10000 units *)
@C53_total c53_total
(** hence the distance if it is below 10000 units *)
@C53_distance_partial c53_distance
(** which an idle vehicle prevents *)
@C53_refuted c53_idle

Section C53_example.
  #[local] Existing Instance cross_world.
  Notation two := [0; 1]%nat.
  Example C53_case : exists tours, one_depot two /\ finite two two /\ moving two /\ solves two two (fun _ _ _ => false) cross_solution /\
    plan two two tours /\ (forall k v xs, two !! k = Some v -> tours !! k = Some xs -> follows two two cross_solution k v xs) /\
    (objective_value two two cross_solution == 12000 # 1)%Q /\ (objective_value two two cross_solution < inject_Z (10000 * (1000 * eb)))%Q.
  Proof.
    destruct C51_case as (H1 & H2 & H3 & H4 & H5 & H6 & H7 & H8 & H9 & H10).
    destruct (c51_sound _ _ _ _ H1 H2 H3 H4 H6 H7 H8 H10) as (tours & Hp & _ & Hf). exists tours. do 6 (split; [done|]). by vm_compute.
  Qed.
End C53_example.

(** ** C54.  Optimal solutions *)
(** an optimal solution with a small objective stands for a best plan *)
@C54_optimal_partial c54_optimal
(** in general there may be an optimal solution although there is no plan at
    all *)
@C54_refuted c54_refuted
(** and even with a small objective the plan need not be the shortest: leaving a
    vehicle at the depot costs 10000 *)
@C54_idle_refuted c54_idle

Section C54_example.
  #[local] Existing Instance line_world.
  Notation one := [0%nat].
  Example C54_case : NoDup one /\ one_depot one /\ finite one one /\ moving one /\ direct one one /\ roomy one one /\ one_space one one /\
    (forall t, t ∈ one -> origin_duration (w_trip t) = destination_duration (w_trip t) /\ 0 <= origin_duration (w_trip t)) /\
    (forall v, v ∈ one -> v_origin_earliest v <= 0 /\ below day (v_destination_latest v)) /\
    optimal one one (fun _ _ _ => false) line_solution /\ modest one one line_solution.
  Proof.
    destruct line_instance as (H1 & H2 & H3 & H4 & H5 & H6 & H7). do 7 (split; [done|]).
    split; [apply elem_lone; vm_compute; by split|]. split; [apply elem_lone; vm_compute; by split|].
    split; [apply line_optimal|apply line_modest].
  Qed.
End C54_example.
