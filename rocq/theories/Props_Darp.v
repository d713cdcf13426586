(** C51 - C54: what the solutions of the three-index model mean. *)
From Verif Require Import SpecDarp DarpTheorems WitnessDarp DarpRefute.

(** ** C51.  Solutions are plans *)
(** a solution whose arcs take time stands for a plan: same routes, same times *)
Theorem C51_sound_partial `{W : World} : forall vs ts odd a, NoDup ts -> one_depot vs -> finite vs ts -> moving ts ->
  (forall t, t ∈ ts -> 0 <= destination_duration (w_trip t) <= origin_duration (w_trip t)) ->
  (forall v, v ∈ vs -> v_origin_earliest v <= 0 /\ below day (v_destination_latest v)) ->
  solves vs ts odd a -> takes_time vs ts a ->
  exists tours, plan vs ts tours /\ within_day vs tours /\ forall k v xs, vs !! k = Some v -> tours !! k = Some xs -> follows vs ts a k v xs.
Proof. exact c51_sound. Qed.
Print Assumptions C51_sound_partial.
(** a small objective implies that arcs take time *)
Theorem C51_modest `{W : World} : forall vs ts odd a, finite vs ts -> moving ts -> one_space vs ts -> solves vs ts odd a -> modest vs ts a -> takes_time vs ts a.
Proof. exact c53_modest. Qed.
Print Assumptions C51_modest.
(** without it, deliveries may be isolated loops, and routes may run backwards *)
Theorem C51_refuted : exists (W : World) vs ts odd a, NoDup ts /\ one_depot vs /\ finite vs ts /\ moving ts /\ direct vs ts /\ roomy vs ts /\
  (forall t, t ∈ ts -> 0 <= destination_duration (w_trip t) <= origin_duration (w_trip t)) /\
  (forall v, v ∈ vs -> v_origin_earliest v <= 0 /\ below day (v_destination_latest v)) /\
  solves vs ts odd a /\ ~ exists tours, plan vs ts tours.
Proof. exact c51_loop. Qed.
Print Assumptions C51_refuted.
Theorem C51_reversed_refuted : exists (W : World) vs ts odd a, NoDup ts /\ one_depot vs /\ finite vs ts /\ moving ts /\ direct vs ts /\ roomy vs ts /\
  (forall t, t ∈ ts -> destination_duration (w_trip t) = origin_duration (w_trip t) /\ 0 < origin_duration (w_trip t)) /\
  (forall v, v ∈ vs -> v_origin_earliest v <= 0 /\ below day (v_destination_latest v)) /\
  solves vs ts odd a /\ ~ exists tours, plan vs ts tours.
Proof. exact c51_reversed. Qed.
Print Assumptions C51_reversed_refuted.
(** and deliveries last as long as the pickup, whatever the trip says *)
Theorem C51_rushed_refuted : exists (W : World) vs ts odd a, NoDup ts /\ one_depot vs /\ finite vs ts /\ moving ts /\ direct vs ts /\ roomy vs ts /\
  (forall t, t ∈ ts -> 0 <= origin_duration (w_trip t) /\ 0 <= destination_duration (w_trip t)) /\
  (forall v, v ∈ vs -> v_origin_earliest v <= 0 /\ below day (v_destination_latest v)) /\
  solves vs ts odd a /\ takes_time vs ts a /\ ~ exists tours, plan vs ts tours.
Proof. exact c51_rushed. Qed.
Print Assumptions C51_rushed_refuted.

Section C51_example.
  #[local] Existing Instance cross_world.
  Notation two := [0; 1]%nat.
  Example C51_case : NoDup two /\ one_depot two /\ finite two two /\ moving two /\ one_space two two /\
    (forall t, t ∈ two -> 0 <= destination_duration (w_trip t) <= origin_duration (w_trip t)) /\
    (forall v, v ∈ two -> v_origin_earliest v <= 0 /\ below day (v_destination_latest v)) /\
    solves two two (fun _ _ _ => false) cross_solution /\ modest two two cross_solution /\ takes_time two two cross_solution.
  Proof.
    destruct cross_instance as (H1 & H2 & H3 & H4 & _ & _ & H7). do 5 (split; [done|]).
    split; [apply elem_pair; vm_compute; by split|]. split; [apply elem_pair; vm_compute; by split|].
    split; [apply cross_solves|]. split; [apply cross_modest|apply cross_takes_time].
  Qed.
End C51_example.

(** ** C52.  Plans are solutions *)
(** every plan within the day is a solution with the same routes and times *)
Theorem C52_complete_partial `{W : World} : forall vs ts odd tours, vs <> [] -> NoDup ts -> one_depot vs -> finite vs ts -> moving ts ->
  direct vs ts -> roomy vs ts ->
  (forall t, t ∈ ts -> 0 <= origin_duration (w_trip t) <= destination_duration (w_trip t)) ->
  plan vs ts tours -> within_day vs tours ->
  exists a, solves vs ts odd a /\ forall k v xs, vs !! k = Some v -> tours !! k = Some xs -> follows vs ts a k v xs.
Proof. exact c52_complete. Qed.
Print Assumptions C52_complete_partial.
Theorem C52_direct `{W : World} : forall vs ts, w_metric = Manhattan -> one_space vs ts -> direct vs ts.
Proof. exact c52_manhattan. Qed.
Print Assumptions C52_direct.
(** one vehicle too small for one trip, or not at the first vehicle's depot, and
    the model has no solution at all *)
Theorem C52_refuted : exists (W : World) vs ts tours, NoDup ts /\ one_depot vs /\ finite vs ts /\ moving ts /\ direct vs ts /\
  (forall t, t ∈ ts -> 0 <= origin_duration (w_trip t) <= destination_duration (w_trip t)) /\
  plan vs ts tours /\ within_day vs tours /\ forall odd a, ~ solves vs ts odd a.
Proof. exact c52_small. Qed.
Print Assumptions C52_refuted.
Theorem C52_depots_refuted : exists (W : World) vs ts tours, NoDup ts /\ finite vs ts /\ moving ts /\ roomy vs ts /\
  (forall v, v ∈ vs -> direct [v] ts) /\
  (forall t, t ∈ ts -> 0 <= origin_duration (w_trip t) <= destination_duration (w_trip t)) /\
  plan vs ts tours /\ within_day vs tours /\ forall odd a, ~ solves vs ts odd a.
Proof. exact c52_depots. Qed.
Print Assumptions C52_depots_refuted.

Section C52_example.
  #[local] Existing Instance cross_world.
  Notation two := [0; 1]%nat.
  Example C52_case : NoDup two /\ one_depot two /\ finite two two /\ moving two /\ direct two two /\ roomy two two /\
    (forall t, t ∈ two -> 0 <= origin_duration (w_trip t) <= destination_duration (w_trip t)) /\
    plan two two [shuttle 0 0; shuttle 1 1] /\ within_day two [shuttle 0 0; shuttle 1 1] /\
    w_metric = Manhattan /\ one_space two two.
  Proof.
    destruct cross_instance as (H1 & H2 & H3 & H4 & H5 & H6 & H7). do 6 (split; [done|]).
    split; [apply elem_pair; vm_compute; by split|]. split; [apply cross_plan|]. split; [apply cross_day|]. done.
  Qed.
End C52_example.

(** ** C53.  The objective *)
(** it is the length of the tours, where staying costs 10000 units *)
Theorem C53_total `{W : World} : forall vs ts odd a tours, one_depot vs -> finite vs ts -> moving ts -> solves vs ts odd a -> plan vs ts tours ->
  (forall k v xs, vs !! k = Some v -> tours !! k = Some xs -> follows vs ts a k v xs) ->
  (objective_value vs ts a == inject_Z (fleet_way toll tours))%Q.
Proof. exact c53_total. Qed.
Print Assumptions C53_total.
(** hence the distance if it is below 10000 units *)
Theorem C53_distance_partial `{W : World} : forall vs ts odd a tours, one_depot vs -> finite vs ts -> moving ts -> solves vs ts odd a -> plan vs ts tours ->
  (forall k v xs, vs !! k = Some v -> tours !! k = Some xs -> follows vs ts a k v xs) ->
  (objective_value vs ts a < inject_Z (10000 * (1000 * eb)))%Q ->
  (objective_value vs ts a == inject_Z (fleet_way dist tours))%Q.
Proof. exact c53_distance. Qed.
Print Assumptions C53_distance_partial.
(** which an idle vehicle prevents *)
Theorem C53_refuted : exists (W : World) vs ts odd a tours, one_depot vs /\ finite vs ts /\ moving ts /\ solves vs ts odd a /\ plan vs ts tours /\
  (forall k v xs, vs !! k = Some v -> tours !! k = Some xs -> follows vs ts a k v xs) /\
  ~ (objective_value vs ts a == inject_Z (fleet_way dist tours))%Q.
Proof. exact c53_idle. Qed.
Print Assumptions C53_refuted.

Section C53_example.
  #[local] Existing Instance cross_world.
  Notation two := [0; 1]%nat.
  Example C53_case : exists tours, one_depot two /\ finite two two /\ moving two /\ solves two two (fun _ _ _ => false) cross_solution /\
    plan two two tours /\ (forall k v xs, two !! k = Some v -> tours !! k = Some xs -> follows two two cross_solution k v xs) /\
    (objective_value two two cross_solution == 12000 # 1)%Q /\ (objective_value two two cross_solution < inject_Z (10000 * (1000 * eb)))%Q.
  Proof.
    destruct C51_case as (H1 & H2 & H3 & H4 & H5 & H6 & H7 & H8 & H9 & H10).
    destruct (c51_sound _ _ _ _ H1 H2 H3 H4 H6 H7 H8 H10) as (tours & Hp & _ & Hf). exists tours. do 6 (split; [done|]). by vm_compute.
  Qed.
End C53_example.

(** ** C54.  Optimal solutions *)
(** an optimal solution with a small objective stands for a best plan *)
Theorem C54_optimal_partial `{W : World} : forall vs ts odd a, NoDup ts -> one_depot vs -> finite vs ts -> moving ts ->
  direct vs ts -> roomy vs ts -> one_space vs ts ->
  (forall t, t ∈ ts -> origin_duration (w_trip t) = destination_duration (w_trip t) /\ 0 <= origin_duration (w_trip t)) ->
  (forall v, v ∈ vs -> v_origin_earliest v <= 0 /\ below day (v_destination_latest v)) ->
  optimal vs ts odd a -> modest vs ts a ->
  exists tours, plan vs ts tours /\ within_day vs tours /\ (forall k v xs, vs !! k = Some v -> tours !! k = Some xs -> follows vs ts a k v xs) /\
    forall tours', plan vs ts tours' -> within_day vs tours' -> fleet_way toll tours <= fleet_way toll tours'.
Proof. exact c54_optimal. Qed.
Print Assumptions C54_optimal_partial.
(** in general there may be an optimal solution although there is no plan at
    all *)
Theorem C54_refuted : exists (W : World) vs ts odd a, NoDup ts /\ one_depot vs /\ finite vs ts /\ moving ts /\ direct vs ts /\ roomy vs ts /\ one_space vs ts /\
  (forall t, t ∈ ts -> origin_duration (w_trip t) = destination_duration (w_trip t) /\ 0 <= origin_duration (w_trip t)) /\
  (forall v, v ∈ vs -> v_origin_earliest v <= 0 /\ below day (v_destination_latest v)) /\
  optimal vs ts odd a /\ ~ exists tours, plan vs ts tours.
Proof. exact c54_refuted. Qed.
Print Assumptions C54_refuted.
(** and even with a small objective the plan need not be the shortest: leaving a
    vehicle at the depot costs 10000 *)
Theorem C54_idle_refuted : exists (W : World) vs ts odd a tours, NoDup ts /\ one_depot vs /\ finite vs ts /\ moving ts /\ direct vs ts /\ roomy vs ts /\ one_space vs ts /\
  (forall t, t ∈ ts -> origin_duration (w_trip t) = destination_duration (w_trip t) /\ 0 <= origin_duration (w_trip t)) /\
  (forall v, v ∈ vs -> v_origin_earliest v <= 0 /\ below day (v_destination_latest v)) /\
  optimal vs ts odd a /\ modest vs ts a /\ plan vs ts tours /\ within_day vs tours /\
  (inject_Z (fleet_way dist tours) < objective_value vs ts a)%Q /\
  forall tours', plan vs ts tours' -> (forall k v xs, vs !! k = Some v -> tours' !! k = Some xs -> follows vs ts a k v xs) ->
    fleet_way dist tours < fleet_way dist tours'.
Proof. exact c54_idle. Qed.
Print Assumptions C54_idle_refuted.

Section C54_example.
  #[local] Existing Instance line_world.
  Notation one := [0%nat].
  Example C54_case : NoDup one /\ one_depot one /\ finite one one /\ moving one /\ direct one one /\ roomy one one /\ one_space one one /\
    (forall t, t ∈ one -> origin_duration (w_trip t) = destination_duration (w_trip t) /\ 0 <= origin_duration (w_trip t)) /\
    (forall v, v ∈ one -> v_origin_earliest v <= 0 /\ below day (v_destination_latest v)) /\
    optimal one one (fun _ _ _ => false) line_solution /\ modest one one line_solution.
  Proof.
    destruct line_instance as (H1 & H2 & H3 & H4 & H5 & H6 & H7). do 7 (split; [done|]).
    split; [apply elem_lone; vm_compute; by split|]. split; [apply elem_lone; vm_compute; by split|].
    split; [apply line_optimal|apply line_modest].
  Qed.
End C54_example.
