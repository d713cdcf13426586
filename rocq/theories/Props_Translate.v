(** C55: how solutions of the three-index model become routes. *)
From Verif Require Import SpecDarp SpecTranslate Choices DarpTheorems WitnessDarp TranslateTheorems.

(** ** C55.  The routes of a solution *)
(** if no place is used twice, the routes drive the plan of the solution *)
Theorem C55_routes_partial `{W : World} : forall vs ts odd a h, NoDup ts -> one_depot vs -> one_space vs ts -> apart vs ts -> finite vs ts ->
  (forall t, t ∈ ts -> 0 <= destination_duration (w_trip t) <= origin_duration (w_trip t)) ->
  (forall v, v ∈ vs -> v_origin_earliest v <= 0 /\ below day (v_destination_latest v)) ->
  solves vs ts odd a -> takes_time vs ts a ->
  exists rs tours h', milp_optimize vs ts a h = (Ok rs, h') /\ untouched h h' /\ drives h' vs rs tours /\
    plan vs ts tours /\ within_day vs tours /\ forall k v xs, vs !! k = Some v -> tours !! k = Some xs -> follows vs ts a k v xs.
Proof. exact c55_routes. Qed.
Print Assumptions C55_routes_partial.
(** so they are a planning of the whole job *)
Theorem C55_valid_partial `{W : World} : forall vs ts odd a h, NoDup vs -> NoDup ts -> one_depot vs -> one_space vs ts -> apart vs ts -> finite vs ts ->
  (forall t, t ∈ ts -> 0 <= destination_duration (w_trip t) <= origin_duration (w_trip t)) ->
  (forall v, v ∈ vs -> v_origin_earliest v <= 0 /\ below day (v_destination_latest v)) ->
  solves vs ts odd a -> takes_time vs ts a ->
  exists rs h', milp_optimize vs ts a h = (Ok rs, h') /\ valid_planning h' vs ts rs /\ serves_all h' rs ts.
Proof. exact c55_valid. Qed.
Print Assumptions C55_valid_partial.
(** all of it feasible *)
Theorem C55_feasible_partial `{W : World} : forall vs ts odd a h, sane -> NoDup ts -> one_depot vs -> one_space vs ts -> apart vs ts -> finite vs ts ->
  (forall t, t ∈ ts -> 0 <= destination_duration (w_trip t) <= origin_duration (w_trip t)) ->
  (forall v, v ∈ vs -> v_origin_earliest v <= 0 /\ below day (v_destination_latest v)) ->
  solves vs ts odd a -> takes_time vs ts a ->
  exists rs h', milp_optimize vs ts a h = (Ok rs, h') /\ forall r, r ∈ rs -> exists h'', route_feasible r h' = (Ok true, h'').
Proof. exact c55_feasible. Qed.
Print Assumptions C55_feasible_partial.
(** and the shortest, if the solution is optimal *)
Theorem C55_optimal_partial `{W : World} : forall vs ts odd a h, NoDup ts -> one_depot vs -> one_space vs ts -> apart vs ts -> finite vs ts ->
  direct vs ts -> roomy vs ts ->
  (forall t, t ∈ ts -> origin_duration (w_trip t) = destination_duration (w_trip t) /\ 0 <= origin_duration (w_trip t)) ->
  (forall v, v ∈ vs -> v_origin_earliest v <= 0 /\ below day (v_destination_latest v)) ->
  optimal vs ts odd a -> modest vs ts a ->
  exists rs tours h', milp_optimize vs ts a h = (Ok rs, h') /\ drives h' vs rs tours /\ plan vs ts tours /\ within_day vs tours /\
    forall tours', plan vs ts tours' -> within_day vs tours' -> fleet_way toll tours <= fleet_way toll tours'.
Proof. exact c55_optimal. Qed.
Print Assumptions C55_optimal_partial.
(** two trips from the same place: one is lost *)
Theorem C55_refuted : exists (W : World) vs ts odd a rs h', NoDup vs /\ NoDup ts /\ one_depot vs /\ one_space vs ts /\ finite vs ts /\ moving ts /\ direct vs ts /\ roomy vs ts /\
  (forall t, t ∈ ts -> origin_duration (w_trip t) = destination_duration (w_trip t) /\ 0 <= origin_duration (w_trip t)) /\
  (forall v, v ∈ vs -> v_origin_earliest v <= 0 /\ below day (v_destination_latest v)) /\
  solves vs ts odd a /\ modest vs ts a /\ (exists tours, plan vs ts tours /\ within_day vs tours) /\
  milp_optimize vs ts a empty_heap = (Ok rs, h') /\ ~ serves_all h' rs ts.
Proof. exact c55_shared. Qed.
Print Assumptions C55_refuted.
(** a trip to the depot is delivered before it is picked up *)
Theorem C55_home_refuted : exists (W : World) vs ts odd a rs h', NoDup vs /\ NoDup ts /\ one_depot vs /\ one_space vs ts /\ finite vs ts /\ moving ts /\ direct vs ts /\ roomy vs ts /\
  (forall t, t ∈ ts -> origin_duration (w_trip t) = destination_duration (w_trip t) /\ 0 <= origin_duration (w_trip t)) /\
  (forall v, v ∈ vs -> v_origin_earliest v <= 0 /\ below day (v_destination_latest v)) /\
  NoDup (map (fun t => origin_position (w_trip t)) ts ++ map (fun t => destination_position (w_trip t)) ts) /\
  solves vs ts odd a /\ modest vs ts a /\ (exists tours, plan vs ts tours /\ within_day vs tours) /\
  milp_optimize vs ts a empty_heap = (Ok rs, h') /\ forall r v B, r ∈ rs -> ~ route_serves h' r v B.
Proof. exact c55_home. Qed.
Print Assumptions C55_home_refuted.

Section C55_example.
  #[local] Existing Instance cross_world.
  Notation two := [0; 1]%nat.
  Example C55_case : sane /\ NoDup two /\ one_depot two /\ one_space two two /\ apart two two /\ finite two two /\
    (forall t, t ∈ two -> 0 <= destination_duration (w_trip t) <= origin_duration (w_trip t)) /\
    (forall v, v ∈ two -> v_origin_earliest v <= 0 /\ below day (v_destination_latest v)) /\
    solves two two (fun _ _ _ => false) cross_solution /\ takes_time two two cross_solution /\
    exists h', milp_optimize two two cross_solution empty_heap = (Ok [0; 1]%nat, h').
  Proof.
    destruct cross_instance as (H1 & H2 & H3 & _ & _ & _ & H7).
    split; [split|]; [intros [|[|[|]]]; vm_compute; by split|intros [|[|[|]]]; by vm_compute|].
    do 3 (split; [done|]). split.
    { refine (elem_pair _ _ _); refine (proj1 (bool_decide_eq_true _) _); by vm_compute. }
    split; [done|]. split; [apply elem_pair; vm_compute; by split|]. split; [apply elem_pair; vm_compute; by split|].
    split; [apply cross_solves|]. split; [apply cross_takes_time|]. eexists. vm_compute. done.
  Qed.
End C55_example.

Section C55_optimal_example.
  #[local] Existing Instance line_world.
  Notation one := [0%nat].
  Example C55_optimal_case : NoDup one /\ one_depot one /\ one_space one one /\ apart one one /\ finite one one /\ direct one one /\ roomy one one /\
    (forall t, t ∈ one -> origin_duration (w_trip t) = destination_duration (w_trip t) /\ 0 <= origin_duration (w_trip t)) /\
    (forall v, v ∈ one -> v_origin_earliest v <= 0 /\ below day (v_destination_latest v)) /\
    optimal one one (fun _ _ _ => false) line_solution /\ modest one one line_solution.
  Proof.
    destruct line_instance as (H1 & H2 & H3 & H4 & H5 & H6 & H7). do 3 (split; [done|]). split.
    { refine (elem_lone _ _); refine (proj1 (bool_decide_eq_true _) _); by vm_compute. }
    do 3 (split; [done|]). split; [apply elem_lone; vm_compute; by split|]. split; [apply elem_lone; vm_compute; by split|].
    split; [apply line_optimal|apply line_modest].
  Qed.
End C55_optimal_example.
