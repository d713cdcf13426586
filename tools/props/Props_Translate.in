(** C55: how solutions of the three-index model become routes. *)
From Verif Require Import SpecDarp SpecTranslate Choices DarpTheorems WitnessDarp TranslateTheorems.

(** ** C55.  The routes of a solution *)
(** if no place is used twice, the routes drive the plan of the solution *)
@C55_routes_partial c55_routes
(** so they are a planning of the whole job *)
@C55_valid_partial c55_valid
(** all of it feasible *)
@C55_feasible_partial c55_feasible
(** and the shortest, if the solution is optimal *)
@C55_optimal_partial c55_optimal
(** two trips from the same place: one is lost *)
@C55_refuted c55_shared
(** a trip to the depot is delivered before it is picked up *)
@C55_home_refuted c55_home

Section C55_example.
  #[local] Existing Instance cross_world.
  Notation two := [0; 1]%nat.
  Example C55_case : sane /\ NoDup two /\ one_depot two /\ one_space two two /\ apart two two /\ finite two two /\
    (forall t, t ∈ two -> 0 <= destination_duration (w_trip t) <= origin_duration (w_trip t)) /\
    (forall v, v ∈ two -> v_origin_earliest v <= 0 /\ below day (v_destination_latest v)) /\
    solves two two (fun _ _ _ => false) cross_solution /\ takes_time two two cross_solution /\
    exists h', milp_optimize two two cross_solution empty_heap = (Ok [0; 1]%nat, h').
  Proof.
    destruct cross_instance as (H1 & H2 & H3 & _ & _ & _ & H7).
    split; [split|]; [intros [|[|[|]]]; vm_compute; by split|intros [|[|[|]]]; by vm_compute|].
    do 3 (split; [done|]). split.
    { refine (elem_pair _ _ _); refine (proj1 (bool_decide_eq_true _) _); by vm_compute. }
    split; [done|]. split; [apply elem_pair; vm_compute; by split|]. split; [apply elem_pair; vm_compute; by split|].
    split; [apply cross_solves|]. split; [apply cross_takes_time|]. eexists. vm_compute. done.
  Qed.
End C55_example.

Section C55_optimal_example.
  #[local] Existing Instance line_world.
  Notation one := [0%nat].
  Example C55_optimal_case : NoDup one /\ one_depot one /\ one_space one one /\ apart one one /\ finite one one /\ direct one one /\ roomy one one /\
    (forall t, t ∈ one -> origin_duration (w_trip t) = destination_duration (w_trip t) /\ 0 <= origin_duration (w_trip t)) /\
    (forall v, v ∈ one -> v_origin_earliest v <= 0 /\ below day (v_destination_latest v)) /\
    optimal one one (fun _ _ _ => false) line_solution /\ modest one one line_solution.
  Proof.
    destruct line_instance as (H1 & H2 & H3 & H4 & H5 & H6 & H7). do 3 (split; [done|]). split.
    { refine (elem_lone _ _); refine (proj1 (bool_decide_eq_true _) _); by vm_compute. }
    do 3 (split; [done|]). split; [apply elem_lone; vm_compute; by split|]. split; [apply elem_lone; vm_compute; by split|].
    split; [apply line_optimal|apply line_modest].
  Qed.
End C55_optimal_example.
