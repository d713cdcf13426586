(** A planning that loses by the improving stage of GRASP. *)
From Verif Require Export WitnessWarm Meta.

Definition gain_after : heap := Eval vm_compute in
  snd (iterative_optimize (W := bonus_world) HashCode
    (default_sequential (W := bonus_world) 5 HashCode (warm_config HashCodeCriterion) [0%nat] [0%nat; 1%nat]) false 3 (Some [1%nat]) bonus_before).
Definition ride_after : heap := Eval vm_compute in
  snd (iterative_optimize (W := bonus_world) DialARide
    (default_sequential (W := bonus_world) 5 DialARide (warm_config HashCodeCriterion) [0%nat] [0%nat; 1%nat]) false 3 (Some [1%nat]) bonus_before).
Definition grasp_after : heap := Eval vm_compute in
  snd (grasp_optimize (W := bonus_world) 3 DialARide (warm_config EarliestLastDeparture) [0%nat] [0%nat; 1%nat] 1 1 empty_heap).
