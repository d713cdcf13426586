(** Plannings that lose by a warm start. *)
From Verif Require Export Witness WitnessValues WitnessLoad Insertion Searches Checker.

(** Trip 0 goes from 10 to 20 and has a bonus of 50 when it begins at 10; trip 1
    goes from -2 to -1 and cannot begin after 5. *)
Definition bonus_world : World := world_of 1 Manhattan
  [Vehicle "v" (at_ 0 0 Inf 0) None (Lim 4000) Inf]
  [Trip "a" (at_ 10 10000 (Lim 100000) 0) (at_ 20 0 Inf 0) 1000 50000 Inf;
   Trip "b" (at_ (-2) 0 (Lim 5000) 0) (at_ (-1) 0 Inf 0) 1000 0 Inf].
(** Trip 0 goes from 10 to 20, where it waits until 100; trip 1 goes from 5 to
    22, which opens at 100, and takes no longer than 40. *)
Definition shared_world : World := world_of 1 Manhattan
  [Vehicle "v" (at_ 0 0 Inf 0) None (Lim 4000) Inf]
  [Trip "a" (at_ 10 0 (Lim 300000) 0) (at_ 20 100000 Inf 0) 1000 0 Inf;
   Trip "b" (at_ 5 0 (Lim 300000) 0) (at_ 22 100000 Inf 0) 1000 0 (Lim 40000)].
Definition warm_config (k : criterion) : insertion_config := MkInsertionConfig Intensive true k None 1.
Definition bonus_before : heap := Eval vm_compute in
  snd (insertion_optimize (W := bonus_world) (warm_config HashCodeCriterion) [0%nat] [0%nat] None empty_heap).
Definition bonus_after : heap := Eval vm_compute in
  snd (insertion_optimize (W := bonus_world) (warm_config HashCodeCriterion) [0%nat] [1%nat] (Some [1%nat]) bonus_before).
Definition shared_before : heap := Eval vm_compute in
  snd (insertion_optimize (W := shared_world) (warm_config EarliestLastDeparture) [0%nat] [0%nat] None empty_heap).
Definition shared_after : heap := Eval vm_compute in
  snd (insertion_optimize (W := shared_world) (warm_config EarliestLastDeparture) [0%nat] [1%nat] (Some [1%nat]) shared_before).
