(** A depot with hours and work to do. *)
From Verif Require Export SpecHours Witness WitnessLoad Checker.

(** The vehicle has to leave between 0 and 10 after 5 units of work, and to be
    back between 500 and 1000 ([depot_hours true]), or between 0 and 62 with
    another 5 units of work to do ([depot_hours false]).  Trip 0 goes from 20 to
    30 from 100 on, trip 1 at any time. *)
Definition depot_hours (t : bool) : World := world_of 1 Manhattan
  [Vehicle "v" (at_ 0 0 (Lim 10000) 5000) (Some (if t then at_ 0 500000 (Lim 1000000) 0 else at_ 0 0 (Lim 62000) 5000)) (Lim 4000) Inf]
  [Trip "a" (at_ 20 100000 (Lim 110000) 0) (at_ 30 0 Inf 0) 1000 0 Inf; Trip "b" (at_ 20 0 Inf 0) (at_ 30 0 Inf 0) 1000 0 Inf].
Definition hours_config : insertion_config := MkInsertionConfig Intensive true EarliestLastDeparture None 1.
Definition hours_heap (t : bool) (job : list nat) : heap := snd (insertion_optimize (W := depot_hours t) hours_config [0%nat] job None empty_heap).
Definition waiting_heap : heap := Eval vm_compute in hours_heap true [0%nat].
Definition hasty_heap : heap := Eval vm_compute in hours_heap false [1%nat].
