(** HashCode files whose submissions are worth more or less than reported. *)
From Verif Require Export SpecSubmission WitnessLoad WitnessFile Meta Checker.

(** One vehicle.  The first ride, from (2,0), begins at step 10 at the earliest,
    so the departure is put off to step 8; then the second ride, from (1,0) at
    step 3, is put before it. *)
Definition delayed_lines : list string := ["9 9 1 2 2 100"; "2 0 3 0 10 40"; "1 0 1 1 3 9"]%string.
Definition delayed_case : hash_code := HashCodeFile 9000 9000 1 2000 100000
  [RideLine 2000 0 3000 0 10000 40000; RideLine 1000 0 1000 1000 3000 9000].
Definition delayed_file : table := hash_code_file (unit_of 1) delayed_case.
Definition delayed_vehicles : list vehicle := Eval vm_compute in loaded (hashcode_fleet 1 delayed_file) hashcode_surface.
Definition delayed_trips : list trip := Eval vm_compute in loaded (hashcode_job 1 delayed_file) hashcode_surface.
Definition delayed_world : World := world_of 1 Manhattan delayed_vehicles delayed_trips.
Section delayed.
  #[local] Existing Instance delayed_world.
  Definition score_config : insertion_config := MkInsertionConfig Intensive true HashCodeCriterion None 1.
  Definition delayed_result := Eval vm_compute in insertion_optimize score_config [0%nat] [0; 1]%nat None empty_heap.
  Definition delayed_heap : heap := Eval vm_compute in snd delayed_result.
  Definition delayed_routes : list nat := Eval vm_compute in match fst delayed_result with Ok pl => pl | _ => [] end.
  (** in the order of the earliest return everything is on time *)
  Definition early_config : insertion_config := MkInsertionConfig Tail true EarliestLastDeparture None 1.
  Definition early_result := Eval vm_compute in insertion_optimize early_config [0%nat] [0; 1]%nat None empty_heap.
  Definition early_heap : heap := Eval vm_compute in snd early_result.
  Definition early_routes : list nat := Eval vm_compute in match fst early_result with Ok pl => pl | _ => [] end.
End delayed.

(** [ride_case]: the only ride is finished one step too late *)
Definition late_lines : list string := ["10 10 1 1 2 100"; "1 0 5 0 0 4"]%string.
Section late.
  #[local] Existing Instance ride_world.
  Definition late_result := Eval vm_compute in insertion_optimize early_config [0%nat] [0%nat] None empty_heap.
  Definition late_heap : heap := Eval vm_compute in snd late_result.
  Definition late_routes : list nat := Eval vm_compute in match fst late_result with Ok pl => pl | _ => [] end.
End late.
