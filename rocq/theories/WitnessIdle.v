(** Runs of the insertion algorithm that leave a trip over although a vehicle
    could take it. *)
From Verif Require Export Witness.

Section idle.
  #[local] Existing Instance town.

  Definition all_pairs_config : insertion_config := MkInsertionConfig Intensive true EarliestLastDeparture None 1.

  (** vehicle 1 is tried first and is too late for trip 1 *)
  Definition left_routes : list nat := Eval vm_compute in
    match fst (insertion_optimize all_pairs_config [1; 0]%nat [1]%nat None empty_heap) with Ok l => l | Raise _ => [] end.
  Definition left_town : heap := Eval vm_compute in
    after (insertion_optimize all_pairs_config [1; 0]%nat [1]%nat None) empty_heap.
  (** trip 1 on vehicle 0's route *)
  Definition taken_town : heap := Eval vm_compute in after (compute true 1 [1]%nat 0 1) left_town.
  Definition taken_stops : list nat := Eval vm_compute in stops_in taken_town 3.
  Definition taken_visits : list visit := Eval vm_compute in visits_of taken_town 3.

  (** vehicle 1 serves trip 2, vehicle 0 nothing *)
  Definition partly_town : heap := Eval vm_compute in after
    (let! r0 := new_route 0 in let! r1 := new_route 1 in compute_one r1 2 0 1) empty_heap.
  Definition partly_routes : list nat := [0; 2]%nat.
  (** the algorithm gives trip 3 to vehicle 1 and leaves trip 1 over *)
  Definition partly_result : list nat := Eval vm_compute in
    match fst (insertion_optimize all_pairs_config [0; 1]%nat [1; 3]%nat (Some partly_routes) partly_town) with Ok l => l | Raise _ => [] end.
  Definition partly_end : heap := Eval vm_compute in
    after (insertion_optimize all_pairs_config [0; 1]%nat [1; 3]%nat (Some partly_routes)) partly_town.
  Definition spare : nat := Eval vm_compute in hd 0%nat partly_result.
  Definition used : nat := Eval vm_compute in nth 1 partly_result 0%nat.
  Definition spare_taken : nat := Eval vm_compute in
    match fst (compute true spare [1]%nat 0 1 partly_end) with Ok (r :: _) => r | _ => 0%nat end.
  Definition partly_taken : heap := Eval vm_compute in after (compute true spare [1]%nat 0 1) partly_end.
End idle.
