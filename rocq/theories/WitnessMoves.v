(** States for the examples about moves. *)
From Verif Require Export WitnessSearch.

Section loop.
  #[local] Existing Instance loop.
  (** route 2 of vehicle 1 serves trips 3 and 4, route 4 of vehicle 0 serves
      trip 1 and passes by *)
  Definition shared_loop : heap := Eval vm_compute in after
    (let! r0 := new_route 1 in
     let! r1 := compute_one r0 3 0 1 in
     let! r2 := compute_one r1 4 1 3 in
     let! r3 := new_route 0 in
     compute_one r3 1 0 1) empty_heap.
  Definition handed_loop : heap := Eval vm_compute in
    after (local_search_optimize 5 Reallocation DialARide 1 [2; 4]%nat) shared_loop.
End loop.
