(** Two passengers share a vehicle; the first one may not arrive before 100.
    Who may ride for 20 is picked up at 80, who may ride for 100 at 0. *)
From Verif Require Export SpecEase WitnessLoad.

Definition share_vehicle : vehicle := Vehicle "0" (Service [0] 0 Inf 0) None Inf Inf.
Definition share_trip (longest : Z) : trip := Trip "0" (Service [0] 0 Inf 0) (Service [2000] 100000 Inf 0) 1000 0 (Lim longest).
Definition share_other : trip := Trip "1" (Service [1000] 0 Inf 0) (Service [3000] 0 Inf 0) 1000 0 (Lim 25000).
Definition share_world : World := world_of 1 Manhattan [share_vehicle] [share_trip 20000; share_other].
Definition patient_world : World := world_of 1 Manhattan [share_vehicle] [share_trip 100000; share_other].
Definition share_visits : list visit :=
  [Visit [0] [] [] None; Visit [0] [0%nat] [] None; Visit [1000] [1%nat] [] None;
   Visit [2000] [] [0%nat] None; Visit [3000] [] [1%nat] None; Visit [0] [] [] None].
(** longer windows and a limit for vehicles that are not needed *)
Definition tight_world : World := world_of 1 Manhattan [Vehicle "0" (Service [0] 0 Inf 0) None (Lim 2000) (Lim 110000)]
  [Trip "0" (Service [0] 0 (Lim 90000) 0) (Service [2000] 100000 (Lim 101000) 0) 1000 0 (Lim 20000); share_other].
Definition tight_heap : heap := Eval vm_compute in after
  (let! r0 := @new_route tight_world 0 in let! r1 := @compute_one tight_world r0 1 0 1 in @route_clone tight_world r1 0) empty_heap.
Definition loose_heap : heap := Eval vm_compute in after
  (let! r0 := @new_route share_world 0 in let! r1 := @compute_one share_world r0 1 0 1 in @route_clone share_world r1 0) empty_heap.
