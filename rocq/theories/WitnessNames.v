(** A trip whose identifier contains brackets. *)
From Verif Require Export WitnessLoad SpecNames.

(** trip 0 is called "1]|[" and trip 1 is called "1"; both go from 1 to 2 *)
Definition odd_trips : list trip :=
  [Trip "1]|[" (at_ 1 0 Inf 0) (at_ 2 0 Inf 0) 1000 0 Inf; Trip "1" (at_ 1 0 Inf 0) (at_ 2 0 Inf 0) 1000 0 Inf].
Definition odd_world : World := world_of 1 Manhattan [Vehicle "v" (at_ 0 0 Inf 0) None Inf Inf] odd_trips.
Section odd.
  #[local] Existing Instance odd_world.
  (** route 1 serves trip 0; route 2 serves trip 1 and also stops at 1.5 and at
      1, for nobody *)
  Definition odd_heap : heap := Eval vm_compute in after
    (let! r0 := new_route 0 in let! r1 := compute_one r0 0 0 1 in
     let! r2 := compute_one r0 1 0 1 in
     let! ss := route_stops r2 in
     let! p := py_nth ss 1 in
     let! s := new_stop 0 [1500] (Some p) None in
     insert_stop r2 s ;;;
     let! ss := route_stops r2 in
     let! q := py_nth ss 3 in
     let! s := new_stop 0 [1000] (Some q) None in
     insert_stop r2 s) empty_heap.
End odd.
