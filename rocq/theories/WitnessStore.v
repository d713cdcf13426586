(** A vehicle that carries a parcel without capacity. *)
From Verif Require Export Storers SpecStore WitnessLoad.

Definition parcel : trip :=
  Trip "7" (Service [1000; 0] 0 Inf 0) (Service [2000; 0] 0 Inf 0) 0 0 Inf.
Definition rider (name : string) : trip :=
  Trip name (Service [1000; 1000] 0 Inf 0) (Service [2000; 0] 0 Inf 0) 1000 0 Inf.
Definition van : vehicle := Vehicle "0" (Service [0; 0] 0 Inf 0) None (Lim 3000) Inf.
Definition post : World := world_of 1 Manhattan [van; van] [parcel; rider "12"; rider "5"].
Section post.
  #[local] Existing Instance post.
  (** routes 2 (one parcel) and 6 (two riders) *)
  Definition post_town : heap := Eval vm_compute in after
    (let! r0 := new_route 0 in let! r1 := compute_one r0 0 0 1 in let! r2 := route_clone r1 0 in
     let! r3 := new_route 1 in let! r4 := compute_one r3 1 0 1 in let! r5 := compute_one r4 2 1 2 in
     route_clone r5 0) empty_heap.
  Definition post_stops (r : nat) : list nat := Eval vm_compute in stops_in post_town r.
  Definition post_visits (r : nat) : list visit := Eval vm_compute in visits_of post_town r.
End post.
