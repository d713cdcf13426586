(** States for the examples about local search. *)
From Verif Require Export Witness WitnessValues Meta.

(** Trips 0-2 go right, crossing each other; trip 3 goes from 1 to -1 and trip
    4 from 2 to 3.  Vehicle 0 ends its tour at 40, the others return to 0. *)
Definition loop_trip (t : nat) : trip :=
  match t with
  | 0%nat => Trip "a" (at_ 3 0 Inf 0) (at_ 30 0 Inf 0) 1000 0 Inf
  | 1%nat => Trip "b" (at_ 1 0 Inf 0) (at_ 20 0 Inf 0) 1000 0 Inf
  | 2%nat => Trip "c" (at_ 2 0 Inf 0) (at_ 10 0 Inf 0) 1000 0 Inf
  | 3%nat => Trip "d" (at_ 1 0 Inf 0) (at_ (-1) 0 Inf 0) 1000 0 Inf
  | _ => Trip "e" (at_ 2 0 Inf 0) (at_ 3 0 Inf 0) 1000 0 Inf
  end.
Definition loop_vehicle (v : nat) : vehicle :=
  match v with
  | 0%nat => Vehicle "u" (at_ 0 0 Inf 0) (Some (at_ 40 0 Inf 0)) (Lim 3000) Inf
  | _ => Vehicle "v" (at_ 0 0 Inf 0) None (Lim 3000) Inf
  end.
Definition loop : World.
Proof.
  refine (mk_world 1 Manhattan loop_trip loop_vehicle (fun _ l => l) _ (fun _ _ => 0%nat) _ (fun _ _ _ => []) _ _).
  - reflexivity.
  - intros; lia.
  - intros ????? H; inversion H.
  - intros; constructor.
Defined.

Section loop.
  #[local] Existing Instance loop.
  Lemma loop_sane : sane.
  Proof. split; intros [|[|[|[|t]]]]; vm_compute; try split; congruence. Qed.

  (** route 3 serves trips 0, 1, 2 in an order with detours *)
  Definition first_loop : heap := Eval vm_compute in after (new_route 0) empty_heap.
  Definition second_loop : heap := Eval vm_compute in after (compute_one 0 0 0 1) first_loop.
  Definition third_loop : heap := Eval vm_compute in after (compute_one 1 1 1 3) second_loop.
  Definition detour_loop : heap := Eval vm_compute in after (compute_one 2 2 2 5) third_loop.
  Definition twice_loop : heap := Eval vm_compute in after (ls_improve TwoOpt DialARide [3%nat]) detour_loop.
  (** route 2 serves trips 3 and 4 *)
  Definition home_loop : heap := Eval vm_compute in after
    (let! r0 := new_route 1 in
     let! r1 := compute_one r0 3 0 1 in
     let! r2 := compute_one r1 4 1 2 in ret r2) empty_heap.
  (** a copy of route 2 whose feasibility was never asked *)
  Definition fresh_loop : heap := Eval vm_compute in after (route_clone 2 0) home_loop.
  Definition away_loop : heap := Eval vm_compute in after (ls_improve OneShift DialARide [2%nat]) home_loop.

  (** route 1 of vehicle 1 serves trip 0, route 3 of vehicle 0 serves trip 1 *)
  Definition split_loop : heap := Eval vm_compute in after
    (let! r0 := new_route 1 in
     let! r1 := compute_one r0 0 0 1 in
     let! r2 := new_route 0 in
     compute_one r2 1 0 1) empty_heap.
  Definition joined_loop : heap := Eval vm_compute in
    after (local_search_optimize 5 Reallocation DialARide 1 [1; 3]%nat) split_loop.
  Definition loop_config : insertion_config := MkInsertionConfig Tail true EarliestLastDeparture None 1.
  Definition served_loop : heap := Eval vm_compute in
    after (iterative_optimize DialARide (insertion_algorithm loop_config [0; 1]%nat [0; 1]%nat) true 2 None) empty_heap.
End loop.
