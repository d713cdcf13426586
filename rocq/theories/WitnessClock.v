(** A passenger who can be served only if the vehicle leaves late, today and
    a hundred hours later. *)
From Verif Require Export SpecClock WitnessLoad.

Definition bell_vehicle : vehicle := Vehicle "0" (Service [0] 0 Inf 0) None (Lim 1000) (Lim 5000).
Definition bell_trip : trip := Trip "0" (Service [1000] 10000 (Lim 20000) 0) (Service [2000] 0 Inf 0) 1000 0 Inf.
Definition bell_world : World := world_of 1 Manhattan [bell_vehicle] [bell_trip].
Definition move_world (c : Z) (W : World) : World :=
  mk_world w_eb w_metric (fun t => moved_trip c (w_trip t)) (fun v => moved_vehicle c (w_vehicle v))
    w_shuffle w_shuffle_perm w_choice w_choice_lt w_sample w_sample_lt w_sample_nodup.
Definition noon_world : World := move_world 100000 bell_world.
Definition bell_config : insertion_config := MkInsertionConfig Intensive true EarliestLastDeparture None 1.
Definition bell_result := Eval vm_compute in @insertion_optimize bell_world bell_config [0%nat] [0%nat] None empty_heap.
Definition bell_heap : heap := Eval vm_compute in snd bell_result.
Definition noon_result := Eval vm_compute in @insertion_optimize noon_world bell_config [0%nat] [0%nat] None empty_heap.
Definition noon_heap : heap := Eval vm_compute in snd noon_result.

(** the same without waiting, and a route whose feasibility was not asked *)
Definition dawn_trip : trip := Trip "0" (Service [1000] 0 (Lim 20000) 0) (Service [2000] 0 Inf 0) 1000 0 Inf.
Definition dawn_world : World := world_of 1 Manhattan [bell_vehicle] [dawn_trip].
Definition dusk_world : World := move_world 100000 dawn_world.
Definition dawn_heap : heap := Eval vm_compute in after
  (let! r0 := @new_route dawn_world 0 in let! r1 := @compute_one dawn_world r0 0 0 1 in @route_clone dawn_world r1 0) empty_heap.
Definition dusk_heap : heap := Eval vm_compute in after
  (let! r0 := @new_route dusk_world 0 in let! r1 := @compute_one dusk_world r0 0 0 1 in @route_clone dusk_world r1 0) empty_heap.
