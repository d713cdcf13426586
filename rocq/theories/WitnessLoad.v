(** Small files, the worlds loaded from them, and routes in those worlds. *)
From Verif Require Export Loaders SpecLoad Witness.

(** a world that holds the given vehicles and trips *)
Definition no_service : service := Service [] 0 Inf 0.
Definition world_of (e : positive) (m : metric) (vs : list vehicle) (ts : list trip) : World.
Proof.
  refine (mk_world e m
    (fun t => nth t ts (Trip "" no_service no_service 0 0 Inf))
    (fun v => nth v vs (Vehicle "" no_service None Inf Inf))
    (fun _ l => l) _ (fun _ _ => 0%nat) _ (fun _ _ _ => []) _ _).
  - reflexivity.
  - intros; lia.
  - intros ????? H; inversion H.
  - intros; constructor.
Defined.
Lemma holds_world_of e m vs ts : holds (W := world_of e m vs ts) vs ts.
Proof.
  split; intros k x E; cbn; rewrite nth_lookup, E; reflexivity.
Qed.

Definition loaded {A} (m : ST surface (list A)) (s : surface) : list A :=
  match m s with (Ok l, _) => l | _ => [] end.

(** The depot is open from 2 to 3; the only passenger wants to go from (1,0) to
    (2,0) at any time, which takes the vehicle from 0 to 4. *)
Definition depot_case : dial_a_ride := DialARideFile 1 1000000 3000 90000
  (Point 0 0 0 0 0 2000 3000)
  [Point 1000 1000 0 0 1000 0 60000]
  [Point 2000 2000 0 0 (-1000) 0 100000].
Definition depot_file : table := dial_a_ride_file (unit_of 1) depot_case.
Definition depot_vehicles : list vehicle := Eval vm_compute in
  loaded (cordeau_fleet 1 depot_file) cordeau_surface.
Definition depot_trips : list trip := Eval vm_compute in
  loaded (cordeau_job 1 depot_file) cordeau_surface.
Definition depot_world : World := world_of 1 Euclidean depot_vehicles depot_trips.
Section depot.
  #[local] Existing Instance depot_world.
  Definition depot_heap : heap := Eval vm_compute in after
    (let! r0 := new_route 0 in let! r1 := compute_one r0 0 0 1 in route_clone r1 0) empty_heap.
  Definition depot_stops : list nat := Eval vm_compute in stops_in depot_heap 2.
  Definition depot_visits : list visit := Eval vm_compute in visits_of depot_heap 2.
End depot.

(** One vehicle, one ride from (1,0) to (5,0) to be finished by step 4, which
    takes 4 steps. *)
Definition ride_case : hash_code := HashCodeFile 10000 10000 1 2000 100000
  [RideLine 1000 0 5000 0 0 4000].
Definition ride_file : table := hash_code_file (unit_of 1) ride_case.
Definition ride_vehicles : list vehicle := Eval vm_compute in
  loaded (hashcode_fleet 1 ride_file) hashcode_surface.
Definition ride_trips : list trip := Eval vm_compute in
  loaded (hashcode_job 1 ride_file) hashcode_surface.
Definition ride_world : World := world_of 1 Manhattan ride_vehicles ride_trips.
Section ride.
  #[local] Existing Instance ride_world.
  Definition ride_heap : heap := Eval vm_compute in after
    (let! r0 := new_route 0 in let! r1 := compute_one r0 0 0 1 in route_clone r1 0) empty_heap.
  Definition ride_stops : list nat := Eval vm_compute in stops_in ride_heap 2.
  Definition ride_visits : list visit := Eval vm_compute in visits_of ride_heap 2.
End ride.
