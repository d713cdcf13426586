(** C43, C45, C48, C49: solver, equality of services, mixed-integer model. *)
From Verif Require Import SpecSolver SolverTheorems SpecEquality EqualityTheorems SpecMilp MilpTheorems WitnessLoad.

(** ** C43.  Solver pipeline *)
(** stages in order; one optimization; its result is stored once and returned *)
@C43_success c43_success
(** an exception ends the pipeline; nothing is stored unless loading and
    optimizing succeeded *)
@C43_failure c43_failure
@C43_stored c43_stored
(** the solver itself changes nothing, the user's dictionaries included *)
@C43_frame c43_frame
@C43_dictionaries c43_dictionaries
(** keywords given twice: those of the dispatcher stop everything *)
@C43_dispatcher c43_dispatcher
(** those of algorithm and storer raise TypeError too, but only when their turn
    comes, so "before anything runs" is refuted *)
@C43_refuted c43_naive
@C43_algorithm_partial c43_algorithm
@C43_storer_partial c43_storer

Section C43_example.
  (** user code that always succeeds, and counts; dictionary 5 holds a path,
      dictionary 6 a result *)
  Definition a_call (c : call) : ST nat nat := fun s => (Ok (10 + s)%nat, S s).
  (** the storer fails *)
  Definition full_disk (c : call) : ST nat nat := fun s =>
    match c with Ask TheStorer _ _ => (Raise OSError, S s) | _ => a_call c s end.
  Definition dicts (d s : nat) : keywords :=
    match d with 5 => [("file_path", 99)] | 6 => [("result", 98)] | _ => [] end%nat%string.
  Definition a_solver (d : nat) : solver := (Solver (Tuned 1 (Some 5)) (Tuned 2 None) (Tuned 3 (Some d)) None)%nat.
  Example C43_case : hands_off dicts a_call /\
    solve dicts a_call 0 (a_solver 7) ([], 0%nat) =
      (Ok 14, (loading (a_solver 7) [("file_path"%string, 99)] 10 11 12 ++ optimizing (a_solver 7) [] 11 12 13 14 ++
               storing (a_solver 7) [] 14 15 16, 7))%nat /\
    (solve dicts full_disk 0 (a_solver 7) ([], 0%nat)).1 = Raise OSError /\
    names (own dicts 0%nat (so_storer (a_solver 6))) "result" /\
    (solve dicts a_call 0 (a_solver 6) ([], 0%nat)).1 = Raise TypeError /\
    length (solve dicts a_call 0 (a_solver 6) ([], 0%nat)).2.1 = 5%nat.
  Proof.
    split; [by intros c s d|]. split; [reflexivity|]. split; [reflexivity|].
    split; [by exists 98%nat; left|]. split; reflexivity.
  Qed.
  (** keywords for the dispatcher, and a keyword of the algorithm given twice *)
  Definition keyed_solver : solver := (Solver (Tuned 1 (Some 5)) (Tuned 2 None) (Tuned 3 None) (Some 5))%nat.
  Definition doubled_solver : solver := (Solver (Tuned 1 (Some 5)) (Tuned 2 (Some 8)) (Tuned 3 None) (Some 7))%nat.
  Definition more_dicts (d s : nat) : keywords := match d with 8%nat => [("job"%string, 97%nat)] | _ => dicts d s end.
  Example C43_case_keywords : dicts 5 0 <> [] /\
    solve dicts a_call 0 keyed_solver ([], 0%nat) = (Raise TypeError, ([], 0%nat)) /\
    hands_off more_dicts a_call /\ keyed more_dicts doubled_solver 0%nat = [] /\
    names (own more_dicts 0%nat (so_algorithm doubled_solver)) "job" /\
    solve more_dicts a_call 0 doubled_solver ([], 0%nat) =
      (Raise TypeError, (loading doubled_solver [("file_path"%string, 99%nat)] 10 11 12, 3%nat)).
  Proof.
    split; [discriminate|]. split; [reflexivity|]. split; [by intros c s d|]. split; [reflexivity|].
    split; [by exists 97%nat; left|]. reflexivity.
  Qed.
End C43_example.

(** ** C45.  Service equality means equal fields *)
(** refuted for every hash function of tuples and strings: -1 and -2 have the
    same hash in CPython, and so have 314159 and infinity *)
@C45_refuted c45_naive
(** equal fields do imply equality, and equality is an equivalence *)
@C45_same_partial c45_same
@C45_equivalence c45_equivalence
(** the claim holds where the hash function has no collision *)
@C45_iff_partial c45_iff

Section C45_example.
  (** sums of the elements with weights, as an example of a hash function *)
  Definition weighted (l : list Z) : Z := foldr (fun x h => x + 1000003 * h) (Z.of_nat (length l)) l.
  Definition a_hashing : hashing := Hashing (fun z => z) (fun s => Z.of_nat (String.length s)) weighted.
  Definition here : service := Service [1000; -2500] 3000 Inf 7.
  Definition there : service := Service [1000; -3500] 3000 Inf 7.
  Example C45_case : collision_free a_hashing 1000 here there /\ service_eqb a_hashing 1000 here there = false /\
    service_eqb a_hashing 1000 (Service [-1000; 5000] 0 Inf 0) (Service [-2000; 5000] 0 Inf 0) = true.
  Proof.
    split; [|split; vm_compute; reflexivity]. split.
    - intros x y Hx Hy.
      repeat (apply elem_of_cons in Hx as [->|Hx]; [|]); try (by inversion Hx);
      repeat (apply elem_of_cons in Hy as [->|Hy]; [|]); try (by inversion Hy); vm_compute; congruence.
    - intros k l Hk Hl. unfold tuples_of in Hk, Hl. vm_compute in Hk, Hl.
      repeat (apply elem_of_cons in Hk as [->|Hk]; [|]); try (by inversion Hk);
      repeat (apply elem_of_cons in Hl as [->|Hl]; [|]); try (by inversion Hl); vm_compute; congruence.
  Qed.
End C45_example.

(** ** C48.  MILP node numbering *)
@C48_nodes c48_nodes
@C48_pickup c48_pickup
@C48_delivery c48_delivery
@C48_depot c48_depot
@C48_delivery_window_partial c48_delivery_window
(** a delivery at the place of its pickup gets the window of the pickup *)
@C48_refuted c48_refutation
@C48_same_place c48_naive
(** and the service duration of a delivery is always that of the pickup *)
@C48_duration c48_duration

Section C48_example.
  #[local] Existing Instance depot_world.
  Example C48_case : pickup_node [4; 0; 7]%nat 3 7 /\ delivery_node [4; 0; 7]%nat 6 7 /\ depot_node [4; 0; 7]%nat 7 /\
    trip_by_position_idx [4; 0; 7]%nat 3 = Ok (Some 7%nat) /\ trip_by_position_idx [4; 0; 7]%nat 5 = Ok (Some 0%nat) /\
    origin_position (w_trip 0) <> destination_position (w_trip 0).
  Proof.
    split; [by exists 2%nat|]. split; [by exists 2%nat|]. split; [by right|].
    split; [reflexivity|]. split; [reflexivity|]. vm_compute. discriminate.
  Qed.
  (** somebody who is brought back to where they came from *)
  Example C48_case_same_place :
    let W := world_of 1 Manhattan [Vehicle "0" (Service [0; 0] 0 Inf 0) None (Lim 3000) Inf]
      [Trip "1" (Service [5; 5] 1000 (Lim 2000) 100) (Service [5; 5] 4000 (Lim 5000) 100) 1000 0 (Lim 9000)] in
    delivery_node [0%nat] 2 0 /\ origin_position (@w_trip W 0%nat) = destination_position (@w_trip W 0%nat).
  Proof. split; [by exists 0%nat|reflexivity]. Qed.
End C48_example.

(** ** C49.  MILP solutions accepted by validation are translated completely

    Values from 0.95 up to 1 pass the validation, and [int] rounds them down to
    0 (three_index.py:376, 425). *)
@C49_refuted c49_naive
(** what is read from a validated solution *)
@C49_reads c49_reads
(** arcs of value 1 and above are present *)
@C49_kept_partial c49_kept

Section C49_example.
  #[local] Existing Instance depot_world.
  (** depot, pickup, delivery, depot *)
  Definition a_solution : assignment := Assignment
    (fun _ i j => if (j =? i + 1)%nat && (i <? 3)%nat then 101 # 100 else (-1) # 100)%Q
    (fun _ i => Z.of_nat i * 1000) (fun _ _ => 0).
  Example C49_case : validate [0]%nat [0]%nat a_solution = Ok tt /\
    within (as_x a_solution 0 1 2) 1 /\ (1 <= as_x a_solution 0 1 2)%Q /\
    solution_to_nodes [0]%nat a_solution 0 = [0; 1; 2]%nat.
  Proof.
    split; [reflexivity|]. split; [split; vm_compute; discriminate|].
    split; [vm_compute; discriminate|]. vm_compute. reflexivity.
  Qed.
End C49_example.
