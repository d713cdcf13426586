(** C43, C45, C48, C49: solver, equality of services, mixed-integer model. *)
From Verif Require Import SpecSolver SolverTheorems SpecEquality EqualityTheorems SpecMilp MilpTheorems WitnessLoad.

(** ** C43.  Solver pipeline *)
(** stages in order; one optimization; its result is stored once and returned *)
Theorem C43_success : forall X (dict_at : nat -> X -> keywords) act naive x s result log s',
  solve dict_at act naive x ([], s) = (Ok result, (log, s')) ->
  exists ka ks loader job fleet algorithm storer u,
    log = loading x (own dict_at s (so_loader x)) loader job fleet ++
          optimizing x ka job fleet algorithm result ++ storing x ks result storer u /\
    (hands_off dict_at act -> ka = own dict_at s (so_algorithm x) /\ ks = own dict_at s (so_storer x)).
Proof. exact c43_success. Qed.
Print Assumptions C43_success.
(** an exception ends the pipeline; nothing is stored unless loading and
    optimizing succeeded *)
Theorem C43_failure : forall X (dict_at : nat -> X -> keywords) act naive x s r log s' c e,
  solve dict_at act naive x ([], s) = (r, (log, s')) -> (c, Raise e) ∈ log ->
  r = Raise e /\ last log = Some (c, Raise e) /\
  (about c <> TheStorer -> forall c' r', (c', r') ∈ log -> about c' <> TheStorer).
Proof. exact c43_failure. Qed.
Print Assumptions C43_failure.
Theorem C43_stored : forall X (dict_at : nat -> X -> keywords) act naive x s r log s' base given r',
  solve dict_at act naive x ([], s) = (r, (log, s')) -> (Build TheStorer base given, r') ∈ log ->
  exists algorithm result more,
    (Ask TheAlgorithm algorithm "optimize", Ok result) ∈ log /\ given = ("result"%string, result) :: more /\
    (forall v, r = Ok v -> v = result).
Proof. exact c43_stored. Qed.
Print Assumptions C43_stored.
(** the solver itself changes nothing, the user's dictionaries included *)
Theorem C43_frame : forall X (dict_at : nat -> X -> keywords) act naive x s r log s',
  solve dict_at act naive x ([], s) = (r, (log, s')) -> performed act s log s'.
Proof. exact c43_frame. Qed.
Print Assumptions C43_frame.
Theorem C43_dictionaries : forall X (dict_at : nat -> X -> keywords) act naive x s r log s',
  hands_off dict_at act -> solve dict_at act naive x ([], s) = (r, (log, s')) ->
  forall d, dict_at d s' = dict_at d s.
Proof. exact c43_dictionaries. Qed.
Print Assumptions C43_dictionaries.
(** keywords given twice: those of the dispatcher stop everything *)
Theorem C43_dispatcher : forall X (dict_at : nat -> X -> keywords) act naive x s d,
  so_dispatcher x = Some d -> dict_at d s <> [] ->
  solve dict_at act naive x ([], s) = (Raise TypeError, ([], s)).
Proof. exact c43_dispatcher. Qed.
Print Assumptions C43_dispatcher.
(** those of algorithm and storer raise TypeError too, but only when their turn
    comes, so "before anything runs" is refuted *)
Theorem C43_refuted : forall X (act : call -> ST X nat) naive (s : X),
  (forall c s, exists v s', act c s = (Ok v, s')) ->
  exists (dict_at : nat -> X -> keywords) x log s', solve dict_at act naive x ([], s) = (Raise TypeError, (log, s')) /\
    exists algorithm result, (Ask TheAlgorithm algorithm "optimize", Ok result) ∈ log.
Proof. exact c43_naive. Qed.
Print Assumptions C43_refuted.
Theorem C43_algorithm_partial : forall X (dict_at : nat -> X -> keywords) act naive x s r log s',
  hands_off dict_at act -> keyed dict_at x s = [] ->
  names (own dict_at s (so_algorithm x)) "fleet" \/ names (own dict_at s (so_algorithm x)) "job" ->
  solve dict_at act naive x ([], s) = (r, (log, s')) ->
  (forall c r', (c, r') ∈ log -> about c = TheLoader) /\
  ((forall c r', (c, r') ∈ log -> exists v, r' = Ok v) ->
     r = Raise TypeError /\ exists loader job fleet, log = loading x (own dict_at s (so_loader x)) loader job fleet).
Proof. exact c43_algorithm. Qed.
Print Assumptions C43_algorithm_partial.
Theorem C43_storer_partial : forall X (dict_at : nat -> X -> keywords) act naive x s r log s',
  hands_off dict_at act -> keyed dict_at x s = [] ->
  names (own dict_at s (so_storer x)) "result" ->
  solve dict_at act naive x ([], s) = (r, (log, s')) ->
  (exists e, r = Raise e) /\ (forall c r', (c, r') ∈ log -> about c <> TheStorer) /\
  ((forall c r', (c, r') ∈ log -> exists v, r' = Ok v) -> r = Raise TypeError).
Proof. exact c43_storer. Qed.
Print Assumptions C43_storer_partial.

Section C43_example.
  (** user code that always succeeds, and counts; dictionary 5 holds a path,
      dictionary 6 a result *)
  Definition a_call (c : call) : ST nat nat := fun s => (Ok (10 + s)%nat, S s).
  (** the storer fails *)
  Definition full_disk (c : call) : ST nat nat := fun s =>
    match c with Ask TheStorer _ _ => (Raise OSError, S s) | _ => a_call c s end.
  Definition dicts (d s : nat) : keywords :=
    match d with 5 => [("file_path", 99)] | 6 => [("result", 98)] | _ => [] end%nat%string.
  Definition a_solver (d : nat) : solver := (Solver (Tuned 1 (Some 5)) (Tuned 2 None) (Tuned 3 (Some d)) None)%nat.
  Example C43_case : hands_off dicts a_call /\
    solve dicts a_call 0 (a_solver 7) ([], 0%nat) =
      (Ok 14, (loading (a_solver 7) [("file_path"%string, 99)] 10 11 12 ++ optimizing (a_solver 7) [] 11 12 13 14 ++
               storing (a_solver 7) [] 14 15 16, 7))%nat /\
    (solve dicts full_disk 0 (a_solver 7) ([], 0%nat)).1 = Raise OSError /\
    names (own dicts 0%nat (so_storer (a_solver 6))) "result" /\
    (solve dicts a_call 0 (a_solver 6) ([], 0%nat)).1 = Raise TypeError /\
    length (solve dicts a_call 0 (a_solver 6) ([], 0%nat)).2.1 = 5%nat.
  Proof.
    split; [by intros c s d|]. split; [reflexivity|]. split; [reflexivity|].
    split; [by exists 98%nat; left|]. split; reflexivity.
  Qed.
  (** keywords for the dispatcher, and a keyword of the algorithm given twice *)
  Definition keyed_solver : solver := (Solver (Tuned 1 (Some 5)) (Tuned 2 None) (Tuned 3 None) (Some 5))%nat.
  Definition doubled_solver : solver := (Solver (Tuned 1 (Some 5)) (Tuned 2 (Some 8)) (Tuned 3 None) (Some 7))%nat.
  Definition more_dicts (d s : nat) : keywords := match d with 8%nat => [("job"%string, 97%nat)] | _ => dicts d s end.
  Example C43_case_keywords : dicts 5 0 <> [] /\
    solve dicts a_call 0 keyed_solver ([], 0%nat) = (Raise TypeError, ([], 0%nat)) /\
    hands_off more_dicts a_call /\ keyed more_dicts doubled_solver 0%nat = [] /\
    names (own more_dicts 0%nat (so_algorithm doubled_solver)) "job" /\
    solve more_dicts a_call 0 doubled_solver ([], 0%nat) =
      (Raise TypeError, (loading doubled_solver [("file_path"%string, 99%nat)] 10 11 12, 3%nat)).
  Proof.
    split; [discriminate|]. split; [reflexivity|]. split; [by intros c s d|]. split; [reflexivity|].
    split; [by exists 97%nat; left|]. reflexivity.
  Qed.
End C43_example.

(** ** C45.  Service equality means equal fields *)
(** refuted for every hash function of tuples and strings: -1 and -2 have the
    same hash in CPython, and so have 314159 and infinity *)
Theorem C45_refuted : forall H unit, 0 < unit ->
  (forall rest e l d,
     service_eqb H unit (Service (- unit :: rest) e l d) (Service (-2 * unit :: rest) e l d) = true) /\
  (forall p l d, service_eqb H unit (Service p (- unit) l d) (Service p (-2 * unit) l d) = true) /\
  (forall p e d, service_eqb H unit (Service p e (Lim (314159 * unit)) d) (Service p e Inf d) = true).
Proof. exact c45_naive. Qed.
Print Assumptions C45_refuted.
(** equal fields do imply equality, and equality is an equivalence *)
Theorem C45_same_partial : forall H unit s s',
  sv_position s = sv_position s' -> sv_earliest s = sv_earliest s' ->
  sv_latest s = sv_latest s' -> sv_duration s = sv_duration s' -> service_eqb H unit s s' = true.
Proof. exact c45_same. Qed.
Print Assumptions C45_same_partial.
Theorem C45_equivalence : forall H unit,
  (forall s, service_eqb H unit s s = true) /\
  (forall s t, service_eqb H unit s t = service_eqb H unit t s) /\
  (forall s t u, service_eqb H unit s t = true -> service_eqb H unit t u = true -> service_eqb H unit s u = true).
Proof. exact c45_equivalence. Qed.
Print Assumptions C45_equivalence.
(** the claim holds where the hash function has no collision *)
Theorem C45_iff_partial : forall H unit s s', collision_free H unit s s' ->
  service_eqb H unit s s' = true <->
  sv_position s = sv_position s' /\ sv_earliest s = sv_earliest s' /\
  sv_latest s = sv_latest s' /\ sv_duration s = sv_duration s'.
Proof. exact c45_iff. Qed.
Print Assumptions C45_iff_partial.

Section C45_example.
  (** sums of the elements with weights, as an example of a hash function *)
  Definition weighted (l : list Z) : Z := foldr (fun x h => x + 1000003 * h) (Z.of_nat (length l)) l.
  Definition a_hashing : hashing := Hashing (fun z => z) (fun s => Z.of_nat (String.length s)) weighted.
  Definition here : service := Service [1000; -2500] 3000 Inf 7.
  Definition there : service := Service [1000; -3500] 3000 Inf 7.
  Example C45_case : collision_free a_hashing 1000 here there /\ service_eqb a_hashing 1000 here there = false /\
    service_eqb a_hashing 1000 (Service [-1000; 5000] 0 Inf 0) (Service [-2000; 5000] 0 Inf 0) = true.
  Proof.
    split; [|split; vm_compute; reflexivity]. split.
    - intros x y Hx Hy.
      repeat (apply elem_of_cons in Hx as [->|Hx]; [|]); try (by inversion Hx);
      repeat (apply elem_of_cons in Hy as [->|Hy]; [|]); try (by inversion Hy); vm_compute; congruence.
    - intros k l Hk Hl. unfold tuples_of in Hk, Hl. vm_compute in Hk, Hl.
      repeat (apply elem_of_cons in Hk as [->|Hk]; [|]); try (by inversion Hk);
      repeat (apply elem_of_cons in Hl as [->|Hl]; [|]); try (by inversion Hl); vm_compute; congruence.
  Qed.
End C45_example.

(** ** C48.  MILP node numbering *)
Theorem C48_nodes `{W : World} : forall ts i, (i < node_count ts)%nat ->
  depot_node ts i \/ (exists t, pickup_node ts i t) \/ (exists t, delivery_node ts i t).
Proof. exact c48_nodes. Qed.
Print Assumptions C48_nodes.
Theorem C48_pickup `{W : World} : forall v vs ts i t, pickup_node ts i t ->
  trip_by_position_idx ts i = Ok (Some t) /\
  pos (v :: vs) ts i = origin_position (w_trip t) /\
  capacity_by_position_idx ts i = Ok (tr_capacity (w_trip t)) /\
  load_time_by_position_idx ts i = Ok (origin_duration (w_trip t)) /\
  timeout_by_position_idx ts i = Ok (tr_timeout (w_trip t)) /\
  time_window_by_position_idx (v :: vs) ts i = Ok (origin_earliest (w_trip t), origin_latest (w_trip t)).
Proof. exact c48_pickup. Qed.
Print Assumptions C48_pickup.
Theorem C48_delivery `{W : World} : forall v vs ts i t, delivery_node ts i t ->
  trip_by_position_idx ts i = Ok (Some t) /\
  pos (v :: vs) ts i = destination_position (w_trip t) /\
  capacity_by_position_idx ts i = Ok (- tr_capacity (w_trip t)) /\
  timeout_by_position_idx ts i = Ok (tr_timeout (w_trip t)).
Proof. exact c48_delivery. Qed.
Print Assumptions C48_delivery.
Theorem C48_depot `{W : World} : forall v vs ts i, depot_node ts i ->
  trip_by_position_idx ts i = Ok None /\ capacity_by_position_idx ts i = Ok 0 /\
  load_time_by_position_idx ts i = Ok 0 /\
  time_window_by_position_idx (v :: vs) ts i = Ok (0, Lim (1440 * (1000 * eb))) /\
  pos (v :: vs) ts i = if (i =? 0)%nat then v_origin_position v else v_destination_position v.
Proof. exact c48_depot. Qed.
Print Assumptions C48_depot.
Theorem C48_delivery_window_partial `{W : World} : forall v vs ts i t, delivery_node ts i t ->
  origin_position (w_trip t) <> destination_position (w_trip t) ->
  time_window_by_position_idx (v :: vs) ts i = Ok (destination_earliest (w_trip t), destination_latest (w_trip t)).
Proof. exact c48_delivery_window. Qed.
Print Assumptions C48_delivery_window_partial.
(** a delivery at the place of its pickup gets the window of the pickup *)
Theorem C48_refuted : exists (W : World) v ts i t, delivery_node ts i t /\
  time_window_by_position_idx [v] ts i <> Ok (destination_earliest (w_trip t), destination_latest (w_trip t)).
Proof. exact c48_refutation. Qed.
Print Assumptions C48_refuted.
Theorem C48_same_place `{W : World} : forall v vs ts i t, delivery_node ts i t ->
  origin_position (w_trip t) = destination_position (w_trip t) ->
  time_window_by_position_idx (v :: vs) ts i = Ok (origin_earliest (w_trip t), origin_latest (w_trip t)).
Proof. exact c48_naive. Qed.
Print Assumptions C48_same_place.
(** and the service duration of a delivery is always that of the pickup *)
Theorem C48_duration `{W : World} : forall ts i t, delivery_node ts i t ->
  load_time_by_position_idx ts i = Ok (origin_duration (w_trip t)).
Proof. exact c48_duration. Qed.
Print Assumptions C48_duration.

Section C48_example.
  #[local] Existing Instance depot_world.
  Example C48_case : pickup_node [4; 0; 7]%nat 3 7 /\ delivery_node [4; 0; 7]%nat 6 7 /\ depot_node [4; 0; 7]%nat 7 /\
    trip_by_position_idx [4; 0; 7]%nat 3 = Ok (Some 7%nat) /\ trip_by_position_idx [4; 0; 7]%nat 5 = Ok (Some 0%nat) /\
    origin_position (w_trip 0) <> destination_position (w_trip 0).
  Proof.
    split; [by exists 2%nat|]. split; [by exists 2%nat|]. split; [by right|].
    split; [reflexivity|]. split; [reflexivity|]. vm_compute. discriminate.
  Qed.
  (** somebody who is brought back to where they came from *)
  Example C48_case_same_place :
    let W := world_of 1 Manhattan [Vehicle "0" (Service [0; 0] 0 Inf 0) None (Lim 3000) Inf]
      [Trip "1" (Service [5; 5] 1000 (Lim 2000) 100) (Service [5; 5] 4000 (Lim 5000) 100) 1000 0 (Lim 9000)] in
    delivery_node [0%nat] 2 0 /\ origin_position (@w_trip W 0%nat) = destination_position (@w_trip W 0%nat).
  Proof. split; [by exists 0%nat|reflexivity]. Qed.
End C48_example.

(** ** C49.  MILP solutions accepted by validation are translated completely

    Values from 0.95 up to 1 pass the validation, and [int] rounds them down to
    0 (three_index.py:376, 425). *)
Theorem C49_refuted : exists (W : World) vs ts a k i j, validate vs ts a = Ok tt /\ (k < length vs)%nat /\
  (i < node_count ts)%nat /\ (j < node_count ts)%nat /\
  within (as_x a k i j) 1 /\ i ∉ solution_to_nodes ts a k.
Proof. exact c49_naive. Qed.
Print Assumptions C49_refuted.
(** what is read from a validated solution *)
Theorem C49_reads `{W : World} : forall vs ts a k, validate vs ts a = Ok tt -> (k < length vs)%nat ->
  (forall i, i ∈ solution_to_nodes ts a k <->
     (i < node_count ts)%nat /\ exists j, (j < node_count ts)%nat /\ (1 <= as_x a k i j)%Q) /\
  StronglySorted (fun i j => as_u a k i <= as_u a k j) (solution_to_nodes ts a k).
Proof. exact c49_reads. Qed.
Print Assumptions C49_reads.
(** arcs of value 1 and above are present *)
Theorem C49_kept_partial `{W : World} : forall vs ts a k i j, validate vs ts a = Ok tt -> (k < length vs)%nat ->
  (i < node_count ts)%nat -> (j < node_count ts)%nat ->
  within (as_x a k i j) 1 -> (1 <= as_x a k i j)%Q -> i ∈ solution_to_nodes ts a k.
Proof. exact c49_kept. Qed.
Print Assumptions C49_kept_partial.

Section C49_example.
  #[local] Existing Instance depot_world.
  (** depot, pickup, delivery, depot *)
  Definition a_solution : assignment := Assignment
    (fun _ i j => if (j =? i + 1)%nat && (i <? 3)%nat then 101 # 100 else (-1) # 100)%Q
    (fun _ i => Z.of_nat i * 1000) (fun _ _ => 0).
  Example C49_case : validate [0]%nat [0]%nat a_solution = Ok tt /\
    within (as_x a_solution 0 1 2) 1 /\ (1 <= as_x a_solution 0 1 2)%Q /\
    solution_to_nodes [0]%nat a_solution 0 = [0; 1; 2]%nat.
  Proof.
    split; [reflexivity|]. split; [split; vm_compute; discriminate|].
    split; [vm_compute; discriminate|]. vm_compute. reflexivity.
  Qed.
End C49_example.
