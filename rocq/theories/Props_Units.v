(** * Units of measurement

    [other_unit], [in_unit], [value_in_unit], [visit_in_unit], [timing_in_unit],
    [state_in_unit], [unit_run], [finer] and [finer_only] are in SpecUnits.v,
    [place_of] and [inside] in SpecPlaces.v, [timetable] and [admissible] in
    Spec.v. *)
From Verif Require Import AdmissibleCheck OrderTheorems WitnessUnits SpecPlaces SpecUnits UnitTheorems.

(** ** C88.  The unit of measurement *)
(** an instance given in another unit, with the tolerance in that unit: all
    times and loads are converted, the limits hold as before, *)
Theorem C88_schedule : forall c g W W', other_unit c g W W' -> forall v xs, (forall x, x ∈ xs -> place_of W (vi_place x)) ->
  @timetable W' v (map (visit_in_unit c g) xs) = map (timing_in_unit c) (@timetable W v xs).
Proof. exact c88_schedule. Qed.
Print Assumptions C88_schedule.
Theorem C88_limits : forall c g W W', other_unit c g W W' -> forall v xs, (forall x, x ∈ xs -> place_of W (vi_place x)) ->
  @admissible W' v (map (visit_in_unit c g) xs) <-> @admissible W v xs.
Proof. exact c88_limits. Qed.
Print Assumptions C88_limits.
(** all algorithms make the same calls with the same results, *)
Theorem C88_insertion : forall c g W W', other_unit c g W W' -> forall cfg fleet job initial,
  unit_run c g W id (@insertion_optimize W cfg fleet job initial) (@insertion_optimize W' cfg fleet job initial).
Proof. exact c88_insertion. Qed.
Print Assumptions C88_insertion.
Theorem C88_stateless : forall c g W W', other_unit c g W W' -> forall cfg fleet job initial,
  unit_run c g W id (@stateless_optimize W cfg fleet job initial) (@stateless_optimize W' cfg fleet job initial).
Proof. exact c88_stateless. Qed.
Print Assumptions C88_stateless.
Theorem C88_search : forall c g W W', other_unit c g W W' -> forall fuel s o threshold initial,
  unit_run c g W id (@local_search_optimize W fuel s o threshold initial) (@local_search_optimize W' fuel s o threshold initial).
Proof. exact c88_search. Qed.
Print Assumptions C88_search.
Theorem C88_grasp : forall c g W W', other_unit c g W W' -> forall fuel o cfg fleet job episodes first_episodes,
  unit_run c g W id (@grasp_optimize W fuel o cfg fleet job episodes first_episodes) (@grasp_optimize W' fuel o cfg fleet job episodes first_episodes).
Proof. exact c88_grasp. Qed.
Print Assumptions C88_grasp.
Theorem C88_iterative : forall c g W W', other_unit c g W W' -> forall o alg alg' restart episodes initial,
  (forall i, unit_run c g W id (alg i) (alg' i)) ->
  unit_run c g W id (@iterative_optimize W o alg restart episodes initial) (@iterative_optimize W' o alg' restart episodes initial).
Proof. exact c88_iterative. Qed.
Print Assumptions C88_iterative.
Theorem C88_sequential : forall c g W W', other_unit c g W W' -> forall o algs algs' initial,
  Forall2 (fun alg alg' => forall i, unit_run c g W id (alg i) (alg' i)) algs algs' ->
  unit_run c g W id (@sequential_optimize W o algs initial) (@sequential_optimize W' o algs' initial).
Proof. exact c88_sequential. Qed.
Print Assumptions C88_sequential.
(** and answers to all questions are converted *)
Theorem C88_answers : forall c g W W', other_unit c g W W' -> forall o s r pl,
  unit_run c g W id (@route_feasible W r) (@route_feasible W' r) /\ unit_run c g W id (@planning_feasible W pl) (@planning_feasible W' pl) /\
  unit_run c g W id (@completed_trips W pl) (@completed_trips W' pl) /\
  unit_run c g W (in_unit c) (@arrival_time W s) (@arrival_time W' s) /\ unit_run c g W (in_unit c) (@departure_time W s) (@departure_time W' s) /\
  unit_run c g W (in_unit c) (@capacity W s) (@capacity W' s) /\ unit_run c g W (in_unit c) (@route_duration W r) (@route_duration W' r) /\
  unit_run c g W (value_in_unit c o) (@planning_value W o pl) (@planning_value W' o pl).
Proof. exact c88_answers. Qed.
Print Assumptions C88_answers.
(** every instance with Manhattan distances can be given in finer units *)
Theorem C88_manhattan : forall c W, @w_metric W = Manhattan -> other_unit (Zpos c) (map (Z.mul (Zpos c))) W (finer c W).
Proof. exact c88_manhattan. Qed.
Print Assumptions C88_manhattan.
(** with the tolerance fixed, as in the code, limits and results do depend on the
    unit *)
Theorem C88_tolerance : exists W v xs, @w_metric W = Manhattan /\ (forall x, x ∈ xs -> place_of W (vi_place x)) /\
  @admissible W v xs /\ @admissible (finer 10 W) v (map (visit_in_unit 10 (map (Z.mul 10))) xs) /\
  ~ @admissible (finer_only 10 W) v (map (visit_in_unit 10 (map (Z.mul 10))) xs).
Proof. exact c88_tolerance. Qed.
Print Assumptions C88_tolerance.
Theorem C88_tolerance_insertion : exists W cfg fleet job pl h h', @w_metric W = Manhattan /\
  @insertion_optimize W cfg fleet job None empty_heap = (Ok pl, h) /\
  fst (@completed_trips W pl h) = Ok job /\ job <> [] /\
  @insertion_optimize (finer 10 W) cfg fleet job None empty_heap = (Ok pl, h') /\ fst (@completed_trips (finer 10 W) pl h') = Ok job /\
  exists pl2 h2, @insertion_optimize (finer_only 10 W) cfg fleet job None empty_heap = (Ok pl2, h2) /\
    fst (@completed_trips (finer_only 10 W) pl2 h2) = Ok [].
Proof. exact c88_tolerance_insertion. Qed.
Print Assumptions C88_tolerance_insertion.

Section C88_example.
  Example C88_case : @w_metric fork_world = Manhattan /\ other_unit 10 tens fork_world (finer 10 fork_world) /\ inside fork_world fork_after /\
    @insertion_optimize fork_world (warm_config EarliestLastDeparture) [0%nat] [0; 1; 2]%nat None empty_heap = (Ok [15%nat], fork_after) /\
    @insertion_optimize (finer 10 fork_world) (warm_config EarliestLastDeparture) [0%nat] [0; 1; 2]%nat None empty_heap =
      (Ok [15%nat], state_in_unit 10 tens fork_after) /\
    state_in_unit 10 tens fork_after <> fork_after /\
    (exists x, fst (@planning_value fork_world DialARide [15%nat] fork_after) = Ok [2; x] /\ x <> 0 /\
      fst (@planning_value (finer 10 fork_world) DialARide [15%nat] (state_in_unit 10 tens fork_after)) = Ok [2; 10 * x]).
  Proof.
    pose proof (c88_manhattan 10 fork_world eq_refl) as E.
    assert (I0 : inside fork_world empty_heap) by (intros c Hc; inversion Hc).
    destruct (c88_insertion 10 tens fork_world (finer 10 fork_world) E (warm_config EarliestLastDeparture) [0%nat] [0; 1; 2]%nat None empty_heap I0) as [I1 _].
    rewrite fork_run in I1.
    split; [reflexivity|]. split; [exact E|]. split; [exact I1|]. split; [exact fork_run|].
    split; [vm_compute; reflexivity|]. split; [discriminate|]. eexists. split; [vm_compute; reflexivity|]. split; [discriminate|vm_compute; reflexivity].
  Qed.
  (** from that state a search and GRASP, in either unit *)
  Example C88_case_search :
    fst (@local_search_optimize (finer 10 fork_world) 5 Reallocation DialARide 1 [15%nat] (state_in_unit 10 tens fork_after)) =
      fst (@local_search_optimize fork_world 5 Reallocation DialARide 1 [15%nat] fork_after) /\
    (exists pl, fst (@local_search_optimize fork_world 5 Reallocation DialARide 1 [15%nat] fork_after) = Ok pl) /\
    (exists pl, fst (@grasp_optimize (finer 10 fork_world) 3 DialARide (warm_config EarliestLastDeparture) [0%nat] [0; 2]%nat 1 1 empty_heap) = Ok pl).
  Proof. split; [vm_compute; reflexivity|]. split; eexists; vm_compute; reflexivity. Qed.
  (** a ride *)
  Example C88_case_visits : (forall x, x ∈ late_visits -> place_of late_world (vi_place x)) /\
    @timetable late_world 0 late_visits !! 2%nat = Some (Timing 30 30 30 0) /\
    @timetable (finer 10 late_world) 0 (map (visit_in_unit 10 tens) late_visits) !! 2%nat = Some (Timing 300 300 300 0) /\
    @admissible late_world 0 late_visits.
  Proof.
    split.
    - intros x Hx. repeat (apply elem_of_cons in Hx as [->|Hx]; [|]); [| | | |by apply elem_of_nil in Hx]; cbn.
      + right. exists 0%nat. by left.
      + left. exists 0%nat. by left.
      + left. exists 0%nat. by right.
      + right. exists 0%nat. by left.
    - split; [vm_compute; reflexivity|]. split; [vm_compute; reflexivity|]. apply admissibleb_sound. vm_compute. reflexivity.
  Qed.
End C88_example.
