(** * What the algorithms look at

    [elsewhere], [place_of], [put_visit], [put_state], [inside] and [same_run]
    are in SpecPlaces.v, [timetable] and [admissible] in Spec.v. *)
From Verif Require Import AdmissibleCheck OrderTheorems WitnessPlaces SpecPlaces PlaceTheorems.

(** ** C87.  Only distances and limits decide *)
(** two instances with the same distances and limits, wherever their places
    are, whatever their metric, their names, and the hours of depots that no
    limit refers to: schedules and limits are the same, *)
Theorem C87_schedule : forall g W W', elsewhere g W W' -> forall v xs, (forall x, x ∈ xs -> place_of W (vi_place x)) ->
  @timetable W' v (map (put_visit g) xs) = @timetable W v xs.
Proof. exact c87_schedule. Qed.
Print Assumptions C87_schedule.
Theorem C87_limits : forall g W W', elsewhere g W W' -> forall v xs, (forall x, x ∈ xs -> place_of W (vi_place x)) ->
  @admissible W' v (map (put_visit g) xs) <-> @admissible W v xs.
Proof. exact c87_limits. Qed.
Print Assumptions C87_limits.
(** and all algorithms make the same calls with the same results, up to the
    places, from any state *)
Theorem C87_insertion : forall g W W', elsewhere g W W' -> forall cfg fleet job initial,
  same_run W g (@insertion_optimize W cfg fleet job initial) (@insertion_optimize W' cfg fleet job initial).
Proof. exact c87_insertion. Qed.
Print Assumptions C87_insertion.
Theorem C87_stateless : forall g W W', elsewhere g W W' -> forall cfg fleet job initial,
  same_run W g (@stateless_optimize W cfg fleet job initial) (@stateless_optimize W' cfg fleet job initial).
Proof. exact c87_stateless. Qed.
Print Assumptions C87_stateless.
Theorem C87_search : forall g W W', elsewhere g W W' -> forall fuel s o threshold initial,
  same_run W g (@local_search_optimize W fuel s o threshold initial) (@local_search_optimize W' fuel s o threshold initial).
Proof. exact c87_search. Qed.
Print Assumptions C87_search.
Theorem C87_grasp : forall g W W', elsewhere g W W' -> forall fuel o cfg fleet job episodes first_episodes,
  same_run W g (@grasp_optimize W fuel o cfg fleet job episodes first_episodes) (@grasp_optimize W' fuel o cfg fleet job episodes first_episodes).
Proof. exact c87_grasp. Qed.
Print Assumptions C87_grasp.
Theorem C87_iterative : forall g W W', elsewhere g W W' -> forall o alg alg' restart episodes initial,
  (forall i, same_run W g (alg i) (alg' i)) ->
  same_run W g (@iterative_optimize W o alg restart episodes initial) (@iterative_optimize W' o alg' restart episodes initial).
Proof. exact c87_iterative. Qed.
Print Assumptions C87_iterative.
Theorem C87_sequential : forall g W W', elsewhere g W W' -> forall o algs algs' initial,
  Forall2 (fun alg alg' => forall i, same_run W g (alg i) (alg' i)) algs algs' ->
  same_run W g (@sequential_optimize W o algs initial) (@sequential_optimize W' o algs' initial).
Proof. exact c87_sequential. Qed.
Print Assumptions C87_sequential.
(** and so do all questions about routes and plannings *)
Theorem C87_answers : forall g W W', elsewhere g W W' -> forall o r pl,
  same_run W g (@route_feasible W r) (@route_feasible W' r) /\ same_run W g (@planning_feasible W pl) (@planning_feasible W' pl) /\
  same_run W g (@planning_value W o pl) (@planning_value W' o pl) /\ same_run W g (@completed_trips W pl) (@completed_trips W' pl).
Proof. exact c87_answers. Qed.
Print Assumptions C87_answers.

Section C87_example.
  Example C87_case : elsewhere mirror fork_world mirror_world /\ inside fork_world empty_heap /\ inside fork_world fork_after /\
    @insertion_optimize fork_world (warm_config EarliestLastDeparture) [0%nat] [0; 1; 2]%nat None empty_heap = (Ok [15%nat], fork_after) /\
    @insertion_optimize mirror_world (warm_config EarliestLastDeparture) [0%nat] [0; 1; 2]%nat None empty_heap = (Ok [15%nat], put_state mirror fork_after) /\
    put_state mirror fork_after <> fork_after.
  Proof.
    assert (I0 : inside fork_world empty_heap) by (intros c Hc; inversion Hc).
    destruct (c87_insertion mirror fork_world mirror_world mirror_elsewhere (warm_config EarliestLastDeparture) [0%nat] [0; 1; 2]%nat None empty_heap I0) as [_ I1].
    rewrite fork_run in I1.
    split; [exact mirror_elsewhere|]. split; [exact I0|]. split; [exact I1|]. split; [exact fork_run|].
    split; [vm_compute; reflexivity|]. discriminate.
  Qed.
  (** from that state the search by reallocation, and GRASP, in the mirror *)
  Example C87_case_search :
    fst (@local_search_optimize mirror_world 5 Reallocation DialARide 1 [15%nat] (put_state mirror fork_after)) =
      fst (@local_search_optimize fork_world 5 Reallocation DialARide 1 [15%nat] fork_after) /\
    (exists pl, fst (@local_search_optimize fork_world 5 Reallocation DialARide 1 [15%nat] fork_after) = Ok pl) /\
    (exists pl, fst (@grasp_optimize mirror_world 3 DialARide (warm_config EarliestLastDeparture) [0%nat] [0; 2]%nat 1 1 empty_heap) = Ok pl).
  Proof. split; [vm_compute; reflexivity|]. split; eexists; vm_compute; reflexivity. Qed.
  (** a passenger's ride, on the line and in the mirror *)
  Example C87_case_visits : let xs := [Visit [0] [] [] None; Visit [10000] [2%nat] [] None; Visit [11000] [] [2%nat] None; Visit [0] [] [] None] in
    (forall x, x ∈ xs -> place_of fork_world (vi_place x)) /\
    @timetable mirror_world 0 (map (put_visit mirror) xs) !! 2%nat = Some (Timing 11000 11000 11000 0) /\ @admissible fork_world 0 xs.
  Proof.
    split.
    - intros x Hx. repeat (apply elem_of_cons in Hx as [->|Hx]; [|]); [| | | |by apply elem_of_nil in Hx]; cbn.
      + right. exists 0%nat. by left.
      + left. exists 2%nat. by left.
      + left. exists 2%nat. by right.
      + right. exists 0%nat. by left.
    - split; [vm_compute; reflexivity|]. apply admissibleb_sound. vm_compute. reflexivity.
  Qed.
End C87_example.
