(** * What the algorithms look at

    [elsewhere], [place_of], [put_visit], [put_state], [inside] and [same_run]
    are in SpecPlaces.v, [timetable] and [admissible] in Spec.v. *)
From Verif Require Import AdmissibleCheck OrderTheorems WitnessPlaces SpecPlaces PlaceTheorems.

(** ** C87.  Only distances and limits decide *)
(** two instances with the same distances and limits, wherever their places
    are, whatever their metric, their names, and the hours of depots that no
    limit refers to: schedules and limits are the same, *)
@C87_schedule c87_schedule
@C87_limits c87_limits
(** and all algorithms make the same calls with the same results, up to the
    places, from any state *)
@C87_insertion c87_insertion
@C87_stateless c87_stateless
@C87_search c87_search
@C87_grasp c87_grasp
@C87_iterative c87_iterative
@C87_sequential c87_sequential
(** and so do all questions about routes and plannings *)
@C87_answers c87_answers

Section C87_example.
  Example C87_case : elsewhere mirror fork_world mirror_world /\ inside fork_world empty_heap /\ inside fork_world fork_after /\
    @insertion_optimize fork_world (warm_config EarliestLastDeparture) [0%nat] [0; 1; 2]%nat None empty_heap = (Ok [15%nat], fork_after) /\
    @insertion_optimize mirror_world (warm_config EarliestLastDeparture) [0%nat] [0; 1; 2]%nat None empty_heap = (Ok [15%nat], put_state mirror fork_after) /\
    put_state mirror fork_after <> fork_after.
  Proof.
    assert (I0 : inside fork_world empty_heap) by (intros c Hc; inversion Hc).
    destruct (c87_insertion mirror fork_world mirror_world mirror_elsewhere (warm_config EarliestLastDeparture) [0%nat] [0; 1; 2]%nat None empty_heap I0) as [_ I1].
    rewrite fork_run in I1.
    split; [exact mirror_elsewhere|]. split; [exact I0|]. split; [exact I1|]. split; [exact fork_run|].
    split; [vm_compute; reflexivity|]. discriminate.
  Qed.
  (** from that state the search by reallocation, and GRASP, in the mirror *)
  Example C87_case_search :
    fst (@local_search_optimize mirror_world 5 Reallocation DialARide 1 [15%nat] (put_state mirror fork_after)) =
      fst (@local_search_optimize fork_world 5 Reallocation DialARide 1 [15%nat] fork_after) /\
    (exists pl, fst (@local_search_optimize fork_world 5 Reallocation DialARide 1 [15%nat] fork_after) = Ok pl) /\
    (exists pl, fst (@grasp_optimize mirror_world 3 DialARide (warm_config EarliestLastDeparture) [0%nat] [0; 2]%nat 1 1 empty_heap) = Ok pl).
  Proof. split; [vm_compute; reflexivity|]. split; eexists; vm_compute; reflexivity. Qed.
  (** a passenger's ride, on the line and in the mirror *)
  Example C87_case_visits : let xs := [Visit [0] [] [] None; Visit [10000] [2%nat] [] None; Visit [11000] [] [2%nat] None; Visit [0] [] [] None] in
    (forall x, x ∈ xs -> place_of fork_world (vi_place x)) /\
    @timetable mirror_world 0 (map (put_visit mirror) xs) !! 2%nat = Some (Timing 11000 11000 11000 0) /\ @admissible fork_world 0 xs.
  Proof.
    split.
    - intros x Hx. repeat (apply elem_of_cons in Hx as [->|Hx]; [|]); [| | | |by apply elem_of_nil in Hx]; cbn.
      + right. exists 0%nat. by left.
      + left. exists 2%nat. by left.
      + left. exists 2%nat. by right.
      + right. exists 0%nat. by left.
    - split; [vm_compute; reflexivity|]. apply admissibleb_sound. vm_compute. reflexivity.
  Qed.
End C87_example.
