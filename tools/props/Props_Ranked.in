(** * Greedy insertion along whole runs, and what computing candidates touches

    [candidate], [ranked], [unbeaten] and [chosen_by] are in Iterators.v,
    [scored] and [beats] in Values.v, [start] and [rounds] in Plannings.v. *)
From Verif Require Import RankedTheorems Witness WitnessIdle.

(** ** C68.  Every insertion accepted in a run is a best one *)
(** after any number of rounds every candidate has a score, and every
    sub-ranking is still sorted by the scores its candidates have now *)
@C68_ranked c68_ranked
@C68_warm_ranked c68_warm_ranked
(** so with [randomized_size] 1 every round offers a candidate no other beats,
    and the run is out of routes only when no candidate is left *)
@C68_best c68_best
@C68_warm_best c68_warm_best

Section C68_example.
  #[local] Existing Instance town.
  Definition quick_config : insertion_config := MkInsertionConfig Intensive true ShortestTime None 1.
  (** one round of a cold start, and three candidates for the next round *)
  Example C68_case : sane /\ tidy empty_heap /\ NoDup [0; 1]%nat /\ NoDup [0; 1; 2; 3]%nat /\ ic_random quick_config = 1%nat /\
    exists k0 h0 k h1 r h2, start quick_config [0; 1]%nat [0; 1; 2; 3]%nat None empty_heap = (Ok k0, h0) /\
      rounds 1 k0 h0 k h1 /\ ranking_next k h1 = (Ok (Some r), h2) /\
      (2 <= length (concat (map snd (rk_table k))))%nat.
  Proof.
    split; [apply town_sane|]. split; [apply tidyb_sound; reflexivity|].
    split; [apply (bool_decide_unpack _); reflexivity|]. split; [apply (bool_decide_unpack _); reflexivity|]. split; [done|].
    eexists _, _, _, _, _, _. split; [vm_compute; reflexivity|]. split.
    - eapply rounds_more; [vm_compute; reflexivity..|]. apply rounds_none.
    - split; [vm_compute; reflexivity|]. vm_compute. lia.
  Qed.
End C68_example.

(** ** C69.  Computing candidates for a route touches nothing that belongs to others *)
(** stops that are not on the route, planned trips none of its stops lists, and
    all route objects, the base route included, stay literally the same: no
    field and no recorded answer changes, also if the computation raises *)
@C69_own c69_own
(** in particular everything that belongs to another vehicle *)
@C69_vehicles c69_vehicles

Section C69_example.
  #[local] Existing Instance town.
  Definition late_route : heap := Eval vm_compute in (strategy_compute Intensive true 2 [3]%nat partly_town).2.
  (** the route takes trips 2 and 3, one after the other; the candidates that
      insert trip 0 at its end share its first stop, and shift its departure;
      stop 0 belongs to vehicle 0 *)
  Example C69_case : exists l h', on_tour late_route 8 1 (stops_in late_route 8) (visits_of late_route 8) /\
    strategy_compute Intensive true 8 [0]%nat late_route = (Ok l, h') /\ (2 <= length l)%nat /\
    (exists s c c', s ∈ stops_in late_route 8 /\ h_stops late_route !! s = Some c /\ h_stops h' !! s = Some c' /\
       st_starting c <> st_starting c') /\
    exists s c, h_stops late_route !! s = Some c /\ s ∉ stops_in late_route 8 /\ st_vehicle c <> 1%nat.
  Proof.
    eexists _, _. split; [apply on_tourb_sound; reflexivity|]. split; [vm_compute; reflexivity|].
    split; [vm_compute; lia|]. split.
    - exists 38%nat. do 2 eexists. split; [vm_compute; left|]. split; [vm_compute; reflexivity|].
      split; [vm_compute; reflexivity|]. vm_compute. discriminate.
    - exists 0%nat. eexists. split; [vm_compute; reflexivity|]. split; [apply (bool_decide_unpack _); reflexivity|].
      vm_compute. discriminate.
  Qed.
End C69_example.
