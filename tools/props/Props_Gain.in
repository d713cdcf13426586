(** * Values along the improving stage of GRASP

    [gaining] is in SpecGain.v, [total_worth] in Values.v, [at_least] and
    [single_stops] in Searches.v, [valid_planning] in Plannings.v, [tidy] in
    Represents.v. *)
From Verif Require Import ShiftTheorems WarmProofs WarmTheorems WitnessWarm WitnessGain SpecGain GainTheorems.

(** ** C85.  The improving stage of GRASP never loses value *)
(** its restarts compare only what they made themselves: the planning that the
    stage is given is not among the candidates, and the insertion at the end of
    each of them may cost a bonus *)
@C85_refuted c85_refuted
(** by the objective of dial-a-ride, and by the one of HashCode without bonuses *)
@C85_stage_partial c85_stage_partial
(** hence the result of GRASP leads the plannings that all its episodes begin
    with *)
@C85_grasp_partial c85_grasp_partial

Section C85_example.
  #[local] Existing Instance bonus_world.
  (** one planning, improved by either objective *)
  Example C85_case : sane /\ tidy bonus_before /\ valid_planning bonus_before [0%nat] [0%nat; 1%nat] [1%nat] /\
    single_stops bonus_before [1%nat] /\ gaining DialARide /\
    iterative_optimize HashCode (default_sequential 5 HashCode (warm_config HashCodeCriterion) [0%nat] [0%nat; 1%nat]) false 3 (Some [1%nat]) bonus_before
      = (Ok [4%nat], gain_after) /\
    total_worth HashCode bonus_before [1%nat] [60000] /\ total_worth HashCode gain_after [4%nat] [11000] /\
    iterative_optimize DialARide (default_sequential 5 DialARide (warm_config HashCodeCriterion) [0%nat] [0%nat; 1%nat]) false 3 (Some [1%nat]) bonus_before
      = (Ok [4%nat], ride_after) /\
    total_worth DialARide bonus_before [1%nat] [1; -40000] /\ total_worth DialARide ride_after [4%nat] [2; -44000].
  Proof.
    split; [apply bonus_sane|].
    destruct (found (warm_config HashCodeCriterion) _ _ _ _ bonus_sane (NoDup_singleton 0%nat) (NoDup_singleton 0%nat) (le_n 1) bonus_cold) as [T _].
    split; [exact T|]. destruct (validb_sound bonus_before [0%nat] [0%nat; 1%nat] [1%nat] [(0%nat, [0%nat])]) as [V S]; [vm_compute; reflexivity|].
    split; [exact V|]. split; [exact S|]. split; [by left|]. split; [exact bonus_gain|].
    split; [exact (one_worth HashCode _ _ _ _ _ bonus_tour_before)|]. split; [exact (one_worth HashCode _ _ _ _ _ gain_tour_after)|].
    split; [vm_compute; reflexivity|].
    split; [exact (one_worth DialARide _ _ _ _ _ bonus_tour_before)|exact (one_worth DialARide _ _ _ _ _ ride_tour_after)].
  Qed.
  (** GRASP from an empty heap *)
  Example C85_grasp_case : sane /\ tidy empty_heap /\ gaining DialARide /\
    exists pl h', grasp_optimize 3 DialARide (warm_config EarliestLastDeparture) [0%nat] [0%nat; 1%nat] 1 1 empty_heap = (Ok pl, h') /\
      exists x, total_worth DialARide h' pl [2; x].
  Proof.
    split; [apply bonus_sane|]. split; [apply tidyb_sound; reflexivity|]. split; [by left|].
    exists [10%nat], grasp_after. split; [vm_compute; reflexivity|]. eexists. exact (one_worth DialARide _ _ _ _ _ grasp_tour_after).
  Qed.
End C85_example.
