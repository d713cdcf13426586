(** C17-C19: the insertion algorithm with the ranking iterator. *)
From Verif Require Import RankingTheorems Witness.

(** ** C17.  The insertion algorithm (ranking iterator) accounts for every trip *)
(** the iterator starts from one empty route per vehicle, every trip pending *)
@C17_start c17_start
(** after any number of accepted routes: a valid planning, and every trip of
    the job is either pending or served, never both *)
@C17_rounds c17_rounds
(** accepted trips stay with their vehicle in all later rounds *)
@C17_kept c17_kept
(** the algorithm ends without exception with a valid planning *)
@C17_result c17_result

Section C17_example.
  #[local] Existing Instance town.
  Example C17_case : sane /\ tidy empty_heap /\ NoDup [0; 1]%nat /\ NoDup [0; 1; 3]%nat /\
    (1 <= ic_random tail_config)%nat /\
    insertion_optimize tail_config [0; 1]%nat [0; 1; 3]%nat None empty_heap = (Ok planned_routes, planned_town) /\
    valid_planning planned_town [0; 1]%nat [0; 1; 3]%nat planned_routes /\
    planned_for planned_town planned_routes 0 [3; 0]%nat.
  Proof.
    assert (E : insertion_optimize tail_config [0; 1]%nat [0; 1; 3]%nat None empty_heap = (Ok planned_routes, planned_town))
      by reflexivity.
    assert (H1 : sane) by apply town_sane.
    assert (H2 : tidy empty_heap) by (apply tidyb_sound; reflexivity).
    assert (H3 : NoDup [0; 1]%nat) by (apply (bool_decide_unpack _); reflexivity).
    assert (H4 : NoDup [0; 1; 3]%nat) by (apply (bool_decide_unpack _); reflexivity).
    assert (H5 : (1 <= ic_random tail_config)%nat) by (cbn; lia).
    split; [done|]. split; [done|]. split; [done|]. split; [done|]. split; [done|]. split; [done|]. split.
    - destruct (C17_result tail_config _ _ _ H1 H2 H3 H4 H5) as (pl & h' & E' & _ & V).
      rewrite E in E'. injection E' as <- <-. exact V.
    - exists 5%nat. split; [left|]. exists planned_stops, planned_visits. split; [apply on_tourb_sound; reflexivity|reflexivity].
  Qed.
  (** two rounds *)
  Example C17_case_rounds : exists k0 h0 n k h1, start tail_config [0; 1]%nat [0; 1; 3]%nat None empty_heap = (Ok k0, h0) /\
    rounds n k0 h0 k h1 /\ n = 2%nat /\ length (pending k) = 1%nat.
  Proof.
    eexists _, _, _, _, _. split; [vm_compute; reflexivity|]. split.
    - eapply rounds_more; [vm_compute; reflexivity..|].
      eapply rounds_more; [vm_compute; reflexivity..|]. apply rounds_none.
    - split; reflexivity.
  Qed.
End C17_example.

(** ** C18.  The insertion algorithm terminates *)
(** each round uses up exactly one pending trip *)
@C18_bound c18_bound
@C18_warm c18_warm
(** so the loop stops after at most one round per trip, because the iterator is
    exhausted or offers an infeasible route, and its result is the planning reached *)
@C18_ends c18_ends
(** and a larger bound on the number of rounds changes nothing *)
@C18_fuel c18_fuel

Section C18_example.
  #[local] Existing Instance town.
  (** the loop ends with a trip left over *)
  Example C18_case : exists k0 h0 k h1,
    start tail_config [0; 1]%nat [0; 1; 3]%nat None empty_heap = (Ok k0, h0) /\ rounds 2 k0 h0 k h1 /\
    pending k = [1]%nat /\ current k = planned_routes.
  Proof.
    eexists _, _, _, _. split; [vm_compute; reflexivity|]. split.
    - eapply rounds_more; [vm_compute; reflexivity..|].
      eapply rounds_more; [vm_compute; reflexivity..|]. apply rounds_none.
    - split; reflexivity.
  Qed.
End C18_example.

(** ** C19.  Warm start keeps the trips already planned *)
@C19_warm c19_warm
(** whatever the initial result, and also if the run raises *)
@C19_untouched c19_untouched

Section C19_example.
  #[local] Existing Instance town.
  Example C19_case : tidy planned_town /\ valid_planning planned_town [0; 1]%nat [0; 1; 3]%nat planned_routes /\
    NoDup [0; 1; 2; 3]%nat /\
    exists pl, fst (insertion_optimize town_config [0; 1]%nat [0; 1; 2; 3]%nat (Some planned_routes) planned_town) = Ok pl /\
      pl <> planned_routes.
  Proof.
    split; [apply tidyb_sound; reflexivity|]. split; [apply C17_case|].
    split; [apply (bool_decide_unpack _); reflexivity|]. eexists. split; [vm_compute; reflexivity|discriminate].
  Qed.
End C19_example.
