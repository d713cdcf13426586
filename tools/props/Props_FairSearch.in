(** * Constraints along searches, restarts and GRASP

    [admissible] is in Spec.v, [tidy] and [on_tour] in Represents.v, [fair],
    [almost], [calm], [brief], [limitless] and [honest] in SpecFair.v,
    [untimed] and [all_admissible] in SpecCalm.v, [valid_planning] in
    Plannings.v, [single_stops] in Searches.v. *)
From Verif Require Import SpecCalm FairSearchTheorems CalmTheorems CalmCheck WitnessSearch ShiftTheorems MissRefute FairTheorems.

(** ** C71.  Searches, restarts and GRASP return only routes that keep all limits *)
(** Full statement: every route with passengers that reallocation, the
    iterative algorithm or GRASP returns is admissible.  It is false of the
    code, because insertions already return other routes
    (C06_refuted_algorithm).  What holds is that no search step loses what
    insertions guarantee.  Missing: the duration limit of the vehicle, and the
    windows behind a visit with a requested start. *)
@C71_search_partial c71_search
@C71_iterative_partial c71_iterative
@C71_grasp_partial c71_grasp

Section C71_example.
  #[local] Existing Instance loop.
  (** the search moves trip 0 from vehicle 1 to vehicle 0 *)
  Example C71_case : sane /\ tidy split_loop /\ fair split_loop /\
    valid_planning split_loop [1; 0]%nat [0; 1]%nat [1; 3]%nat /\ single_stops split_loop [1; 3]%nat /\
    (forall r v ids xs, r ∈ [1; 3]%nat -> on_tour split_loop r v ids xs -> boards xs <> [] -> almost v xs) /\
    local_search_optimize 5 Reallocation DialARide 1 [1; 3]%nat split_loop = (Ok [6; 11]%nat, joined_loop) /\
    result (mapM route_trips [6; 11]%nat) joined_loop = Ok [[]; [1; 0]]%nat.
  Proof.
    assert (C : contentb split_loop = true) by (vm_compute; reflexivity).
    destruct (validb_sound split_loop [1; 0]%nat [0; 1]%nat [1; 3]%nat [(1, [0]); (0, [1])]%nat) as [V S]; [reflexivity|].
    split; [apply loop_sane|]. split; [apply tidyb_sound; reflexivity|]. split; [by apply content_fair|]. split; [done|]. split; [done|].
    split; [intros r v ids xs _ R _; by eapply content_almost|]. split; vm_compute; reflexivity.
  Qed.
  (** GRASP from an empty heap *)
  Example C71_grasp_case : sane /\ tidy empty_heap /\ fair empty_heap /\ ic_only_feasible loop_config = true /\
    NoDup [1; 0]%nat /\ (1 <= ic_random loop_config)%nat /\
    match grasp_optimize 5 DialARide loop_config [1; 0]%nat [0; 1]%nat 1 1 empty_heap with
    | (Ok pl, h) => result (mapM route_trips pl) h = Ok [[]; [1; 0]]%nat
    | _ => False
    end.
  Proof.
    split; [apply loop_sane|]. split; [apply tidyb_sound; reflexivity|]. split; [apply empty_fair|]. split; [done|].
    split; [apply (bool_decide_unpack _); reflexivity|]. split; [cbn; lia|]. vm_compute. reflexivity.
  Qed.
End C71_example.

(** ** C72.  Without riding-time and duration limits all returned routes keep all limits *)
@C72_insertion c72_insertion
@C72_insertion_warm c72_insertion_warm
@C72_search c72_search
@C72_grasp c72_grasp

Section C72_example.
  #[local] Existing Instance loop.
  Example C72_case : sane /\ limitless /\ (forall v, v_timeout v = Inf) /\
    tidy split_loop /\ fair split_loop /\ honest split_loop /\
    valid_planning split_loop [1; 0]%nat [0; 1]%nat [1; 3]%nat /\ single_stops split_loop [1; 3]%nat /\
    untimed split_loop [1; 3]%nat /\
    local_search_optimize 5 Reallocation DialARide 1 [1; 3]%nat split_loop = (Ok [6; 11]%nat, joined_loop) /\
    all_admissible joined_loop [6; 11]%nat.
  Proof.
    assert (C : contentb split_loop = true) by (vm_compute; reflexivity).
    assert (L : limitless) by (intros [|[|[|[|t]]]]; reflexivity).
    assert (B : forall v, v_timeout v = Inf) by (intros [|[|[|v]]]; reflexivity).
    assert (T : tidy split_loop) by (apply tidyb_sound; reflexivity).
    assert (O : honest split_loop) by (apply never_denied_honest; vm_compute; reflexivity).
    assert (U : untimed split_loop [1; 3]%nat) by (apply content_untimed; [done|vm_compute; reflexivity]).
    assert (E : local_search_optimize 5 Reallocation DialARide 1 [1; 3]%nat split_loop = (Ok [6; 11]%nat, joined_loop)) by (vm_compute; reflexivity).
    destruct (validb_sound split_loop [1; 0]%nat [0; 1]%nat [1; 3]%nat [(1, [0]); (0, [1])]%nat) as [V S]; [reflexivity|].
    pose proof (C72_search 5 DialARide 1 split_loop _ _ _ loop_sane L T (content_fair _ C) O V S U) as H. rewrite E in H.
    split; [apply loop_sane|]. do 3 (split; [done|]). split; [by apply content_fair|]. do 5 (split; [done|]). by apply H.
  Qed.
  (** a warm start that adds trip 1 to a route serving trip 0, and a cold start *)
  Example C72_insertion_case : sane /\ limitless /\ tidy empty_heap /\ fair empty_heap /\ honest empty_heap /\
    ic_only_feasible loop_config = true /\
    match insertion_optimize loop_config [1; 0]%nat [0]%nat None empty_heap with
    | (Ok pl, h) => result (mapM route_trips pl) h = Ok [[0]; []]%nat /\
        match insertion_optimize loop_config [] [1]%nat (Some pl) h with
        | (Ok pl', h') => result (mapM route_trips pl') h' = Ok [[0; 1]; []]%nat
        | _ => False
        end
    | _ => False
    end.
  Proof.
    split; [apply loop_sane|]. split; [intros [|[|[|[|t]]]]; reflexivity|]. split; [apply tidyb_sound; reflexivity|].
    split; [apply empty_fair|]. split; [apply honest_empty|]. split; [done|]. vm_compute. split; reflexivity.
  Qed.
End C72_example.
