(** C31-C33: algorithms built on other algorithms. *)
From Verif Require Import MetaTheorems GraspTheorems WitnessSearch ShiftTheorems.

(** ** C31.  Iterative algorithm returns the best of its episodes *)
(** for any inner algorithm that yields well-formed plannings and leaves
    existing routes as they are *)
@C31_best c31_best
(** an exception is that of an episode *)
@C31_fails c31_fails
@C31_none c31_none
(** the insertion algorithm is such an inner algorithm *)
@C31_insertion c31_insertion

Section C31_example.
  #[local] Existing Instance loop.
  Example C31_case : sane /\ tidy empty_heap /\ NoDup [0; 1]%nat /\ (1 <= ic_random loop_config)%nat /\
    iterative_optimize DialARide (insertion_algorithm loop_config [0; 1]%nat [0; 1]%nat) true 2 None empty_heap =
      (Ok [2; 5]%nat, served_loop) /\
    exists l, length l = 2%nat /\ leads DialARide served_loop l [2; 5]%nat.
  Proof.
    assert (H1 : sane) by apply loop_sane.
    assert (H2 : tidy empty_heap) by (apply tidyb_sound; reflexivity).
    assert (H3 : NoDup [0; 1]%nat) by (apply (bool_decide_unpack _); reflexivity).
    assert (H4 : (1 <= ic_random loop_config)%nat) by (cbn; lia).
    assert (E : iterative_optimize DialARide (insertion_algorithm loop_config [0; 1]%nat [0; 1]%nat) true 2 None empty_heap =
      (Ok [2; 5]%nat, served_loop)) by (vm_compute; reflexivity).
    split; [done|]. split; [done|]. split; [done|]. split; [done|]. split; [done|].
    destruct (C31_insertion DialARide loop_config [0; 1]%nat [0; 1]%nat true 2 empty_heap H1 H2 H3 ltac:(done) H3 H4 ltac:(lia))
      as (l & b & h' & E' & Hl & _ & Hb & _).
    rewrite E in E'. injection E' as <- <-. exists l. split; [exact Hl|exact Hb].
  Qed.
  (** no episode at all *)
  Example C31_case_none :
    iterative_optimize DialARide (insertion_algorithm loop_config [0; 1]%nat [0; 1]%nat) true 0 None empty_heap =
      (Raise AssertionError, empty_heap).
  Proof. reflexivity. Qed.
  (** a local search fails without a planning to start from *)
  Example C31_case_fails :
    steady DialARide (local_search_algorithm 5 Reallocation DialARide 1) None (fun _ => True) (fun _ _ => False) /\
    iterative_optimize DialARide (local_search_algorithm 5 Reallocation DialARide 1) true 2 None empty_heap =
      (Raise AttributeError, empty_heap).
  Proof.
    split; [|reflexivity]. split; [done| |done].
    intros h start pl h' _ [->|(b & _ & [])] E. vm_compute in E. discriminate E.
  Qed.
End C31_example.

(** ** C32.  Sequential algorithm chains its stages *)
@C32_chain c32_chain
@C32_runs c32_runs
(** the first failing stage determines the outcome, whatever stages follow *)
@C32_stops c32_stops

Section C32_example.
  #[local] Existing Instance loop.
  Definition two_stages : list algorithm :=
    [local_search_algorithm 5 Reallocation DialARide 1; insertion_algorithm loop_config [1; 0]%nat [0; 1; 3]%nat].
  Example C32_case :
    match sequential_optimize DialARide two_stages (Some [1; 3]%nat) split_loop with
    | (Ok pl, h') => result (mapM route_trips pl) h' = Ok [[]; [1; 0; 3]]%nat
    | _ => False
    end /\
    result (sequential_optimize DialARide two_stages None) split_loop = Raise AttributeError /\
    result (sequential_optimize DialARide [] (Some [1; 3]%nat)) split_loop = Ok [1; 3]%nat.
  Proof. split; [vm_compute; reflexivity|]. split; vm_compute; reflexivity. Qed.
End C32_example.

(** ** C33.  GRASP returns a valid planning *)
(** [Diverge] stands for a local search that has not ended within [fuel] rounds *)
@C33_valid c33_valid
(** for the objectives whose values are whole numbers, there is enough fuel *)
@C33_ends c33_ends
(** and the result is the first best of the plannings of its episodes *)
@C33_best c33_best
@C33_none c33_none

Section C33_example.
  #[local] Existing Instance loop.
  Example C33_case : sane /\ tidy empty_heap /\ NoDup [1; 0]%nat /\ (1 <= ic_random loop_config)%nat /\
    match grasp_optimize 5 DialARide loop_config [1; 0]%nat [0; 1]%nat 1 1 empty_heap with
    | (Ok pl, h') => result (mapM route_trips pl) h' = Ok [[]; [1; 0]]%nat
    | _ => False
    end.
  Proof.
    split; [apply loop_sane|]. split; [apply tidyb_sound; reflexivity|].
    split; [apply (bool_decide_unpack _); reflexivity|]. split; [cbn; lia|]. vm_compute; reflexivity.
  Qed.
End C33_example.
