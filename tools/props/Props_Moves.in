(** * Search by reallocation: the best move, and no move left at the end

    [move] and [open_move] are in SpecMoves.v, [fits] and [honest] in
    SpecFair.v, [tidy] and [on_tour] in Represents.v, [single_stops] in
    Searches.v. *)
From Verif Require Import MoveTheorems WitnessMoves MissRefute CalmCheck ShiftTheorems Checker AdmissibleCheck.

(** ** C74.  No single trip can be moved to improve the result of a search by
    reallocation

    Moves into routes with at most 16 stops, for which all index pairs are
    tried (reallocation.py:40, utils/random.py:34-36), such that both vehicles
    keep all limits. *)
(** one round brings at least as much as any such move *)
@C74_best_move c74_best_move
(** so that none is left when the search ends *)
@C74_local_optimum c74_local_optimum
(** behind the first visit of both vehicles it is enough that the two new tours
    fit *)
@C74_later c74_later

Section C74_example.
  #[local] Existing Instance loop.
  (** handing trip 4 to vehicle 0, which passes by, saves a way of 8 *)
  Example C74_case : sane /\ tidy shared_loop /\ honest shared_loop /\
    valid_planning shared_loop [1; 0]%nat [1; 3; 4]%nat [2; 4]%nat /\ single_stops shared_loop [2; 4]%nat /\
    open_move DialARide shared_loop [2; 4]%nat 8000 /\
    result (planning_value DialARide [2; 4]%nat) shared_loop = Ok [3; -52000] /\
    local_search_optimize 5 Reallocation DialARide 1 [2; 4]%nat shared_loop = (Ok [14; 18]%nat, handed_loop) /\
    result (planning_value DialARide [14; 18]%nat) handed_loop = Ok [3; -44000] /\
    open_move DialARide handed_loop [14; 18]%nat (-8000).
  Proof.
    split; [apply loop_sane|]. split; [apply tidyb_sound; reflexivity|]. split; [apply never_denied_honest; vm_compute; reflexivity|].
    destruct (validb_sound shared_loop [1; 0]%nat [1; 3; 4]%nat [2; 4]%nat [(1, [3; 4]); (0, [1])]%nat) as [V S]; [reflexivity|].
    split; [exact V|]. split; [exact S|].
    assert (B : forall v L, v_timeout v = Inf -> brisk v L) by (intros v L E T _; by rewrite E).
    split; [|split; [vm_compute; reflexivity|]; split; [vm_compute; reflexivity|]; split; [vm_compute; reflexivity|]].
    - exists 2%nat, 4%nat, 1%nat, 0%nat, (stops_in shared_loop 2), (stops_in shared_loop 4), (visits_of shared_loop 2), (visits_of shared_loop 4), 4%nat, 1%nat, 2%nat.
      assert (R : on_tour shared_loop 2 1 (stops_in shared_loop 2) (visits_of shared_loop 2)) by (apply on_tourb_sound; reflexivity).
      assert (R' : on_tour shared_loop 4 0 (stops_in shared_loop 4) (visits_of shared_loop 4)) by (apply on_tourb_sound; reflexivity).
      split; [set_solver|]. split; [set_solver|]. split; [done|]. split; [exact R|]. split; [exact R'|]. split; [cbn; lia|].
      apply (c74_later DialARide 1 (visits_of shared_loop 2) 0 (visits_of shared_loop 4) 4 1 2 (proj2 R) (proj2 R')).
      + apply (bool_decide_unpack _); reflexivity.
      + apply (simple_dedicated 1); [apply R|]. by apply (S 2%nat 1%nat (stops_in shared_loop 2)); [set_solver|].
      + apply (bool_decide_unpack _); reflexivity.
      + intros x [= <-]. unfold mentions. cbn. set_solver.
      + lia.
      + cbn; lia.
      + split; [apply admissibleb_sound; vm_compute; reflexivity|by apply B].
      + split; [apply admissibleb_sound; vm_compute; reflexivity|by apply B].
    - exists 18%nat, 14%nat, 0%nat, 1%nat, (stops_in handed_loop 18), (stops_in handed_loop 14), (visits_of handed_loop 18), (visits_of handed_loop 14), 4%nat, 1%nat, 3%nat.
      assert (R : on_tour handed_loop 18 0 (stops_in handed_loop 18) (visits_of handed_loop 18)) by (apply on_tourb_sound; reflexivity).
      assert (R' : on_tour handed_loop 14 1 (stops_in handed_loop 14) (visits_of handed_loop 14)) by (apply on_tourb_sound; reflexivity).
      split; [set_solver|]. split; [set_solver|]. split; [done|]. split; [exact R|]. split; [exact R'|]. split; [cbn; lia|].
      apply (c74_later DialARide 0 (visits_of handed_loop 18) 1 (visits_of handed_loop 14) 4 1 3 (proj2 R) (proj2 R')).
      + apply (bool_decide_unpack _); reflexivity.
      + apply (simple_dedicated 0); [apply R|]. apply simpleb_sound; reflexivity.
      + apply (bool_decide_unpack _); reflexivity.
      + intros x [= <-]. unfold mentions. cbn. set_solver.
      + lia.
      + cbn; lia.
      + split; [apply admissibleb_sound; vm_compute; reflexivity|by apply B].
      + split; [apply admissibleb_sound; vm_compute; reflexivity|by apply B].
  Qed.
End C74_example.
