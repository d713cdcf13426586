(** * Search by 2-opt: which reversals are left at the end

    [better_turn], [tried], [one_each] and [no_idle_stops] are in SpecTurns.v,
    [turned] and [at_least] in Searches.v, [honest] in SpecFair.v, [tidy] and
    [on_tour] in Represents.v, [value_of] in SpecValue.v. *)
From Verif Require Import TurnRefute.

(** ** C80.  No stretch of a route can be reversed to improve the result of a
    2-opt search

    The pairs of two_opt.py:21-27 give stretches of three or more stops, and
    of two stops right before the last one only. *)
(** two neighbouring stops the vehicle had better visit the other way round *)
@C80_refuted c80_refuted
(** and reversals that were tried: once the result has two routes for a vehicle
    (C28), an improvement of one of them throws out the other one, the value of
    the planning drops, and the search ends *)
@C80_refuted_twice c80_refuted_twice
(** one round brings at least as much as any reversal that is tried *)
@C80_round_partial c80_round
(** so that none is left when the search ends with one route for each vehicle *)
@C80_local_optimum_partial c80_local_optimum
(** the plannings made by insertion have no idle stops *)
@C80_no_idle_partial c80_busy

Section C80_example.
  #[local] Existing Instance line.
  (** in the end 25 is visited between 20 and 40, not on the way back, and 100
      before 102 *)
  Example C80_case : sane /\ tidy forth_line /\ honest forth_line /\ a_tour forth_line 4 /\
    single_stops forth_line [4%nat] /\ no_idle_stops forth_line [4%nat] /\
    map vi_place (visits_of forth_line 4) = [[0]; [20000]; [30000]; [40000]; [25000]; [102000]; [101000]; [100000]; [103000]; [0]] /\
    better_turn DialARide 0 (visits_of forth_line 4) (turned 2 3 (visits_of forth_line 4)) 2 3 /\ tried 2 3 (length (visits_of forth_line 4)) /\
    local_search_optimize 3 TwoOpt DialARide 1 [4%nat] forth_line = (Ok [26%nat], onward_line) /\ one_each onward_line [26%nat] /\
    map vi_place (visits_of onward_line 26) = [[0]; [20000]; [25000]; [40000]; [30000]; [100000]; [101000]; [102000]; [103000]; [0]] /\
    value_of DialARide 0 (visits_of forth_line 4) = [4; -240000] /\
    value_of DialARide 0 (visits_of onward_line 26) = [4; -226000].
  Proof.
    split; [apply line_sane|]. split; [apply tidyb_sound; reflexivity|]. split; [apply never_denied_honest; vm_compute; reflexivity|].
    assert (R : on_tour forth_line 4 0 (stops_in forth_line 4) (visits_of forth_line 4)) by (apply on_tourb_sound; reflexivity).
    destruct (valid_one _ _ _ _ _ R) as [V S]; [apply simpleb_sound; reflexivity|].
    split; [by eexists _, _, _|]. split; [exact S|]. split; [by apply c80_busy|]. split; [vm_compute; reflexivity|].
    split; [|split; [left; lia|]; split; [vm_compute; reflexivity|]; split; [apply one_each_single|]; split; [|split]; vm_compute; reflexivity].
    split; [lia|]. split; [lia|]. split; [vm_compute; lia|]. split; [done|]. split; [apply tourb_sound; reflexivity|].
    split; [apply admissibleb_sound; vm_compute; reflexivity|]. apply lex_unpack. vm_compute. reflexivity.
  Qed.
End C80_example.
