(** C20-C23: the stateless iterators, and the choice of the ranking iterator. *)
From Verif Require Import StatelessTheorems SelectTheorems.

(** ** C20.  Stateless iteration keeps accepted trips

    It does not.  [_attractive_routes] keeps the routes it collected first
    (iterators/abc.py:91-102), so every candidate extends a vehicle's first
    route, and accepting it drops what the vehicle had been given since. *)
@C20_refuted c20_refuted
(** what a run does give: a valid planning in which no vehicle serves more than
    one trip beyond those it started with *)
@C20_cold_partial c20_cold
@C20_warm_partial c20_warm

Section C20_example.
  #[local] Existing Instance town.
  Example C20_case : sane /\ tidy empty_heap /\ NoDup [0; 1]%nat /\ NoDup [0; 1; 3]%nat /\
    exists pl h', stateless_optimize loner_config [0; 1]%nat [0; 1; 3]%nat None empty_heap = (Ok pl, h') /\
      (mapM route_trips pl h').1 = Ok [[3]; []]%nat.
  Proof.
    split; [apply town_sane|]. split; [apply tidyb_sound; reflexivity|].
    split; [apply (bool_decide_unpack _); reflexivity|]. split; [apply (bool_decide_unpack _); reflexivity|].
    eexists _, _. split; [vm_compute; reflexivity|vm_compute; reflexivity].
  Qed.
  Example C20_case_warm : tidy loner_end /\ valid_planning loner_end [0]%nat [0; 3]%nat [2]%nat /\
    NoDup [0; 1; 3]%nat /\
    exists pl h', stateless_optimize loner_config [0]%nat [0; 1; 3]%nat (Some [2]%nat) loner_end = (Ok pl, h') /\
      (mapM route_trips pl h').1 = Ok [[3; 1]]%nat.
  Proof.
    assert (E : stateless_optimize loner_config [0]%nat [0; 3]%nat None empty_heap = (Ok [2]%nat, loner_end)).
    { vm_compute. reflexivity. }
    assert (H1 : sane) by apply town_sane.
    assert (H2 : tidy empty_heap) by (apply tidyb_sound; reflexivity).
    assert (H3 : NoDup [0]%nat) by (apply (bool_decide_unpack _); reflexivity).
    assert (H4 : NoDup [0; 3]%nat) by (apply (bool_decide_unpack _); reflexivity).
    destruct (C20_cold_partial loner_config _ _ _ H1 H2 H3 H4) as (pl & h' & E' & T & V & _).
    rewrite E in E'. injection E' as <- <-. split; [exact T|]. split; [exact V|].
    split; [apply (bool_decide_unpack _); reflexivity|].
    eexists _, _. split; [vm_compute; reflexivity|vm_compute; reflexivity].
  Qed.
End C20_example.

(** ** C21.  BestStatelessInsertionIterator yields the best candidate

    It raises on every instance: [nbest] gets each candidate as an argument of
    its own instead of one iterable (stateless.py:58). *)
@C21_refuted c21_cold
@C21_refuted_warm c21_warm

Section C21_example.
  #[local] Existing Instance town.
  Example C21_case : sane /\ tidy empty_heap /\ (1 <= ic_random loner_config)%nat /\
    (best_stateless_optimize loner_config [0]%nat [0; 3]%nat None empty_heap).1 = Raise AttributeError /\
    (best_stateless_optimize loner_config [0]%nat [0; 1; 3]%nat None empty_heap).1 = Raise TypeError /\
    (best_stateless_optimize loner_config [0]%nat [] None empty_heap).1 = Raise TypeError.
  Proof.
    split; [apply town_sane|]. split; [apply tidyb_sound; reflexivity|]. split; [cbn; lia|].
    split; [vm_compute; reflexivity|]. split; vm_compute; reflexivity.
  Qed.
End C21_example.

(** ** C22.  Ranking iteration picks the overall best candidate *)
@C22_best c22_best

Section C22_example.
  #[local] Existing Instance drawn.
  Example C22_case : sane /\ rk_random (drawn_ranking 1) = 1%nat /\ ranked (drawn_ranking 1) drawn_town /\
    (ranking_next (drawn_ranking 1) drawn_town).1 = Ok (Some 1%nat) /\ candidate (drawn_ranking 1) 4.
  Proof.
    split; [apply drawn_sane|]. split; [done|]. split; [apply drawn_ranked|].
    split; [vm_compute; reflexivity|]. apply drawn_candidate. left.
  Qed.
End C22_example.

(** ** C23.  Ranking iteration picks among the k best candidates

    It does not: each sub-ranking can push out only the worst candidate kept so
    far, because a candidate is compared with the last one appended
    (ranking.py:86-96). *)
@C23_refuted c23_refuted
(** it holds for a single sub-ranking *)
@C23_single_partial c23_single
(** and the overall best candidate is always kept, in the first position *)
@C23_first_partial c23_first

Section C23_example.
  #[local] Existing Instance drawn.
  Example C23_case : ranked (drawn_ranking 2) drawn_town /\
    (ranking_next (MkRanking (rk_it (drawn_ranking 2)) 4 1 [(0, [1; 2])]%nat) drawn_town).1 = Ok (Some 1%nat) /\
    (ranking_next (MkRanking (rk_it (drawn_ranking 2)) 4 2 [(0, [1; 2])]%nat) drawn_town).1 = Ok (Some 2%nat).
  Proof. split; [apply drawn_ranked|]. split; vm_compute; reflexivity. Qed.
End C23_example.
Section C23_example_first.
  #[local] Existing Instance town.
  Example C23_case_first : forall n m, w_choice n m = 0%nat.
  Proof. reflexivity. Qed.
End C23_example_first.
