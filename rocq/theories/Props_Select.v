(** C20-C23: the stateless iterators, and the choice of the ranking iterator. *)
From Verif Require Import StatelessTheorems SelectTheorems.

(** ** C20.  Stateless iteration keeps accepted trips

    It does not.  [_attractive_routes] keeps the routes it collected first
    (iterators/abc.py:91-102), so every candidate extends a vehicle's first
    route, and accepting it drops what the vehicle had been given since. *)
Theorem C20_refuted : exists (W : World) cfg fleet job k0 h0 k1 h1 k2 h2 t,
  sane /\ begin cfg fleet job None empty_heap = (Ok k0, h0) /\
  turns 1 k0 h0 k1 h1 /\ (exists v ts, planned_for h1 (holds k1) v ts /\ t ∈ ts) /\
  turns 1 k1 h1 k2 h2 /\ t ∉ waiting k2 /\
  ~ (exists v ts, planned_for h2 (holds k2) v ts /\ t ∈ ts).
Proof. exact c20_refuted. Qed.
Print Assumptions C20_refuted.
(** what a run does give: a valid planning in which no vehicle serves more than
    one trip beyond those it started with *)
Theorem C20_cold_partial `{W : World} : forall cfg fleet job h,
  sane -> tidy h -> NoDup fleet -> NoDup job ->
  exists pl h', stateless_optimize cfg fleet job None h = (Ok pl, h') /\ tidy h' /\
    valid_planning h' fleet job pl /\
    (forall v ts, planned_for h' pl v ts -> (length ts <= 1)%nat).
Proof. exact c20_cold. Qed.
Print Assumptions C20_cold_partial.
Theorem C20_warm_partial `{W : World} : forall cfg fleet job rs0 vs ts h,
  sane -> tidy h -> valid_planning h vs ts rs0 -> NoDup job ->
  exists pl h', stateless_optimize cfg fleet job (Some rs0) h = (Ok pl, h') /\ tidy h' /\
    valid_planning h' vs (job ++ ts) pl /\
    (forall v us, planned_for h' pl v us -> exists us0, planned_for h rs0 v us0 /\
       (us = us0 \/ exists t, t ∈ job /\ us ≡ₚ t :: us0)).
Proof. exact c20_warm. Qed.
Print Assumptions C20_warm_partial.

Section C20_example.
  #[local] Existing Instance town.
  Example C20_case : sane /\ tidy empty_heap /\ NoDup [0; 1]%nat /\ NoDup [0; 1; 3]%nat /\
    exists pl h', stateless_optimize loner_config [0; 1]%nat [0; 1; 3]%nat None empty_heap = (Ok pl, h') /\
      (mapM route_trips pl h').1 = Ok [[3]; []]%nat.
  Proof.
    split; [apply town_sane|]. split; [apply tidyb_sound; reflexivity|].
    split; [apply (bool_decide_unpack _); reflexivity|]. split; [apply (bool_decide_unpack _); reflexivity|].
    eexists _, _. split; [vm_compute; reflexivity|vm_compute; reflexivity].
  Qed.
  Example C20_case_warm : tidy loner_end /\ valid_planning loner_end [0]%nat [0; 3]%nat [2]%nat /\
    NoDup [0; 1; 3]%nat /\
    exists pl h', stateless_optimize loner_config [0]%nat [0; 1; 3]%nat (Some [2]%nat) loner_end = (Ok pl, h') /\
      (mapM route_trips pl h').1 = Ok [[3; 1]]%nat.
  Proof.
    assert (E : stateless_optimize loner_config [0]%nat [0; 3]%nat None empty_heap = (Ok [2]%nat, loner_end)).
    { vm_compute. reflexivity. }
    assert (H1 : sane) by apply town_sane.
    assert (H2 : tidy empty_heap) by (apply tidyb_sound; reflexivity).
    assert (H3 : NoDup [0]%nat) by (apply (bool_decide_unpack _); reflexivity).
    assert (H4 : NoDup [0; 3]%nat) by (apply (bool_decide_unpack _); reflexivity).
    destruct (C20_cold_partial loner_config _ _ _ H1 H2 H3 H4) as (pl & h' & E' & T & V & _).
    rewrite E in E'. injection E' as <- <-. split; [exact T|]. split; [exact V|].
    split; [apply (bool_decide_unpack _); reflexivity|].
    eexists _, _. split; [vm_compute; reflexivity|vm_compute; reflexivity].
  Qed.
End C20_example.

(** ** C21.  BestStatelessInsertionIterator yields the best candidate

    It raises on every instance: [nbest] gets each candidate as an argument of
    its own instead of one iterable (stateless.py:58). *)
Theorem C21_refuted `{W : World} : forall cfg fleet job h,
  sane -> tidy h -> NoDup fleet -> NoDup job -> (1 <= ic_random cfg)%nat ->
  exists e h', best_stateless_optimize cfg fleet job None h = (Raise e, h') /\ (e = TypeError \/ e = AttributeError).
Proof. exact c21_cold. Qed.
Print Assumptions C21_refuted.
Theorem C21_refuted_warm `{W : World} : forall cfg fleet job rs0 vs ts h,
  sane -> tidy h -> valid_planning h vs ts rs0 -> NoDup job -> (1 <= ic_random cfg)%nat ->
  exists e h', best_stateless_optimize cfg fleet job (Some rs0) h = (Raise e, h') /\ (e = TypeError \/ e = AttributeError).
Proof. exact c21_warm. Qed.
Print Assumptions C21_refuted_warm.

Section C21_example.
  #[local] Existing Instance town.
  Example C21_case : sane /\ tidy empty_heap /\ (1 <= ic_random loner_config)%nat /\
    (best_stateless_optimize loner_config [0]%nat [0; 3]%nat None empty_heap).1 = Raise AttributeError /\
    (best_stateless_optimize loner_config [0]%nat [0; 1; 3]%nat None empty_heap).1 = Raise TypeError /\
    (best_stateless_optimize loner_config [0]%nat [] None empty_heap).1 = Raise TypeError.
  Proof.
    split; [apply town_sane|]. split; [apply tidyb_sound; reflexivity|]. split; [cbn; lia|].
    split; [vm_compute; reflexivity|]. split; vm_compute; reflexivity.
  Qed.
End C21_example.

(** ** C22.  Ranking iteration picks the overall best candidate *)
Theorem C22_best `{W : World} : forall k h, sane -> rk_random k = 1%nat -> ranked k h ->
  exists o h', ranking_next k h = (Ok o, h') /\ routes_kept h h' /\
    match o with Some r => unbeaten k h r | None => forall r, ~ candidate k r end.
Proof. exact c22_best. Qed.
Print Assumptions C22_best.

Section C22_example.
  #[local] Existing Instance drawn.
  Example C22_case : sane /\ rk_random (drawn_ranking 1) = 1%nat /\ ranked (drawn_ranking 1) drawn_town /\
    (ranking_next (drawn_ranking 1) drawn_town).1 = Ok (Some 1%nat) /\ candidate (drawn_ranking 1) 4.
  Proof.
    split; [apply drawn_sane|]. split; [done|]. split; [apply drawn_ranked|].
    split; [vm_compute; reflexivity|]. apply drawn_candidate. left.
  Qed.
End C22_example.

(** ** C23.  Ranking iteration picks among the k best candidates

    It does not: each sub-ranking can push out only the worst candidate kept so
    far, because a candidate is compared with the last one appended
    (ranking.py:86-96). *)
Theorem C23_refuted : exists (W : World) k h r h' r1 r2 x x1 x2,
  sane /\ rk_random k = 2%nat /\ ranked k h /\ ranking_next k h = (Ok (Some r), h') /\
  candidate k r1 /\ candidate k r2 /\ r1 <> r2 /\
  scored (chosen_by k) h r x /\ scored (chosen_by k) h r1 x1 /\ scored (chosen_by k) h r2 x2 /\
  beats (chosen_by k) x1 x /\ beats (chosen_by k) x2 x.
Proof. exact c23_refuted. Qed.
Print Assumptions C23_refuted.
(** it holds for a single sub-ranking *)
Theorem C23_single_partial `{W : World} : forall k h v sub, sane -> (1 <= rk_random k)%nat -> ranked k h -> rk_table k = [(v, sub)] -> sub <> [] ->
  exists i r h', ranking_next k h = (Ok (Some r), h') /\ routes_kept h h' /\ (i < rk_random k)%nat /\ sub !! i = Some r.
Proof. exact c23_single. Qed.
Print Assumptions C23_single_partial.
(** and the overall best candidate is always kept, in the first position *)
Theorem C23_first_partial `{W : World} : forall k h, sane -> (1 <= rk_random k)%nat -> ranked k h -> (forall n m, w_choice n m = 0%nat) ->
  exists o h', ranking_next k h = (Ok o, h') /\ routes_kept h h' /\
    match o with Some r => unbeaten k h r | None => forall r, ~ candidate k r end.
Proof. exact c23_first. Qed.
Print Assumptions C23_first_partial.

Section C23_example.
  #[local] Existing Instance drawn.
  Example C23_case : ranked (drawn_ranking 2) drawn_town /\
    (ranking_next (MkRanking (rk_it (drawn_ranking 2)) 4 1 [(0, [1; 2])]%nat) drawn_town).1 = Ok (Some 1%nat) /\
    (ranking_next (MkRanking (rk_it (drawn_ranking 2)) 4 2 [(0, [1; 2])]%nat) drawn_town).1 = Ok (Some 2%nat).
  Proof. split; [apply drawn_ranked|]. split; vm_compute; reflexivity. Qed.
End C23_example.
Section C23_example_first.
  #[local] Existing Instance town.
  Example C23_case_first : forall n m, w_choice n m = 0%nat.
  Proof. reflexivity. Qed.
End C23_example_first.
