(** * Values and warm starts

    [total_worth] and [lex_lt] are in Values.v, [at_least] and [takes] in
    Searches.v, [valid_planning] in Plannings.v, [tidy] and [on_tour] in
    Represents.v, [value_of] in SpecValue.v. *)
From Verif Require Import WarmProofs WarmTheorems WitnessWarm.

(** ** C82.  A warm start never makes a planning worse *)
(** a ride that begins in time no longer does so behind an inserted one *)
Theorem C82_refuted : ~ forall (W : World) cfg fleet job h vs ts rs0 pl h' x y,
  sane -> tidy h -> valid_planning h vs ts rs0 -> NoDup job -> ic_only_feasible cfg = true -> (1 <= ic_random cfg)%nat ->
  insertion_optimize cfg fleet job (Some rs0) h = (Ok pl, h') ->
  total_worth HashCode h rs0 x -> total_worth HashCode h' pl y -> at_least x y.
Proof. exact c82_refuted. Qed.
Print Assumptions C82_refuted.
(** for the sake of an inserted passenger somebody is picked up later, and
    taxi sharing counts the time that passengers spend in the vehicle *)
Theorem C82_refuted_taxi : ~ forall (W : World) cfg fleet job h vs ts rs0 pl h' x y,
  sane -> tidy h -> valid_planning h vs ts rs0 -> NoDup job -> ic_only_feasible cfg = true -> (1 <= ic_random cfg)%nat ->
  insertion_optimize cfg fleet job (Some rs0) h = (Ok pl, h') ->
  total_worth TaxiSharing h rs0 x -> total_worth TaxiSharing h' pl y -> at_least x y.
Proof. exact c82_refuted_taxi. Qed.
Print Assumptions C82_refuted_taxi.
(** nothing changes when no trip is added, and by the objective of dial-a-ride
    every added trip is a gain *)
Theorem C82_warm_partial `{W : World} : forall cfg fleet job h vs ts rs0,
  sane -> tidy h -> valid_planning h vs ts rs0 -> NoDup job -> (1 <= ic_random cfg)%nat ->
  exists pl h', insertion_optimize cfg fleet job (Some rs0) h = (Ok pl, h') /\
    (forall o x y, total_worth o h rs0 x -> total_worth o h' pl y -> (forall t, takes h' pl t -> takes h rs0 t) -> y = x) /\
    (forall x y, total_worth DialARide h rs0 x -> total_worth DialARide h' pl y -> at_least x y /\
       ((exists t, takes h' pl t /\ ~ takes h rs0 t) -> lex_lt x y)).
Proof. exact c82_warm. Qed.
Print Assumptions C82_warm_partial.
(** by the one of HashCode there is no loss when there are no bonuses *)
Theorem C82_plain_partial `{W : World} : forall cfg fleet job h vs ts rs0,
  sane -> tidy h -> valid_planning h vs ts rs0 -> NoDup job -> (1 <= ic_random cfg)%nat ->
  (forall t, tr_bonus (w_trip t) = 0) ->
  exists pl h', insertion_optimize cfg fleet job (Some rs0) h = (Ok pl, h') /\
    forall x y, total_worth HashCode h rs0 x -> total_worth HashCode h' pl y -> at_least x y.
Proof. exact c82_plain. Qed.
Print Assumptions C82_plain_partial.

Section C82_example.
  #[local] Existing Instance bonus_world.
  Example C82_case : sane /\ tidy bonus_before /\ valid_planning bonus_before [0%nat] [0%nat] [1%nat] /\
    ic_only_feasible (warm_config HashCodeCriterion) = true /\
    insertion_optimize (warm_config HashCodeCriterion) [0%nat] [0%nat] None empty_heap = (Ok [1%nat], bonus_before) /\
    insertion_optimize (warm_config HashCodeCriterion) [0%nat] [1%nat] (Some [1%nat]) bonus_before = (Ok [3%nat], bonus_after) /\
    total_worth HashCode bonus_before [1%nat] [60000] /\ total_worth HashCode bonus_after [3%nat] [11000] /\
    total_worth DialARide bonus_before [1%nat] [1; -40000] /\ total_worth DialARide bonus_after [3%nat] [2; -44000].
  Proof.
    split; [apply bonus_sane|].
    destruct (found (warm_config HashCodeCriterion) _ _ _ _ bonus_sane (NoDup_singleton 0%nat) (NoDup_singleton 0%nat) (le_n 1) bonus_cold) as [T V].
    split; [exact T|]. split; [exact V|]. split; [reflexivity|]. split; [exact bonus_cold|]. split; [exact bonus_warm|].
    split; [exact (one_worth HashCode _ _ _ _ _ bonus_tour_before)|]. split; [exact (one_worth HashCode _ _ _ _ _ bonus_tour_after)|].
    split; [exact (one_worth DialARide _ _ _ _ _ bonus_tour_before)|exact (one_worth DialARide _ _ _ _ _ bonus_tour_after)].
  Qed.
End C82_example.
Section C82_example_taxi.
  #[local] Existing Instance shared_world.
  Example C82_case_taxi : sane /\ (forall t, tr_bonus (w_trip t) = 0) /\ tidy shared_before /\
    valid_planning shared_before [0%nat] [0%nat] [1%nat] /\
    insertion_optimize (warm_config EarliestLastDeparture) [0%nat] [1%nat] (Some [1%nat]) shared_before = (Ok [4%nat], shared_after) /\
    total_worth TaxiSharing shared_before [1%nat] [90000] /\ total_worth TaxiSharing shared_after [4%nat] [77000] /\
    total_worth HashCode shared_before [1%nat] [10000] /\ total_worth HashCode shared_after [4%nat] [27000].
  Proof.
    split; [apply shared_sane|]. split; [by intros [|[|[|t]]]|].
    destruct (found (warm_config EarliestLastDeparture) _ _ _ _ shared_sane (NoDup_singleton 0%nat) (NoDup_singleton 0%nat) (le_n 1) shared_cold) as [T V].
    split; [exact T|]. split; [exact V|]. split; [exact shared_warm|].
    split; [exact (one_worth TaxiSharing _ _ _ _ _ shared_tour_before)|]. split; [exact (one_worth TaxiSharing _ _ _ _ _ shared_tour_after)|].
    split; [exact (one_worth HashCode _ _ _ _ _ shared_tour_before)|exact (one_worth HashCode _ _ _ _ _ shared_tour_after)].
  Qed.
End C82_example_taxi.
