(** C06, C14-C16: insertion strategies. *)
From Verif Require Import InsertTheorems FairTheorems RefuteTheorems SpecFair Plannings Witness.

(** ** C06.  Insertion only reports routes that really satisfy the constraints

    It does not: [_improve_ride_times] reads [route.feasible], which memoises
    [Stop.feasible] of every stop, then moves start times, and [flush] does not
    forget [Stop.feasible] (strategies/abc.py:70-92, stops.py:225-233). *)
@C06_refuted c06_refuted
(** the whole insertion algorithm, started from nothing, returns such a route *)
@C06_refuted_algorithm c06_refuted_algorithm
(** What remains true as long as recorded answers are [fair]: every constraint
    except the latest start of a visit after a stop whose start time was moved,
    and, when several candidates are computed, the duration of the route.  A
    route in which no start time was moved satisfies the time windows, too. *)
@C06_one_partial c06_one
@C06_strategy_partial c06_strategy
(** recorded answers stay [fair] when they are read *)
@C06_answer_partial c06_answer
(** the whole algorithm, from nothing and from a given planning *)
@C06_algorithm_partial c06_algorithm
@C06_warm_partial c06_algorithm_warm

Section C06_example.
  #[local] Existing Instance town.
  Example C06_case_algorithm : sane /\ tidy empty_heap /\ fair empty_heap /\ ic_only_feasible tail_config = true /\
    NoDup [0; 1]%nat /\ NoDup [0; 1; 3]%nat /\ (1 <= ic_random tail_config)%nat /\
    insertion_optimize tail_config [0; 1]%nat [0; 1; 3]%nat None empty_heap = (Ok planned_routes, planned_town).
  Proof.
    split; [apply town_sane|]. split; [apply tidyb_sound; reflexivity|]. split; [apply empty_fair|]. split; [done|].
    split; [apply (bool_decide_unpack _); reflexivity|]. split; [apply (bool_decide_unpack _); reflexivity|].
    split; [cbn; lia|vm_compute; reflexivity].
  Qed.
  (** the planning serves two trips with one vehicle, nobody moved its start
      times, and trip 2 can be inserted between its second and fourth stop *)
  Example C06_case : tidy planned_town /\ fair planned_town /\ on_tour planned_town 5 0 planned_stops planned_visits /\
    2%nat ∉ boards planned_visits /\ (1 < 3 < length planned_stops)%nat /\
    calm planned_visits (length planned_visits) /\ boards planned_visits = [3; 0]%nat /\
    (exists h', compute true 5 [2%nat] 1 3 planned_town = (Ok [10%nat], h')) /\
    (exists h', route_feasible 5 planned_town = (Ok true, h')).
  Proof.
    destruct C06_case_algorithm as (H1 & H2 & H3 & H4 & H5 & H6 & H7 & E).
    destruct (C06_algorithm_partial _ _ _ _ H1 H2 H3 H4 H5 H6 H7) as (pl & h' & E' & T & F & _).
    rewrite E in E'. injection E' as <- <-. split; [done|]. split; [done|]. split; [apply on_tourb_sound; reflexivity|].
    split; [apply (bool_decide_unpack _); reflexivity|]. split; [cbn; lia|]. split.
    { clear. intros [|[|[|[|[|[|i]]]]]] x _ Hx; cbn in Hx; try discriminate Hx; injection Hx as <-; reflexivity. }
    split; [reflexivity|]. split; eexists; vm_compute; reflexivity.
  Qed.
  (** and the planning is a start for another run *)
  Example C06_case_warm : valid_planning planned_town [0; 1]%nat [0; 1; 3]%nat planned_routes /\ NoDup [2%nat] /\
    (forall r v ids xs, r ∈ planned_routes -> on_tour planned_town r v ids xs -> boards xs <> [] -> almost v xs).
  Proof.
    destruct C06_case_algorithm as (H1 & H2 & H3 & H4 & H5 & H6 & H7 & E).
    destruct (C06_algorithm_partial _ _ _ _ H1 H2 H3 H4 H5 H6 H7) as (pl & h' & E' & _ & _ & V & A).
    rewrite E in E'. injection E' as <- <-. split; [done|]. split; [apply (bool_decide_unpack _); reflexivity|].
    intros r v ids xs Hr R Hb. by apply (A r v ids xs).
  Qed.
End C06_example.

(** ** C14.  Insertion strategies place pickup and delivery where asked *)
@C14_one c14_one
@C14_compute c14_compute
@C14_strategy c14_strategy

Section C14_example.
  #[local] Existing Instance town.
  Example C14_case : sane /\ tidy busy_town /\ on_tour busy_town 2 0 busy_stops busy_visits /\
    2%nat ∉ boards busy_visits /\ (2 < 5 < length busy_stops)%nat.
  Proof.
    split; [apply town_sane|]. split; [apply tidyb_sound; reflexivity|]. split; [apply on_tourb_sound; reflexivity|].
    split; [apply (bool_decide_unpack _); reflexivity|cbn; lia].
  Qed.
End C14_example.

(** ** C15.  Computing insertion candidates does not modify the base route

    Its times may change: the clone shares the first stops, and
    [_improve_ride_times] moves the departure from the depot
    (strategies/abc.py:70-73). *)
@C15_refuted c15_refuted
(** What remains true for every existing route: it keeps its stops, and all
    services except the departure from the depot keep their times. *)
@C15_similar_partial c15_similar

Section C15_example.
  #[local] Existing Instance town.
  Example C15_case : sane /\ tidy shift_town /\ on_tour shift_town 2 1 shift_stops shift_visits /\
    (forall t, t ∈ [0; 4]%nat -> t ∉ boards shift_visits).
  Proof.
    split; [apply town_sane|]. split; [apply tidyb_sound; reflexivity|]. split; [apply on_tourb_sound; reflexivity|].
    intros t Ht. repeat (apply elem_of_cons in Ht as [->|Ht]; [apply (bool_decide_unpack _); reflexivity|]).
    by apply elem_of_nil in Ht.
  Qed.
End C15_example.

(** ** C16.  Index pairs explored by the strategies *)
@C16_all c16_all
@C16_random c16_random
(** the sampling loop ends if every pair keeps being drawn *)
@C16_ends c16_ends
@C16_strategies c16_strategies

Section C16_example.
  (** five stops, four draws of which one is repeated *)
  Definition C16_stream (k : nat) : nat * nat :=
    match k with 0%nat => (0, 1)%nat | 1%nat => (2, 4)%nat | 2%nat => (0, 1)%nat | _ => (1, 3)%nat end.
  Example C16_case : (forall k, draws 5 (C16_stream k)) /\
    sample_loop 4 C16_stream 0 3 [] = Some [(0, 1); (2, 4); (1, 3)]%nat.
  Proof. split; [intros [|[|[|k]]]; unfold draws; cbn; lia|reflexivity]. Qed.
  (** three stops: a stream that keeps drawing every pair *)
  Definition C16_fair (k : nat) : nat * nat :=
    match (k mod 3)%nat with 0%nat => (0, 1)%nat | 1%nat => (0, 2)%nat | _ => (1, 2)%nat end.
  Example C16_case_fair : forall p k0, draws 3 p -> exists k, (k0 <= k)%nat /\ C16_fair k = p.
  Proof.
    intros [i j] k0 [H1 H2]. cbn in H1, H2.
    assert (E : forall a, (a < 3)%nat -> ((k0 * 3 + a) mod 3 = a)%nat).
    { intros a Ha. rewrite Nat.add_comm, Nat.mod_add by lia. by apply Nat.mod_small. }
    assert ((i = 0 /\ j = 1) \/ (i = 0 /\ j = 2) \/ (i = 1 /\ j = 2))%nat as [[-> ->]|[[-> ->]|[-> ->]]] by lia.
    - exists (k0 * 3 + 0)%nat. split; [lia|]. unfold C16_fair. by rewrite E by lia.
    - exists (k0 * 3 + 1)%nat. split; [lia|]. unfold C16_fair. by rewrite E by lia.
    - exists (k0 * 3 + 2)%nat. split; [lia|]. unfold C16_fair. by rewrite E by lia.
  Qed.
  Example C16_case_all : sample_index_pairs 4 6 [] = [(0, 1); (0, 2); (0, 3); (1, 2); (1, 3); (2, 3)]%nat.
  Proof. reflexivity. Qed.
End C16_example.
