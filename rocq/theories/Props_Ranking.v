(** C17-C19: the insertion algorithm with the ranking iterator. *)
From Verif Require Import RankingTheorems Witness.

(** ** C17.  The insertion algorithm (ranking iterator) accounts for every trip *)
(** the iterator starts from one empty route per vehicle, every trip pending *)
Theorem C17_start `{W : World} : forall cfg fleet job h,
  sane -> tidy h -> NoDup fleet -> NoDup job -> (1 <= ic_random cfg)%nat ->
  exists k h', start cfg fleet job None h = (Ok k, h') /\ tidy h' /\
    valid_planning h' fleet job (current k) /\ pending k = job /\
    (forall v ts, planned_for h' (current k) v ts -> ts = []).
Proof. exact c17_start. Qed.
Print Assumptions C17_start.
(** after any number of accepted routes: a valid planning, and every trip of
    the job is either pending or served, never both *)
Theorem C17_rounds `{W : World} : forall cfg fleet job h k0 h0 n k h1,
  sane -> tidy h -> NoDup fleet -> NoDup job -> (1 <= ic_random cfg)%nat ->
  start cfg fleet job None h = (Ok k0, h0) -> rounds n k0 h0 k h1 ->
  valid_planning h1 fleet job (current k) /\ NoDup (pending k) /\
  (forall t, t ∈ job <-> t ∈ pending k \/ exists v ts, planned_for h1 (current k) v ts /\ t ∈ ts) /\
  (forall t v ts, t ∈ pending k -> planned_for h1 (current k) v ts -> t ∉ ts).
Proof. exact c17_rounds. Qed.
Print Assumptions C17_rounds.
(** accepted trips stay with their vehicle in all later rounds *)
Theorem C17_kept `{W : World} : forall cfg fleet job h k0 h0 n k h1 m k' h2 v ts,
  sane -> tidy h -> NoDup fleet -> NoDup job -> (1 <= ic_random cfg)%nat ->
  start cfg fleet job None h = (Ok k0, h0) -> rounds n k0 h0 k h1 -> rounds m k h1 k' h2 ->
  planned_for h1 (current k) v ts ->
  exists ts', planned_for h2 (current k') v ts' /\ forall t, t ∈ ts -> t ∈ ts'.
Proof. exact c17_kept. Qed.
Print Assumptions C17_kept.
(** the algorithm ends without exception with a valid planning *)
Theorem C17_result `{W : World} : forall cfg fleet job h,
  sane -> tidy h -> NoDup fleet -> NoDup job -> (1 <= ic_random cfg)%nat ->
  exists pl h', insertion_optimize cfg fleet job None h = (Ok pl, h') /\ tidy h' /\ valid_planning h' fleet job pl.
Proof. exact c17_result. Qed.
Print Assumptions C17_result.

Section C17_example.
  #[local] Existing Instance town.
  Example C17_case : sane /\ tidy empty_heap /\ NoDup [0; 1]%nat /\ NoDup [0; 1; 3]%nat /\
    (1 <= ic_random tail_config)%nat /\
    insertion_optimize tail_config [0; 1]%nat [0; 1; 3]%nat None empty_heap = (Ok planned_routes, planned_town) /\
    valid_planning planned_town [0; 1]%nat [0; 1; 3]%nat planned_routes /\
    planned_for planned_town planned_routes 0 [3; 0]%nat.
  Proof.
    assert (E : insertion_optimize tail_config [0; 1]%nat [0; 1; 3]%nat None empty_heap = (Ok planned_routes, planned_town))
      by reflexivity.
    assert (H1 : sane) by apply town_sane.
    assert (H2 : tidy empty_heap) by (apply tidyb_sound; reflexivity).
    assert (H3 : NoDup [0; 1]%nat) by (apply (bool_decide_unpack _); reflexivity).
    assert (H4 : NoDup [0; 1; 3]%nat) by (apply (bool_decide_unpack _); reflexivity).
    assert (H5 : (1 <= ic_random tail_config)%nat) by (cbn; lia).
    split; [done|]. split; [done|]. split; [done|]. split; [done|]. split; [done|]. split; [done|]. split.
    - destruct (C17_result tail_config _ _ _ H1 H2 H3 H4 H5) as (pl & h' & E' & _ & V).
      rewrite E in E'. injection E' as <- <-. exact V.
    - exists 5%nat. split; [left|]. exists planned_stops, planned_visits. split; [apply on_tourb_sound; reflexivity|reflexivity].
  Qed.
  (** two rounds *)
  Example C17_case_rounds : exists k0 h0 n k h1, start tail_config [0; 1]%nat [0; 1; 3]%nat None empty_heap = (Ok k0, h0) /\
    rounds n k0 h0 k h1 /\ n = 2%nat /\ length (pending k) = 1%nat.
  Proof.
    eexists _, _, _, _, _. split; [vm_compute; reflexivity|]. split.
    - eapply rounds_more; [vm_compute; reflexivity..|].
      eapply rounds_more; [vm_compute; reflexivity..|]. apply rounds_none.
    - split; reflexivity.
  Qed.
End C17_example.

(** ** C18.  The insertion algorithm terminates *)
(** each round uses up exactly one pending trip *)
Theorem C18_bound `{W : World} : forall cfg fleet job h k0 h0 n k h1,
  sane -> tidy h -> NoDup fleet -> NoDup job -> (1 <= ic_random cfg)%nat ->
  start cfg fleet job None h = (Ok k0, h0) -> rounds n k0 h0 k h1 ->
  (n + length (pending k) = length job)%nat.
Proof. exact c18_bound. Qed.
Print Assumptions C18_bound.
Theorem C18_warm `{W : World} : forall cfg fleet job h vs ts rs0 k0 h0 n k h1,
  sane -> tidy h -> valid_planning h vs ts rs0 -> NoDup job -> (1 <= ic_random cfg)%nat ->
  start cfg fleet job (Some rs0) h = (Ok k0, h0) -> rounds n k0 h0 k h1 ->
  (n + length (pending k) = length (pending k0) /\ length (pending k0) <= length job)%nat.
Proof. exact c18_warm. Qed.
Print Assumptions C18_warm.
(** so the loop stops after at most one round per trip, because the iterator is
    exhausted or offers an infeasible route, and its result is the planning reached *)
Theorem C18_ends `{W : World} : forall cfg fleet job h,
  sane -> tidy h -> NoDup fleet -> NoDup job -> (1 <= ic_random cfg)%nat ->
  exists k0 h0 n k h1 h',
    start cfg fleet job None h = (Ok k0, h0) /\ rounds n k0 h0 k h1 /\ (n <= length job)%nat /\
    insertion_optimize cfg fleet job None h = (Ok (current k), h') /\
    (ranking_next k h1 = (Ok None, h') \/
     exists r h2, ranking_next k h1 = (Ok (Some r), h2) /\ route_feasible r h2 = (Ok false, h')).
Proof. exact c18_ends. Qed.
Print Assumptions C18_ends.
(** and a larger bound on the number of rounds changes nothing *)
Theorem C18_fuel `{W : World} : forall cfg fleet job h k0 h0 fuel,
  sane -> tidy h -> NoDup fleet -> NoDup job -> (1 <= ic_random cfg)%nat ->
  start cfg fleet job None h = (Ok k0, h0) -> (length job < fuel)%nat ->
  ranking_loop fuel k0 h0 = ranking_loop (S (length job)) k0 h0 /\
  exists k h', ranking_loop fuel k0 h0 = (Ok k, h').
Proof. exact c18_fuel. Qed.
Print Assumptions C18_fuel.

Section C18_example.
  #[local] Existing Instance town.
  (** the loop ends with a trip left over *)
  Example C18_case : exists k0 h0 k h1,
    start tail_config [0; 1]%nat [0; 1; 3]%nat None empty_heap = (Ok k0, h0) /\ rounds 2 k0 h0 k h1 /\
    pending k = [1]%nat /\ current k = planned_routes.
  Proof.
    eexists _, _, _, _. split; [vm_compute; reflexivity|]. split.
    - eapply rounds_more; [vm_compute; reflexivity..|].
      eapply rounds_more; [vm_compute; reflexivity..|]. apply rounds_none.
    - split; reflexivity.
  Qed.
End C18_example.

(** ** C19.  Warm start keeps the trips already planned *)
Theorem C19_warm `{W : World} : forall cfg fleet job h vs ts rs0,
  sane -> tidy h -> valid_planning h vs ts rs0 -> NoDup job -> (1 <= ic_random cfg)%nat ->
  exists pl h', insertion_optimize cfg fleet job (Some rs0) h = (Ok pl, h') /\ tidy h' /\
    valid_planning h' vs (job ++ ts) pl /\
    (forall v us, planned_for h rs0 v us -> exists us', planned_for h' pl v us' /\ forall t, t ∈ us -> t ∈ us').
Proof. exact c19_warm. Qed.
Print Assumptions C19_warm.
(** whatever the initial result, and also if the run raises *)
Theorem C19_untouched `{W : World} : forall cfg fleet job rs0 h,
  untouched h (snd (insertion_optimize cfg fleet job (Some rs0) h)).
Proof. exact c19_untouched. Qed.
Print Assumptions C19_untouched.

Section C19_example.
  #[local] Existing Instance town.
  Example C19_case : tidy planned_town /\ valid_planning planned_town [0; 1]%nat [0; 1; 3]%nat planned_routes /\
    NoDup [0; 1; 2; 3]%nat /\
    exists pl, fst (insertion_optimize town_config [0; 1]%nat [0; 1; 2; 3]%nat (Some planned_routes) planned_town) = Ok pl /\
      pl <> planned_routes.
  Proof.
    split; [apply tidyb_sound; reflexivity|]. split; [apply C17_case|].
    split; [apply (bool_decide_unpack _); reflexivity|]. eexists. split; [vm_compute; reflexivity|discriminate].
  Qed.
End C19_example.
