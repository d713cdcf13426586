(** C24-C26, C44, C46, C47: scores, objective values and choices. *)
From Verif Require Import ValueTheorems WitnessValues.

(** ** C24.  best, sorted and nbest *)
(** for every key function, every order on keys and both directions *)
Theorem C24_any_best : forall A K (lt : K -> K -> bool) d (l : list (K * A)), weak_order lt ->
  match dir_best lt d l with
  | None => l = []
  | Some a => exists k l1 l2, l = l1 ++ (k, a) :: l2 /\
      (forall x, x ∈ l1 -> ahead lt d k x.1) /\ (forall x, x ∈ l2 -> ~ ahead lt d x.1 k)
  end.
Proof. exact c24_any_best. Qed.
Print Assumptions C24_any_best.
Theorem C24_any_sorted : forall A K (lt : K -> K -> bool) d (l : list (K * A)), weak_order lt ->
  exists m, dir_sorted lt d l = map snd m /\ m ≡ₚ l /\
    (forall i j x y, (i < j)%nat -> m !! i = Some x -> m !! j = Some y -> ~ ahead lt d y.1 x.1) /\
    (forall P, (forall x y, x ∈ l -> y ∈ l -> P x = true -> P y = true -> ~ ahead lt d x.1 y.1) ->
       List.filter P m = List.filter P l).
Proof. exact c24_any_sorted. Qed.
Print Assumptions C24_any_sorted.
(** for the criteria: the score itself, and the three choices *)
Theorem C24_scoring `{W : World} : forall k h r, sane -> a_tour h r ->
  exists x h', scoring k r h = (Ok x, h') /\ routes_kept h h' /\ scored k h' r x /\
    (forall b, answered h r b -> answered h' r b).
Proof. exact c24_scoring. Qed.
Print Assumptions C24_scoring.
Theorem C24_best `{W : World} : forall k h (args : list (option nat)), sane ->
  (forall r, Some r ∈ args -> a_tour h r) ->
  exists res h', criterion_best_args k args h = (Ok res, h') /\ routes_kept h h' /\
    (forall r, Some r ∈ args -> exists x, scored k h' r x) /\
    match res with
    | None => forall a, a ∈ args -> a = None
    | Some r => exists l1 l2, args = l1 ++ Some r :: l2 /\
        forall x, scored k h' r x ->
          (forall r1 x1, Some r1 ∈ l1 -> scored k h' r1 x1 -> beats k x x1) /\
          (forall r2 x2, Some r2 ∈ l2 -> scored k h' r2 x2 -> ~ beats k x2 x)
    end.
Proof. exact c24_best. Qed.
Print Assumptions C24_best.
Theorem C24_sorted `{W : World} : forall k h l, sane -> (forall r, r ∈ l -> a_tour h r) ->
  exists l' h', criterion_sorted k l h = (Ok l', h') /\ routes_kept h h' /\
    (forall r, r ∈ l -> exists x, scored k h' r x) /\ ordered_by k h' l l'.
Proof. exact c24_sorted. Qed.
Print Assumptions C24_sorted.
Theorem C24_nbest `{W : World} : forall k h n l, sane -> (forall r, r ∈ l -> a_tour h r) ->
  exists best rest h', criterion_nbest k n l h = (Ok best, h') /\ routes_kept h h' /\
    (forall r, r ∈ l -> exists x, scored k h' r x) /\
    length best = Nat.min n (length l) /\ ordered_by k h' l (best ++ rest).
Proof. exact c24_nbest. Qed.
Print Assumptions C24_nbest.

Section C24_example.
  #[local] Existing Instance meter.
  Example C24_case : sane /\ (forall r, r ∈ [4; 2; 3]%nat -> a_tour meter_town r) /\
    (criterion_best_args LongestTime [None; Some 4; Some 2; Some 3]%nat meter_town).1 = Ok (Some 2%nat) /\
    (criterion_sorted LongestUtilTime [4; 2; 3]%nat meter_town).1 = Ok [2; 4; 3]%nat /\
    (criterion_nbest EarliestLastDeparture 2 [4; 2; 3]%nat meter_town).1 = Ok [2; 3]%nat.
  Proof.
    split; [apply meter_sane|]. split; [|split; [vm_compute; reflexivity|split; vm_compute; reflexivity]].
    intros r Hr. exists (if decide (r = 2%nat) then 0%nat else 1%nat), (meter_stops r), (meter_visits r).
    repeat (apply elem_of_cons in Hr as [->|Hr]; [apply on_tourb_sound; reflexivity|]). by apply elem_of_nil in Hr.
  Qed.
  Example C24_case_any : weak_order Z.ltb /\
    dir_best Z.ltb Maximization [(3, "a"); (5, "b"); (5, "c")]%string = Some "b"%string /\
    dir_sorted Z.ltb Maximization [(3, "a"); (5, "b"); (5, "c"); (4, "d")]%string = ["b"; "c"; "d"; "a"]%string.
  Proof.
    split; [|split; reflexivity]. split.
    - apply Z.ltb_irrefl.
    - intros x y. rewrite Z.ltb_lt, Z.ltb_ge. lia.
    - intros x y z. rewrite !Z.ltb_ge. lia.
  Qed.
End C24_example.

(** ** C25.  Objective values of routes and plannings, and their comparison *)
Theorem C25_route `{W : World} : forall o h r v ids xs, well_formed h r v ids xs ->
  exists h', route_value o r h = (Ok (value_of o v xs), h') /\ only_memoised h h'.
Proof. exact c25_route. Qed.
Print Assumptions C25_route.
Theorem C25_sum `{W : World} : forall o h pl, well_planned h pl ->
  exists x h', planning_value o pl h = (Ok x, h') /\ total_worth o h pl x /\ only_memoised h h'.
Proof. exact c25_sum. Qed.
Print Assumptions C25_sum.
Theorem C25_order `{W : World} : forall o h pl pl', well_planned h pl -> pl ≡ₚ pl' ->
  exists x h1 h2, planning_value o pl h = (Ok x, h1) /\ planning_value o pl' h = (Ok x, h2).
Proof. exact c25_order. Qed.
Print Assumptions C25_order.
Theorem C25_best `{W : World} : forall o h (l : list planning), (forall pl, pl ∈ l -> well_planned h pl) ->
  exists res h', objective_best o l h = (Ok res, h') /\ only_memoised h h' /\
    match res with
    | None => l = []
    | Some i => exists pl x, l !! i = Some pl /\ total_worth o h pl x /\
        (forall j q y, (j < i)%nat -> l !! j = Some q -> total_worth o h q y -> lex_lt y x) /\
        (forall j q y, (i < j)%nat -> l !! j = Some q -> total_worth o h q y -> ~ lex_lt x y)
    end.
Proof. exact c25_best. Qed.
Print Assumptions C25_best.

Section C25_example.
  #[local] Existing Instance meter.
  Example C25_case : well_planned meter_town [2; 4]%nat /\ well_planned meter_town [3]%nat /\
    (planning_value DialARide [2; 4]%nat meter_town).1 = Ok [3; -18000] /\
    (planning_value TaxiSharing [2; 4]%nat meter_town).1 = Ok [6000] /\
    (objective_best HashCode [[3]; [4; 2]; [2; 4]]%nat meter_town).1 = Ok (Some 1%nat).
  Proof.
    assert (H : forall r, r ∈ [2; 4; 3]%nat -> exists v ids xs, well_formed meter_town r v ids xs).
    { intros r Hr. exists (if decide (r = 2%nat) then 0%nat else 1%nat), (meter_stops r), (meter_visits r).
      repeat (apply elem_of_cons in Hr as [->|Hr]; [apply well_formedb_sound; reflexivity|]). by apply elem_of_nil in Hr. }
    split; [intros r Hr; apply H; set_solver|]. split; [intros r Hr; apply H; set_solver|].
    split; [vm_compute; reflexivity|]. split; vm_compute; reflexivity.
  Qed.
End C25_example.

(** ** C26.  HashCode score of a ride

    The bonus is not paid for a service that starts on time: the code compares
    the earliest start with [PlannedTrip.pickup_time], which is the departure
    from the pickup stop (objectives.py:146, planned_trips.py:64-66). *)
Theorem C26_refuted : exists (W : World) h r v ids xs p t h' z,
  sane /\ tidy h /\ well_formed h r v ids xs /\ planned_as h ids p t /\
  boarded_at v xs t = sv_earliest (tr_origin (w_trip t)) /\
  planned_trip_value HashCode p h = (Ok [z], h') /\
  z <> points t (sv_earliest (tr_origin (w_trip t))) (boarded_at v xs t).
Proof. exact c26_refuted. Qed.
Print Assumptions C26_refuted.
(** what is compared is the departure *)
Theorem C26_departure_partial `{W : World} : forall h r v ids xs p t, well_formed h r v ids xs -> planned_as h ids p t ->
  returns (planned_trip_value HashCode p) h [points t (origin_earliest (w_trip t)) (picked_up_at v xs t)].
Proof. exact c26_departure. Qed.
Print Assumptions C26_departure_partial.
(** the claim holds for pickups that take no time, of trips without timeout *)
Theorem C26_instant_partial `{W : World} : forall h r v ids xs p t i x, well_formed h r v ids xs -> planned_as h ids p t ->
  xs !! i = Some x -> t ∈ vi_board x ->
  (forall u, u ∈ vi_board x -> sv_duration (tr_origin (w_trip u)) = 0) ->
  (forall u, u ∈ vi_alight x -> sv_duration (tr_destination (w_trip u)) = 0) ->
  tr_timeout (w_trip t) = Inf ->
  returns (planned_trip_value HashCode p) h [points t (sv_earliest (tr_origin (w_trip t))) (boarded_at v xs t)].
Proof. exact c26_instant. Qed.
Print Assumptions C26_instant_partial.

Section C26_example.
  #[local] Existing Instance meter.
  Example C26_case : well_formed meter_town 2 0 (meter_stops 2) (meter_visits 2) /\
    planned_as meter_town (meter_stops 2) 2 1 /\
    (exists x, meter_visits 2 !! 3%nat = Some x /\ vi_board x = [1]%nat /\ vi_alight x = [] /\
       sv_duration (tr_origin (w_trip 1)) = 0) /\
    tr_timeout (w_trip 1) = Inf /\ points 1 5500 (boarded_at 0 (meter_visits 2) 1) = 2700.
  Proof.
    split; [apply well_formedb_sound; reflexivity|]. split.
    { exists 10%nat. do 2 eexists. split; [apply (bool_decide_unpack _); reflexivity|].
      split; [vm_compute; reflexivity|]. split; [apply (bool_decide_unpack _); reflexivity|]. split; vm_compute; reflexivity. }
    split; [|split; reflexivity]. eexists. split; [vm_compute; reflexivity|]. done.
  Qed.
End C26_example.

(** ** C44.  remove_duplicates *)
Theorem C44_first : forall A (eqb : A -> A -> bool) (l : list A), (forall x y, eqb x y = true <-> x = y) ->
  exists idx, StronglySorted lt idx /\ (forall i, i ∈ idx <-> exists x, first_at l i x) /\
    Forall2 (fun i x => l !! i = Some x) idx (remove_duplicates eqb l).
Proof. exact c44_first. Qed.
Print Assumptions C44_first.
Theorem C44_same : forall A (eqb : A -> A -> bool) (l : list A), (forall x y, eqb x y = true <-> x = y) ->
  NoDup (remove_duplicates eqb l) /\ forall x, x ∈ remove_duplicates eqb l <-> x ∈ l.
Proof. exact c44_same. Qed.
Print Assumptions C44_same.

Section C44_example.
  Example C44_case : (forall x y, Nat.eqb x y = true <-> x = y) /\
    remove_duplicates Nat.eqb [3; 1; 3; 2; 1]%nat = [3; 1; 2]%nat.
  Proof. split; [apply Nat.eqb_eq|reflexivity]. Qed.
End C44_example.

(** ** C46.  Coverage rate *)
Theorem C46_rate `{W : World} : forall h pl job, well_planned h pl -> job <> [] ->
  exists ts h', NoDup ts /\ (forall t, t ∈ ts <-> tr_capacity (w_trip t) <> 0 /\ carried h pl t) /\
    coverage_rate pl job h = (Ok (Z.of_nat (length ts) # Pos.of_nat (length job)), h') /\ only_memoised h h'.
Proof. exact c46_rate. Qed.
Print Assumptions C46_rate.
Theorem C46_bounds `{W : World} : forall h pl job, well_planned h pl -> job <> [] -> NoDup job ->
  (forall t, carried h pl t -> t ∈ job) ->
  exists q h', coverage_rate pl job h = (Ok q, h') /\ (0 <= q <= 1)%Q /\
    ((forall t, t ∈ job -> tr_capacity (w_trip t) <> 0) -> (q == 1)%Q <-> forall t, t ∈ job -> carried h pl t).
Proof. exact c46_bounds. Qed.
Print Assumptions C46_bounds.
Theorem C46_empty `{W : World} : forall h pl, well_planned h pl ->
  exists h', coverage_rate pl [] h = (Raise ZeroDivisionError, h').
Proof. exact c46_empty. Qed.
Print Assumptions C46_empty.

Section C46_example.
  #[local] Existing Instance meter.
  Example C46_case : well_planned meter_town [2; 4]%nat /\ NoDup [0; 1; 3; 5]%nat /\
    (coverage_rate [2; 4]%nat [0; 1; 3; 5]%nat meter_town).1 = Ok (3 # 4) /\
    (forall t, t ∈ [0; 1; 3; 5]%nat -> tr_capacity (w_trip t) <> 0).
  Proof.
    split.
    { intros r Hr. exists (if decide (r = 2%nat) then 0%nat else 1%nat), (meter_stops r), (meter_visits r).
      repeat (apply elem_of_cons in Hr as [->|Hr]; [apply well_formedb_sound; reflexivity|]). by apply elem_of_nil in Hr. }
    split; [apply (bool_decide_unpack _); reflexivity|]. split; [vm_compute; reflexivity|].
    intros t Ht. repeat (apply elem_of_cons in Ht as [->|Ht]; [vm_compute; congruence|]). by apply elem_of_nil in Ht.
  Qed.
End C46_example.

(** ** C47.  optimize() works on an empty planning

    It raises TypeError: [Planning.feasible] reduces without an initial value
    (plannings.py:75-77) and [Algorithm.optimize] evaluates it for its log
    message (abc.py:68-72). *)
Theorem C47_refuted `{W : World} : forall o h, exists h', optimize o naive_optimize h = (Raise TypeError, h').
Proof. exact c47_naive. Qed.
Print Assumptions C47_refuted.
Theorem C47_refuted_fleet `{W : World} : forall o cfg job h, sane -> tidy h -> NoDup job -> (1 <= ic_random cfg)%nat ->
  exists h', optimize o (insertion_optimize cfg [] job None) h = (Raise TypeError, h').
Proof. exact c47_fleet. Qed.
Print Assumptions C47_refuted_fleet.
(** it works for plannings that have a route *)
Theorem C47_nonempty_partial `{W : World} : forall o m h pl h1, sane -> m h = (Ok pl, h1) -> pl <> [] ->
  (forall r, r ∈ pl -> a_tour h1 r) ->
  exists h', optimize o m h = (Ok pl, h') /\ routes_kept h1 h'.
Proof. exact c47_works. Qed.
Print Assumptions C47_nonempty_partial.

Section C47_example.
  #[local] Existing Instance meter.
  Example C47_case : sane /\ (optimize HashCode (ret [4; 2]%nat) meter_town).1 = Ok [4; 2]%nat /\
    (forall r, r ∈ [4; 2]%nat -> a_tour meter_town r).
  Proof.
    split; [apply meter_sane|]. split; [vm_compute; reflexivity|].
    intros r Hr. exists (if decide (r = 2%nat) then 0%nat else 1%nat), (meter_stops r), (meter_visits r).
    repeat (apply elem_of_cons in Hr as [->|Hr]; [apply on_tourb_sound; reflexivity|]). by apply elem_of_nil in Hr.
  Qed.
End C47_example.
