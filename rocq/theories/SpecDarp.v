(** What a solution of the three-index model should stand for: one tour per
    vehicle, in the vocabulary of Spec.v, which serve every trip once and keep
    every limit without tolerance. *)
From Verif Require Export Spec SpecMilp MilpModel.

Definition below (x : Z) (l : lim) : Prop := match l with Lim z => x <= z | Inf => True end.

(** [i] and [j] are neighbours in the list *)
Definition next_to (l : list nat) (i j : nat) : Prop := exists l1 l2, l = l1 ++ i :: j :: l2.

Section darp.
  Context {W : World}.

  (** the limits of vehicle [v] and of the trips it serves (the earliest times
      hold in every timetable) *)
  Record exact (v : nat) (xs : list visit) : Prop := {
    ex_return : forall T, last (timetable v xs) = Some T -> below (tm_departure T) (v_destination_latest v);
    ex_duration : forall T0 T, head (timetable v xs) = Some T0 -> last (timetable v xs) = Some T ->
                    below (tm_departure T - tm_departure T0) (v_timeout v);
    ex_visits : forall i x T, xs !! i = Some x -> timetable v xs !! i = Some T ->
                  (forall t, t ∈ vi_board x -> below (tm_start T) (origin_latest (w_trip t))) /\
                  (forall t, t ∈ vi_alight x -> below (tm_start T) (destination_latest (w_trip t))) /\
                  below (tm_load T) (v_capacity v);
    ex_rides : forall t i j Ti Tj, ride xs t i j ->
                 timetable v xs !! i = Some Ti -> timetable v xs !! j = Some Tj ->
                 below (tm_start Tj - tm_departure Ti) (tr_timeout (w_trip t))
  }.

  (** a plan: a tour per vehicle with one boarding or alighting per visit, every
      trip on exactly one tour *)
  Definition plan (vs ts : list nat) (tours : list (list visit)) : Prop :=
    Forall2 (fun v xs => tour v xs /\ simple xs /\ exact v xs) vs tours /\
    concat (map boards tours) ≡ₚ ts.

  (** ** Costs *)
  (** the length of the way through a list of places, and what the objective
      charges for it: staying where one is costs 10000 units *)
  Fixpoint way (f : position -> position -> Z) (l : list position) : Z :=
    match l with
    | p :: ((q :: _) as l') => f p q + way f l'
    | _ => 0
    end.
  Definition toll (p q : position) : Z := if decide (p = q) then 10000 * (1000 * eb) else dist p q.
  Definition fleet_way (f : position -> position -> Z) (tours : list (list visit)) : Z :=
    sum_of (map (fun xs => way f (map vi_place xs)) tours).

  (** ** Solutions *)
  Context (vs ts : list nat) (odd : nat -> nat -> nat -> bool).

  (** the constraints of the model hold *)
  Definition solves (a : assignment) : Prop :=
    in_domain vs ts a = true /\ exists l, constraints vs ts odd a = Ok l /\ forallb id l = true.
  (** vehicle [k] drives from node [i] to node [j] *)
  Definition uses (a : assignment) (k i j : nat) : Prop :=
    (k < length vs)%nat /\ (i < 2 * length ts + 2)%nat /\ (j < 2 * length ts + 2)%nat /\ (as_x a k i j == 1)%Q.
  (** node [i] is visited as [x] *)
  Definition shows (i : nat) (x : visit) : Prop :=
    (exists t, pickup_node ts i t /\ anytime x = pick_up t) \/
    (exists t, delivery_node ts i t /\ anytime x = drop_off t).
  (** the tours are those of the solution: same order, same times *)
  Definition follows (a : assignment) (k v : nat) (xs : list visit) : Prop :=
    exists p x0 mid xn, xs = x0 :: mid ++ [xn] /\ Forall2 shows p mid /\
      (forall i j, uses a k i j <-> (k < length vs)%nat /\ next_to (0%nat :: p ++ [(2 * length ts + 1)%nat]) i j) /\
      map tm_start (take (1 + length p) (timetable v xs)) = map (as_u a k) (0%nat :: p).
  (** no use is made of arcs that take no time, except to leave the origin or to
      return to the destination *)
  Definition takes_time (a : assignment) : Prop :=
    forall k i j, uses a k i j -> (i = 0 -> j = 0)%nat -> (j = 2 * length ts + 1 -> i = 2 * length ts + 1)%nat ->
      0 < dist (pos vs ts i) (pos vs ts j) \/
      (exists t, (pickup_node ts i t \/ delivery_node ts i t) /\ 0 < origin_duration (w_trip t)).

  (** the vehicles that drive straight from origin to destination *)
  Definition idle_count (a : assignment) : nat :=
    length (List.filter (fun k => Qeq_bool (as_x a k 0%nat (2 * length ts + 1)%nat) 1) (seq 0 (length vs))).
  (** the objective, not counting these vehicles, is below 10000 units *)
  Definition modest (a : assignment) : Prop :=
    (objective_value vs ts a <
     inject_Z (10000 * (1000 * eb) + Z.of_nat (idle_count a) * toll (pos vs ts 0) (pos vs ts (2 * length ts + 1))))%Q.
  (** no solution has a smaller objective *)
  Definition optimal (a : assignment) : Prop :=
    solves a /\ forall a', solves a' -> (objective_value vs ts a <= objective_value vs ts a')%Q.

  (** ** Instances *)
  (** all places have the same number of coordinates *)
  Definition one_space : Prop := forall i j, (i < node_count ts)%nat -> (j < node_count ts)%nat ->
    length (pos vs ts i) = length (pos vs ts j).
  Definition one_depot : Prop := forall v v', v ∈ vs -> v' ∈ vs ->
    v_origin_position v = v_origin_position v' /\ v_destination_position v = v_destination_position v'.
  Definition day : Z := 1440 * (1000 * eb).
  Definition finite : Prop :=
    (forall v, v ∈ vs -> v_capacity v <> Inf) /\
    (forall t, t ∈ ts -> origin_latest (w_trip t) <> Inf /\ destination_latest (w_trip t) <> Inf).
  (** pickup and delivery are at different places *)
  Definition moving : Prop := forall t, t ∈ ts -> origin_position (w_trip t) <> destination_position (w_trip t).
  (** no detour is shorter than the direct way *)
  Definition direct : Prop := forall i j l, (i < node_count ts)%nat -> (j < node_count ts)%nat -> (l < node_count ts)%nat ->
    dist (pos vs ts i) (pos vs ts l) <= dist (pos vs ts i) (pos vs ts j) + dist (pos vs ts j) (pos vs ts l).
  (** every vehicle has room for every trip *)
  Definition roomy : Prop := forall v t, v ∈ vs -> t ∈ ts -> 0 <= tr_capacity (w_trip t) /\ below (tr_capacity (w_trip t)) (v_capacity v).
  (** every tour is over within the day *)
  Definition within_day (tours : list (list visit)) : Prop := forall k v xs T,
    vs !! k = Some v -> tours !! k = Some xs -> last (timetable v xs) = Some T -> tm_departure T <= day.
End darp.
