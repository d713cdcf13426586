(** C63-C65: times and distances in floating point arithmetic. *)
From Coq Require Import Lra.
From Verif Require Import DoubleTheorems WitnessDouble.

(** ** C63.  The times of a route are in order, whatever is rounded *)
Theorem C63_order : forall r, double (dr_earliest r) -> (forall s, In s (dr_stops r) -> double_stop s) ->
  forall i, (i < length (dr_stops r))%nat ->
    dr_earliest r <= dm_arrival (dr_at r i) /\
    dm_arrival (dr_at r i) <= dm_start (dr_at r i) <= dm_departure (dr_at r i) /\
    forall j, (i < j < length (dr_stops r))%nat -> dm_departure (dr_at r i) <= dm_arrival (dr_at r j).
Proof. exact c63_order. Qed.
Print Assumptions C63_order.
Theorem C63_assert : forall r, double (dr_earliest r) -> (forall s, In s (dr_stops r) -> double_stop s) -> rides_forward r ->
  exists b, d_feasible r = Some b.
Proof. exact c63_assert. Qed.
Print Assumptions C63_assert.
Theorem C63_waiting : forall r, double (dr_earliest r) -> (forall s, In s (dr_stops r) -> double_stop s) ->
  forall i, (i < length (dr_stops r))%nat -> 0 <= fsub (dm_start (dr_at r i)) (dm_arrival (dr_at r i)).
Proof. exact c63_waiting. Qed.
Print Assumptions C63_waiting.
Theorem C63_later : forall r now', dr_earliest r <= now' ->
  let r' := DRoute now' (dr_latest r) (dr_timeout r) (dr_stops r) (dr_rides r) in
  forall i, dm_arrival (dr_at r i) <= dm_arrival (dr_at r' i) /\ dm_start (dr_at r i) <= dm_start (dr_at r' i) /\
    dm_departure (dr_at r i) <= dm_departure (dr_at r' i).
Proof. exact c63_later. Qed.
Print Assumptions C63_later.

Section C63_example.
  Example C63_case : double (dr_earliest short_way) /\ (forall s, In s (dr_stops short_way) -> double_stop s) /\
    rides_forward short_way /\ length (dr_stops short_way) = 4%nat /\ length (dr_rides short_way) = 1%nat.
  Proof. split; [apply short_double|]. split; [apply short_double|]. split; [exact short_forward|]. split; reflexivity. Qed.
End C63_example.

(** ** C64.  The tolerance covers the rounding *)
Theorem C64_times : forall M r, moderate M r -> rounding M (length (dr_stops r)) <= ERROR_BOUND ->
  forall i, (i < length (dr_stops r))%nat ->
    Rabs (dm_arrival (dr_at r i) - dm_arrival (truly r i)) <= rounding M (length (dr_stops r)) /\
    Rabs (dm_start (dr_at r i) - dm_start (truly r i)) <= rounding M (length (dr_stops r)) /\
    Rabs (dm_departure (dr_at r i) - dm_departure (truly r i)) <= rounding M (length (dr_stops r)).
Proof. exact c64_times. Qed.
Print Assumptions C64_times.
Theorem C64_accepts : forall M r, moderate M r -> rides_forward r -> double (dr_earliest r) -> (forall s, In s (dr_stops r) -> double_stop s) ->
  rounding M (length (dr_stops r)) <= ERROR_BOUND ->
  keeps_limits 0 r -> d_feasible r = Some true.
Proof. exact c64_accepts. Qed.
Print Assumptions C64_accepts.
Theorem C64_accepted : forall M r, moderate M r -> rides_forward r -> double (dr_earliest r) -> (forall s, In s (dr_stops r) -> double_stop s) ->
  rounding M (length (dr_stops r)) <= ERROR_BOUND ->
  d_feasible r = Some true -> keeps_limits (ERROR_BOUND + rounding M (length (dr_stops r))) r.
Proof. exact c64_accepted. Qed.
Print Assumptions C64_accepted.
Theorem C64_numbers : forall n, (n <= 1000)%nat -> rounding (100000000) n <= ERROR_BOUND / 2.
Proof. exact c64_numbers. Qed.
Print Assumptions C64_numbers.

Section C64_example.
  Example C64_case : moderate 1000 short_way /\ rides_forward short_way /\ double (dr_earliest short_way) /\
    (forall s, In s (dr_stops short_way) -> double_stop s) /\ rounding 1000 (length (dr_stops short_way)) <= ERROR_BOUND /\
    keeps_limits 0 short_way /\ d_feasible short_way = Some true /\ dm_departure (truly short_way 3) = 69.
  Proof.
    split; [exact short_moderate|]. split; [exact short_forward|]. split; [apply short_double|]. split; [apply short_double|].
    split; [exact short_rounding|]. split; [exact short_keeps|]. split; [|rewrite short_truly; reflexivity].
    exact (c64_accepts 1000 short_way short_moderate short_forward (proj1 short_double) (proj2 short_double) short_rounding short_keeps).
  Qed.
End C64_example.

(** ** C65.  Distances in floating point arithmetic *)
Theorem C65_symmetric : forall a b, d_manhattan a b = d_manhattan b a /\ d_euclidean a b = d_euclidean b a.
Proof. exact c65_symmetric. Qed.
Print Assumptions C65_symmetric.
Theorem C65_travel : forall a b, (double (d_manhattan a b) /\ 0 <= d_manhattan a b) /\ (double (d_euclidean a b) /\ 0 <= d_euclidean a b).
Proof. exact c65_travel. Qed.
Print Assumptions C65_travel.
Theorem C65_self : forall a, d_manhattan a a = 0 /\ d_euclidean a a = 0.
Proof. exact c65_self. Qed.
Print Assumptions C65_self.
Theorem C65_accurate : forall a b, (forall x, In x a -> double x) -> (forall x, In x b -> double x) ->
  let n := Nat.min (length a) (length b) in
  blocks a b * (1 - unit_roundoff) ^ n <= d_manhattan a b <= blocks a b * (1 + unit_roundoff) ^ n.
Proof. exact c65_accurate. Qed.
Print Assumptions C65_accurate.
Theorem C65_apart : forall a b i, (forall x, In x a -> double x) -> (forall x, In x b -> double x) ->
  (i < Nat.min (length a) (length b))%nat -> nth i a 0 <> nth i b 0 -> 0 < d_manhattan a b.
Proof. exact c65_apart. Qed.
Print Assumptions C65_apart.
Theorem C65_euclidean_collapse : exists x, double x /\ 0 < x /\ d_euclidean [x] [0] = 0.
Proof. exact c65_euclidean_collapse. Qed.
Print Assumptions C65_euclidean_collapse.

Section C65_example.
  Example C65_case : (forall x, In x [3; 4] -> double x) /\ (forall x, In x [0; 1] -> double x) /\
    blocks [3; 4] [0; 1] = 6 /\ 0 < d_manhattan [3; 4] [0; 1].
  Proof.
    assert (A : forall x, In x [3; 4] -> double x) by (intros x [<-|[<-|[]]]; apply double_int; reflexivity).
    assert (B : forall x, In x [0; 1] -> double x) by (intros x [<-|[<-|[]]]; apply double_int; reflexivity).
    split; [exact A|]. split; [exact B|]. split.
    - cbn. rewrite !Rabs_pos_eq by lra. lra.
    - apply (c65_apart _ _ 0%nat A B); cbn; [apply Nat.lt_0_succ|lra].
  Qed.
End C65_example.
