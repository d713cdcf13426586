(** * Objective values in double precision

    [d_dial_a_ride] and [d_taxi_sharing] are objective values computed in double
    precision (Totals.v), [driven] and [ridden] the exact totals (SpecTotals.v);
    [unit_roundoff] is [2^-53]. *)
From Coq Require Import Permutation Lra Lia.
From Verif Require Import DoubleTheorems TotalTheorems SpecTotals WitnessDouble.

(** ** C93.  Totals *)
Theorem C93_distance : forall routes k, amounts (concat routes) -> no_longer k routes ->
  let n := (k + length routes)%nat in
  driven routes * (1 - unit_roundoff) ^ n <= - d_dial_a_ride routes <= driven routes * (1 + unit_roundoff) ^ n.
Proof. exact c93_distance. Qed.
Print Assumptions C93_distance.
Theorem C93_durations : forall routes p k, amounts (concat (concat routes)) -> no_longer p (concat routes) -> no_longer k routes ->
  let n := (p + k + length routes)%nat in
  ridden routes * (1 - unit_roundoff) ^ n <= d_taxi_sharing routes <= ridden routes * (1 + unit_roundoff) ^ n.
Proof. exact c93_durations. Qed.
Print Assumptions C93_durations.
Theorem C93_best : forall a b k, amounts (concat a) -> amounts (concat b) -> no_longer k a -> no_longer k b ->
  let n := (k + Nat.max (length a) (length b))%nat in
  driven a * (1 + unit_roundoff) ^ n < driven b * (1 - unit_roundoff) ^ n -> d_dial_a_ride b < d_dial_a_ride a.
Proof. exact c93_best. Qed.
Print Assumptions C93_best.
Theorem C93_margin : forall a b k, amounts (concat a) -> amounts (concat b) -> no_longer k a -> no_longer k b ->
  let n := (k + Nat.max (length a) (length b))%nat in
  driven a < driven b * (1 - 2 * INR n * unit_roundoff) -> d_dial_a_ride b < d_dial_a_ride a.
Proof. exact c93_margin. Qed.
Print Assumptions C93_margin.
Theorem C93_order : forall a b k, Permutation a b -> amounts (concat a) -> no_longer k a ->
  let n := (k + length a)%nat in
  Rabs (d_dial_a_ride a - d_dial_a_ride b) <= driven a * ((1 + unit_roundoff) ^ n - (1 - unit_roundoff) ^ n).
Proof. exact c93_order. Qed.
Print Assumptions C93_order.
(** the order in which routes are read can matter *)
Theorem C93_order_matters : exists a b, Permutation a b /\ amounts (concat a) /\ d_dial_a_ride a <> d_dial_a_ride b.
Proof. exact c93_order_matters. Qed.
Print Assumptions C93_order_matters.
(** the planning with the longer ways can have the better value *)
Theorem C93_worse_preferred : exists a b, amounts (concat a) /\ amounts (concat b) /\ driven a < driven b /\ d_dial_a_ride a < d_dial_a_ride b.
Proof. exact c93_worse_preferred. Qed.
Print Assumptions C93_worse_preferred.

Section C93_example.
  Definition C93_short : list (list R) := [[3; 4]; [5]].
  Definition C93_long : list (list R) := [[3; 4; 1]; [5]].
  Example C93_case : amounts (concat C93_short) /\ amounts (concat C93_long) /\ no_longer 3 C93_short /\ no_longer 3 C93_long /\
    driven C93_short < driven C93_long * (1 - 2 * INR (3 + Nat.max (length C93_short) (length C93_long)) * unit_roundoff).
  Proof.
    assert (A : amounts [3; 4; 1; 5]) by (intros x [<-|[<-|[<-|[<-|[]]]]]; (split; [apply double_int; reflexivity|lra])).
    split; [intros x H; apply A; cbn in *; tauto|]. split; [intros x H; apply A; cbn in *; tauto|].
    split; [intros x [<-|[<-|[]]]; cbn; lia|]. split; [intros x [<-|[<-|[]]]; cbn; lia|].
    unfold driven. cbn. pose proof u_bounds. lra.
  Qed.
  Definition C93_rides : list (list (list R)) := [[[3; 4]; []]; [[5]]].
  Example C93_taxi_case : amounts (concat (concat C93_rides)) /\ no_longer 2 (concat C93_rides) /\ no_longer 2 C93_rides /\ ridden C93_rides = 12.
  Proof.
    split; [intros x [<-|[<-|[<-|[]]]]; (split; [apply double_int; reflexivity|lra])|].
    split; [intros x [<-|[<-|[<-|[]]]]; cbn; lia|]. split; [intros x [<-|[<-|[]]]; cbn; lia|].
    unfold ridden. cbn. lra.
  Qed.
End C93_example.
