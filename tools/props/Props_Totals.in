(** * Objective values in double precision

    [d_dial_a_ride] and [d_taxi_sharing] are objective values computed in double
    precision (Totals.v), [driven] and [ridden] the exact totals (SpecTotals.v);
    [unit_roundoff] is [2^-53]. *)
From Coq Require Import Permutation Lra Lia.
From Verif Require Import DoubleTheorems TotalTheorems SpecTotals WitnessDouble.

(** ** C93.  Totals *)
@C93_distance c93_distance
@C93_durations c93_durations
@C93_best c93_best
@C93_margin c93_margin
@C93_order c93_order
(** the order in which routes are read can matter *)
@C93_order_matters c93_order_matters
(** the planning with the longer ways can have the better value *)
@C93_worse_preferred c93_worse_preferred

Section C93_example.
  Definition C93_short : list (list R) := [[3; 4]; [5]].
  Definition C93_long : list (list R) := [[3; 4; 1]; [5]].
  Example C93_case : amounts (concat C93_short) /\ amounts (concat C93_long) /\ no_longer 3 C93_short /\ no_longer 3 C93_long /\
    driven C93_short < driven C93_long * (1 - 2 * INR (3 + Nat.max (length C93_short) (length C93_long)) * unit_roundoff).
  Proof.
    assert (A : amounts [3; 4; 1; 5]) by (intros x [<-|[<-|[<-|[<-|[]]]]]; (split; [apply double_int; reflexivity|lra])).
    split; [intros x H; apply A; cbn in *; tauto|]. split; [intros x H; apply A; cbn in *; tauto|].
    split; [intros x [<-|[<-|[]]]; cbn; lia|]. split; [intros x [<-|[<-|[]]]; cbn; lia|].
    unfold driven. cbn. pose proof u_bounds. lra.
  Qed.
  Definition C93_rides : list (list (list R)) := [[[3; 4]; []]; [[5]]].
  Example C93_taxi_case : amounts (concat (concat C93_rides)) /\ no_longer 2 (concat C93_rides) /\ no_longer 2 C93_rides /\ ridden C93_rides = 12.
  Proof.
    split; [intros x [<-|[<-|[<-|[]]]]; (split; [apply double_int; reflexivity|lra])|].
    split; [intros x [<-|[<-|[<-|[]]]]; cbn; lia|]. split; [intros x [<-|[<-|[]]]; cbn; lia|].
    unfold ridden. cbn. lra.
  Qed.
End C93_example.
