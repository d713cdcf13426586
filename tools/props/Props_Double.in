(** C63-C65: times and distances in floating point arithmetic. *)
From Coq Require Import Lra.
From Verif Require Import DoubleTheorems WitnessDouble.

(** ** C63.  The times of a route are in order, whatever is rounded *)
@C63_order c63_order
@C63_assert c63_assert
@C63_waiting c63_waiting
@C63_later c63_later

Section C63_example.
  Example C63_case : double (dr_earliest short_way) /\ (forall s, In s (dr_stops short_way) -> double_stop s) /\
    rides_forward short_way /\ length (dr_stops short_way) = 4%nat /\ length (dr_rides short_way) = 1%nat.
  Proof. split; [apply short_double|]. split; [apply short_double|]. split; [exact short_forward|]. split; reflexivity. Qed.
End C63_example.

(** ** C64.  The tolerance covers the rounding *)
@C64_times c64_times
@C64_accepts c64_accepts
@C64_accepted c64_accepted
@C64_numbers c64_numbers

Section C64_example.
  Example C64_case : moderate 1000 short_way /\ rides_forward short_way /\ double (dr_earliest short_way) /\
    (forall s, In s (dr_stops short_way) -> double_stop s) /\ rounding 1000 (length (dr_stops short_way)) <= ERROR_BOUND /\
    keeps_limits 0 short_way /\ d_feasible short_way = Some true /\ dm_departure (truly short_way 3) = 69.
  Proof.
    split; [exact short_moderate|]. split; [exact short_forward|]. split; [apply short_double|]. split; [apply short_double|].
    split; [exact short_rounding|]. split; [exact short_keeps|]. split; [|rewrite short_truly; reflexivity].
    exact (c64_accepts 1000 short_way short_moderate short_forward (proj1 short_double) (proj2 short_double) short_rounding short_keeps).
  Qed.
End C64_example.

(** ** C65.  Distances in floating point arithmetic *)
@C65_symmetric c65_symmetric
@C65_travel c65_travel
@C65_self c65_self
@C65_accurate c65_accurate
@C65_apart c65_apart
@C65_euclidean_collapse c65_euclidean_collapse

Section C65_example.
  Example C65_case : (forall x, In x [3; 4] -> double x) /\ (forall x, In x [0; 1] -> double x) /\
    blocks [3; 4] [0; 1] = 6 /\ 0 < d_manhattan [3; 4] [0; 1].
  Proof.
    assert (A : forall x, In x [3; 4] -> double x) by (intros x [<-|[<-|[]]]; apply double_int; reflexivity).
    assert (B : forall x, In x [0; 1] -> double x) by (intros x [<-|[<-|[]]]; apply double_int; reflexivity).
    split; [exact A|]. split; [exact B|]. split.
    - cbn. rewrite !Rabs_pos_eq by lra. lra.
    - apply (c65_apart _ _ 0%nat A B); cbn; [apply Nat.lt_0_succ|lra].
  Qed.
End C65_example.
