(** * Whole numbers as data

    [dr_at], [d_feasible], [d_manhattan], [d_dial_a_ride] and [d_taxi_sharing]
    are computed in double precision (Doubles.v, Totals.v); [truly],
    [keeps_limits 0], [blocks], [driven] and [ridden] are exact; [World.manhattan]
    is the distance of the model with whole ticks. *)
From Coq Require Import Permutation Lra Lia.
From Verif Require World.
From Verif Require Import DoubleTheorems WholeTheorems SpecWhole WitnessDouble.

(** ** C94.  Whole numbers *)
@C94_times c94_times
@C94_feasible c94_feasible
@C94_blocks c94_blocks
@C94_world c94_world
@C94_distance c94_distance
@C94_durations c94_durations
@C94_any_order c94_any_order
(** larger numbers are rounded *)
@C94_beyond c94_beyond

Section C94_example.
  Let late_way : droute := DRoute 5 (Some 68) None (dr_stops short_way) (dr_rides short_way).
  Example C94_case : moderate 1000 short_way /\ 1000 <= two50 /\ whole_route short_way /\ rides_forward short_way /\ d_feasible short_way = Some true /\
    moderate 1000 late_way /\ whole_route late_way /\ d_feasible late_way = Some false.
  Proof.
    assert (W : forall z, whole (IZR z)) by (intros z; exists z; reflexivity).
    assert (L : forall z, whole_limit (Some (IZR z))) by (intros z x [= <-]; apply W).
    assert (N : whole_limit None) by (intros x; discriminate).
    assert (T : whole_trip ride_home) by (split; cbn; auto).
    assert (S : forall s, In s (dr_stops short_way) -> whole_stop s).
    { intros s Hs. cbn in Hs. repeat (destruct Hs as [<-|Hs]); try destruct Hs; split; cbn; auto; intros t Ht; (destruct Ht as [<-|[]] || destruct Ht); exact T. }
    assert (R : whole_route short_way). { split; [apply W|split; [apply L|exact N]|exact S|]. intros i j t [[= <- <- <-]|[]]. exact T. }
    assert (R' : whole_route late_way). { split; [apply W|split; [apply L|exact N]|exact S|]. intros i j t [[= <- <- <-]|[]]. exact T. }
    assert (M' : moderate 1000 late_way).
    { destruct short_moderate as [A B C D E F]. split; [exact A| |exact C|exact D|exact E|exact F]. cbn. rewrite Rabs_pos_eq; lra. }
    assert (B : 1000 <= two50) by (unfold two50; lra).
    split; [exact short_moderate|]. split; [exact B|]. split; [exact R|]. split; [exact short_forward|]. split.
    - destruct (c94_feasible 1000 short_way short_moderate B R short_forward) as [[H _]|[_ H]]; [exact H|]. exfalso. apply H. exact short_keeps.
    - split; [exact M'|]. split; [exact R'|].
      destruct (c94_feasible 1000 late_way M' B R' short_forward) as [[_ [H _ _]]|[H _]]; [|exact H]. exfalso.
      change (truly late_way) with (truly short_way) in H. rewrite short_truly in H. cbn in H. lra.
  Qed.
  Example C94_distance_case : World.manhattan [3; 4]%Z [0; 1]%Z = 6%Z.
  Proof. reflexivity. Qed.
  Example C94_total_case : (forall x, In x (concat [[3; 4]; [5]]) -> whole x /\ 0 <= x) /\ driven [[3; 4]; [5]] < two53.
  Proof.
    split; [|unfold driven, two53; cbn; lra]. intros x Hx. cbn in Hx.
    repeat (destruct Hx as [<-|Hx]); try destruct Hx; (split; [eexists; reflexivity|lra]).
  Qed.
End C94_example.
