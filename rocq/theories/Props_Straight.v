(** * Straight lines and detours in double precision

    [d_manhattan] and [d_euclidean] are the distances computed in double
    precision (Doubles.v), [blocks] and [straight] the exact ones (SpecDouble.v,
    SpecStraight.v); [tiny n] is [n * 2^-537], [unit_roundoff] is [2^-53]. *)
From Coq Require Import Lra Lia.
From Verif Require Import DoubleTheorems StraightTheorems SkipTheorems SpecStraight WitnessDouble WitnessSkip.

(** ** C91.  Detours *)
Theorem C91_euclidean : forall a b, (forall x, In x a -> double x) -> (forall x, In x b -> double x) ->
  let n := Nat.min (length a) (length b) in
  straight a b * (1 - unit_roundoff) ^ (n + 3) - tiny n <= d_euclidean a b <= (straight a b + tiny n) * (1 + unit_roundoff) ^ (n + 3).
Proof. exact c91_euclidean. Qed.
Print Assumptions C91_euclidean.
Theorem C91_exact : forall a b c, length a = length b -> length b = length c ->
  blocks a c <= blocks a b + blocks b c /\ straight a c <= straight a b + straight b c.
Proof. exact c91_exact. Qed.
Print Assumptions C91_exact.
Theorem C91_detour : forall a b c, (forall x, In x a -> double x) -> (forall x, In x b -> double x) -> (forall x, In x c -> double x) ->
  length a = length b -> length b = length c ->
  d_manhattan a c * (1 - INR (2 * length a + 1) * unit_roundoff) <= fadd (d_manhattan a b) (d_manhattan b c) /\
  d_euclidean a c * (1 - INR (2 * length a + 7) * unit_roundoff) <= fadd (d_euclidean a b) (d_euclidean b c) + 3 * tiny (length a).
Proof. exact c91_detour. Qed.
Print Assumptions C91_detour.
Theorem C91_numbers : forall a b c, (forall x, In x a -> double x) -> (forall x, In x b -> double x) -> (forall x, In x c -> double x) ->
  length a = length b -> length b = length c -> (length a <= 1000)%nat ->
  (d_manhattan a c <= 100000000 -> d_manhattan a c <= fadd (d_manhattan a b) (d_manhattan b c) + ERROR_BOUND / 10) /\
  (d_euclidean a c <= 100000000 -> d_euclidean a c <= fadd (d_euclidean a b) (d_euclidean b c) + ERROR_BOUND / 10).
Proof. exact c91_numbers. Qed.
Print Assumptions C91_numbers.
(** rounding can make a detour look shorter *)
Theorem C91_shorter : exists a b c, (forall x, In x [a; b; c] -> double x) /\
  fadd (d_manhattan [a] [b]) (d_manhattan [b] [c]) < d_manhattan [a] [c] /\
  fadd (d_euclidean [a] [b]) (d_euclidean [b] [c]) < d_euclidean [a] [c].
Proof. exact c91_shorter. Qed.
Print Assumptions C91_shorter.
(** places that have fewer coordinates are near all others *)
Theorem C91_fewer_coordinates : exists a b c, (forall x, In x (a ++ b ++ c) -> double x) /\
  fadd (d_manhattan a b) (d_manhattan b c) = 0 /\ fadd (d_euclidean a b) (d_euclidean b c) = 0 /\ 0 < d_manhattan a c /\ 0 < straight a c.
Proof. exact c91_fewer_coordinates. Qed.
Print Assumptions C91_fewer_coordinates.

Section C91_example.
  Example C91_case : (forall x, In x ([0; 0] ++ [3; 0] ++ [3; 4]) -> double x) /\ straight [0; 0] [3; 4] = 5 /\
    straight [0; 0] [3; 0] = 3 /\ straight [3; 0] [3; 4] = 4.
  Proof.
    split; [intros x [<-|[<-|[<-|[<-|[<-|[<-|[]]]]]]]; apply double_int; reflexivity|].
    assert (E : forall y z, 0 <= y -> y * y = z -> sqrt z = y) by (intros y z Hy <-; apply sqrt_square, Hy).
    unfold straight. cbn. repeat split; apply E; lra.
  Qed.
End C91_example.

(** ** C92.  Leaving out a stop *)
Theorem C92_later : forall M r r' k x y w e, leaves_out k x y w r r' -> moderate M r -> moderate M r' ->
  rounding M (length (dr_stops r)) <= ERROR_BOUND -> 0 <= e -> w <= x + y + e ->
  forall i, (k < i < length (dr_stops r))%nat ->
    no_later (e + 2 * rounding M (length (dr_stops r))) (dr_at r' (i - 1)) (dr_at r i).
Proof. exact c92_later. Qed.
Print Assumptions C92_later.
Theorem C92_direct : forall a b c, (forall x, In x a -> double x) -> (forall x, In x b -> double x) -> (forall x, In x c -> double x) ->
  length a = length b -> length b = length c -> (length a <= 1000)%nat ->
  (d_manhattan a c <= 100000000 -> d_manhattan a c <= d_manhattan a b + d_manhattan b c + ERROR_BOUND / 9) /\
  (d_euclidean a c <= 100000000 -> d_euclidean a c <= d_euclidean a b + d_euclidean b c + ERROR_BOUND / 9).
Proof. exact c92_direct. Qed.
Print Assumptions C92_direct.
Theorem C92_places : forall metric r r' k a b c, metric = d_manhattan \/ metric = d_euclidean ->
  (forall x, In x a -> double x) -> (forall x, In x b -> double x) -> (forall x, In x c -> double x) ->
  length a = length b -> length b = length c -> (length a <= 1000)%nat ->
  leaves_out k (metric a b) (metric b c) (metric a c) r r' ->
  moderate 10000000 r -> moderate 10000000 r' -> (length (dr_stops r) <= 1000)%nat -> metric a c <= 100000000 ->
  forall i, (k < i < length (dr_stops r))%nat -> no_later (ERROR_BOUND / 5) (dr_at r' (i - 1)) (dr_at r i).
Proof. exact c92_places. Qed.
Print Assumptions C92_places.
(** rounding can make an arrival later *)
Theorem C92_rounding : exists r r' a b c, (forall x, In x [a; b; c] -> double x) /\
  leaves_out 0 (d_manhattan [a] [b]) (d_manhattan [b] [c]) (d_manhattan [a] [c]) r r' /\
  dm_arrival (dr_at r 1) < dm_arrival (dr_at r' 0).
Proof. exact c92_rounding. Qed.
Print Assumptions C92_rounding.

Section C92_example.
  Example C92_case : leaves_out 1 (d_manhattan [0; 0] [3; 0]) (d_manhattan [3; 0] [3; 4]) (d_manhattan [0; 0] [3; 4]) round_the_corner straight_on /\
    moderate 10000000 round_the_corner /\ moderate 10000000 straight_on /\ length (dr_stops round_the_corner) = 3%nat /\
    no_later (ERROR_BOUND / 5) (dr_at straight_on 1) (dr_at round_the_corner 2).
  Proof.
    split; [exact corner_left_out|]. split; [exact corner_moderate|]. split; [exact straight_moderate|]. split; [reflexivity|].
    change (dr_at straight_on 1) with (dr_at straight_on (2 - 1)).
    apply (c92_places d_manhattan round_the_corner straight_on 1 [0; 0] [3; 0] [3; 4] (or_introl eq_refl));
      try reflexivity; try exact corner_left_out; try exact corner_moderate; try exact straight_moderate; try (cbn; lia).
    all: try (intros x [<-|[<-|[]]]; apply double_int; reflexivity).
    rewrite blocks_7. lra.
  Qed.
End C92_example.
