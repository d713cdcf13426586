(** * Straight lines and detours in double precision

    [d_manhattan] and [d_euclidean] are the distances computed in double
    precision (Doubles.v), [blocks] and [straight] the exact ones (SpecDouble.v,
    SpecStraight.v); [tiny n] is [n * 2^-537], [unit_roundoff] is [2^-53]. *)
From Coq Require Import Lra Lia.
From Verif Require Import DoubleTheorems StraightTheorems SkipTheorems SpecStraight WitnessDouble WitnessSkip.

(** ** C91.  Detours *)
@C91_euclidean c91_euclidean
@C91_exact c91_exact
@C91_detour c91_detour
@C91_numbers c91_numbers
(** rounding can make a detour look shorter *)
@C91_shorter c91_shorter
(** places that have fewer coordinates are near all others *)
@C91_fewer_coordinates c91_fewer_coordinates

Section C91_example.
  Example C91_case : (forall x, In x ([0; 0] ++ [3; 0] ++ [3; 4]) -> double x) /\ straight [0; 0] [3; 4] = 5 /\
    straight [0; 0] [3; 0] = 3 /\ straight [3; 0] [3; 4] = 4.
  Proof.
    split; [intros x [<-|[<-|[<-|[<-|[<-|[<-|[]]]]]]]; apply double_int; reflexivity|].
    assert (E : forall y z, 0 <= y -> y * y = z -> sqrt z = y) by (intros y z Hy <-; apply sqrt_square, Hy).
    unfold straight. cbn. repeat split; apply E; lra.
  Qed.
End C91_example.

(** ** C92.  Leaving out a stop *)
@C92_later c92_later
@C92_direct c92_direct
@C92_places c92_places
(** rounding can make an arrival later *)
@C92_rounding c92_rounding

Section C92_example.
  Example C92_case : leaves_out 1 (d_manhattan [0; 0] [3; 0]) (d_manhattan [3; 0] [3; 4]) (d_manhattan [0; 0] [3; 4]) round_the_corner straight_on /\
    moderate 10000000 round_the_corner /\ moderate 10000000 straight_on /\ length (dr_stops round_the_corner) = 3%nat /\
    no_later (ERROR_BOUND / 5) (dr_at straight_on 1) (dr_at round_the_corner 2).
  Proof.
    split; [exact corner_left_out|]. split; [exact corner_moderate|]. split; [exact straight_moderate|]. split; [reflexivity|].
    change (dr_at straight_on 1) with (dr_at straight_on (2 - 1)).
    apply (c92_places d_manhattan round_the_corner straight_on 1 [0; 0] [3; 0] [3; 4] (or_introl eq_refl));
      try reflexivity; try exact corner_left_out; try exact corner_moderate; try exact straight_moderate; try (cbn; lia).
    all: try (intros x [<-|[<-|[]]]; apply double_int; reflexivity).
    rewrite blocks_7. lra.
  Qed.
End C92_example.
