(** * HashCode scores in double precision

    [d_hash_score] and [d_hash_code] are computed in double precision (Scores.v),
    [exact_score] exactly (SpecScores.v); [ride_score] and [planning_value] are of
    the model with whole ticks. *)
From Verif Require Import ValueTheorems Witness.
From Verif Require Import SpecScores TotalTheorems WholeTheorems BridgeTheorems WitnessBridge WorthTheorems ScoreTheorems WitnessScores.
From Coq Require Import Lra Lia.

(** ** C97.  HashCode scores *)
Theorem C97_whole : forall M r i t bonus, moderate M r -> M <= two50 -> whole_route r -> In t (ds_pickups (nth i (dr_stops r) no_stop)) ->
  whole bonus -> Rabs (dt_time t + bonus) < two53 -> d_hash_score r i t bonus = exact_score r i t bonus.
Proof. exact c97_whole. Qed.
Print Assumptions C97_whole.
Theorem C97_exact `{W : World} : forall v xs rs t i, boards_at xs t i ->
  exact_score (real_route v xs rs) i (real_trip (w_trip t)) (real (tr_bonus (w_trip t))) = real (ride_score v xs t).
Proof. exact c97_exact. Qed.
Print Assumptions C97_exact.
Theorem C97_score `{W : World} : forall M v xs rs t i, moderate M (real_route v xs rs) -> M <= two50 -> whole_route (real_route v xs rs) ->
  boards_at xs t i -> whole (real (tr_bonus (w_trip t))) -> Rabs (real (trip_distance (w_trip t) + tr_bonus (w_trip t))) < two53 ->
  d_hash_score (real_route v xs rs) i (real_trip (w_trip t)) (real (tr_bonus (w_trip t))) = real (ride_score v xs t).
Proof. exact c97_score. Qed.
Print Assumptions C97_score.
Theorem C97_sum `{W : World} : forall h pl l, Forall2 (described h) pl l ->
  (forall x, In x (concat (concat (map real_scores l))) -> whole x /\ 0 <= x) -> ridden (map real_scores l) < two53 ->
  exists z h', planning_value HashCode pl h = (Ok [z], h') /\ d_hash_code (map real_scores l) = real z.
Proof. exact c97_sum. Qed.
Print Assumptions C97_sum.
(** larger numbers are rounded *)
Theorem C97_lost : exists r i t bonus, whole_route r /\ In t (ds_pickups (nth i (dr_stops r) no_stop)) /\ whole bonus /\
  opens_pickup t = dm_departure (truly r i) /\ exact_score r i t bonus = dt_time t + bonus /\ 0 < bonus /\ d_hash_score r i t bonus = dt_time t.
Proof. exact c97_lost. Qed.
Print Assumptions C97_lost.

Section C97_example.
  #[local] Existing Instance paid.
  (** picked up on time: 3 and the bonus; later: 3 *)
  Example C97_case : whole (@real paid (tr_bonus (w_trip 0))) /\
    d_hash_score (real_route 0 busy_visits town_rides) 1 (real_trip (w_trip 0)) (real (tr_bonus (w_trip 0))) = 5 /\
    d_hash_score (real_route 0 late_visits town_rides) 1 (real_trip (w_trip 0)) (real (tr_bonus (w_trip 0))) = 3.
  Proof.
    assert (B : 1000 <= two50) by (unfold two50; lra).
    assert (Wb : whole (@real paid (tr_bonus (@w_trip paid 0)))) by (exists 2%Z; exact (paid_unit 2)).
    assert (S : Rabs (@real paid (trip_distance (@w_trip paid 0) + tr_bonus (@w_trip paid 0))) < two53).
    { change (trip_distance (@w_trip paid 0) + tr_bonus (@w_trip paid 0))%Z with (5 * 1000)%Z. rewrite paid_unit. unfold two53. apply Rabs_def1; lra. }
    split; [exact Wb|]. split.
    - destruct (town_route_good busy_visits (or_introl eq_refl)) as [Hw Hm].
      rewrite (@c97_score paid 1000 0 busy_visits town_rides 0 1 Hm B Hw (paid_boards _ (or_introl eq_refl)) Wb S).
      replace (@ride_score paid 0 busy_visits 0) with (5 * 1000)%Z by (vm_compute; reflexivity). apply paid_unit.
    - destruct (town_route_good late_visits (or_intror eq_refl)) as [Hw Hm].
      rewrite (@c97_score paid 1000 0 late_visits town_rides 0 1 Hm B Hw (paid_boards _ (or_intror eq_refl)) Wb S).
      replace (@ride_score paid 0 late_visits 0) with (3 * 1000)%Z by (vm_compute; reflexivity). apply paid_unit.
  Qed.
  Example C97_sum_case : Forall2 (described unread_town) [3]%nat [(0%nat, busy_visits)] /\
    (forall x, In x (concat (concat (map real_scores [(0%nat, busy_visits)]))) -> whole x /\ 0 <= x) /\
    ridden (map real_scores [(0%nat, busy_visits)]) < two53 /\ (planning_value HashCode [3]%nat unread_town).1 = Ok [10000]%Z.
  Proof.
    assert (E : concat (concat (map (@real_scores paid) [(0%nat, busy_visits)])) = [5; 5]).
    { unfold real_scores. cbn -[real ride_score unless_empty].
      replace (@unless_empty paid 0 (@ride_score paid 0 busy_visits 0)) with (5 * 1000)%Z by (vm_compute; reflexivity).
      replace (@unless_empty paid 1 (@ride_score paid 0 busy_visits 1)) with (5 * 1000)%Z by (vm_compute; reflexivity).
      rewrite paid_unit. reflexivity. }
    split; [repeat constructor; exists unread_stops; apply well_formedb_sound; reflexivity|].
    split; [rewrite E; intros x [<-|[<-|[]]]; (split; [exists 5%Z; reflexivity|lra])|].
    split; [unfold ridden; rewrite E; unfold SpecTotals.total, two53; cbn; lra|vm_compute; reflexivity].
  Qed.
End C97_example.
