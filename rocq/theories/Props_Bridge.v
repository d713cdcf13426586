(** * The two models of time agree on whole numbers

    [timetable], [admissible], [ride] and [route_feasible] are of the model with
    whole ticks (Spec.v, Routes.v), [dr_at] and [d_feasible] of the model in
    double precision (Doubles.v), [truly] is exact; [real_route] writes a route of
    the one as a route of the other (SpecBridge.v). *)
From Verif Require Import TimeTheorems OneShiftTheorems Witness.
From Verif Require Import SpecBridge DoubleTheorems WholeTheorems BridgeTheorems BridgeRoute WitnessBridge.
From Coq Require Import Lra Lia.

(** ** C95.  The two models *)
Theorem C95_exact `{W : World} : forall v xs rs i T, Spec.timetable v xs !! i = Some T -> truly (real_route v xs rs) i = real_timing T.
Proof. exact c95_exact. Qed.
Print Assumptions C95_exact.
Theorem C95_times `{W : World} : forall M v xs rs, moderate M (real_route v xs rs) -> M <= two50 -> whole_route (real_route v xs rs) ->
  forall i T, Spec.timetable v xs !! i = Some T -> dr_at (real_route v xs rs) i = real_timing T.
Proof. exact c95_times. Qed.
Print Assumptions C95_times.
Theorem C95_admissible `{W : World} : forall M v xs rs, moderate M (real_route v xs rs) -> M <= two50 -> whole_route (real_route v xs rs) ->
  (forall i j t, In (i, j, t) rs <-> ride xs t i j) -> (forall t i j, ride xs t i j -> (i < j)%nat) ->
  admissible v xs <-> d_feasible (real_route v xs rs) = Some true /\ in_place v xs /\ not_overloaded v xs.
Proof. exact c95_admissible. Qed.
Print Assumptions C95_admissible.
Theorem C95_route `{W : World} : forall M h r v ids xs rs, sane_durations -> sane_capacities ->
  well_formed h r v ids xs -> ids <> [] -> unasked h r ids ->
  moderate M (real_route v xs rs) -> M <= two50 -> whole_route (real_route v xs rs) -> (forall i j t, In (i, j, t) rs <-> ride xs t i j) ->
  exists b h', route_feasible r h = (Ok b, h') /\
    (b = true <-> d_feasible (real_route v xs rs) = Some true /\ in_place v xs /\ not_overloaded v xs).
Proof. exact c95_route. Qed.
Print Assumptions C95_route.

Section C95_example.
  #[local] Existing Instance town.
  (** a route that is feasible in both models, and one that is in neither *)
  Example C95_case : sane /\ well_formed unread_town 3 0 unread_stops busy_visits /\ unasked unread_town 3 unread_stops /\
    moderate 1000 (real_route 0 busy_visits town_rides) /\ 1000 <= two50 /\ whole_route (real_route 0 busy_visits town_rides) /\
    (forall i j t, In (i, j, t) town_rides <-> ride busy_visits t i j) /\ result (route_feasible 3) unread_town = Ok true /\
    d_feasible (real_route 0 busy_visits town_rides) = Some true.
  Proof.
    assert (WF : well_formed unread_town 3 0 unread_stops busy_visits) by (apply well_formedb_sound; reflexivity).
    assert (U : unasked unread_town 3 unread_stops) by (apply unaskedb_sound; reflexivity).
    assert (B : 1000 <= two50) by (unfold two50; lra).
    destruct (town_route_good busy_visits (or_introl eq_refl)) as [Hw Hm].
    assert (A := town_rides_all busy_visits (or_introl eq_refl)).
    split; [exact town_sane|]. split; [exact WF|]. split; [exact U|]. split; [exact Hm|]. split; [exact B|]. split; [exact Hw|]. split; [exact A|].
    split; [reflexivity|].
    destruct (c95_route 1000 _ _ _ _ _ town_rides (proj1 town_sane) (proj2 town_sane) WF ltac:(discriminate) U Hm B Hw A) as (b & h' & E & Hb).
    assert (b = true) as -> by (assert (Q : fst (route_feasible 3 unread_town) = Ok true) by reflexivity; rewrite E in Q; cbn in Q; congruence).
    apply Hb. reflexivity.
  Qed.
  Example C95_case_not : well_formed late_town 3 0 unread_stops late_visits /\ result (route_feasible 3) late_town = Ok false /\
    moderate 1000 (real_route 0 late_visits town_rides) /\ whole_route (real_route 0 late_visits town_rides) /\
    (forall i j t, In (i, j, t) town_rides <-> ride late_visits t i j) /\ d_feasible (real_route 0 late_visits town_rides) = Some false.
  Proof.
    destruct (town_route_good late_visits (or_intror eq_refl)) as [Hw Hm].
    split; [apply well_formedb_sound; reflexivity|]. split; [reflexivity|]. split; [exact Hm|]. split; [exact Hw|].
    split; [exact (town_rides_all late_visits (or_intror eq_refl))|].
    assert (F : rides_forward (real_route 0 late_visits town_rides)).
    { intros i j t Ht. cbn -[real_trip] in Ht. destruct Ht as [[= <- <- <-]|[[= <- <- <-]|[]]]; cbn; lia. }
    destruct (c94_feasible 1000 _ Hm ltac:(unfold two50; lra) Hw F) as [[_ K]|[H _]]; [exfalso|exact H].
    (** the second passenger must be picked up by 3 and is at 51 *)
    assert (P : In (2, 4, real_trip (w_trip 1))%nat (dr_rides (real_route 0 late_visits town_rides)))
      by (apply in_map_iff; exists (2, 4, 1)%nat; split; [reflexivity|right; left; reflexivity]).
    destruct (kl_rides _ _ K _ _ _ P) as [_ H]. destruct (H 2%nat (or_introl eq_refl)) as [Q _].
    specialize (Q (real_trip (w_trip 1)) (or_introl eq_refl)).
    rewrite (@c95_exact town 0 late_visits town_rides 2 (Timing 51000 51000 51000 2000) ltac:(vm_compute; reflexivity)) in Q.
    destruct Q as [Q _]. change (@real town (51 * 1000) <= @real town (3 * 1000) + 0) in Q. rewrite !town_unit in Q. lra.
  Qed.
  Example C95_times_case : map (fun i => truly (real_route 0 busy_visits town_rides) i) [3]%nat = [DTimes 4 4 4].
  Proof.
    cbn -[truly]. rewrite (@c95_exact town 0 busy_visits town_rides 3 (Timing 4000 4000 4000 1000) ltac:(vm_compute; reflexivity)).
    unfold real_timing. cbn -[real]. change 4000%Z with (4 * 1000)%Z. rewrite town_unit. reflexivity.
  Qed.
End C95_example.
