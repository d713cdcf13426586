(** Raising limits (C79). *)
From Verif Require Import SpecEase Represents Choices TimeTheorems AdmissibleCheck WitnessEase Checker.

Section ease.
  Context (W W' : World) (M : eased_world True W W').

  Lemma eased_eb : @eb W' = @eb W.
  Proof. unfold eb. by rewrite (ew_eb _ _ _ M). Qed.
  Lemma eased_dist a b : @dist W' a b = @dist W a b.
  Proof. unfold dist. by rewrite (ew_metric _ _ _ M). Qed.
  Lemma eased_destination_earliest t : @destination_earliest W' (@w_trip W' t) = @destination_earliest W (@w_trip W t).
  Proof.
    destruct (ew_trip _ _ _ M t) as ((P1 & E1 & D1 & _) & (P2 & E2 & D2 & _) & _). unfold destination_earliest, svc_dist.
    by rewrite eased_dist, P1, P2, E1, E2, D1.
  Qed.
  Lemma eased_durations t : origin_duration (@w_trip W' t) = origin_duration (@w_trip W t) /\ destination_duration (@w_trip W' t) = destination_duration (@w_trip W t).
  Proof. destruct (ew_trip _ _ _ M t) as ((_ & _ & D1 & _) & (_ & _ & D2 & _) & _). by unfold origin_duration, destination_duration. Qed.
  Lemma eased_capacity t : tr_capacity (@w_trip W' t) = tr_capacity (@w_trip W t).
  Proof. by destruct (ew_trip _ _ _ M t) as (_ & _ & -> & _). Qed.

  Lemma eased_visit_earliest x : @visit_earliest W' x = @visit_earliest W x.
  Proof.
    unfold visit_earliest. f_equal. f_equal; apply map_ext; intros t; [by apply (ew_pickup _ _ _ M)|apply eased_destination_earliest].
  Qed.
  Lemma eased_visit_duration x : @visit_duration W' x = @visit_duration W x.
  Proof. unfold visit_duration. f_equal. f_equal; apply map_ext; intros t; apply eased_durations. Qed.
  Lemma eased_weight ts : @weight W' ts = @weight W ts.
  Proof. unfold weight. f_equal. apply map_ext. apply eased_capacity. Qed.
  Lemma eased_schedule xs : forall l, @schedule W' l xs = @schedule W l xs.
  Proof.
    induction xs as [|x xs IH]; intros [[now here] load]; [done|]. cbn [schedule].
    assert (E : @advance W' (now, here, load) x = @advance W (now, here, load) x).
    { unfold advance. by rewrite eased_dist, eased_visit_earliest, eased_visit_duration, !eased_weight. }
    by rewrite E, IH.
  Qed.
  Lemma eased_timetable v xs : @timetable W' v xs = @timetable W v xs.
  Proof.
    destruct (ew_vehicle _ _ _ M v) as ((P & E & _) & _). unfold timetable, ready, v_origin_earliest, v_origin_position. rewrite P, E. apply eased_schedule.
  Qed.

  Lemma higher_at_most z l l' : higher l l' -> @at_most W z l -> @at_most W' z l'.
  Proof. destruct l, l'; cbn; try done. rewrite eased_eb. lia. Qed.
  Lemma higher_min a b a' b' : higher a a' -> higher b b' -> higher (lim_min a b) (lim_min a' b').
  Proof. destruct a, b, a', b'; cbn; try done; lia. Qed.
  Lemma eased_origin_latest t : higher (@origin_latest W (@w_trip W t)) (@origin_latest W' (@w_trip W' t)).
  Proof.
    destruct (ew_trip _ _ _ M t) as ((P1 & E1 & D1 & L1) & (P2 & E2 & D2 & L2) & _). unfold origin_latest, svc_dist.
    rewrite eased_dist, P1, P2, D2. apply higher_min; [|done]. destruct (sv_latest (tr_destination (@w_trip W t))), (sv_latest (tr_destination (@w_trip W' t))); cbn in *; try done; lia.
  Qed.
  Lemma eased_destination_latest t : higher (destination_latest (@w_trip W t)) (destination_latest (@w_trip W' t)).
  Proof.
    destruct (ew_trip _ _ _ M t) as ((P1 & E1 & D1 & L1) & (P2 & E2 & D2 & L2) & _ & T). unfold destination_latest. rewrite D1. apply higher_min; [|done].
    destruct (tr_timeout (@w_trip W t)), (tr_timeout (@w_trip W' t)), (sv_latest (tr_origin (@w_trip W t))), (sv_latest (tr_origin (@w_trip W' t))); cbn in *; try done; lia.
  Qed.
  Lemma eased_on_time v x T : @on_time W v x T -> @on_time W' v x T.
  Proof.
    intros (H1 & H2 & H3). split; [|split].
    - intros t Ht. destruct (H1 t Ht) as [A B]. rewrite (ew_pickup _ _ _ M I), eased_eb. split; [done|]. eapply higher_at_most; [apply eased_origin_latest|done].
    - intros t Ht. destruct (H2 t Ht) as [A B]. rewrite eased_destination_earliest, eased_eb. split; [done|]. eapply higher_at_most; [apply eased_destination_latest|done].
    - eapply higher_at_most; [apply (ew_vehicle _ _ _ M v)|done].
  Qed.
  Lemma eased_admissible v xs : @admissible W v xs -> @admissible W' v xs.
  Proof.
    destruct (ew_vehicle _ _ _ M v) as ((P1 & E1 & _) & (P2 & E2 & _ & L2) & Hc & Ht).
    intros [A1 A2 A3 A4 A5]. rewrite <- (eased_timetable v xs) in A3, A4, A5. split.
    - unfold v_origin_position. by rewrite P1.
    - unfold v_destination_position. by rewrite P2.
    - intros T HT. eapply higher_at_most; [exact L2|by apply A3].
    - intros T0 T H0 HT. eapply higher_at_most; [exact Ht|by apply A4].
    - intros t i j x y Ti Tj Hr Hx Hy HTi HTj. destruct (A5 t i j x y Ti Tj Hr Hx Hy HTi HTj) as (O1 & O2 & L).
      split; [by apply eased_on_time|]. split; [by apply eased_on_time|]. eapply higher_at_most; [apply (ew_trip _ _ _ M t)|done].
  Qed.
End ease.

Lemma c79_limits : forall (W W' : World) v xs, eased_world True W W' ->
  @admissible W v xs -> @admissible W' v xs.
Proof. intros W W' v xs M. by apply eased_admissible. Qed.
Lemma c79_feasible : forall (W W' : World) h r v ids xs h' r' ids', eased_world True W W' -> @sane W ->
  @well_formed W h r v ids xs -> ids <> [] -> unasked h r ids ->
  @well_formed W' h' r' v ids' xs -> ids' <> [] -> unasked h' r' ids' ->
  fst (@route_feasible W r h) = Ok true -> fst (@route_feasible W' r' h') = Ok true.
Proof.
  intros W W' h r v ids xs h' r' ids' M [Hs Hc] F N U F' N' U' E.
  destruct (@c05_feasible W h r v ids xs Hs Hc F N U) as (b & h1 & Eb & Hb & _). rewrite Eb in E. injection E as ->.
  assert (Hs' : @sane_durations W'). { intros t. destruct (eased_durations W W' M t) as [-> ->]. apply Hs. }
  assert (Hc' : @sane_capacities W'). { intros t. rewrite (eased_capacity W W' M). apply Hc. }
  destruct (@c05_feasible W' h' r' v ids' _ Hs' Hc' F' N' U') as (b' & h1' & E' & Hb' & _).
  rewrite E'. cbn. f_equal. apply Hb'. apply (c79_limits W W'); [done|]. by apply Hb.
Qed.

Lemma share_eased : eased_world False share_world patient_world.
Proof.
  split; [done|done| |done|].
  - intros [|[|[|t]]]; cbn; repeat split; try done; lia.
  - intros [|[|v]]; cbn; repeat split; try done; lia.
Qed.
Lemma tight_eased : eased_world True tight_world share_world.
Proof.
  split; [done|done| | |].
  - intros [|[|[|t]]]; cbn; repeat split; try done; lia.
  - intros _ [|[|[|t]]]; reflexivity.
  - intros [|[|v]]; cbn; repeat split; try done; lia.
Qed.
Lemma c79_refuted : ~ forall (W W' : World) v xs, eased_world False W W' -> @tour W v xs -> @tour W' v xs ->
  @admissible W v xs -> @admissible W' v xs.
Proof.
  intros H. assert (A : @admissible patient_world 0 share_visits).
  { apply (H share_world patient_world).
    - apply share_eased.
    - apply tourb_sound. vm_compute. reflexivity.
    - apply tourb_sound. vm_compute. reflexivity.
    - apply admissibleb_sound. vm_compute. reflexivity. }
  destruct (@ad_rides patient_world _ _ A 1%nat 2%nat 4%nat (Visit [1000] [1%nat] [] None) (Visit [3000] [] [1%nat] None)
    (Timing 1000 1000 1000 2000) (Timing 101000 101000 101000 0)) as (_ & _ & L); [|vm_compute; reflexivity..|].
  - exists (Visit [1000] [1%nat] [] None), (Visit [3000] [] [1%nat] None). repeat split; try done; left.
  - vm_compute in L. by apply L.
Qed.
