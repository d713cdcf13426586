(** The model with ticks and the model with doubles agree on whole numbers. *)
From Verif Require Import SpecBridge DoubleTheorems WholeTheorems.
From Verif Require SchedProofs RouteProofs.
From Coq Require Import Lra Lia.

Section bridge.
  Context `{W : World}.
  Lemma unit_pos : 0 < IZR ticks_per_unit.
  Proof. apply IZR_lt. unfold ticks_per_unit. lia. Qed.
  Lemma real_add a b : real (a + b) = real a + real b.
  Proof. unfold real. rewrite plus_IZR. field. pose proof unit_pos. lra. Qed.
  Lemma real_sub a b : real (a - b) = real a - real b.
  Proof. unfold real. rewrite minus_IZR. field. pose proof unit_pos. lra. Qed.
  Lemma real_0 : real 0 = 0.
  Proof. unfold real. field. pose proof unit_pos. lra. Qed.
  Lemma real_le a b : (a <= b)%Z <-> real a <= real b.
  Proof.
    unfold real, Rdiv. pose proof (Rinv_0_lt_compat _ unit_pos) as H. split; intros A.
    - apply Rmult_le_compat_r; [lra|]. apply IZR_le, A.
    - apply le_IZR. exact (Rmult_le_reg_r _ _ _ H A).
  Qed.
  Lemma real_max a b : real (Z.max a b) = Rmax (real a) (real b).
  Proof.
    destruct (Z.max_spec a b) as [[H ->]|[H ->]]; symmetry; [apply Rmax_right|apply Rmax_left]; apply real_le; lia.
  Qed.
  Lemma real_max_or l : real (max_or 0 l) = max_of (map real l).
  Proof.
    destruct l as [|x l]; [exact real_0|]. cbn [max_or map max_of]. induction l as [|y l IH]; [reflexivity|].
    cbn. rewrite real_max. f_equal. exact IH.
  Qed.
  Lemma real_opens_pickup t : real (origin_earliest t) = opens_pickup (real_trip t).
  Proof.
    unfold origin_earliest, max_sub_lim, opens_pickup. cbn. destruct (tr_timeout t); [|reflexivity]. cbn. rewrite real_max, !real_sub. reflexivity.
  Qed.
  Lemma real_opens_delivery t : real (destination_earliest t) = opens_delivery (real_trip t).
  Proof. unfold destination_earliest, opens_delivery. cbn. rewrite real_max, !real_add. reflexivity. Qed.
  Definition real_stop (here : position) (x : visit) : dstop :=
    DStop (real (World.dist here (vi_place x))) (map (fun t => real_trip (w_trip t)) (vi_board x))
          (map (fun t => real_trip (w_trip t)) (vi_alight x)) (option_map real (vi_request x)).
  Lemma real_opens here x : real (visit_earliest x) = opens (real_stop here x).
  Proof.
    unfold visit_earliest, opens. rewrite real_max_or, map_app, !map_map. cbn [ds_pickups ds_deliveries real_stop]. rewrite !map_map. do 2 f_equal.
    - apply map_ext. intros t. apply real_opens_pickup.
    - apply map_ext. intros t. apply real_opens_delivery.
  Qed.
  Lemma real_lasts here x : real (visit_duration x) = lasts (real_stop here x).
  Proof.
    unfold visit_duration, lasts. rewrite real_max_or, map_app, !map_map. cbn [ds_pickups ds_deliveries real_stop]. rewrite !map_map. reflexivity.
  Qed.
  Lemma real_schedule xs now here load : timetable (real now) (real_stops here xs) = map real_timing (schedule (now, here, load) xs).
  Proof.
    revert now here load. induction xs as [|x xs IH]; intros now here load; [reflexivity|].
    cbn [real_stops timetable schedule map advance leave]. fold (real_stop here x).
    set (a := (now + World.dist here (vi_place x))%Z). set (b := Z.max (Z.max (default a (vi_request x)) (visit_earliest x)) a).
    assert (Ea : real now + ds_travel (real_stop here x) = real a) by (cbn; unfold a; rewrite real_add; reflexivity).
    rewrite Ea. assert (Eb : Rmax (Rmax (match ds_request (real_stop here x) with Some v => v | None => real a end) (opens (real_stop here x))) (real a) = real b).
    { unfold b. rewrite !real_max, (real_opens here). cbn. destruct (vi_request x); reflexivity. }
    rewrite Eb. rewrite <- real_lasts, <- real_add. f_equal. apply IH.
  Qed.
  Lemma real_timetable v xs rs : timetable (dr_earliest (real_route v xs rs)) (dr_stops (real_route v xs rs)) = map real_timing (Spec.timetable v xs).
  Proof. apply real_schedule. Qed.
  Lemma real_truly v xs rs i T : Spec.timetable v xs !! i = Some T -> truly (real_route v xs rs) i = real_timing T.
  Proof.
    intros H. unfold truly. rewrite real_timetable. apply nth_lookup_Some. rewrite list_lookup_fmap, H. reflexivity.
  Qed.
  Lemma real_at_most x l : whole (real x) -> whole_limit (limit l) -> Spec.at_most x l <-> up_to 0 (real x) (limit l).
  Proof.
    intros [a Ha] Hl. destruct l as [z|]; [|tauto]. destruct (Hl _ eq_refl) as [b Hb]. cbn. rewrite Rplus_0_r, <- real_le.
    assert (E : forall y c, real y = IZR c -> y = (c * ticks_per_unit)%Z).
    { intros y c Hy. apply eq_IZR. rewrite mult_IZR, <- Hy. unfold real. field. pose proof unit_pos. lra. }
    apply E in Ha, Hb. subst. unfold eb, ticks_per_unit. split; [|lia]. intros H.
    destruct (Z.le_gt_cases a b) as [G|G]; [apply Zmult_le_compat_r; lia|]. exfalso.
    assert ((b + 1) * (1000 * Z.pos w_eb) <= a * (1000 * Z.pos w_eb))%Z by (apply Zmult_le_compat_r; lia). lia.
  Qed.
  Lemma at_most_min x a b : Spec.at_most x (lim_min a b) <-> Spec.at_most x a /\ Spec.at_most x b.
  Proof. destruct a, b; cbn; lia. Qed.
  Lemma real_pickup x t : whole (real x) -> whole_trip (real_trip t) -> Spec.at_most x (origin_latest t) <-> pickup_in_time 0 (real x) (real_trip t).
  Proof.
    intros Wx [_ (W1 & W2 & W5) (W6 & W7 & W8)]. unfold origin_latest, pickup_in_time. rewrite at_most_min, (real_at_most x (sv_latest (tr_origin t)) Wx W1).
    cbn in *. destruct (sv_latest (tr_destination t)) as [l|]; cbn in *.
    - specialize (W2 _ eq_refl).
      pose proof (real_at_most x (Lim (l + (- sv_duration (tr_destination t) - svc_dist (tr_origin t) (tr_destination t)))) Wx) as H. cbn in H.
      assert (E : real (l + (- sv_duration (tr_destination t) - svc_dist (tr_origin t) (tr_destination t))) =
        real l - real (sv_duration (tr_destination t)) - real (World.dist (sv_position (tr_origin t)) (sv_position (tr_destination t)))).
      { rewrite <- !real_sub. f_equal. unfold svc_dist. lia. }
      rewrite E in H. rewrite H; [|intros y [= <-]; repeat apply whole_sub; assumption].
      split; [intros [A B]; split; [exact B|intros ? [= <-]; exact A]|intros [A B]; split; [apply B; reflexivity|exact A]].
    - split; [intros [_ A]; split; [exact A|discriminate]|intros [A _]; auto].
  Qed.
  Lemma real_delivery x t : whole (real x) -> whole_trip (real_trip t) -> Spec.at_most x (destination_latest t) <-> delivery_in_time 0 (real x) (real_trip t).
  Proof.
    intros Wx [_ (W1 & W2 & W5) (W6 & W7 & W8)]. unfold destination_latest, delivery_in_time. rewrite at_most_min, (real_at_most x (sv_latest (tr_destination t)) Wx W2).
    cbn in *. destruct (tr_timeout t) as [m|]; [destruct (sv_latest (tr_origin t)) as [l|]|]; cbn in *.
    - specialize (W1 _ eq_refl). specialize (W5 _ eq_refl).
      pose proof (real_at_most x (Lim (l + (sv_duration (tr_origin t) + m))) Wx) as H. cbn in H.
      assert (E : real (l + (sv_duration (tr_origin t) + m)) = real l + real (sv_duration (tr_origin t)) + real m).
      { rewrite <- !real_add. f_equal. lia. }
      rewrite E in H. rewrite H; [|intros y [= <-]; repeat apply whole_add; assumption].
      split; [intros [A B]; split; [exact B|intros ? ? [= <-] [= <-]; exact A]|intros [A B]; split; [apply B; reflexivity|exact A]].
    - split; [intros [_ A]; split; [exact A|discriminate]|intros [A _]; auto].
    - split; [intros [_ A]; split; [exact A|intros ? ? ? [=]]|intros [A _]; auto].
  Qed.
  Lemma real_stops_nth here xs k x : xs !! k = Some x -> exists p, nth k (real_stops here xs) no_stop = real_stop p x.
  Proof.
    revert here k. induction xs as [|y xs IH]; intros here [|k]; try discriminate; cbn.
    - intros [= ->]. eexists. reflexivity.
    - apply IH.
  Qed.
  Lemma real_stops_length here xs : length (real_stops here xs) = length xs.
  Proof. revert here. induction xs as [|y xs IH]; intros here; [reflexivity|]. cbn. rewrite IH. reflexivity. Qed.
  Lemma time_at v xs i : (i < length xs)%nat -> exists T, Spec.timetable v xs !! i = Some T.
  Proof. intros H. apply lookup_lt_is_Some. unfold Spec.timetable. rewrite SchedProofs.schedule_length. exact H. Qed.
  Lemma real_keeps v xs rs : xs <> [] -> whole_route (real_route v xs rs) -> (forall i, whole_times (truly (real_route v xs rs) i)) ->
    (forall i j t, In (i, j, t) rs <-> ride xs t i j) ->
    admissible v xs <-> keeps_limits 0 (real_route v xs rs) /\ in_place v xs /\ not_overloaded v xs.
  Proof.
    intros Hne HW WT Hrs. set (n := (length xs - 1)%nat).
    assert (Hn : (n < length xs)%nat) by (unfold n; destruct xs; [contradiction|cbn; lia]).
    assert (Hlen : length (Spec.timetable v xs) = length xs) by apply SchedProofs.schedule_length.
    destruct (time_at v xs n Hn) as [Tn En]. destruct (time_at v xs 0) as [T0 E0]; [lia|].
    assert (HnR : (length (dr_stops (real_route v xs rs)) - 1)%nat = n) by (cbn; rewrite real_stops_length; reflexivity).
    assert (Rn := real_truly v xs rs n Tn En). assert (R0 := real_truly v xs rs 0 T0 E0).
    assert (Lt : stdpp.list.last (Spec.timetable v xs) = Some Tn).
    { rewrite last_lookup, Hlen. replace (Nat.pred (length xs)) with n by (unfold n; lia). exact En. }
    assert (Hd : hd_error (Spec.timetable v xs) = Some T0) by (rewrite head_lookup; exact E0).
    assert (WK : forall k T, Spec.timetable v xs !! k = Some T -> whole (real (tm_start T)) /\ whole (real (tm_departure T))).
    { intros k T HT. pose proof (WT k) as H. rewrite (real_truly v xs rs k T HT) in H. destruct H as (_ & A & B). split; assumption. }
    assert (Hret : Spec.at_most (tm_departure Tn) (v_destination_latest v) <-> up_to 0 (real (tm_departure Tn)) (limit (v_destination_latest v))).
    { apply real_at_most; [apply (WK n Tn En)|apply HW]. }
    assert (Hdur : Spec.at_most (tm_departure Tn - tm_departure T0) (v_timeout v) <-> up_to 0 (real (tm_departure Tn) - real (tm_departure T0)) (limit (v_timeout v))).
    { rewrite <- real_sub. apply real_at_most; [|apply HW]. rewrite real_sub. apply whole_sub; [apply (WK n Tn En)|apply (WK 0%nat T0 E0)]. }
    assert (Hwin : forall k x T, xs !! k = Some x -> Spec.timetable v xs !! k = Some T -> Spec.at_most (tm_load T) (v_capacity v) ->
      on_time v x T <->
      (forall t', In t' (ds_pickups (nth k (dr_stops (real_route v xs rs)) no_stop)) -> pickup_in_time 0 (dm_start (truly (real_route v xs rs) k)) t') /\
      (forall t', In t' (ds_deliveries (nth k (dr_stops (real_route v xs rs)) no_stop)) -> delivery_in_time 0 (dm_start (truly (real_route v xs rs) k)) t')).
    { intros k x T Hx HT Hload. rewrite (real_truly v xs rs k T HT). cbn [dm_start real_timing].
      destruct (real_stops_nth (v_origin_position v) xs k x Hx) as [p Ep].
      assert (Ws : whole_stop (real_stop p x)).
      { rewrite <- Ep. apply (wr_stops _ HW). cbn. apply nth_In. rewrite real_stops_length. apply lookup_lt_Some in Hx. exact Hx. }
      cbn [dr_stops real_route]. rewrite Ep. cbn [ds_pickups ds_deliveries real_stop].
      pose proof (proj1 (WK k T HT)) as Wk.
      pose proof (RouteProofs.timetable_start_earliest v xs k x T Hx HT) as Hearly.
      assert (Hmax : forall l z, z ∈ l -> (z <= max_or 0 l)%Z).
      { intros l z Hz. apply real_le. rewrite real_max_or. apply max_of_ge, in_map. apply elem_of_list_In. exact Hz. }
      split.
      - intros (A & B & _). split; intros t' Ht'; apply in_map_iff in Ht' as (t & <- & Ht).
        + apply real_pickup; [exact Wk|apply (ws_pickups _ Ws); cbn; apply (in_map (fun t => real_trip (w_trip t))), Ht|]. apply A. apply elem_of_list_In, Ht.
        + apply real_delivery; [exact Wk|apply (ws_deliveries _ Ws); cbn; apply (in_map (fun t => real_trip (w_trip t))), Ht|]. apply B. apply elem_of_list_In, Ht.
      - intros [A B]. split; [|split; [|exact Hload]]; intros t Ht; apply elem_of_list_In in Ht.
        + split.
          * assert (origin_earliest (w_trip t) <= visit_earliest x)%Z; [|unfold eb; lia].
            apply Hmax. apply elem_of_list_In, in_or_app. left. apply (in_map (fun t => origin_earliest (w_trip t))), Ht.
          * apply real_pickup; [exact Wk|apply (ws_pickups _ Ws); cbn; apply (in_map (fun t => real_trip (w_trip t))), Ht|].
            apply A. apply (in_map (fun t => real_trip (w_trip t))), Ht.
        + split.
          * assert (destination_earliest (w_trip t) <= visit_earliest x)%Z; [|unfold eb; lia].
            apply Hmax. apply elem_of_list_In, in_or_app. right. apply (in_map (fun t => destination_earliest (w_trip t))), Ht.
          * apply real_delivery; [exact Wk|apply (ws_deliveries _ Ws); cbn; apply (in_map (fun t => real_trip (w_trip t))), Ht|].
            apply B. apply (in_map (fun t => real_trip (w_trip t))), Ht. }
    assert (Hride : forall t i j Ti Tj, ride xs t i j -> Spec.timetable v xs !! i = Some Ti -> Spec.timetable v xs !! j = Some Tj ->
      Spec.at_most (tm_start Tj - tm_departure Ti) (tr_timeout (w_trip t)) <->
      up_to 0 (dm_start (truly (real_route v xs rs) j) - dm_departure (truly (real_route v xs rs) i)) (dt_timeout (real_trip (w_trip t)))).
    { intros t i j Ti Tj Hr Hi Hj. rewrite (real_truly v xs rs i Ti Hi), (real_truly v xs rs j Tj Hj). cbn [dm_start dm_departure real_timing dt_timeout real_trip].
      rewrite <- real_sub. apply real_at_most.
      - rewrite real_sub. apply whole_sub; [apply (WK j Tj Hj)|apply (WK i Ti Hi)].
      - apply Hrs in Hr. apply (wt_latest (real_trip (w_trip t))). apply (wr_rides _ HW i j). cbn.
        apply (in_map (fun '(i, j, t) => (i, j, real_trip (w_trip t)))) in Hr. exact Hr. }
    split.
    - intros [A1 A2 A3 A4 A5]. split; [|split; [split; assumption|]].
      + split.
        * rewrite HnR, Rn. apply Hret. apply A3, Lt.
        * rewrite HnR, Rn, R0. apply Hdur. exact (A4 T0 Tn Hd Lt).
        * intros i j t' Hin. cbn in Hin. apply in_map_iff in Hin as ([[i0 j0] t] & [= <- <- <-] & Hin). apply Hrs in Hin.
          pose proof Hin as (x & y & Hx & Hy & _).
          destruct (time_at v xs i0) as [Ti Ei]; [eapply lookup_lt_Some, Hx|]. destruct (time_at v xs j0) as [Tj Ej]; [eapply lookup_lt_Some, Hy|].
          destruct (A5 t i0 j0 x y Ti Tj Hin Hx Hy Ei Ej) as (O1 & O2 & O3).
          split; [apply (Hride t i0 j0 Ti Tj Hin Ei Ej), O3|]. intros k [->| ->].
          -- apply (Hwin i0 x Ti Hx Ei); [apply O1|exact O1].
          -- apply (Hwin j0 y Tj Hy Ej); [apply O2|exact O2].
      + intros t i j k T Hr Hk HT. pose proof Hr as (x & y & Hx & Hy & _).
        destruct (time_at v xs i) as [Ti Ei]; [eapply lookup_lt_Some, Hx|]. destruct (time_at v xs j) as [Tj Ej]; [eapply lookup_lt_Some, Hy|].
        destruct (A5 t i j x y Ti Tj Hr Hx Hy Ei Ej) as (O1 & O2 & _). destruct Hk as [->| ->].
        -- rewrite Ei in HT. injection HT as <-. apply O1.
        -- rewrite Ej in HT. injection HT as <-. apply O2.
    - intros ([K1 K2 K3] & [P1 P2] & HO). rewrite HnR, Rn in K1, K2. rewrite R0 in K2. split; [exact P1|exact P2| | |].
      + intros T HT. rewrite Lt in HT. injection HT as <-. apply Hret, K1.
      + intros S0 T HS HT. rewrite Lt in HT. rewrite Hd in HS. injection HT as <-. injection HS as <-. apply Hdur, K2.
      + intros t i j x y Ti Tj Hr Hx Hy Ei Ej. pose proof (proj2 (Hrs i j t) Hr) as Hin.
        destruct (K3 i j (real_trip (w_trip t))) as [L1 L2]; [exact (in_map (fun '(i, j, t) => (i, j, real_trip (w_trip t))) rs (i, j, t) Hin)|].
        split; [|split].
        * apply (Hwin i x Ti Hx Ei); [exact (HO t i j i Ti Hr (or_introl eq_refl) Ei)|apply L2; left; reflexivity].
        * apply (Hwin j y Tj Hy Ej); [exact (HO t i j j Tj Hr (or_intror eq_refl) Ej)|apply L2; right; reflexivity].
        * apply (Hride t i j Ti Tj Hr Ei Ej), L1.
  Qed.
End bridge.

Lemma c95_exact `{W : World} : forall v xs rs i T, Spec.timetable v xs !! i = Some T -> truly (real_route v xs rs) i = real_timing T.
Proof. intros v xs rs i T. apply real_truly. Qed.
Lemma c95_times `{W : World} : forall M v xs rs, moderate M (real_route v xs rs) -> M <= two50 -> whole_route (real_route v xs rs) ->
  forall i T, Spec.timetable v xs !! i = Some T -> dr_at (real_route v xs rs) i = real_timing T.
Proof. intros M v xs rs HM HB HW i T H. rewrite (c94_times M _ HM HB HW). apply real_truly, H. Qed.
Lemma c95_admissible `{W : World} : forall M v xs rs, moderate M (real_route v xs rs) -> M <= two50 -> whole_route (real_route v xs rs) ->
  (forall i j t, In (i, j, t) rs <-> ride xs t i j) -> (forall t i j, ride xs t i j -> (i < j)%nat) ->
  admissible v xs <-> d_feasible (real_route v xs rs) = Some true /\ in_place v xs /\ not_overloaded v xs.
Proof.
  intros M v xs rs HM HB HW Hrs Hf. destruct (whole_all M _ HM HB HW) as [_ WT].
  assert (Hne : xs <> []) by (intros ->; apply (mo_some _ _ HM); reflexivity).
  rewrite (real_keeps v xs rs Hne HW WT Hrs).
  assert (F : rides_forward (real_route v xs rs)).
  { intros i j t' Hin. cbn in Hin. apply in_map_iff in Hin as ([[i0 j0] t] & [= <- <- <-] & Hin). apply Hrs in Hin. split; [exact (Hf _ _ _ Hin)|].
    destruct Hin as (x & y & _ & Hy & _). cbn. rewrite real_stops_length. eapply lookup_lt_Some, Hy. }
  destruct (c94_feasible M _ HM HB HW F) as [[A B]|[A B]]; rewrite A; [tauto|]. split; [intros [H _]; contradiction|intros [[=] _]].
Qed.
