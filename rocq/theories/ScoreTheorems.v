(** HashCode scores in double precision. *)
From Verif Require Import ValueProofs ValueTheorems.
From Verif Require Import SpecScores TotalTheorems DoubleTheorems WholeTheorems BridgeTheorems WorthTheorems.
From Verif Require StraightTheorems.
From Coq Require Import Lra Lia.

Section scores.
  Context `{W : World}.
  Lemma hash_value (l : list (nat * list visit)) : total_value HashCode (map (fun p => value_of HashCode p.1 p.2) l) =
    [foldr (fun p z => (sum_of (map (fun t => unless_empty t (ride_score p.1 p.2 t)) (boards p.2)) + z)%Z) 0%Z l].
  Proof. unfold total_value. induction l as [|p l IH]; [reflexivity|]. cbn [map foldr]. rewrite IH. reflexivity. Qed.
  Lemma scores_total p : SpecTotals.total (concat (real_scores p)) =
    real (sum_of (map (fun t => unless_empty t (ride_score p.1 p.2 t)) (boards p.2))).
  Proof. rewrite <- sum_total. f_equal. apply (boards_concat (fun t => unless_empty t (ride_score p.1 p.2 t))). Qed.
  Lemma real_inj a b : real a = real b -> a = b.
  Proof. intros H. apply Z.le_antisymm; apply real_le; rewrite H; apply Rle_refl. Qed.
End scores.

Lemma c97_whole : forall M r i t bonus, moderate M r -> M <= two50 -> whole_route r -> In t (ds_pickups (nth i (dr_stops r) no_stop)) ->
  whole bonus -> Rabs (dt_time t + bonus) < two53 -> d_hash_score r i t bonus = exact_score r i t bonus.
Proof.
  intros M r i t bonus HM HB HW Ht Hb Hs. destruct (whole_all M r HM HB HW) as [E _].
  assert (Hin : In (nth i (dr_stops r) no_stop) (dr_stops r)).
  { destruct (nth_in_or_default i (dr_stops r) no_stop) as [H|H]; [exact H|]. rewrite H in Ht. destruct Ht. }
  assert (WT : whole_trip t) by (apply (ws_pickups _ (wr_stops _ HW _ Hin) _ Ht)).
  assert (MT : moderate_trip M t) by (apply (proj1 (proj2 (proj2 (mo_stops _ _ HM _ Hin)))); exact Ht).
  destruct (pickup_opens M (conj (mo_one _ _ HM) HB) t MT WT) as [Eo _].
  unfold d_hash_score, exact_score. rewrite E, Eo. destruct (Req_EM_T _ _); [|reflexivity].
  apply rnd_whole; [apply whole_add; [exact (proj2 (proj2 (wt_duration _ WT)))|exact Hb]|exact Hs].
Qed.
Lemma c97_exact `{W : World} : forall v xs rs t i, boards_at xs t i ->
  exact_score (real_route v xs rs) i (real_trip (w_trip t)) (real (tr_bonus (w_trip t))) = real (ride_score v xs t).
Proof.
  intros v xs rs t i [(x & Hx & Ht) Hu].
  assert (exists T, Spec.timetable v xs !! i = Some T) as [T HT].
  { apply lookup_lt_is_Some. unfold Spec.timetable. rewrite SchedProofs.schedule_length. apply lookup_lt_is_Some. exists x. exact Hx. }
  assert (P : picked_up_at v xs t = tm_departure T).
  { apply (moment_unique _ tm_departure v xs i x T Hx HT); [apply bool_decide_eq_true; exact Ht|].
    intros j y Hj Hy. apply bool_decide_eq_true in Hy. exact (Hu j y Hj Hy). }
  unfold exact_score, ride_score. rewrite (c95_exact v xs rs i T HT), P, <- real_opens_pickup.
  change (dm_departure (real_timing T)) with (real (tm_departure T)).
  destruct (Req_EM_T _ _) as [E|E]; destruct (decide _) as [D|D].
  - rewrite real_add. reflexivity.
  - exfalso. apply D. symmetry. apply real_inj, E.
  - exfalso. apply E. rewrite D. reflexivity.
  - rewrite Z.add_0_r. reflexivity.
Qed.
Lemma c97_score `{W : World} : forall M v xs rs t i, moderate M (real_route v xs rs) -> M <= two50 -> whole_route (real_route v xs rs) ->
  boards_at xs t i -> whole (real (tr_bonus (w_trip t))) -> Rabs (real (trip_distance (w_trip t) + tr_bonus (w_trip t))) < two53 ->
  d_hash_score (real_route v xs rs) i (real_trip (w_trip t)) (real (tr_bonus (w_trip t))) = real (ride_score v xs t).
Proof.
  intros M v xs rs t i HM HB HW Hbd Wb Hs. rewrite <- (c97_exact v xs rs t i Hbd). apply (c97_whole M); try assumption.
  - destruct Hbd as [(x & Hx & Ht) _]. cbn [dr_stops real_route]. generalize (v_origin_position v) as here. clear - Hx Ht. revert i Hx.
    induction xs as [|y xs IH]; intros i Hx here; [discriminate|]. destruct i as [|i].
    + injection Hx as ->. cbn. apply in_map_iff. exists t. split; [reflexivity|]. apply elem_of_list_In, Ht.
    + cbn. apply IH. exact Hx.
  - rewrite real_add in Hs. exact Hs.
Qed.
Lemma c97_sum `{W : World} : forall h pl l, Forall2 (described h) pl l ->
  (forall x, In x (concat (concat (map real_scores l))) -> whole x /\ 0 <= x) -> ridden (map real_scores l) < two53 ->
  exists z h', planning_value HashCode pl h = (Ok [z], h') /\ d_hash_code (map real_scores l) = real z.
Proof.
  intros h pl l F HW HB. destruct (described_gives HashCode h pl l F) as [h' E]. rewrite hash_value in E.
  eexists _, _. split; [exact E|]. change (d_hash_code (map real_scores l)) with (d_taxi_sharing (map real_scores l)).
  rewrite (c94_durations _ HW HB). clear. unfold ridden.
  induction l as [|p l IH]; cbn [map concat foldr]; [symmetry; exact real_0|]. rewrite concat_app, TotalTheorems.total_app, IH, scores_total, <- real_add. reflexivity.
Qed.

(** beyond 2^54 a passenger picked up on time is found to be late *)
Definition far_trip : dtrip := DTrip 18014398509481996 None 0 0 None 0 None 8.
Definition far_route : droute :=
  DRoute 18014398509481984 None None [DStop 3 [] [] None; DStop 3 [] [] None; DStop 3 [] [] None; DStop 3 [far_trip] [] None] [].
Lemma far_rnd k x : (0 <= k <= 100)%Z -> x = 18014398509481984 + 4 * IZR k + 3 -> rnd x = 18014398509481984 + 4 * IZR (k + 1).
Proof.
  intros [H1 H2] ->. apply IZR_le in H1, H2. rewrite (StraightTheorems.rnd_at _ 54 (4503599627370496 + (k + 1))).
  - change (bpow radix2 (54 - 52)) with 4. rewrite !plus_IZR. lra.
  - change (bpow radix2 54) with 18014398509481984. change (bpow radix2 (54 + 1)) with 36028797018963968. lra.
  - lia.
  - change (bpow radix2 (52 - 54)) with (/ 4). rewrite !plus_IZR. apply Rabs_def1; lra.
Qed.
Lemma far_flat z : (0 <= z <= 100)%Z -> rnd (18014398509481984 + 4 * IZR z + 0) = 18014398509481984 + 4 * IZR z.
Proof.
  intros [H1 H2]. apply IZR_le in H1, H2. rewrite (StraightTheorems.rnd_at _ 54 (4503599627370496 + z)).
  - change (bpow radix2 (54 - 52)) with 4. rewrite !plus_IZR. lra.
  - change (bpow radix2 54) with 18014398509481984. change (bpow radix2 (54 + 1)) with 36028797018963968. lra.
  - lia.
  - change (bpow radix2 (52 - 54)) with (/ 4). rewrite !plus_IZR. apply Rabs_def1; lra.
Qed.
Lemma far_empty k x : (0 <= k <= 50)%Z -> x = 18014398509481984 + 4 * IZR k ->
  d_visit x (DStop 3 [] [] None) = DTimes (18014398509481984 + 4 * IZR (k + 1)) (18014398509481984 + 4 * IZR (k + 1)) (18014398509481984 + 4 * IZR (k + 1)).
Proof.
  intros Hk ->. unfold d_visit, fadd, d_earliest, d_load_time. cbn [ds_travel ds_request ds_pickups ds_deliveries map app max_of].
  rewrite (far_rnd k) by (try lia; reflexivity). assert (0 <= IZR (k + 1)) by (apply IZR_le; lia).
  rewrite !(Rmax_left _ 0) by lra. rewrite Rmax_left by lra. rewrite far_flat by lia. reflexivity.
Qed.
Lemma c97_lost : exists r i t bonus, whole_route r /\ In t (ds_pickups (nth i (dr_stops r) no_stop)) /\ whole bonus /\
  opens_pickup t = dm_departure (truly r i) /\ exact_score r i t bonus = dt_time t + bonus /\ 0 < bonus /\ d_hash_score r i t bonus = dt_time t.
Proof.
  assert (W : forall z, whole (IZR z)) by (intros z; exists z; reflexivity). assert (N : whole_limit None) by (intros x; discriminate).
  assert (T : whole_trip far_trip) by (split; cbn; auto).
  assert (E : opens_pickup far_trip = dm_departure (truly far_route 3)).
  { assert (F : forall x y, y <= x -> Rmax (Rmax x y) x = x) by (intros x y H; rewrite (Rmax_left x y) by exact H; apply Rmax_left; lra).
    cbn. rewrite (F (18014398509481984 + 3) 0) by lra. rewrite (F (18014398509481984 + 3 + 0 + 3) 0) by lra.
    rewrite (F (18014398509481984 + 3 + 0 + 3 + 0 + 3) 0) by lra. rewrite F by lra. lra. }
  exists far_route, 3%nat, far_trip, 5. split; [|split; [|split; [|split; [|split; [|split]]]]].
  - split; [apply W|split; exact N| |intros i j t []]. intros s Hs. cbn in Hs.
    repeat (destruct Hs as [<-|Hs]); try destruct Hs; split; cbn; auto; intros t Ht; (destruct Ht as [<-|[]] || destruct Ht); exact T.
  - left. reflexivity.
  - apply W.
  - exact E.
  - unfold exact_score. destruct (Req_EM_T _ _) as [_|H]; [reflexivity|]. destruct (H E).
  - lra.
  - unfold d_hash_score. destruct (Req_EM_T _ _) as [H|_]; [|reflexivity]. exfalso.
    unfold dr_at, dr_times, far_route in H. cbn [dr_stops dr_earliest d_times nth] in H.
    rewrite (far_empty 0 18014398509481984) in H by (try lia; lra). cbn [dm_departure] in H.
    rewrite (far_empty (0 + 1) (18014398509481984 + 4 * IZR (0 + 1))) in H by (try lia; reflexivity). cbn [dm_departure] in H.
    rewrite (far_empty (0 + 1 + 1) (18014398509481984 + 4 * IZR (0 + 1 + 1))) in H by (try lia; reflexivity). cbn [dm_departure] in H.
    unfold d_visit, fadd, d_earliest, d_load_time in H. cbn [ds_travel ds_request ds_pickups ds_deliveries map app max_of fold_right dm_departure] in H.
    rewrite (far_rnd (0 + 1 + 1 + 1) (18014398509481984 + 4 * IZR (0 + 1 + 1 + 1) + 3)) in H by (try lia; reflexivity).
    change (d_origin_earliest far_trip) with 18014398509481996 in H. change (dt_origin_duration far_trip) with 0 in H.
    change (0 + 1 + 1 + 1 + 1)%Z with 4%Z in H. rewrite (Rmax_left _ 18014398509481996) in H by lra. rewrite Rmax_left in H by lra.
    rewrite (far_flat 4) in H by lia. lra.
Qed.
