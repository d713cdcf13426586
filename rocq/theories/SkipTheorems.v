(** Leaving out a stop, in double precision. *)
From Coq Require Import Reals List Lia Lra.
From Verif Require Import DoubleTheorems SpecStraight StraightTheorems.

Local Notation u := unit_roundoff.
(** ** Exact times *)
Lemma later_by e now now' ss : 0 <= e -> now <= now' + e ->
  forall i, (i < length ss)%nat -> no_later e (nth i (timetable now ss) no_times) (nth i (timetable now' ss) no_times).
Proof.
  intros He. revert now now'. induction ss as [|s ss IH]; intros now now' Hn i Hi; [cbn in Hi; lia|].
  assert (B : Rmax (Rmax (match ds_request s with None => now + ds_travel s | Some v => v end) (opens s)) (now + ds_travel s) <=
    Rmax (Rmax (match ds_request s with None => now' + ds_travel s | Some v => v end) (opens s)) (now' + ds_travel s) + e).
  { pose proof (Rmax_l (Rmax (match ds_request s with None => now' + ds_travel s | Some v => v end) (opens s)) (now' + ds_travel s)) as M1.
    pose proof (Rmax_r (Rmax (match ds_request s with None => now' + ds_travel s | Some v => v end) (opens s)) (now' + ds_travel s)) as M2.
    pose proof (Rmax_l (match ds_request s with None => now' + ds_travel s | Some v => v end) (opens s)) as M3.
    pose proof (Rmax_r (match ds_request s with None => now' + ds_travel s | Some v => v end) (opens s)) as M4.
    apply Rmax_lub; [apply Rmax_lub|]; [destruct (ds_request s)|..]; lra. }
  destruct i as [|i]; cbn [timetable nth].
  - unfold no_later. cbn. lra.
  - apply IH; [lra|cbn in Hi; lia].
Qed.
Lemma timetable_length now ss : length (timetable now ss) = length ss.
Proof. revert now. induction ss as [|s ss IH]; intros now; [reflexivity|]. cbn. rewrite IH. reflexivity. Qed.
Lemma skip_exact e now before s t after w : 0 <= e -> 0 <= lasts s -> w <= ds_travel s + ds_travel t + e ->
  forall i, (length before < i < length (before ++ s :: t :: after))%nat ->
    no_later e (nth (i - 1) (timetable now (before ++ DStop w (ds_pickups t) (ds_deliveries t) (ds_request t) :: after)) no_times)
      (nth i (timetable now (before ++ s :: t :: after)) no_times).
Proof.
  intros He Hl Hw. revert now. induction before as [|b before IH]; intros now i Hi.
  - destruct i as [|i]; [cbn in Hi; lia|]. cbn [app]. replace (S i - 1)%nat with i by lia. cbn [app length] in Hi.
    set (t' := DStop w (ds_pickups t) (ds_deliveries t) (ds_request t)).
    change (nth (S i) (timetable now (s :: t :: after)) no_times) with
      (nth i (timetable (Rmax (Rmax (match ds_request s with None => now + ds_travel s | Some v => v end) (opens s)) (now + ds_travel s) + lasts s) (t :: after)) no_times).
    pose proof (Rmax_r (Rmax (match ds_request s with None => now + ds_travel s | Some v => v end) (opens s)) (now + ds_travel s)) as Hm.
    assert (Hd : now + ds_travel s <= Rmax (Rmax (match ds_request s with None => now + ds_travel s | Some v => v end) (opens s)) (now + ds_travel s) + lasts s) by lra.
    clear Hm. set (dep := Rmax (Rmax (match ds_request s with None => now + ds_travel s | Some v => v end) (opens s)) (now + ds_travel s) + lasts s) in *.
    replace (nth i (timetable now (t' :: after)) no_times) with (nth i (timetable (now + w - ds_travel t) (t :: after)) no_times).
    + apply later_by; [exact He|lra|cbn; lia].
    + cbn [timetable]. change (opens t') with (opens t). change (lasts t') with (lasts t). change (ds_request t') with (ds_request t).
      change (ds_travel t') with w. replace (now + w - ds_travel t + ds_travel t) with (now + w) by ring. reflexivity.
  - destruct i as [|i]; [cbn in Hi; lia|]. cbn [app length] in Hi |- *. cbn [timetable].
    destruct i as [|i]; [lia|]. specialize (IH (Rmax (Rmax (match ds_request b with None => now + ds_travel b | Some v => v end) (opens b)) (now + ds_travel b) + lasts b) (S i)).
    replace (S (S i) - 1)%nat with (S (S i - 1)) by lia. cbn [nth]. apply IH. lia.
Qed.
Lemma lasts_pos M r s : moderate M r -> In s (dr_stops r) -> 0 <= lasts s.
Proof.
  intros H Hs. destruct (mo_stops _ _ H s Hs) as (_ & _ & P & D). unfold lasts.
  assert (A : forall x, In x (map dt_origin_duration (ds_pickups s) ++ map dt_destination_duration (ds_deliveries s)) -> 0 <= x).
  { intros x Hx. apply in_app_iff in Hx as [Hx|Hx]; apply in_map_iff in Hx as (t & <- & Ht); [destruct (mt_duration _ _ (P t Ht))|destruct (mt_duration _ _ (D t Ht))]; lra. }
  destruct (map dt_origin_duration (ds_pickups s) ++ map dt_destination_duration (ds_deliveries s)) as [|y l]; [cbn; lra|].
  cbn [max_of]. assert (B : 0 <= y) by (apply A; left; reflexivity). clear A. induction l as [|z l IH]; [exact B|].
  cbn. apply Rle_trans with (1 := IH). apply Rmax_r.
Qed.

(** ** Computed times *)
Lemma rounding_le M n k : 1 <= M -> (n <= k)%nat -> rounding M n <= rounding M k.
Proof. intros HM H. apply le_INR in H. unfold rounding. apply Rmult_le_compat_r; [lra|lra]. Qed.
Lemma c92_later : forall M r r' k x y w e, leaves_out k x y w r r' -> moderate M r -> moderate M r' ->
  rounding M (length (dr_stops r)) <= ERROR_BOUND -> 0 <= e -> w <= x + y + e ->
  forall i, (k < i < length (dr_stops r))%nat ->
    no_later (e + 2 * rounding M (length (dr_stops r))) (dr_at r' (i - 1)) (dr_at r i).
Proof.
  intros M r r' k x y w e (E & before & s & t & after & <- & <- & <- & S1 & S2) Hr Hr' Hb He Hw i Hi.
  assert (Hn : length (dr_stops r) = S (length (dr_stops r'))) by (rewrite S1, S2, !app_length; cbn; lia).
  assert (HM := mo_one _ _ Hr). assert (Hrr : rounding M (length (dr_stops r')) <= rounding M (length (dr_stops r))) by (apply rounding_le; [exact HM|lia]).
  assert (A := c64_times M r Hr Hb i ltac:(lia)).
  assert (B := c64_times M r' Hr' ltac:(lra) (i - 1)%nat ltac:(lia)).
  assert (C : no_later e (truly r' (i - 1)) (truly r i)).
  { unfold truly. rewrite S1, S2, E. apply skip_exact; [exact He| |exact Hw|rewrite S1 in Hi; lia].
    apply (lasts_pos M r); [exact Hr|]. rewrite S1. apply in_or_app. right. left. reflexivity. }
  destruct A as (A1 & A2 & A3), B as (B1 & B2 & B3), C as (C1 & C2 & C3).
  apply Rabs_le_inv in A1, A2, A3, B1, B2, B3. unfold no_later. lra.
Qed.
(** with computed distances as travel times *)
Lemma direct_way d e f : double e -> double f -> 0 <= e -> 0 <= f -> d <= 100000000 -> d <= fadd e f + ERROR_BOUND / 10 -> d <= e + f + ERROR_BOUND / 9.
Proof.
  intros He Hf He0 Hf0 Hd H. pose proof (add_rel e f He Hf ltac:(lra)) as [_ A].
  assert (HB : Rabs (ERROR_BOUND - 1 / 1000) <= eps 1). { apply rnd_err; [lra|]. rewrite Rabs_pos_eq; lra. }
  unfold eps in HB. apply abs_le in HB. pose proof u_bounds as Hu.
  destruct (Rle_dec d (e + f)) as [L|L]; [lra|].
  assert ((e + f) * u <= 100000000 * u) by (apply Rmult_le_compat_r; lra). unfold u in *. lra.
Qed.
Lemma c92_direct : forall a b c, (forall x, In x a -> double x) -> (forall x, In x b -> double x) -> (forall x, In x c -> double x) ->
  length a = length b -> length b = length c -> (length a <= 1000)%nat ->
  (d_manhattan a c <= 100000000 -> d_manhattan a c <= d_manhattan a b + d_manhattan b c + ERROR_BOUND / 9) /\
  (d_euclidean a c <= 100000000 -> d_euclidean a c <= d_euclidean a b + d_euclidean b c + ERROR_BOUND / 9).
Proof.
  intros a b c Ha Hb Hc E1 E2 Hn. destruct (c91_numbers a b c Ha Hb Hc E1 E2 Hn) as [A B].
  destruct (c65_travel a b) as [[M1 M2] [M3 M4]]. destruct (c65_travel b c) as [[N1 N2] [N3 N4]].
  split; intros H; apply direct_way; auto.
Qed.
Lemma c92_places : forall metric r r' k a b c, metric = d_manhattan \/ metric = d_euclidean ->
  (forall x, In x a -> double x) -> (forall x, In x b -> double x) -> (forall x, In x c -> double x) ->
  length a = length b -> length b = length c -> (length a <= 1000)%nat ->
  leaves_out k (metric a b) (metric b c) (metric a c) r r' ->
  moderate 10000000 r -> moderate 10000000 r' -> (length (dr_stops r) <= 1000)%nat -> metric a c <= 100000000 ->
  forall i, (k < i < length (dr_stops r))%nat -> no_later (ERROR_BOUND / 5) (dr_at r' (i - 1)) (dr_at r i).
Proof.
  intros metric r r' k a b c Hm Ha Hb Hc E1 E2 Hn HL Hr Hr' Hk Hd i Hi.
  destruct (c92_direct a b c Ha Hb Hc E1 E2 Hn) as [A B].
  assert (HB : Rabs (ERROR_BOUND - 1 / 1000) <= eps 1). { apply rnd_err; [lra|]. rewrite Rabs_pos_eq; lra. }
  unfold eps in HB. apply abs_le in HB.
  assert (R : rounding 10000000 (length (dr_stops r)) <= 4 / 100000).
  { apply le_INR in Hk. pose proof (INR_IZR_INZ 1000) as E. cbn [Z.of_nat] in E. rewrite E in Hk. cbn in Hk. pose proof (pos_INR (length (dr_stops r))). unfold rounding. lra. }
  assert (W : metric a c <= metric a b + metric b c + ERROR_BOUND / 9) by (destruct Hm as [-> | ->]; auto).
  destruct (c92_later 10000000 r r' k _ _ _ (ERROR_BOUND / 9) HL Hr Hr' ltac:(lra) ltac:(lra) W i Hi) as (C1 & C2 & C3).
  unfold no_later. lra.
Qed.

(** ** Later by rounding *)
Lemma c92_rounding : exists r r' a b c, (forall x, In x [a; b; c] -> double x) /\
  leaves_out 0 (d_manhattan [a] [b]) (d_manhattan [b] [c]) (d_manhattan [a] [c]) r r' /\
  dm_arrival (dr_at r 1) < dm_arrival (dr_at r' 0).
Proof.
  destruct c91_shorter as (a & b & c & Hd & H & _).
  exists (DRoute 0 None None [DStop (d_manhattan [a] [b]) [] [] None; DStop (d_manhattan [b] [c]) [] [] None] []),
    (DRoute 0 None None [DStop (d_manhattan [a] [c]) [] [] None] []), a, b, c.
  split; [exact Hd|]. split.
  - split; [reflexivity|]. exists [], (DStop (d_manhattan [a] [b]) [] [] None), (DStop (d_manhattan [b] [c]) [] [] None), [].
    repeat split; reflexivity.
  - destruct (c65_travel [a] [b]) as [[M1 M2] _]. destruct (c65_travel [a] [c]) as [[N1 N2] _].
    unfold dr_at, dr_times. cbn [dr_earliest dr_stops d_times nth]. unfold d_visit, d_load_time, d_earliest.
    cbn [ds_travel ds_request ds_pickups ds_deliveries map app max_of dm_arrival dm_departure].
    replace (fadd 0 (d_manhattan [a] [b])) with (d_manhattan [a] [b]) by (unfold fadd; rewrite Rplus_0_l; symmetry; apply rnd_id, M1).
    replace (fadd 0 (d_manhattan [a] [c])) with (d_manhattan [a] [c]) by (unfold fadd; rewrite Rplus_0_l; symmetry; apply rnd_id, N1).
    rewrite (Rmax_left (d_manhattan [a] [b]) 0), (Rmax_left (d_manhattan [a] [b]) (d_manhattan [a] [b])) by lra.
    replace (fadd (d_manhattan [a] [b]) 0) with (d_manhattan [a] [b]) by (unfold fadd; rewrite Rplus_0_r; symmetry; apply rnd_id, M1).
    exact H.
Qed.
