(** With whole numbers as data double precision is exact. *)
From Coq Require Import Lra Lia Permutation.
From Verif Require Import DoubleTheorems WitnessDouble SpecWhole TotalTheorems.
From Verif Require World StraightTheorems.

Lemma whole_add x y : whole x -> whole y -> whole (x + y).
Proof. intros [a ->] [b ->]. exists (a + b)%Z. symmetry. apply plus_IZR. Qed.
Lemma whole_sub x y : whole x -> whole y -> whole (x - y).
Proof. intros [a ->] [b ->]. exists (a - b)%Z. symmetry. apply minus_IZR. Qed.
Lemma whole_max x y : whole x -> whole y -> whole (Rmax x y).
Proof. intros. unfold Rmax. destruct (Rle_dec x y); assumption. Qed.
Lemma whole_0 : whole 0.
Proof. exists 0%Z. reflexivity. Qed.
Lemma whole_max_of l : (forall x, In x l -> whole x) -> whole (max_of l).
Proof. apply max_of_all; [exact whole_0|exact whole_max]. Qed.
Lemma rnd_whole x : whole x -> Rabs x < two53 -> rnd x = x.
Proof.
  intros [z ->] H. apply rnd_id, double_int. rewrite <- abs_IZR in H. unfold two53 in H. apply lt_IZR in H. exact H.
Qed.
Lemma within_whole x l : whole x -> whole l -> Rabs l <= 3 * two50 -> within x (Some l) = true <-> x <= l + 0.
Proof.
  intros [a ->] [b ->] Hl. pose proof bound_bounds as HB.
  assert (Hb : (Z.abs b <= 3377699720527872)%Z). { rewrite <- abs_IZR in Hl. apply le_IZR. unfold two50 in Hl. lra. }
  assert (L : IZR b <= fadd (IZR b) ERROR_BOUND). { apply fadd_ge; [apply double_int; lia|lra]. }
  assert (U : fadd (IZR b) ERROR_BOUND <= IZR b + 1 / 2).
  { assert (D : double (IZR b + 1 / 2)).
    { apply generic_format_FLT. exists (Float radix2 (2 * b + 1) (-1)); [|cbn [Fnum]; change (radix2 ^ 53)%Z with 9007199254740992%Z; lia|cbn; lia].
      unfold F2R. cbn [Fnum Fexp]. rewrite plus_IZR, mult_IZR. change (bpow radix2 (-1)) with (/ 2). lra. }
    rewrite <- (rnd_id _ D). apply rnd_le. lra. }
  cbn. unfold fle. destruct (Rle_dec (IZR a) (fadd (IZR b) ERROR_BOUND)) as [H|H].
  - split; [intros _|reflexivity]. assert (Hab : (a < b + 1)%Z) by (apply lt_IZR; rewrite plus_IZR; lra).
    assert (IZR a <= IZR b) by (apply IZR_le; lia). lra.
  - split; [discriminate|]. intros H'. exfalso. apply H. lra.
Qed.

Section whole.
  Context (M : R) (HM : 1 <= M <= two50).
  Lemma fadd3 x y z : whole x -> whole y -> whole z -> Rabs x <= M -> Rabs y <= M -> Rabs z <= M -> fadd (fadd x y) z = x + y + z.
  Proof.
    intros Wx Wy Wz Hx Hy Hz. unfold two50 in HM. unfold fadd. pose proof (Rabs_triang x y). pose proof (Rabs_triang (x + y) z).
    rewrite (rnd_whole (x + y)); [|apply whole_add; assumption|unfold two53; lra]. apply rnd_whole; [|unfold two53; lra].
    repeat apply whole_add; assumption.
  Qed.
  Lemma whole_opp x : whole x -> whole (- x).
  Proof. intros [a ->]. exists (- a)%Z. symmetry. apply opp_IZR. Qed.
  Lemma fsub3 x y z : whole x -> whole y -> whole z -> Rabs x <= M -> Rabs y <= M -> Rabs z <= M -> fsub (fsub x y) z = x - y - z.
  Proof.
    intros Wx Wy Wz Hx Hy Hz. apply (fadd3 x (- y) (- z)); rewrite ?Rabs_Ropp; try assumption; apply whole_opp; assumption.
  Qed.
  Lemma abs3 x y z : Rabs x <= M -> Rabs y <= M -> Rabs z <= M -> Rabs (x + y + z) <= 3 * two50.
  Proof. intros. pose proof (sum3 M x y z). lra. Qed.
  Lemma abs3s x y z : Rabs x <= M -> Rabs y <= M -> Rabs z <= M -> Rabs (x - y - z) <= 3 * two50.
  Proof. intros. apply (abs3 x (- y) (- z)); rewrite ?Rabs_Ropp; assumption. Qed.
  Lemma pickup_opens t : moderate_trip M t -> whole_trip t -> d_origin_earliest t = opens_pickup t /\ whole (opens_pickup t).
  Proof.
    intros [[H1 H2] (H3 & H4 & H5) (H6 & H7 & H8)] [[W1 W2] (W3 & W4 & W5) (W6 & W7 & W8)]. unfold d_origin_earliest, opens_pickup.
    destruct (dt_timeout t) as [m|]; [|auto]. specialize (W5 m eq_refl).
    rewrite fsub3; try assumption; [|apply (small M); assumption]. split; [reflexivity|]. apply whole_max; [|exact W1]. repeat apply whole_sub; assumption.
  Qed.
  Lemma delivery_opens t : moderate_trip M t -> whole_trip t -> d_destination_earliest t = opens_delivery t /\ whole (opens_delivery t).
  Proof.
    intros [[H1 H2] (H3 & H4 & H5) (H6 & H7 & H8)] [[W1 W2] (W3 & W4 & W5) (W6 & W7 & W8)]. unfold d_destination_earliest, opens_delivery.
    rewrite fadd3; try assumption; [|apply (small M); assumption..]. split; [reflexivity|]. apply whole_max; [|exact W2]. repeat apply whole_add; assumption.
  Qed.
  Lemma stop_opens s : moderate_stop M s -> whole_stop s -> d_earliest s = opens s /\ whole (opens s) /\ whole (lasts s).
  Proof.
    intros (_ & _ & Hp & Hd) Ws. split; [|split].
    - unfold d_earliest, opens. do 2 f_equal; apply map_ext_in; intros t Ht.
      + apply pickup_opens; [apply Hp, Ht|apply (ws_pickups _ Ws), Ht].
      + apply delivery_opens; [apply Hd, Ht|apply (ws_deliveries _ Ws), Ht].
    - unfold opens. apply whole_max_of. intros x Hx. apply in_app_or in Hx as [Hx|Hx]; apply in_map_iff in Hx as (t & <- & Ht).
      + apply pickup_opens; [apply Hp, Ht|apply (ws_pickups _ Ws), Ht].
      + apply delivery_opens; [apply Hd, Ht|apply (ws_deliveries _ Ws), Ht].
    - unfold lasts. apply whole_max_of. intros x Hx. apply in_app_or in Hx as [Hx|Hx]; apply in_map_iff in Hx as (t & <- & Ht).
      + apply (wt_duration _ (ws_pickups _ Ws _ Ht)).
      + apply (wt_duration _ (ws_deliveries _ Ws _ Ht)).
  Qed.
  Definition whole_times (x : dtimes) : Prop := whole (dm_arrival x) /\ whole (dm_start x) /\ whole (dm_departure x).
  Lemma times_exact ss now : whole now -> 0 <= now -> (forall s, In s ss -> moderate_stop M s) -> (forall s, In s ss -> whole_stop s) ->
    (forall i, (i < length ss)%nat -> dm_departure (nth i (timetable now ss) no_times) <= M) ->
    d_times now ss = timetable now ss /\ forall i, whole_times (nth i (timetable now ss) no_times).
  Proof.
    revert now. induction ss as [|s ss IH]; intros now Wn Hn Hm Hw Hb.
    - split; [reflexivity|]. intros [|i]; repeat split; exact whole_0.
    - assert (Ms := Hm s (or_introl eq_refl)). assert (Ws := Hw s (or_introl eq_refl)). destruct (stop_opens s Ms Ws) as (E & Wo & Wl).
      assert (Hl := lasts_pos M s Ms). destruct Ms as (Ht & _). assert (B0 := Hb 0%nat ltac:(cbn; lia)). cbn [timetable nth dm_departure] in B0.
      cbn [d_times timetable]. unfold d_visit. rewrite E. change (d_load_time s) with (lasts s).
      set (a := now + ds_travel s) in *.
      assert (Wa : whole a) by (apply whole_add; [exact Wn|apply Ws]).
      set (b := Rmax (Rmax (match ds_request s with None => a | Some v => v end) (opens s)) a) in *.
      assert (Hab : a <= b) by apply Rmax_r. assert (Ha : 0 <= a) by (unfold a; lra). unfold two50 in HM.
      assert (Wb : whole b).
      { unfold b. apply whole_max; [apply whole_max|]; try assumption. destruct (ds_request s) eqn:R; [exact (ws_request _ Ws _ R)|exact Wa]. }
      assert (Ea : fadd now (ds_travel s) = a) by (apply rnd_whole; [exact Wa|fold a; unfold two53; rewrite Rabs_pos_eq; lra]).
      rewrite Ea. fold b. cbn [dm_departure].
      assert (Wbl : whole (b + lasts s)) by (apply whole_add; assumption).
      assert (Eb : fadd b (lasts s) = b + lasts s) by (apply rnd_whole; [exact Wbl|unfold two53; rewrite Rabs_pos_eq; lra]).
      rewrite Eb. destruct (IH (b + lasts s)) as [E1 W1]; [exact Wbl|lra|intros; apply Hm; right; assumption|intros; apply Hw; right; assumption| |].
      { intros i Hi. exact (Hb (S i) ltac:(cbn; lia)). }
      split; [f_equal; exact E1|]. intros [|i]; cbn [nth]; [|apply W1]. split; [exact Wa|]. split; [exact Wb|exact Wbl].
  Qed.
  Lemma limit_whole x l : whole x -> whole_limit l -> at_most M l -> within x l = true <-> up_to 0 x l.
  Proof.
    intros Wx Wl Hl. destruct l as [l|]; [|cbn; tauto]. apply within_whole; [exact Wx|apply Wl; reflexivity|].
    cbn in Hl. unfold two50 in *. lra.
  Qed.
  Lemma pickup_whole x t : whole x -> moderate_trip M t -> whole_trip t -> within x (d_origin_latest t) = true <-> pickup_in_time 0 x t.
  Proof.
    intros Wx [_ (H1 & H2 & _) (_ & H3 & H4)] [_ (W1 & W2 & _) (_ & W3 & W4)]. unfold d_origin_latest, pickup_in_time.
    rewrite within_lmin, andb_true_iff, (limit_whole x (dt_origin_latest t) Wx W1 H1).
    destruct (dt_destination_latest t) as [l|].
    - specialize (W2 l eq_refl). cbn in H2. assert (A3 := small M _ H3). assert (A4 := small M _ H4). rewrite fsub3 by assumption.
      rewrite within_whole; [|exact Wx|repeat apply whole_sub; assumption|apply abs3s; assumption].
      split; [intros [A B]; split; [exact B|intros ? [= <-]; exact A]|intros [A B]; split; [apply B; reflexivity|exact A]].
    - cbn. split; [intros [_ A]; split; [exact A|discriminate]|intros [A _]; auto].
  Qed.
  Lemma delivery_whole x t : whole x -> moderate_trip M t -> whole_trip t -> within x (d_destination_latest t) = true <-> delivery_in_time 0 x t.
  Proof.
    intros Wx [_ (H1 & H2 & H5) (H3 & _)] [_ (W1 & W2 & W5) (W3 & _)]. unfold d_destination_latest, delivery_in_time.
    rewrite within_lmin, andb_true_iff, (limit_whole x (dt_destination_latest t) Wx W2 H2).
    destruct (dt_origin_latest t) as [l|]; [destruct (dt_timeout t) as [m|]|].
    - specialize (W1 l eq_refl). specialize (W5 m eq_refl). cbn in H1, H5. assert (A3 := small M _ H3). rewrite fadd3 by assumption.
      rewrite within_whole; [|exact Wx|repeat apply whole_add; assumption|apply abs3; assumption].
      split; [intros [A B]; split; [exact B|intros ? ? [= <-] [= <-]; exact A]|intros [A B]; split; [apply B; reflexivity|exact A]].
    - cbn. split; [intros [_ A]; split; [exact A|discriminate]|intros [A _]; auto].
    - cbn. split; [intros [_ A]; split; [exact A|discriminate]|intros [A _]; auto].
  Qed.
  Lemma stop_whole x s : whole x -> moderate_stop M s -> whole_stop s -> within x (d_latest s) = true <->
    (forall t, In t (ds_pickups s) -> pickup_in_time 0 x t) /\ (forall t, In t (ds_deliveries s) -> delivery_in_time 0 x t).
  Proof.
    intros Wx (_ & _ & Hp & Hd) Ws. unfold d_latest. rewrite within_min_of, forallb_app, andb_true_iff, !forallb_forall. split.
    - intros [P D]. split; intros t Ht.
      + apply (pickup_whole x t Wx (Hp t Ht) (ws_pickups _ Ws t Ht)). apply P, in_map, Ht.
      + apply (delivery_whole x t Wx (Hd t Ht) (ws_deliveries _ Ws t Ht)). apply D, in_map, Ht.
    - intros [P D]. split; intros l Hl; apply in_map_iff in Hl as (t & <- & Ht).
      + apply (pickup_whole x t Wx (Hp t Ht) (ws_pickups _ Ws t Ht)). auto.
      + apply (delivery_whole x t Wx (Hd t Ht) (ws_deliveries _ Ws t Ht)). auto.
  Qed.
End whole.

Lemma some_stops M r : moderate M r -> (0 < length (dr_stops r))%nat.
Proof. intros HM. pose proof (mo_some _ _ HM). destruct (dr_stops r); [contradiction|cbn; lia]. Qed.
Lemma exact_order M r : moderate M r -> forall i, (i < length (dr_stops r))%nat ->
  0 <= dm_arrival (truly r i) <= dm_start (truly r i) /\ dm_start (truly r i) <= dm_departure (truly r i) <= M /\
  forall j, (i < j < length (dr_stops r))%nat -> dm_departure (truly r i) <= dm_arrival (truly r j).
Proof.
  intros HM i Hi. pose proof (timetable_order M (dr_earliest r) (dr_stops r) (mo_stops _ _ HM)) as H. fold (truly r) in H.
  assert (Ho : 0 <= dr_earliest r) by apply (mo_vehicle _ _ HM).
  pose proof (mo_back _ _ HM) as HB. unfold truly in *. destruct (H i Hi) as (A & B & C). pose proof (some_stops M r HM).
  split; [lra|]. split; [|exact C]. split; [exact B|].
  destruct (Nat.eq_dec i (length (dr_stops r) - 1)) as [->|Hn]; [exact HB|].
  destruct (H (length (dr_stops r) - 1)%nat) as (A' & B' & _); [lia|].
  specialize (C (length (dr_stops r) - 1)%nat ltac:(lia)). lra.
Qed.
Lemma first_arrival M r : moderate M r -> negb (fle (fsub (dr_earliest r) ERROR_BOUND) (dm_arrival (dr_at r 0))) = false.
Proof.
  intros HM. pose proof bound_bounds as HB. pose proof (mo_some _ _ HM) as H. pose proof (mo_stops _ _ HM) as Hs. unfold dr_at, dr_times.
  destruct (dr_stops r) as [|s ss]; [contradiction|]. destruct (Hs s (or_introl eq_refl)) as [Ht _]. cbn.
  unfold fle. destruct (Rle_dec _ _) as [_|Hn]; [reflexivity|]. exfalso. apply Hn. apply rnd_le. lra.
Qed.
Lemma whole_all M r : moderate M r -> M <= two50 -> whole_route r ->
  (forall i, dr_at r i = truly r i) /\ (forall i, whole_times (truly r i)).
Proof.
  intros HM HB HW. destruct (times_exact M (conj (mo_one _ _ HM) HB) (dr_stops r) (dr_earliest r)) as [E W].
  - apply HW.
  - apply (mo_vehicle _ _ HM).
  - apply (mo_stops _ _ HM).
  - apply HW.
  - intros i Hi. apply (exact_order M r HM i Hi).
  - split; [|exact W]. intros i. unfold dr_at, dr_times, truly. rewrite E. reflexivity.
Qed.
Lemma c94_times : forall M r, moderate M r -> M <= two50 -> whole_route r -> forall i, dr_at r i = truly r i.
Proof. intros M r HM HB HW. apply (whole_all M r HM HB HW). Qed.
Lemma c94_feasible : forall M r, moderate M r -> M <= two50 -> whole_route r -> rides_forward r ->
  (d_feasible r = Some true /\ keeps_limits 0 r) \/ (d_feasible r = Some false /\ ~ keeps_limits 0 r).
Proof.
  intros M r HM HB HW Hf. destruct (whole_all M r HM HB HW) as [E W]. pose proof (conj (mo_one _ _ HM) HB) as HMB.
  pose proof (some_stops M r HM) as HL. pose proof bound_bounds as HBB.
  set (n := (length (dr_stops r) - 1)%nat) in *.
  assert (Hstop : forall k, (k < length (dr_stops r))%nat -> d_stop_feasible r k = true <->
    (forall t, In t (ds_pickups (nth k (dr_stops r) no_stop)) -> pickup_in_time 0 (dm_start (truly r k)) t) /\
    (forall t, In t (ds_deliveries (nth k (dr_stops r) no_stop)) -> delivery_in_time 0 (dm_start (truly r k)) t)).
  { intros k Hk. assert (Hin : In (nth k (dr_stops r) no_stop) (dr_stops r)) by (apply nth_In, Hk).
    rewrite <- (stop_whole M HMB _ _ (proj1 (proj2 (W k))) (mo_stops _ _ HM _ Hin) (wr_stops _ HW _ Hin)).
    unfold d_stop_feasible. pose proof (start_opens (dr_earliest r) (dr_stops r) k Hk) as HO.
    change (nth k (d_times (dr_earliest r) (dr_stops r)) no_times) with (dr_at r k) in HO. rewrite E in HO |- *.
    unfold fle. destruct (Rle_dec _ _) as [_|Hn]; [reflexivity|]. exfalso. apply Hn. apply Rle_trans with (1 := HO).
    apply fadd_ge; [|lra]. destruct (exact_order M r HM k Hk) as (A & B & _). rewrite <- (rnd_whole (dm_start (truly r k))); [apply rnd_double|apply W|].
    unfold two50, two53 in *. rewrite Rabs_pos_eq; lra. }
  assert (Hsub : forall x y l, whole x -> whole y -> 0 <= y <= x -> x <= M -> whole_limit l -> at_most M l -> within (fsub x y) l = true <-> up_to 0 (x - y) l).
  { intros x y l Wx Wy H1 H2 Wl Hl. unfold fsub. rewrite rnd_whole; [|apply whole_sub; assumption|unfold two50, two53 in *; rewrite Rabs_pos_eq; lra].
    apply (limit_whole M HMB); [apply whole_sub; assumption|assumption..]. }
  assert (Hsome : exists b, d_rides_feasible r (dr_rides r) = Some b).
  { unfold rides_forward in Hf. revert Hf. clear - E HM. induction (dr_rides r) as [|[[i j] t] l IH]; intros Hf; [eexists; reflexivity|].
    cbn [d_rides_feasible d_ride_feasible]. destruct (Hf i j t (or_introl eq_refl)) as [Hij Hj].
    destruct (exact_order M r HM i) as (_ & _ & C); [lia|]. specialize (C j (conj Hij Hj)). destruct (exact_order M r HM j Hj) as (A & _).
    rewrite !E. unfold fle at 1. destruct (Rle_dec _ _) as [_|Hn]; [|exfalso; apply Hn; lra]. cbn [negb].
    destruct IH as [b ->]; [intros i' j' t' H; apply (Hf i' j' t'); right; exact H|]. eexists. reflexivity. }
  assert (Hback : within (dm_departure (dr_at r (dr_last r))) (dr_latest r) = true <-> up_to 0 (dm_departure (truly r n)) (dr_latest r)).
  { rewrite E. apply (limit_whole M HMB); [apply W|apply HW|apply (mo_vehicle _ _ HM)]. }
  assert (Hdur : within (fsub (dm_departure (dr_at r (dr_last r))) (dm_departure (dr_at r 0))) (dr_timeout r) = true <->
    up_to 0 (dm_departure (truly r n) - dm_departure (truly r 0)) (dr_timeout r)).
  { rewrite !E. change (dr_last r) with n.
    destruct (exact_order M r HM 0%nat HL) as (A0 & B0 & C0). destruct (exact_order M r HM n) as (A & B & _); [unfold n; lia|].
    apply Hsub; [apply W|apply W| |apply B|apply HW|apply (mo_vehicle _ _ HM)]. split; [lra|].
    destruct (Nat.eq_dec 0 n) as [<-|Hn]; [lra|]. specialize (C0 n ltac:(unfold n in *; lia)). lra. }
  assert (Hrides : d_rides_feasible r (dr_rides r) = Some true <-> forall i j t, In (i, j, t) (dr_rides r) ->
    up_to 0 (dm_start (truly r j) - dm_departure (truly r i)) (dt_timeout t) /\
    forall k, (k = i \/ k = j) ->
      (forall t', In t' (ds_pickups (nth k (dr_stops r) no_stop)) -> pickup_in_time 0 (dm_start (truly r k)) t') /\
      (forall t', In t' (ds_deliveries (nth k (dr_stops r) no_stop)) -> delivery_in_time 0 (dm_start (truly r k)) t')).
  { rewrite (rides_feasible_all r Hsome).
    assert (Hone : forall i j t, In (i, j, t) (dr_rides r) ->
      within (fsub (dm_start (dr_at r j)) (dm_departure (dr_at r i))) (dt_timeout t) = true <->
      up_to 0 (dm_start (truly r j) - dm_departure (truly r i)) (dt_timeout t)).
    { intros i j t Hin. rewrite !E. pose proof (Hf _ _ _ Hin) as Hij.
      destruct (exact_order M r HM i) as (A & B & C); [lia|]. destruct (exact_order M r HM j) as (A' & B' & _); [lia|]. specialize (C j Hij).
      apply Hsub; [apply W|apply W|lra|lra|apply (wr_rides _ HW _ _ _ Hin)|apply (mt_latest _ _ (mo_rides _ _ HM _ _ _ Hin))]. }
    split; intros H i j t Hin; pose proof (Hf _ _ _ Hin) as Hij.
    - destruct (H i j t Hin) as (S1 & S2 & S3). split; [apply (Hone i j t Hin), S3|]. intros k [->| ->]; apply Hstop; [lia|exact S1|lia|exact S2].
    - destruct (H i j t Hin) as [S1 S2]. split; [apply Hstop; [lia|apply S2; auto]|]. split; [apply Hstop; [lia|apply S2; auto]|]. apply (Hone i j t Hin), S1. }
  unfold d_feasible. rewrite (first_arrival M r HM).
  destruct (within (dm_departure _) (dr_latest r)) eqn:E1; cbn [negb].
  2: { right. split; [reflexivity|]. intros [K _ _]. apply Hback in K. congruence. }
  destruct (within (fsub _ _) (dr_timeout r)) eqn:E2; cbn [negb].
  2: { right. split; [reflexivity|]. intros [_ K _]. apply Hdur in K. congruence. }
  destruct Hsome as [[|] Hb].
  - left. split; [exact Hb|]. split; [apply Hback; reflexivity|apply Hdur; reflexivity|apply Hrides, Hb].
  - right. split; [exact Hb|]. intros [_ _ K]. apply Hrides in K. congruence.
Qed.

(** ** Distances and totals *)
Lemma total_pos l : (forall x, In x l -> 0 <= x) -> 0 <= total l.
Proof. unfold total. induction l as [|x l IH]; intros H; cbn; [lra|]. pose proof (H x (or_introl eq_refl)). assert (0 <= fold_right Rplus 0 l) by (apply IH; intros; apply H; right; assumption). lra. Qed.
Lemma fold_whole l x : whole x -> 0 <= x -> (forall y, In y l -> whole y /\ 0 <= y) -> x + total l < two53 -> fold_left fadd l x = x + total l.
Proof.
  revert x. induction l as [|y l IH]; intros x Wx Hx Hl HB; cbn [fold_left]; [unfold total; cbn; lra|].
  destruct (Hl y (or_introl eq_refl)) as [Wy Hy]. assert (Hl' : forall z, In z l -> whole z /\ 0 <= z) by (intros; apply Hl; right; assumption).
  assert (0 <= total l) by (apply total_pos; intros z Hz; apply Hl', Hz). change (total (y :: l)) with (y + total l) in *.
  assert (E : fadd x y = x + y) by (apply rnd_whole; [apply whole_add; assumption|rewrite Rabs_pos_eq; lra]).
  rewrite E, IH; [ring|apply whole_add; assumption|lra|exact Hl'|lra].
Qed.
Lemma fsum_whole l : (forall y, In y l -> whole y /\ 0 <= y) -> total l < two53 -> fsum l = total l.
Proof. intros Hl HB. unfold fsum. rewrite fold_whole; [ring|exact whole_0|lra|exact Hl|lra]. Qed.
Lemma total_whole l : (forall y, In y l -> whole y /\ 0 <= y) -> whole (total l).
Proof. unfold total. induction l as [|x l IH]; intros H; cbn; [exact whole_0|]. apply whole_add; [apply H; left; reflexivity|apply IH; intros; apply H; right; assumption]. Qed.
Lemma sums_whole (ls : list (list R)) : (forall y, In y (concat ls) -> whole y /\ 0 <= y) -> total (concat ls) < two53 ->
  map fsum ls = map total ls /\ (forall y, In y (map total ls) -> whole y /\ 0 <= y).
Proof.
  induction ls as [|l ls IH]; intros H HB; [split; [reflexivity|intros y []]|]. cbn [concat] in H, HB. rewrite total_app in HB.
  assert (H1 : forall y, In y l -> whole y /\ 0 <= y) by (intros; apply H, in_or_app; auto).
  assert (H2 : forall y, In y (concat ls) -> whole y /\ 0 <= y) by (intros; apply H, in_or_app; auto).
  assert (P1 : 0 <= total l) by (apply total_pos; intros z Hz; apply H1, Hz).
  assert (P2 : 0 <= total (concat ls)) by (apply total_pos; intros z Hz; apply H2, Hz).
  destruct IH as [E I]; [exact H2|lra|]. cbn [map]. split; [rewrite E, fsum_whole; [reflexivity|exact H1|lra]|].
  intros y [<-|Hy]; [split; [apply total_whole, H1|exact P1]|apply I, Hy].
Qed.
Lemma planning_whole (ls : list (list R)) : (forall y, In y (concat ls) -> whole y /\ 0 <= y) -> total (concat ls) < two53 ->
  fsum (map fsum ls) = total (concat ls).
Proof. intros H HB. destruct (sums_whole ls H HB) as [-> I]. rewrite total_concat in *. apply fsum_whole; assumption. Qed.
Lemma c94_distance : forall routes, (forall x, In x (concat routes) -> whole x /\ 0 <= x) -> driven routes < two53 ->
  d_dial_a_ride routes = - driven routes.
Proof. intros routes H HB. rewrite dial_fsum. f_equal. apply planning_whole; assumption. Qed.
Lemma c94_durations : forall routes, (forall x, In x (concat (concat routes)) -> whole x /\ 0 <= x) -> ridden routes < two53 ->
  d_taxi_sharing routes = ridden routes.
Proof.
  intros routes H HB. unfold d_taxi_sharing, ridden in *.
  assert (E : map d_route_taxi routes = map total (map (map total) routes) /\ (forall y, In y (map total (map (map total) routes)) -> whole y /\ 0 <= y) /\
    total (map total (map (map total) routes)) = total (concat (concat routes))).
  { induction routes as [|r routes IH]; [split; [reflexivity|split; [intros y []|reflexivity]]|].
    cbn [concat] in H, HB. rewrite concat_app in H, HB. rewrite total_app in HB.
    assert (H1 : forall y, In y (concat r) -> whole y /\ 0 <= y) by (intros; apply H, in_or_app; auto).
    assert (H2 : forall y, In y (concat (concat routes)) -> whole y /\ 0 <= y) by (intros; apply H, in_or_app; auto).
    assert (P1 : 0 <= total (concat r)) by (apply total_pos; intros z Hz; apply H1, Hz).
    assert (P2 : 0 <= total (concat (concat routes))) by (apply total_pos; intros z Hz; apply H2, Hz).
    destruct IH as (E1 & I1 & T1); [exact H2|lra|]. cbn [map]. split; [|split].
    - rewrite E1. f_equal. unfold d_route_taxi. rewrite <- total_concat. apply (planning_whole r H1). lra.
    - intros y [<-|Hy]; [|apply I1, Hy]. rewrite <- total_concat. split; [apply total_whole, H1|exact P1].
    - cbn [concat]. rewrite concat_app, total_app. change (total (?x :: ?l)) with (x + total l). rewrite <- T1, total_concat. reflexivity. }
  destruct E as (-> & I & T). rewrite <- T in *. apply fsum_whole; assumption.
Qed.
Lemma c94_any_order : forall a b, Permutation a b -> (forall x, In x (concat a) -> whole x /\ 0 <= x) -> driven a < two53 ->
  d_dial_a_ride a = d_dial_a_ride b.
Proof.
  intros a b Hp Ha HB. pose proof (concat_perm _ _ Hp) as Hc. assert (E : driven a = driven b) by (apply total_perm, Hc).
  rewrite !c94_distance; [rewrite E; reflexivity| |rewrite <- E; exact HB|exact Ha|exact HB].
  intros x Hx. apply Ha. exact (Permutation_in x (Permutation_sym Hc) Hx).
Qed.
Lemma c94_blocks : forall a b, (forall x, In x a -> whole x) -> (forall x, In x b -> whole x) -> blocks a b < two53 -> d_manhattan a b = blocks a b.
Proof.
  intros a b Ha Hb HB. rewrite blocks_combine in *. unfold d_manhattan.
  assert (H : map (fun '(x, y) => Rabs (fsub x y)) (combine a b) = map (fun '(x, y) => Rabs (x - y)) (combine a b) /\
    forall z, In z (map (fun '(x, y) => Rabs (x - y)) (combine a b)) -> whole z /\ 0 <= z).
  { revert b Hb HB. induction a as [|x a IH]; intros [|y b] Hb HB; try (split; [reflexivity|intros z []]).
    cbn [combine map fold_right] in *. pose proof (Rabs_pos (x - y)) as P.
    assert (Wxy : whole (x - y)) by (apply whole_sub; [apply Ha|apply Hb]; left; reflexivity).
    assert (P2 : 0 <= fold_right Rplus 0 (map (fun '(x, y) => Rabs (x - y)) (combine a b))) by (rewrite <- blocks_combine; apply blocks_pos).
    destruct (IH (fun z Hz => Ha z (or_intror Hz)) b) as [E I]; [intros z Hz; apply Hb; right; exact Hz|lra|].
    split; [rewrite E; unfold fsub; rewrite rnd_whole; [reflexivity|exact Wxy|lra]|].
    intros z [<-|Hz]; [|apply I, Hz]. split; [|exact P]. unfold Rabs. destruct (Rcase_abs _); [apply whole_opp, Wxy|exact Wxy]. }
  destruct H as [-> I]. apply fsum_whole; [exact I|exact HB].
Qed.
(** the distance of the other model *)
Lemma world_blocks a b : IZR (World.manhattan a b) = blocks (map IZR a) (map IZR b).
Proof.
  rewrite blocks_combine. unfold World.manhattan, Prelude.zsum. revert b. induction a as [|x a IH]; intros [|y b]; try reflexivity.
  cbn in *. rewrite plus_IZR, IH, abs_IZR, minus_IZR. reflexivity.
Qed.
Lemma c94_world : forall a b : list Z, (World.manhattan a b < 2 ^ 53)%Z ->
  d_manhattan (map IZR a) (map IZR b) = IZR (World.manhattan a b).
Proof.
  intros a b H. rewrite world_blocks. apply c94_blocks; [intros x Hx; apply in_map_iff in Hx as (z & <- & _); exists z; reflexivity..|].
  rewrite <- world_blocks. unfold two53. apply IZR_lt. exact H.
Qed.
(** larger whole numbers are not exact *)
Lemma c94_beyond : exists r, whole_route r /\ dr_earliest r = 2 * two53 /\ dm_arrival (dr_at r 0) <> dm_arrival (truly r 0).
Proof.
  exists (DRoute 18014398509481984 None None [DStop 1 [] [] None] []). split; [|split].
  - split; cbn.
    + exists 18014398509481984%Z. reflexivity.
    + split; intros x; discriminate.
    + intros s [<-|[]]. split; cbn; [exists 1%Z; reflexivity|intros x; discriminate|intros t []..].
    + intros i j t [].
  - unfold two53. cbn. lra.
  - cbn. unfold fadd. rewrite (StraightTheorems.rnd_at _ 54 4503599627370496).
    + change (bpow radix2 (54 - 52)) with 4. lra.
    + change (bpow radix2 54) with 18014398509481984. change (bpow radix2 (54 + 1)) with 36028797018963968. lra.
    + lia.
    + change (bpow radix2 (52 - 54)) with (/ 4). apply Rabs_def1; lra.
Qed.
