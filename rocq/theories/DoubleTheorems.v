(** Route times in floating point arithmetic: in order, and close to the exact ones. *)
From Coq Require Import Lra Lia.
From Flocq.Prop Require Import Relative Plus_error.
From Verif Require Export SpecDouble.

(** ** Rounding *)
Lemma rnd_le x y : x <= y -> rnd x <= rnd y.
Proof. intros H. apply round_le; [apply FLT_exp_valid; reflexivity|apply valid_rnd_N|exact H]. Qed.
Lemma rnd_double x : double (rnd x).
Proof. apply generic_format_round; [apply FLT_exp_valid; reflexivity|apply valid_rnd_N]. Qed.
Lemma rnd_id x : double x -> rnd x = x.
Proof. intros H. apply round_generic; [apply valid_rnd_N|exact H]. Qed.
Lemma double_0 : double 0.
Proof. apply generic_format_0. Qed.
Lemma double_max x y : double x -> double y -> double (Rmax x y).
Proof. intros. unfold Rmax. destruct (Rle_dec x y); assumption. Qed.
Lemma fadd_ge x y : double x -> 0 <= y -> x <= fadd x y.
Proof. intros Hx Hy. rewrite <- (rnd_id x Hx) at 1. apply rnd_le. lra. Qed.

(** ** The times are in order *)
Lemma max_of_cons x l : max_of (x :: l) = fold_right Rmax x l.
Proof. reflexivity. Qed.
Lemma max_of_all (P : R -> Prop) l : P 0 -> (forall x y, P x -> P y -> P (Rmax x y)) -> (forall x, In x l -> P x) -> P (max_of l).
Proof.
  intros H0 Hm Hl. destruct l as [|x l]; [exact H0|]. rewrite max_of_cons.
  assert (Hx : P x) by (apply Hl; left; reflexivity). assert (Hl' : forall y, In y l -> P y) by (intros y Hy; apply Hl; right; exact Hy).
  clear Hl. induction l as [|y l IH]; [exact Hx|]. cbn. apply Hm; [apply Hl'; left; reflexivity|]. apply IH. intros z Hz. apply Hl'. right. exact Hz.
Qed.
Lemma load_double s : double_stop s -> double (d_load_time s) /\ 0 <= d_load_time s.
Proof.
  intros H. unfold d_load_time. apply (max_of_all (fun x => double x /\ 0 <= x)).
  - split; [apply double_0|lra].
  - intros x y [Hx Hx0] [Hy Hy0]. split; [apply double_max; assumption|]. apply Rle_trans with x; [exact Hx0|apply Rmax_l].
  - intros x Hx. apply in_app_or in Hx as [Hx|Hx]; apply in_map_iff in Hx as (t & <- & Ht).
    + apply (bt_origin_duration _ (bs_pickups _ H _ Ht)).
    + apply (bt_destination_duration _ (bs_deliveries _ H _ Ht)).
Qed.
Lemma earliest_double s : double_stop s -> double (d_earliest s).
Proof.
  intros H. unfold d_earliest. apply max_of_all; [apply double_0|apply double_max|].
  intros x Hx. apply in_app_or in Hx as [Hx|Hx]; apply in_map_iff in Hx as (t & <- & Ht).
  - pose proof (bs_pickups _ H _ Ht) as B. unfold d_origin_earliest. destruct (dt_timeout t); [|apply B].
    apply double_max; [apply rnd_double|apply B].
  - pose proof (bs_deliveries _ H _ Ht) as B. unfold d_destination_earliest. apply double_max; [apply rnd_double|apply B].
Qed.
Lemma visit_order now s : double now -> double_stop s ->
  double (dm_departure (d_visit now s)) /\ now <= dm_arrival (d_visit now s) /\
  dm_arrival (d_visit now s) <= dm_start (d_visit now s) <= dm_departure (d_visit now s).
Proof.
  intros Hn Hs. unfold d_visit. cbn. set (a := fadd now (ds_travel s)).
  set (b := Rmax (Rmax _ _) a). destruct (load_double s Hs) as [_ Hl].
  assert (Hb : double b).
  { unfold b. apply double_max; [apply double_max|apply rnd_double].
    - destruct (ds_request s) eqn:E; [apply (bs_request _ Hs _ E)|apply rnd_double].
    - apply earliest_double, Hs. }
  split; [apply rnd_double|]. split; [apply fadd_ge; [exact Hn|apply (bs_travel _ Hs)]|].
  split; [apply Rmax_r|apply fadd_ge; assumption].
Qed.
Lemma times_order now ss : double now -> (forall s, In s ss -> double_stop s) ->
  forall i, (i < length ss)%nat ->
    (now <= dm_arrival (nth i (d_times now ss) no_times)) /\
    dm_arrival (nth i (d_times now ss) no_times) <= dm_start (nth i (d_times now ss) no_times) <= dm_departure (nth i (d_times now ss) no_times) /\
    forall j, (i < j < length ss)%nat -> dm_departure (nth i (d_times now ss) no_times) <= dm_arrival (nth j (d_times now ss) no_times).
Proof.
  revert now. induction ss as [|s ss IH]; intros now Hn Hss i Hi; [cbn in Hi; lia|].
  destruct (visit_order now s Hn (Hss s (or_introl eq_refl))) as (Hd & H1 & H2).
  specialize (IH (dm_departure (d_visit now s)) Hd (fun s' H => Hss s' (or_intror H))).
  destruct i as [|i]; cbn [d_times nth].
  - split; [exact H1|]. split; [exact H2|]. intros [|j] Hj; [lia|]. cbn in Hj. apply IH. lia.
  - cbn in Hi. destruct (IH i) as (A & B & C); [lia|]. split; [lra|]. split; [exact B|].
    intros [|j] Hj; [lia|]. cbn in Hj. apply C. lia.
Qed.

Lemma c63_order : forall r, double (dr_earliest r) -> (forall s, In s (dr_stops r) -> double_stop s) ->
  forall i, (i < length (dr_stops r))%nat ->
    dr_earliest r <= dm_arrival (dr_at r i) /\
    dm_arrival (dr_at r i) <= dm_start (dr_at r i) <= dm_departure (dr_at r i) /\
    forall j, (i < j < length (dr_stops r))%nat -> dm_departure (dr_at r i) <= dm_arrival (dr_at r j).
Proof. intros r. intros H1 H2. exact (times_order _ _ H1 H2). Qed.
Lemma c63_assert : forall r, double (dr_earliest r) -> (forall s, In s (dr_stops r) -> double_stop s) -> rides_forward r ->
  exists b, d_feasible r = Some b.
Proof. intros r.
  intros H1 H2 H3. unfold d_feasible. destruct (negb _); [eexists; reflexivity|]. destruct (negb _); [eexists; reflexivity|].
  destruct (negb _); [eexists; reflexivity|]. unfold rides_forward in H3. revert H3.
  induction (dr_rides r) as [|[[i j] t] l IH]; intros H3; [eexists; reflexivity|]. cbn [d_rides_feasible d_ride_feasible].
  destruct (H3 i j t (or_introl eq_refl)) as [Hij Hj].
  destruct (c63_order r H1 H2 i) as (_ & _ & C); [lia|]. specialize (C j (conj Hij Hj)).
  destruct (c63_order r H1 H2 j Hj) as (_ & D & _).
  unfold fle at 1. destruct (Rle_dec _ _) as [_|Hn]; [|exfalso; apply Hn; lra]. cbn [negb].
  destruct IH as [b ->]; [intros i' j' t' H; apply (H3 i' j' t'); right; exact H|]. eexists. reflexivity.
Qed.

Lemma c63_waiting : forall r, double (dr_earliest r) -> (forall s, In s (dr_stops r) -> double_stop s) ->
  forall i, (i < length (dr_stops r))%nat -> 0 <= fsub (dm_start (dr_at r i)) (dm_arrival (dr_at r i)).
Proof. intros r.
  intros H1 H2 i Hi. destruct (c63_order r H1 H2 i Hi) as (_ & [H _] & _). rewrite <- (rnd_id 0 double_0). apply rnd_le. lra.
Qed.

(** ** The times are close to the exact ones *)
Definition eps (M : R) : R := 5 * M / 9007199254740992.
Lemma eps_pos M : 1 <= M -> 0 < eps M.
Proof. intros H. unfold eps. lra. Qed.
Lemma rnd_err M x : 1 <= M -> Rabs x <= 4 * M -> Rabs (rnd x - x) <= eps M.
Proof.
  intros HM Hx. destruct (error_N_FLT radix2 (-1074) 53 eq_refl (fun z => negb (Z.even z)) x) as (e & n & He & Hn & _ & E).
  change (rnd x = x * (1 + e) + n) in E. rewrite E. replace (x * (1 + e) + n - x) with (x * e + n) by ring.
  assert (Hb : / 2 * bpow radix2 (-53 + 1) = 1 / 9007199254740992) by (cbn; lra).
  change (Rabs e <= / 2 * bpow radix2 (-53 + 1)) in He. rewrite Hb in He. assert (Hn' : Rabs n <= 1 / 9007199254740992).
  { apply Rle_trans with (1 := Hn). rewrite <- Hb. apply Rmult_le_compat_l; [lra|]. apply bpow_le. lia. }
  apply Rle_trans with (1 := Rabs_triang _ _). rewrite Rabs_mult. unfold eps.
  assert (Rabs x * Rabs e <= 4 * M * (1 / 9007199254740992)) by (apply Rmult_le_compat; try apply Rabs_pos; assumption).
  lra.
Qed.
Lemma abs_le x y e : Rabs (x - y) <= e <-> y - e <= x <= y + e.
Proof. split; intros H; [apply Rabs_le_inv in H; lra|apply Rabs_le; lra]. Qed.
Lemma max_near a b c d e : Rabs (a - c) <= e -> Rabs (b - d) <= e -> Rabs (Rmax a b - Rmax c d) <= e.
Proof. rewrite !abs_le. intros. unfold Rmax. destruct (Rle_dec a b), (Rle_dec c d); lra. Qed.
Lemma max_of_near (A : Type) (f g : A -> R) e l : 0 <= e -> (forall x, In x l -> Rabs (f x - g x) <= e) ->
  Rabs (max_of (map f l) - max_of (map g l)) <= e.
Proof.
  intros He H. destruct l as [|x l]; [cbn; rewrite Rminus_eq_0, Rabs_R0; exact He|]. cbn [map]. rewrite !max_of_cons.
  assert (Hx := H x (or_introl eq_refl)). assert (Hl : forall y, In y l -> Rabs (f y - g y) <= e) by (intros y Hy; apply H; right; exact Hy).
  clear H. induction l as [|y l IH]; [exact Hx|]. cbn. apply max_near; [apply Hl; left; reflexivity|]. apply IH. intros z Hz. apply Hl. right. exact Hz.
Qed.
Lemma max_of_ge l x : In x l -> x <= max_of l.
Proof.
  destruct l as [|y l]; [intros []|]. rewrite max_of_cons. induction l as [|z l IH]; cbn.
  - intros [->|[]]. lra.
  - intros [->|[->|H]].
    + apply Rle_trans with (fold_right Rmax x l); [apply IH; left; reflexivity|apply Rmax_r].
    + apply Rmax_l.
    + apply Rle_trans with (fold_right Rmax y l); [apply IH; right; exact H|apply Rmax_r].
Qed.

Section near.
  Context (M : R) (HM : 1 <= M).
  Let e := eps M.
  Lemma eps_bounds : 0 < e <= M / 100.
  Proof. unfold e, eps. lra. Qed.
  Lemma rnd_near x y d : Rabs (x - y) <= d -> Rabs y + d <= 4 * M -> Rabs (rnd x - y) <= d + e.
  Proof.
    intros H1 H2. assert (Hx : Rabs x <= 4 * M). { replace x with ((x - y) + y) by ring. apply Rle_trans with (1 := Rabs_triang _ _). lra. }
    pose proof (rnd_err M x HM Hx) as H3. fold e in H3. apply abs_le in H1. apply abs_le in H3. apply abs_le. lra.
  Qed.
  Lemma rnd2 x y z : Rabs x <= M -> Rabs y <= M -> Rabs z <= M -> Rabs (fadd (fadd x y) z - (x + y + z)) <= 2 * e.
  Proof.
    intros Hx Hy Hz. pose proof eps_bounds as He.
    assert (H1 : Rabs (fadd x y - (x + y)) <= e).
    { apply rnd_err; [exact HM|]. apply Rle_trans with (1 := Rabs_triang _ _). lra. }
    replace (2 * e) with (e + e) by ring. apply rnd_near.
    - replace (fadd x y + z - (x + y + z)) with (fadd x y - (x + y)) by ring. exact H1.
    - pose proof (Rabs_triang (x + y) z). pose proof (Rabs_triang x y). lra.
  Qed.
  Lemma rnd2_sub x y z : Rabs x <= M -> Rabs y <= M -> Rabs z <= M -> Rabs (fsub (fsub x y) z - (x - y - z)) <= 2 * e.
  Proof.
    intros Hx Hy Hz. apply (rnd2 x (- y) (- z)); rewrite ?Rabs_Ropp; assumption.
  Qed.
  Lemma small x : 0 <= x <= M -> Rabs x <= M.
  Proof. intros H. rewrite Rabs_pos_eq; lra. Qed.
  Lemma near_refl x d : 0 <= d -> Rabs (x - x) <= d.
  Proof. rewrite Rminus_eq_0, Rabs_R0. intros H; exact H. Qed.
  Lemma opens_pickup_near t : moderate_trip M t -> Rabs (d_origin_earliest t - opens_pickup t) <= 2 * e.
  Proof.
    intros [[H1 H2] (H3 & H4 & H5) (H6 & H7 & H8)]. pose proof eps_bounds. unfold d_origin_earliest, opens_pickup.
    destruct (dt_timeout t) as [m|]; [|apply near_refl; lra]. apply max_near; [|apply near_refl; lra].
    apply rnd2_sub; [assumption|apply small; assumption|assumption].
  Qed.
  Lemma opens_delivery_near t : moderate_trip M t -> Rabs (d_destination_earliest t - opens_delivery t) <= 2 * e.
  Proof.
    intros [[H1 H2] (H3 & H4 & H5) (H6 & H7 & H8)]. pose proof eps_bounds. unfold d_destination_earliest, opens_delivery.
    apply max_near; [|apply near_refl; lra]. apply rnd2; [assumption|apply small; assumption|apply small; assumption].
  Qed.
  Definition moderate_stop (s : dstop) : Prop := 0 <= ds_travel s /\ at_most M (ds_request s) /\
    (forall t, In t (ds_pickups s) -> moderate_trip M t) /\ (forall t, In t (ds_deliveries s) -> moderate_trip M t).
  Lemma opens_near s : moderate_stop s -> Rabs (d_earliest s - opens s) <= 2 * e.
  Proof.
    intros (_ & _ & Hp & Hd). pose proof eps_bounds. unfold d_earliest, opens.
    set (f := fun x : dtrip + dtrip => match x with inl t => d_origin_earliest t | inr t => d_destination_earliest t end).
    set (g := fun x : dtrip + dtrip => match x with inl t => opens_pickup t | inr t => opens_delivery t end).
    replace (map d_origin_earliest (ds_pickups s) ++ map d_destination_earliest (ds_deliveries s))
      with (map f (map inl (ds_pickups s) ++ map inr (ds_deliveries s))) by (rewrite map_app, !map_map; reflexivity).
    replace (map opens_pickup (ds_pickups s) ++ map opens_delivery (ds_deliveries s))
      with (map g (map inl (ds_pickups s) ++ map inr (ds_deliveries s))) by (rewrite map_app, !map_map; reflexivity).
    apply max_of_near; [lra|]. intros x Hx. apply in_app_or in Hx as [Hx|Hx]; apply in_map_iff in Hx as (t & <- & Ht); cbn.
    - apply opens_pickup_near, Hp, Ht.
    - apply opens_delivery_near, Hd, Ht.
  Qed.
  Lemma lasts_pos s : moderate_stop s -> 0 <= lasts s.
  Proof.
    intros (_ & _ & Hp & Hd). unfold lasts. apply max_of_all; [lra|intros x y H _; apply Rle_trans with x; [exact H|apply Rmax_l]|].
    intros x Hx. apply in_app_or in Hx as [Hx|Hx]; apply in_map_iff in Hx as (t & <- & Ht).
    - apply (mt_duration _ _ (Hp _ Ht)).
    - apply (mt_duration _ _ (Hd _ Ht)).
  Qed.

  (** exact times grow *)
  Lemma timetable_order now ss : (forall s, In s ss -> moderate_stop s) ->
    forall i, (i < length ss)%nat ->
      now <= dm_arrival (nth i (timetable now ss) no_times) <= dm_start (nth i (timetable now ss) no_times) /\
      dm_start (nth i (timetable now ss) no_times) <= dm_departure (nth i (timetable now ss) no_times) /\
      forall j, (i < j < length ss)%nat -> dm_departure (nth i (timetable now ss) no_times) <= dm_arrival (nth j (timetable now ss) no_times).
  Proof.
    revert now. induction ss as [|s ss IH]; intros now Hss i Hi; [cbn in Hi; lia|].
    assert (Hs := Hss s (or_introl eq_refl)). assert (Hl := lasts_pos s Hs). destruct Hs as (Ht & _).
    cbn [timetable]. set (a := now + ds_travel s). set (b := Rmax (Rmax _ _) a).
    assert (a <= b) by apply Rmax_r. assert (now <= a) by (unfold a; lra).
    specialize (IH (b + lasts s) (fun s' H => Hss s' (or_intror H))).
    destruct i as [|i]; cbn [nth dm_arrival dm_start dm_departure].
    - split; [lra|]. split; [lra|]. intros [|j] Hj; [lia|]. cbn in Hj. apply IH. lia.
    - cbn in Hi. destruct (IH i) as (A & B & C); [lia|]. split; [lra|]. split; [exact B|].
      intros [|j] Hj; [lia|]. cbn in Hj. apply C. lia.
  Qed.

  Lemma visit_near now now' s d : moderate_stop s -> 0 <= now' -> 0 <= d -> d + 3 * e <= M -> Rabs (now - now') <= d ->
    let x := d_visit now s in
    let a := now' + ds_travel s in
    let b := Rmax (Rmax (match ds_request s with None => a | Some v => v end) (opens s)) a in
    b + lasts s <= M ->
    Rabs (dm_arrival x - a) <= d + e /\ Rabs (dm_start x - b) <= d + 2 * e /\ Rabs (dm_departure x - (b + lasts s)) <= d + 3 * e.
  Proof.
    intros Hs Hn Hd HdM Hnear x a b Hb. pose proof eps_bounds. assert (Hl := lasts_pos s Hs). assert (Ho := opens_near s Hs). destruct Hs as (Ht & _).
    assert (a <= b) by apply Rmax_r. assert (Ha : Rabs (dm_arrival x - a) <= d + e).
    { unfold x, d_visit. cbn. apply rnd_near.
      - unfold a. replace (now + ds_travel s - (now' + ds_travel s)) with (now - now') by ring. exact Hnear.
      - unfold a in *. rewrite Rabs_pos_eq; lra. }
    assert (Hb' : Rabs (dm_start x - b) <= d + 2 * e).
    { unfold x, d_visit in Ha |- *. cbn in Ha |- *. unfold b. apply max_near; [apply max_near|].
      - destruct (ds_request s); [apply near_refl; lra|lra].
      - lra.
      - lra. }
    split; [exact Ha|]. split; [exact Hb'|].
    replace (d + 3 * e) with (d + 2 * e + e) by ring. unfold x, d_visit in Hb' |- *. cbn in Hb' |- *. apply rnd_near.
    - change (d_load_time s) with (lasts s). match goal with |- Rabs (?u + ?v - (b + ?v)) <= _ => replace (u + v - (b + v)) with (u - b) by ring end. exact Hb'.
    - unfold a in *. rewrite Rabs_pos_eq; lra.
  Qed.
  Lemma times_near now now' ss d : (forall s, In s ss -> moderate_stop s) -> 0 <= now' -> 0 <= d -> d + 3 * INR (length ss) * e <= M ->
    Rabs (now - now') <= d ->
    (forall i, (i < length ss)%nat -> dm_departure (nth i (timetable now' ss) no_times) <= M) ->
    forall i, (i < length ss)%nat ->
      Rabs (dm_arrival (nth i (d_times now ss) no_times) - dm_arrival (nth i (timetable now' ss) no_times)) <= d + 3 * INR (length ss) * e /\
      Rabs (dm_start (nth i (d_times now ss) no_times) - dm_start (nth i (timetable now' ss) no_times)) <= d + 3 * INR (length ss) * e /\
      Rabs (dm_departure (nth i (d_times now ss) no_times) - dm_departure (nth i (timetable now' ss) no_times)) <= d + 3 * INR (length ss) * e.
  Proof.
    revert now now' d. induction ss as [|s ss IH]; intros now now' d Hss Hn Hd HdM Hnear Hdep i Hi; [cbn in Hi; lia|].
    pose proof eps_bounds as He. assert (Hs := Hss s (or_introl eq_refl)). assert (Hl := lasts_pos s Hs).
    cbn [length] in HdM |- *. rewrite S_INR in HdM |- *. pose proof (pos_INR (length ss)) as Hlen.
    assert (0 <= INR (length ss) * e) by (apply Rmult_le_pos; lra).
    assert (H0 := Hdep O). cbn [timetable nth dm_departure] in H0. specialize (H0 ltac:(cbn; lia)).
    assert (HdM' : d + 3 * e <= M) by lra.
    destruct (visit_near now now' s d Hs Hn Hd HdM' Hnear H0) as (A & B & C).
    destruct i as [|i]; cbn [d_times timetable nth dm_arrival dm_start dm_departure].
    - split; [lra|]. split; lra.
    - cbn in Hi. replace (d + 3 * (INR (length ss) + 1) * e) with ((d + 3 * e) + 3 * INR (length ss) * e) by ring.
      apply IH; [intros s' Hs'; apply Hss; right; exact Hs'| |lra|lra|exact C| |lia].
      + set (a := now' + ds_travel s). assert (a <= Rmax (Rmax (match ds_request s with None => a | Some v => v end) (opens s)) a) by apply Rmax_r.
        destruct Hs as (Ht & _). unfold a in *. lra.
      + intros k Hk. exact (Hdep (S k) ltac:(cbn; lia)).
  Qed.

  (** limits with their tolerance *)
  Lemma bound_bounds : 0 < ERROR_BOUND <= 1 / 2.
  Proof.
    assert (H : Rabs (ERROR_BOUND - 1 / 1000) <= eps 1). { apply rnd_err; [lra|]. rewrite Rabs_pos_eq; lra. }
    unfold eps in H. apply abs_le in H. lra.
  Qed.
  Lemma within_near x l : Rabs l <= 3 * M + 2 * e ->
    (x <= l + ERROR_BOUND - e -> within x (Some l) = true) /\ (within x (Some l) = true -> x <= l + ERROR_BOUND + e).
  Proof.
    intros Hl. pose proof eps_bounds. pose proof bound_bounds.
    assert (Hr : Rabs (fadd l ERROR_BOUND - (l + ERROR_BOUND)) <= e).
    { apply rnd_err; [exact HM|]. apply Rle_trans with (1 := Rabs_triang _ _). rewrite (Rabs_pos_eq ERROR_BOUND); lra. }
    apply abs_le in Hr. cbn. unfold fle. destruct (Rle_dec x (fadd l ERROR_BOUND)); split; intros; try reflexivity; try discriminate; lra.
  Qed.
  Lemma within_lmin x a b : within x (lmin a b) = within x a && within x b.
  Proof.
    destruct a as [a|], b as [b|]; cbn; rewrite ?andb_true_r; try reflexivity. unfold fle.
    unfold Rmin. destruct (Rle_dec a b) as [Hab|Hab].
    - assert (fadd a ERROR_BOUND <= fadd b ERROR_BOUND) by (apply rnd_le; lra).
      destruct (Rle_dec x (fadd a ERROR_BOUND)), (Rle_dec x (fadd b ERROR_BOUND)); try reflexivity; exfalso; lra.
    - assert (fadd b ERROR_BOUND <= fadd a ERROR_BOUND) by (apply rnd_le; lra).
      destruct (Rle_dec x (fadd a ERROR_BOUND)), (Rle_dec x (fadd b ERROR_BOUND)); try reflexivity; exfalso; lra.
  Qed.
  Lemma within_min_of x l : within x (min_of l) = forallb (within x) l.
  Proof. induction l as [|a l IH]; [reflexivity|]. cbn [min_of fold_right forallb]. rewrite within_lmin. f_equal. exact IH. Qed.
  (** a limit computed as [l'], truly [l] *)
  Lemma limit_near x y l l' d : Rabs (x - y) <= d -> Rabs (l' - l) <= 2 * e -> Rabs l <= 3 * M ->
    (d + 3 * e <= ERROR_BOUND -> y <= l + 0 -> within x (Some l') = true) /\
    (within x (Some l') = true -> y <= l + (ERROR_BOUND + (d + 3 * e))).
  Proof.
    intros Hx Hl Hb. pose proof eps_bounds. assert (Hl' : Rabs l' <= 3 * M + 2 * e).
    { replace l' with ((l' - l) + l) by ring. apply Rle_trans with (1 := Rabs_triang _ _). lra. }
    apply abs_le in Hx, Hl. destruct (within_near x l' Hl') as [H1 H2]. split.
    - intros H3 H4. apply H1. lra.
    - intros H3. specialize (H2 H3). lra.
  Qed.
  Lemma limit_up x y l d : Rabs (x - y) <= d -> at_most M l ->
    (d + 3 * e <= ERROR_BOUND -> up_to 0 y l -> within x l = true) /\
    (within x l = true -> up_to (ERROR_BOUND + (d + 3 * e)) y l).
  Proof.
    intros Hx Hl. pose proof eps_bounds. destruct l as [l|]; [|split; intros; [reflexivity|exact I]].
    apply limit_near; [exact Hx|apply near_refl; lra|cbn in Hl; lra].
  Qed.
  Lemma sum3 x y z : Rabs x <= M -> Rabs y <= M -> Rabs z <= M -> Rabs (x + y + z) <= 3 * M.
  Proof. intros. pose proof (Rabs_triang (x + y) z). pose proof (Rabs_triang x y). lra. Qed.
  Lemma pickup_limit x y t d : Rabs (x - y) <= d -> moderate_trip M t ->
    (d + 3 * e <= ERROR_BOUND -> pickup_in_time 0 y t -> within x (d_origin_latest t) = true) /\
    (within x (d_origin_latest t) = true -> pickup_in_time (ERROR_BOUND + (d + 3 * e)) y t).
  Proof.
    intros Hx [_ (H1 & H2 & _) (_ & H3 & H4)]. unfold d_origin_latest, pickup_in_time. rewrite within_lmin.
    destruct (limit_up x y (dt_origin_latest t) d Hx H1) as [A B].
    destruct (dt_destination_latest t) as [l|].
    - assert (Hr : Rabs (fsub (fsub l (dt_destination_duration t)) (dt_time t) - (l - dt_destination_duration t - dt_time t)) <= 2 * e)
        by (apply rnd2_sub; [exact H2|apply small, H3|apply small, H4]).
      assert (Hb : Rabs (l - dt_destination_duration t - dt_time t) <= 3 * M).
      { apply (sum3 l (- dt_destination_duration t) (- dt_time t)); rewrite ?Rabs_Ropp; [exact H2|apply small, H3|apply small, H4]. }
      destruct (limit_near _ _ _ _ d Hx Hr Hb) as [C D]. split.
      + intros Hd [E F]. rewrite (A Hd E), andb_true_r. apply C; [exact Hd|]. apply F. reflexivity.
      + intros H. apply andb_true_iff in H as [E F]. split; [apply B, F|]. intros ? [= <-]. apply D, E.
    - cbn [within andb]. split; [intros Hd [E _]; apply (A Hd E)|]. intros H. split; [apply B, H|discriminate].
  Qed.
  Lemma delivery_limit x y t d : Rabs (x - y) <= d -> moderate_trip M t ->
    (d + 3 * e <= ERROR_BOUND -> delivery_in_time 0 y t -> within x (d_destination_latest t) = true) /\
    (within x (d_destination_latest t) = true -> delivery_in_time (ERROR_BOUND + (d + 3 * e)) y t).
  Proof.
    intros Hx [_ (H1 & H2 & H5) (H3 & _)]. unfold d_destination_latest, delivery_in_time. rewrite within_lmin.
    destruct (limit_up x y (dt_destination_latest t) d Hx H2) as [A B].
    destruct (dt_origin_latest t) as [l|]; [destruct (dt_timeout t) as [m|]|].
    - assert (Hr : Rabs (fadd (fadd l (dt_origin_duration t)) m - (l + dt_origin_duration t + m)) <= 2 * e)
        by (apply rnd2; [exact H1|apply small, H3|exact H5]).
      assert (Hb : Rabs (l + dt_origin_duration t + m) <= 3 * M) by (apply sum3; [exact H1|apply small, H3|exact H5]).
      destruct (limit_near _ _ _ _ d Hx Hr Hb) as [C D]. split.
      + intros Hd [E F]. rewrite (A Hd E), andb_true_r. apply C; [exact Hd|]. apply F; reflexivity.
      + intros H. apply andb_true_iff in H as [E F]. split; [apply B, F|]. intros ? ? [= <-] [= <-]. apply D, E.
    - cbn [within andb]. split; [intros Hd [E _]; apply (A Hd E)|]. intros H. split; [apply B, H|discriminate].
    - cbn [within andb]. split; [intros Hd [E _]; apply (A Hd E)|]. intros H. split; [apply B, H|discriminate].
  Qed.
  Lemma stop_limit x y s d : Rabs (x - y) <= d -> moderate_stop s ->
    (d + 3 * e <= ERROR_BOUND ->
     (forall t, In t (ds_pickups s) -> pickup_in_time 0 y t) -> (forall t, In t (ds_deliveries s) -> delivery_in_time 0 y t) ->
     within x (d_latest s) = true) /\
    (within x (d_latest s) = true ->
     (forall t, In t (ds_pickups s) -> pickup_in_time (ERROR_BOUND + (d + 3 * e)) y t) /\
     (forall t, In t (ds_deliveries s) -> delivery_in_time (ERROR_BOUND + (d + 3 * e)) y t)).
  Proof.
    intros Hx (_ & _ & Hp & Hd). unfold d_latest. rewrite within_min_of, forallb_app, andb_true_iff, !forallb_forall. split.
    - intros He P D. split; intros l Hl; apply in_map_iff in Hl as (t & <- & Ht).
      + apply (pickup_limit x y t d Hx (Hp t Ht)); auto.
      + apply (delivery_limit x y t d Hx (Hd t Ht)); auto.
    - intros [P D]. split; intros t Ht.
      + apply (pickup_limit x y t d Hx (Hp t Ht)). apply P, in_map, Ht.
      + apply (delivery_limit x y t d Hx (Hd t Ht)). apply D, in_map, Ht.
  Qed.
  (** a difference of two times *)
  Lemma apart_near x y x' y' d : Rabs (x - x') <= d -> Rabs (y - y') <= d -> 0 <= y' <= x' -> x' <= M -> d <= M ->
    Rabs (fsub x y - (x' - y')) <= 2 * d + e.
  Proof.
    intros Hx Hy H1 H2 Hd. apply rnd_near.
    - apply abs_le in Hx, Hy. apply abs_le. lra.
    - rewrite Rabs_pos_eq; lra.
  Qed.
  Lemma up_to_mono s s' x l : s <= s' -> up_to s x l -> up_to s' x l.
  Proof. destruct l; cbn; [lra|auto]. Qed.
  Lemma pickup_mono s s' x t : s <= s' -> pickup_in_time s x t -> pickup_in_time s' x t.
  Proof. intros Hs [A B]. split; [exact (up_to_mono _ _ _ _ Hs A)|]. intros l H. specialize (B l H). lra. Qed.
  Lemma delivery_mono s s' x t : s <= s' -> delivery_in_time s x t -> delivery_in_time s' x t.
  Proof. intros Hs [A B]. split; [exact (up_to_mono _ _ _ _ Hs A)|]. intros l m H H'. specialize (B l m H H'). lra. Qed.
End near.

Lemma d_times_length now ss : length (d_times now ss) = length ss.
Proof. revert now. induction ss as [|s ss IH]; intros now; [reflexivity|]. cbn. rewrite IH. reflexivity. Qed.
Lemma start_opens now ss i : (i < length ss)%nat -> d_earliest (nth i ss no_stop) <= dm_start (nth i (d_times now ss) no_times).
Proof.
  revert now i. induction ss as [|s ss IH]; intros now i Hi; [cbn in Hi; lia|]. destruct i as [|i]; cbn.
  - eapply Rle_trans; [apply Rmax_r|apply Rmax_l].
  - apply IH. cbn in Hi. lia.
Qed.

Section feasible.
  Context (M : R) (r : droute).
  Context (HM : moderate M r) (Hf : rides_forward r) (Hr : rounding M (length (dr_stops r)) <= ERROR_BOUND).
  Let e := eps M.
  Let d := 3 * INR (length (dr_stops r)) * e.
  Lemma fe_bounds : 0 < e /\ e <= M / 100 /\ 0 <= d /\ d <= M /\ 2 * d + 4 * e <= ERROR_BOUND /\ 2 * d + 4 * e = rounding M (length (dr_stops r)).
  Proof.
    pose proof (eps_bounds M (mo_one _ _ HM)) as H1. fold e in H1. pose proof bound_bounds as H2. pose proof (pos_INR (length (dr_stops r))) as H3.
    pose proof (mo_one _ _ HM). assert (0 <= d) by (unfold d; apply Rmult_le_pos; lra).
    assert (E : 2 * d + 4 * e = rounding M (length (dr_stops r))) by (unfold rounding, d, e, eps; ring).
    split; [lra|]. split; [lra|]. split; [assumption|]. split; [lra|]. split; [lra|assumption].
  Qed.
  Lemma fe_len : (0 < length (dr_stops r))%nat.
  Proof. pose proof (mo_some _ _ HM). destruct (dr_stops r); [contradiction|cbn; lia]. Qed.
  Lemma fe_exact i : (i < length (dr_stops r))%nat ->
    0 <= dm_arrival (truly r i) <= dm_start (truly r i) /\ dm_start (truly r i) <= dm_departure (truly r i) <= M /\
    forall j, (i < j < length (dr_stops r))%nat -> dm_departure (truly r i) <= dm_arrival (truly r j).
  Proof.
    intros Hi. pose proof (timetable_order M (dr_earliest r) (dr_stops r) (mo_stops _ _ HM)) as H. fold (truly r) in H.
    assert (Ho : 0 <= dr_earliest r) by apply (mo_vehicle _ _ HM).
    pose proof (mo_back _ _ HM) as HB. unfold truly in *. destruct (H i Hi) as (A & B & C). pose proof fe_len.
    split; [lra|]. split; [|exact C]. split; [exact B|].
    destruct (Nat.eq_dec i (length (dr_stops r) - 1)) as [->|Hn]; [exact HB|].
    destruct (H (length (dr_stops r) - 1)%nat) as (A' & B' & _); [lia|].
    specialize (C (length (dr_stops r) - 1)%nat ltac:(lia)). lra.
  Qed.
  Lemma fe_near i : (i < length (dr_stops r))%nat ->
    Rabs (dm_arrival (dr_at r i) - dm_arrival (truly r i)) <= d /\
    Rabs (dm_start (dr_at r i) - dm_start (truly r i)) <= d /\
    Rabs (dm_departure (dr_at r i) - dm_departure (truly r i)) <= d.
  Proof.
    intros Hi. destruct fe_bounds as (H1 & H2 & H3 & H4 & _).
    assert (Ho : 0 <= dr_earliest r) by apply (mo_vehicle _ _ HM).
    pose proof (times_near M (mo_one _ _ HM) (dr_earliest r) (dr_earliest r) (dr_stops r) 0 (mo_stops _ _ HM) Ho (Rle_refl 0)) as H.
    fold e in H. fold d in H. rewrite Rplus_0_l in H. apply H; [exact H4|apply near_refl; lra| |exact Hi].
    intros k Hk. apply (fe_exact k Hk).
  Qed.
  Lemma fe_first : negb (fle (fsub (dr_earliest r) ERROR_BOUND) (dm_arrival (dr_at r 0))) = false.
  Proof.
    pose proof bound_bounds as HB. pose proof (mo_some _ _ HM) as H. pose proof (mo_stops _ _ HM) as Hs. unfold dr_at, dr_times.
    destruct (dr_stops r) as [|s ss]; [contradiction|]. destruct (Hs s (or_introl eq_refl)) as [Ht _]. cbn.
    unfold fle. destruct (Rle_dec _ _) as [_|Hn]; [reflexivity|]. exfalso. apply Hn. apply rnd_le. lra.
  Qed.
  Lemma fe_stop i : (i < length (dr_stops r))%nat ->
    d_stop_feasible r i = within (dm_start (dr_at r i)) (d_latest (nth i (dr_stops r) no_stop)).
  Proof.
    intros Hi. unfold d_stop_feasible. destruct fe_bounds as (H1 & H2 & H3 & H4 & H5 & _). pose proof bound_bounds as HB.
    destruct (fe_exact i Hi) as (A & B & _). destruct (fe_near i Hi) as (_ & N & _). apply abs_le in N. pose proof (mo_one _ _ HM).
    assert (HX : Rabs (fadd (dm_start (dr_at r i)) ERROR_BOUND - (dm_start (dr_at r i) + ERROR_BOUND)) <= e).
    { apply rnd_err; [assumption|]. apply Rabs_le. lra. }
    apply abs_le in HX. pose proof (start_opens (dr_earliest r) (dr_stops r) i Hi) as HO.
    change (nth i (d_times (dr_earliest r) (dr_stops r)) no_times) with (dr_at r i) in HO.
    unfold fle. destruct (Rle_dec _ _) as [_|Hn]; [reflexivity|]. exfalso. apply Hn. lra.
  Qed.
  Lemma fe_back :
    (up_to 0 (dm_departure (truly r (length (dr_stops r) - 1))) (dr_latest r) ->
     within (dm_departure (dr_at r (dr_last r))) (dr_latest r) = true) /\
    (within (dm_departure (dr_at r (dr_last r))) (dr_latest r) = true ->
     up_to (ERROR_BOUND + (2 * d + 4 * e)) (dm_departure (truly r (length (dr_stops r) - 1))) (dr_latest r)).
  Proof.
    destruct fe_bounds as (H1 & H2 & H3 & H4 & H5 & _). pose proof fe_len. unfold dr_last.
    destruct (fe_near (length (dr_stops r) - 1)%nat) as (_ & _ & N); [lia|]. pose proof (mo_vehicle _ _ HM) as (_ & HL & _).
    destruct (limit_up M (mo_one _ _ HM) _ _ _ d N HL) as [A B]. fold e in A, B. split.
    - intros H'. apply A; [lra|exact H'].
    - intros H'. apply (up_to_mono (ERROR_BOUND + (d + 3 * e))); [lra|apply B, H'].
  Qed.
  Lemma fe_duration x y x' y' l : Rabs (x - x') <= d -> Rabs (y - y') <= d -> 0 <= y' <= x' -> x' <= M -> at_most M l ->
    (up_to 0 (x' - y') l -> within (fsub x y) l = true) /\
    (within (fsub x y) l = true -> up_to (ERROR_BOUND + (2 * d + 4 * e)) (x' - y') l).
  Proof.
    intros Hx Hy H1 H2 HL. destruct fe_bounds as (F1 & F2 & F3 & F4 & F5 & _). pose proof (mo_one _ _ HM) as HO.
    pose proof (apart_near M HO x y x' y' d Hx Hy H1 H2 F4) as N. fold e in N.
    destruct (limit_up M HO _ _ _ (2 * d + e) N HL) as [A B]. fold e in A, B. split.
    - intros H'. apply A; [lra|exact H'].
    - intros H'. apply (up_to_mono (ERROR_BOUND + (2 * d + e + 3 * e))); [lra|apply B, H'].
  Qed.
  Lemma fe_total :
    (up_to 0 (dm_departure (truly r (length (dr_stops r) - 1)) - dm_departure (truly r 0)) (dr_timeout r) ->
     within (fsub (dm_departure (dr_at r (dr_last r))) (dm_departure (dr_at r 0))) (dr_timeout r) = true) /\
    (within (fsub (dm_departure (dr_at r (dr_last r))) (dm_departure (dr_at r 0))) (dr_timeout r) = true ->
     up_to (ERROR_BOUND + (2 * d + 4 * e)) (dm_departure (truly r (length (dr_stops r) - 1)) - dm_departure (truly r 0)) (dr_timeout r)).
  Proof.
    pose proof fe_len as HL. unfold dr_last.
    destruct (fe_near (length (dr_stops r) - 1)%nat) as (_ & _ & N); [lia|]. destruct (fe_near 0%nat HL) as (_ & _ & N0).
    destruct (fe_exact (length (dr_stops r) - 1)%nat) as (A & B & _); [lia|]. destruct (fe_exact 0%nat HL) as (A0 & B0 & C0).
    apply fe_duration; [exact N|exact N0| |apply B|apply (mo_vehicle _ _ HM)]. split; [lra|].
    destruct (Nat.eq_dec 0 (length (dr_stops r) - 1)) as [<-|Hn]; [lra|]. specialize (C0 (length (dr_stops r) - 1)%nat ltac:(lia)). lra.
  Qed.
  Lemma fe_ride i j t : (i < j < length (dr_stops r))%nat -> moderate_trip M t ->
    (up_to 0 (dm_start (truly r j) - dm_departure (truly r i)) (dt_timeout t) ->
     within (fsub (dm_start (dr_at r j)) (dm_departure (dr_at r i))) (dt_timeout t) = true) /\
    (within (fsub (dm_start (dr_at r j)) (dm_departure (dr_at r i))) (dt_timeout t) = true ->
     up_to (ERROR_BOUND + (2 * d + 4 * e)) (dm_start (truly r j) - dm_departure (truly r i)) (dt_timeout t)).
  Proof.
    intros Hij Ht. destruct (fe_near i) as (_ & _ & N); [lia|]. destruct (fe_near j) as (_ & N' & _); [lia|].
    destruct (fe_exact i) as (A & B & C); [lia|]. destruct (fe_exact j) as (A' & B' & _); [lia|]. specialize (C j Hij).
    apply fe_duration; [exact N'|exact N|lra|lra|apply (mt_latest _ _ Ht)].
  Qed.
  Lemma fe_window k : (k < length (dr_stops r))%nat ->
    ((forall t, In t (ds_pickups (nth k (dr_stops r) no_stop)) -> pickup_in_time 0 (dm_start (truly r k)) t) ->
     (forall t, In t (ds_deliveries (nth k (dr_stops r) no_stop)) -> delivery_in_time 0 (dm_start (truly r k)) t) ->
     d_stop_feasible r k = true) /\
    (d_stop_feasible r k = true ->
     (forall t, In t (ds_pickups (nth k (dr_stops r) no_stop)) -> pickup_in_time (ERROR_BOUND + (2 * d + 4 * e)) (dm_start (truly r k)) t) /\
     (forall t, In t (ds_deliveries (nth k (dr_stops r) no_stop)) -> delivery_in_time (ERROR_BOUND + (2 * d + 4 * e)) (dm_start (truly r k)) t)).
  Proof.
    intros Hk. rewrite (fe_stop k Hk). destruct (fe_near k Hk) as (_ & N & _). destruct fe_bounds as (F1 & F2 & F3 & F4 & F5 & _).
    assert (Hs : moderate_stop M (nth k (dr_stops r) no_stop)) by (apply (mo_stops _ _ HM), nth_In, Hk).
    destruct (stop_limit M (mo_one _ _ HM) _ _ _ d N Hs) as [A B]. fold e in A, B. split.
    - intros P D. apply A; [lra|exact P|exact D].
    - intros H. destruct (B H) as [P D]. split; intros t Ht.
      + apply (pickup_mono (ERROR_BOUND + (d + 3 * e))); [lra|apply P, Ht].
      + apply (delivery_mono (ERROR_BOUND + (d + 3 * e))); [lra|apply D, Ht].
  Qed.

  Lemma rides_feasible_all : (exists b, d_rides_feasible r (dr_rides r) = Some b) ->
    (d_rides_feasible r (dr_rides r) = Some true <->
     forall i j t, In (i, j, t) (dr_rides r) ->
       d_stop_feasible r i = true /\ d_stop_feasible r j = true /\
       within (fsub (dm_start (dr_at r j)) (dm_departure (dr_at r i))) (dt_timeout t) = true).
  Proof.
    clear. induction (dr_rides r) as [|[[i j] t] l IH]; [cbn; intros _; split; [intros _ ? ? ? []|reflexivity]|].
    cbn [d_rides_feasible d_ride_feasible]. destruct (negb _); [intros [b Hb]; discriminate|].
    destruct (d_rides_feasible r l) as [b'|]; [|intros [b Hb]; discriminate]. intros _.
    specialize (IH (ex_intro _ _ eq_refl)). split.
    - intros [= H]. apply andb_true_iff in H as [H ->]. apply andb_true_iff in H as [H H3]. apply andb_true_iff in H as [H1 H2].
      intros i' j' t' [[= <- <- <-]|Hin]; [auto|]. apply IH; [reflexivity|exact Hin].
    - intros H. destruct (H i j t (or_introl eq_refl)) as (-> & -> & ->). cbn. apply IH. intros i' j' t' Hin. apply H. right. exact Hin.
  Qed.
  Context (Hd1 : double (dr_earliest r)) (Hd2 : forall s, In s (dr_stops r) -> double_stop s).
  Lemma fe_rides_some : exists b, d_rides_feasible r (dr_rides r) = Some b.
  Proof.
    pose (r' := r). assert (H : forall l, (forall i j t, In (i, j, t) l -> (i < j < length (dr_stops r))%nat) -> exists b, d_rides_feasible r l = Some b).
    { intros l. induction l as [|[[i j] t] l IH]; intros H3; [eexists; reflexivity|]. cbn [d_rides_feasible d_ride_feasible].
      destruct (H3 i j t (or_introl eq_refl)) as [Hij Hj].
      destruct (c63_order r Hd1 Hd2 i) as (_ & _ & C); [lia|]. specialize (C j (conj Hij Hj)).
      destruct (c63_order r Hd1 Hd2 j Hj) as (_ & D & _).
      unfold fle at 1. destruct (Rle_dec _ _) as [_|Hn]; [|exfalso; apply Hn; lra]. cbn [negb].
      destruct IH as [b ->]; [intros i' j' t' H; apply (H3 i' j' t'); right; exact H|]. eexists. reflexivity. }
    apply H, Hf.
  Qed.
  Lemma accepts_exact : keeps_limits 0 r -> d_feasible r = Some true.
  Proof.
    intros [K1 K2 K3]. unfold d_feasible. rewrite fe_first, (proj1 fe_back K1), (proj1 fe_total K2). cbn [negb].
    apply rides_feasible_all; [apply fe_rides_some|]. intros i j t Hin. pose proof (Hf _ _ _ Hin) as Hij. destruct (K3 i j t Hin) as [R1 R2].
    destruct (R2 i (or_introl eq_refl)) as [P D]. destruct (R2 j (or_intror eq_refl)) as [P' D'].
    split; [apply fe_window; [lia|exact P|exact D]|]. split; [apply fe_window; [lia|exact P'|exact D']|].
    apply fe_ride; [exact Hij|exact (mo_rides _ _ HM _ _ _ Hin)|exact R1].
  Qed.
  Lemma accepted_close : d_feasible r = Some true -> keeps_limits (ERROR_BOUND + rounding M (length (dr_stops r))) r.
  Proof.
    destruct fe_bounds as (_ & _ & _ & _ & _ & <-). unfold d_feasible. rewrite fe_first. intros H.
    destruct (within (dm_departure _) (dr_latest r)) eqn:E1; [|discriminate]. cbn [negb] in H.
    destruct (within (fsub _ _) (dr_timeout r)) eqn:E2; [|discriminate]. cbn [negb] in H.
    rewrite (rides_feasible_all fe_rides_some) in H.
    split; [apply fe_back, E1|apply fe_total, E2|]. intros i j t Hin. destruct (H i j t Hin) as (S1 & S2 & S3). pose proof (Hf _ _ _ Hin) as Hij.
    split; [apply fe_ride; [exact Hij|exact (mo_rides _ _ HM _ _ _ Hin)|exact S3]|].
    intros k [->| ->]; apply fe_window; [lia|exact S1|lia|exact S2].
  Qed.
End feasible.

Lemma c64_accepts : forall M r, moderate M r -> rides_forward r -> double (dr_earliest r) -> (forall s, In s (dr_stops r) -> double_stop s) ->
  rounding M (length (dr_stops r)) <= ERROR_BOUND ->
  keeps_limits 0 r -> d_feasible r = Some true.
Proof. intros M r. intros. eapply accepts_exact; eassumption. Qed.
Lemma c64_accepted : forall M r, moderate M r -> rides_forward r -> double (dr_earliest r) -> (forall s, In s (dr_stops r) -> double_stop s) ->
  rounding M (length (dr_stops r)) <= ERROR_BOUND ->
  d_feasible r = Some true -> keeps_limits (ERROR_BOUND + rounding M (length (dr_stops r))) r.
Proof. intros M r. intros. eapply accepted_close; eassumption. Qed.
Lemma c64_times : forall M r, moderate M r -> rounding M (length (dr_stops r)) <= ERROR_BOUND ->
  forall i, (i < length (dr_stops r))%nat ->
    Rabs (dm_arrival (dr_at r i) - dm_arrival (truly r i)) <= rounding M (length (dr_stops r)) /\
    Rabs (dm_start (dr_at r i) - dm_start (truly r i)) <= rounding M (length (dr_stops r)) /\
    Rabs (dm_departure (dr_at r i) - dm_departure (truly r i)) <= rounding M (length (dr_stops r)).
Proof. intros M r.
  intros H1 H3 i Hi. destruct (fe_bounds M r H1 H3) as (A & _ & B & _ & _ & <-).
  destruct (fe_near M r H1 H3 i Hi) as (N1 & N2 & N3). split; [lra|]. split; lra.
Qed.
(** with numbers: times up to [10^8] and routes of up to a thousand stops *)
Lemma c64_numbers : forall n, (n <= 1000)%nat -> rounding (100000000) n <= ERROR_BOUND / 2.
Proof. intros n.
  intros H. apply le_INR in H. pose proof (INR_IZR_INZ 1000) as E. cbn [Z.of_nat] in E. rewrite E in H.
  assert (HB : Rabs (ERROR_BOUND - 1 / 1000) <= eps 1). { apply rnd_err; [lra|]. rewrite Rabs_pos_eq; lra. }
  unfold eps in HB. apply abs_le in HB. unfold rounding. pose proof (pos_INR n). cbn in H. lra.
Qed.

(** ** Later is later *)
Lemma times_later now now' ss : now <= now' ->
  forall i, dm_arrival (nth i (d_times now ss) no_times) <= dm_arrival (nth i (d_times now' ss) no_times) /\
    dm_start (nth i (d_times now ss) no_times) <= dm_start (nth i (d_times now' ss) no_times) /\
    dm_departure (nth i (d_times now ss) no_times) <= dm_departure (nth i (d_times now' ss) no_times).
Proof.
  revert now now'. induction ss as [|s ss IH]; intros now now' Hn i; [destruct i; cbn; lra|].
  assert (A : dm_arrival (d_visit now s) <= dm_arrival (d_visit now' s)) by (apply rnd_le; lra).
  assert (B : dm_start (d_visit now s) <= dm_start (d_visit now' s)).
  { unfold d_visit in A |- *. cbn in A |- *. apply Rmax_lub; [apply Rmax_lub|].
    - destruct (ds_request s); [|eapply Rle_trans; [exact A|apply Rmax_r]].
      eapply Rle_trans; [apply Rmax_l|apply Rmax_l].
    - eapply Rle_trans; [apply Rmax_r|apply Rmax_l].
    - eapply Rle_trans; [exact A|apply Rmax_r]. }
  assert (C : dm_departure (d_visit now s) <= dm_departure (d_visit now' s)).
  { unfold d_visit in B |- *. cbn in B |- *. apply rnd_le. lra. }
  destruct i as [|i]; cbn [d_times nth]; [auto|]. apply IH. exact C.
Qed.
Lemma c63_later : forall r now', dr_earliest r <= now' ->
  let r' := DRoute now' (dr_latest r) (dr_timeout r) (dr_stops r) (dr_rides r) in
  forall i, dm_arrival (dr_at r i) <= dm_arrival (dr_at r' i) /\ dm_start (dr_at r i) <= dm_start (dr_at r' i) /\
    dm_departure (dr_at r i) <= dm_departure (dr_at r' i).
Proof. intros r now'. intros H r' i. exact (times_later _ _ _ H i). Qed.

(** ** Distances *)
Lemma fsub_swap x y : fsub x y = - fsub y x.
Proof. unfold fsub, rnd. rewrite <- round_NE_opp. f_equal. ring. Qed.
Lemma map_combine_swap (f : R * R -> R) a b : (forall x y, f (x, y) = f (y, x)) -> map f (combine a b) = map f (combine b a).
Proof.
  intros H. revert b. induction a as [|x a IH]; intros [|y b]; try reflexivity. cbn. rewrite H, IH. reflexivity.
Qed.
Lemma c65_symmetric : forall a b, d_manhattan a b = d_manhattan b a /\ d_euclidean a b = d_euclidean b a.
Proof. intros a b.
  unfold d_manhattan, d_euclidean. split.
  - f_equal. apply map_combine_swap. intros x y. rewrite (fsub_swap x y), Rabs_Ropp. reflexivity.
  - do 3 f_equal. apply map_combine_swap. intros x y. rewrite (fsub_swap x y). f_equal. ring.
Qed.
Lemma fold_fadd_good l x : double x -> 0 <= x -> (forall y, In y l -> 0 <= y) -> double (fold_left fadd l x) /\ x <= fold_left fadd l x.
Proof.
  revert x. induction l as [|y l IH]; intros x Hx H0 Hl; cbn; [split; [exact Hx|lra]|].
  assert (Hy := Hl y (or_introl eq_refl)). assert (Hxy := fadd_ge x y Hx Hy).
  destruct (IH (fadd x y)) as [A B]; [apply rnd_double|lra|intros z Hz; apply Hl; right; exact Hz|]. split; [exact A|lra].
Qed.
Lemma rnd_pos x : 0 <= x -> 0 <= rnd x.
Proof. intros H. rewrite <- (rnd_id 0 double_0). apply rnd_le, H. Qed.
Lemma square_pos x : 0 <= x * x.
Proof. apply Rle_0_sqr. Qed.
Lemma c65_travel : forall a b, (double (d_manhattan a b) /\ 0 <= d_manhattan a b) /\ (double (d_euclidean a b) /\ 0 <= d_euclidean a b).
Proof. intros a b.
  unfold d_manhattan, d_euclidean, fsum. split.
  - apply fold_fadd_good; [apply double_0|lra|]. intros y Hy. apply in_map_iff in Hy as ([u v] & <- & _). apply Rabs_pos.
  - split; [apply rnd_double|]. apply rnd_pos, sqrt_pos.
Qed.
Lemma fsum_zeros l : (forall y, In y l -> y = 0) -> fsum l = 0.
Proof.
  unfold fsum. induction l as [|y l IH]; intros H; [reflexivity|]. cbn. rewrite (H y (or_introl eq_refl)).
  unfold fadd at 2. rewrite Rplus_0_r, (rnd_id 0 double_0). apply IH. intros z Hz. apply H. right. exact Hz.
Qed.
Lemma fsub_self x : fsub x x = 0.
Proof. unfold fsub. rewrite Rminus_eq_0. apply rnd_id, double_0. Qed.
Lemma combine_self (a : list R) x y : In (x, y) (combine a a) -> x = y.
Proof. induction a as [|z a IH]; [intros []|]. cbn. intros [[= -> ->]|H]; [reflexivity|apply IH, H]. Qed.
Lemma c65_self : forall a, d_manhattan a a = 0 /\ d_euclidean a a = 0.
Proof. intros a.
  unfold d_manhattan, d_euclidean. split.
  - apply fsum_zeros. intros y Hy. apply in_map_iff in Hy as ([u v] & <- & H). apply combine_self in H as ->. rewrite fsub_self. apply Rabs_R0.
  - rewrite fsum_zeros; [rewrite sqrt_0; apply rnd_id, double_0|].
    intros y Hy. apply in_map_iff in Hy as ([u v] & <- & H). apply combine_self in H as ->. rewrite fsub_self, Rmult_0_r. apply rnd_id, double_0.
Qed.
Lemma blocks_combine a b : blocks a b = fold_right Rplus 0 (map (fun '(x, y) => Rabs (x - y)) (combine a b)).
Proof.
  unfold blocks. revert b. induction a as [|x a IH]; intros [|y b]; try reflexivity.
  cbn [length Nat.min seq map combine fold_right nth]. f_equal. rewrite <- IH, <- seq_shift, map_map. reflexivity.
Qed.
Local Notation u := unit_roundoff.
Lemma u_bounds : 0 < u < 1 / 1000.
Proof. unfold u. lra. Qed.
Lemma add_rel x y : double x -> double y -> 0 <= x + y -> (x + y) * (1 - u) <= fadd x y <= (x + y) * (1 + u).
Proof.
  intros Hx Hy H0. destruct (@FLT_plus_error_N_ex radix2 (-1074) 53 eq_refl (fun z => negb (Z.even z)) x y Hx Hy) as (e & He & E).
  change (fadd x y = (x + y) * (1 + e)) in E. rewrite E.
  assert (Hu : u_ro radix2 53 = u) by (unfold u_ro, u; cbn; lra). rewrite Hu in He. pose proof u_bounds.
  assert (He' : Rabs e <= u). { apply Rle_trans with (1 := He). apply Rmult_le_reg_r with (1 + u); [lra|]. unfold Rdiv. rewrite Rmult_assoc, Rinv_l; [|lra]. pose proof (Rle_0_sqr u) as Hq. unfold Rsqr in Hq. lra. }
  apply Rabs_le_inv in He'. split; apply Rmult_le_compat_l; lra.
Qed.
Lemma sub_rel x y : double x -> double y -> Rabs (x - y) * (1 - u) <= Rabs (fsub x y) <= Rabs (x - y) * (1 + u).
Proof.
  intros Hx Hy. destruct (Rle_dec 0 (x - y)) as [H|H].
  - rewrite (Rabs_pos_eq (x - y) H), (Rabs_pos_eq (fsub x y)) by (apply rnd_pos, H).
    apply (add_rel x (- y) Hx); [apply generic_format_opp, Hy|exact H].
  - rewrite (fsub_swap x y), (Rabs_minus_sym x y), Rabs_Ropp. assert (H' : 0 <= y - x) by lra.
    rewrite (Rabs_pos_eq (y - x) H'), (Rabs_pos_eq (fsub y x)) by (apply rnd_pos, H').
    apply (add_rel y (- x) Hy); [apply generic_format_opp, Hx|exact H'].
Qed.
Lemma fsum_rel (l : list (R * R)) x x' n : double x -> 0 <= x' -> (0 < n)%nat ->
  x' * (1 - u) ^ n <= x <= x' * (1 + u) ^ n ->
  (forall p, In p l -> double (fst p) /\ double (snd p)) ->
  (x' + fold_right Rplus 0 (map (fun '(x, y) => Rabs (x - y)) l)) * (1 - u) ^ (n + length l) <=
  fold_left fadd (map (fun '(x, y) => Rabs (fsub x y)) l) x <=
  (x' + fold_right Rplus 0 (map (fun '(x, y) => Rabs (x - y)) l)) * (1 + u) ^ (n + length l).
Proof.
  revert x x' n. induction l as [|[y z] l IH]; intros x x' n Hx H0 Hn Hxx Hl.
  { cbn. rewrite Rplus_0_r, Nat.add_0_r. exact Hxx. }
  pose proof u_bounds as Hu. destruct (Hl (y, z) (or_introl eq_refl)) as [Hy Hz]. cbn in Hy, Hz.
  cbn [map fold_right fold_left length]. rewrite <- Rplus_assoc. replace (n + S (length l))%nat with (S n + length l)%nat by lia.
  pose proof (sub_rel y z Hy Hz) as Hs. pose proof (Rabs_pos (y - z)) as Ha. set (w := Rabs (fsub y z)) in *. set (w' := Rabs (y - z)) in *.
  assert (P1 : 0 < (1 - u) ^ n <= 1 - u).
  { split; [apply pow_lt; lra|]. destruct n as [|n]; [lia|]. cbn. apply Rle_trans with ((1 - u) * 1); [|lra]. apply Rmult_le_compat_l; [lra|].
    apply Rle_trans with (1 ^ n); [apply pow_incr; lra|rewrite pow1; lra]. }
  assert (P2 : 1 + u <= (1 + u) ^ n).
  { destruct n as [|n]; [lia|]. cbn. apply Rle_trans with ((1 + u) * 1); [lra|]. apply Rmult_le_compat_l; [lra|].
    apply Rle_trans with (1 ^ n); [rewrite pow1; lra|apply pow_incr; lra]. }
  assert (S1 : w' * (1 - u) ^ n <= w). { apply Rle_trans with (w' * (1 - u)); [|apply Hs]. apply Rmult_le_compat_l; lra. }
  assert (S2 : w <= w' * (1 + u) ^ n). { apply Rle_trans with (w' * (1 + u)); [apply Hs|]. apply Rmult_le_compat_l; lra. }
  assert (X0 : 0 <= x). { apply Rle_trans with (x' * (1 - u) ^ n); [|apply Hxx]. apply Rmult_le_pos; lra. }
  assert (W0 : 0 <= w) by apply Rabs_pos.
  assert (Hw : double w) by (unfold w; apply generic_format_abs, rnd_double).
  assert (Hadd := add_rel x w Hx Hw ltac:(lra)).
  apply IH; [apply rnd_double|lra|lia| |intros p Hp; apply Hl; right; exact Hp].
  cbn [pow]. split.
  - apply Rle_trans with ((x + w) * (1 - u)); [|apply Hadd].
    replace ((x' + w') * ((1 - u) * (1 - u) ^ n)) with ((x' * (1 - u) ^ n + w' * (1 - u) ^ n) * (1 - u)) by ring.
    apply Rmult_le_compat_r; lra.
  - apply Rle_trans with ((x + w) * (1 + u)); [apply Hadd|].
    replace ((x' + w') * ((1 + u) * (1 + u) ^ n)) with ((x' * (1 + u) ^ n + w' * (1 + u) ^ n) * (1 + u)) by ring.
    apply Rmult_le_compat_r; lra.
Qed.
Lemma c65_accurate : forall a b, (forall x, In x a -> double x) -> (forall x, In x b -> double x) ->
  let n := Nat.min (length a) (length b) in
  blocks a b * (1 - unit_roundoff) ^ n <= d_manhattan a b <= blocks a b * (1 + unit_roundoff) ^ n.
Proof. intros a b.
  intros Ha Hb n. rewrite blocks_combine. unfold d_manhattan, fsum.
  assert (Hl : forall p, In p (combine a b) -> double (fst p) /\ double (snd p)).
  { intros [x y] H. split; [apply Ha, (in_combine_l _ _ _ _ H)|apply Hb, (in_combine_r _ _ _ _ H)]. }
  assert (Hn : n = length (combine a b)) by (rewrite combine_length; reflexivity). rewrite Hn. clear n Hn.
  destruct (combine a b) as [|[y z] l]; [cbn; lra|]. destruct (Hl (y, z) (or_introl eq_refl)) as [Hy Hz]. cbn in Hy, Hz.
  cbn [map fold_left fold_right length]. change (S (length l)) with (1 + length l)%nat.
  apply fsum_rel; [apply rnd_double|apply Rabs_pos|lia| |intros p Hp; apply Hl; right; exact Hp].
  rewrite !pow_1. unfold fadd. rewrite Rplus_0_l, rnd_id; [apply sub_rel; assumption|]. apply generic_format_abs, rnd_double.
Qed.
Lemma blocks_pos a b : 0 <= blocks a b.
Proof. rewrite blocks_combine. induction (combine a b) as [|[x y] l IH]; [cbn; lra|]. cbn. pose proof (Rabs_pos (x - y)). lra. Qed.
Lemma c65_apart : forall a b i, (forall x, In x a -> double x) -> (forall x, In x b -> double x) ->
  (i < Nat.min (length a) (length b))%nat -> nth i a 0 <> nth i b 0 -> 0 < d_manhattan a b.
Proof. intros a b i.
  intros Ha Hb Hi Hd. pose proof u_bounds as Hu. apply Rlt_le_trans with (blocks a b * (1 - u) ^ Nat.min (length a) (length b)); [|apply (c65_accurate a b Ha Hb)].
  apply Rmult_lt_0_compat; [|apply pow_lt; lra]. clear Ha Hb Hu. revert b i Hi Hd. induction a as [|x a IH]; intros b i Hi Hd; [cbn in Hi; lia|].
  destruct b as [|y b]; [cbn in Hi; lia|]. rewrite blocks_combine. cbn [combine map fold_right]. rewrite <- blocks_combine.
  pose proof (Rabs_pos (x - y)). pose proof (blocks_pos a b). destruct i as [|i]; cbn in Hd.
  - assert (0 < Rabs (x - y)) by (apply Rabs_pos_lt; lra). lra.
  - cbn in Hi. assert (0 < blocks a b) by (apply (IH b i); [lia|exact Hd]). lra.
Qed.

(** squares of tiny differences are rounded to zero *)
Lemma tiny_double : double (bpow radix2 (-600)).
Proof. apply generic_format_bpow. reflexivity || (unfold binary64, FLT_exp; cbn; lia). Qed.
Lemma c65_euclidean_collapse : exists x, double x /\ 0 < x /\ d_euclidean [x] [0] = 0.
Proof.
  exists (bpow radix2 (-600)). split; [exact tiny_double|]. split; [apply bpow_gt_0|]. unfold d_euclidean.
  cbn [combine map]. unfold fsub at 1 2. rewrite Rminus_0_r, (rnd_id _ tiny_double), <- bpow_plus.
  replace (rnd (bpow radix2 (-600 + -600))) with 0.
  - rewrite fsum_zeros; [rewrite sqrt_0; apply rnd_id, double_0|]. intros y [<-|[]]. reflexivity.
  - symmetry. apply round_N_small_pos with (-1199)%Z; [|reflexivity]. split; [apply bpow_le|apply bpow_lt]; lia.
Qed.
