(** Tours in an instance whose times are moved. *)
From Verif Require Import SpecClock TourProofs SchedProofs.

Section clock.
  Context (c : Z) (W W' : World) (M : moved_world c W W').
  Notation mv := (map (moved_visit c)).

  Lemma moved_eb : @eb W' = @eb W.
  Proof. unfold eb. by rewrite (mw_eb _ _ _ M). Qed.
  Lemma moved_dist a b : @dist W' a b = @dist W a b.
  Proof. unfold dist. by rewrite (mw_metric _ _ _ M). Qed.
  Lemma moved_origin_earliest t : origin_earliest (@w_trip W' t) = origin_earliest (@w_trip W t) + c.
  Proof. unfold origin_earliest, max_sub_lim. rewrite (mw_trip _ _ _ M). cbn. destruct (tr_timeout (@w_trip W t)); lia. Qed.
  Lemma moved_destination_earliest t : @destination_earliest W' (@w_trip W' t) = @destination_earliest W (@w_trip W t) + c.
  Proof. unfold destination_earliest, svc_dist. rewrite moved_dist, (mw_trip _ _ _ M). cbn. lia. Qed.
  Lemma moved_origin_latest t : @origin_latest W' (@w_trip W' t) = moved_limit c (@origin_latest W (@w_trip W t)).
  Proof.
    unfold origin_latest, svc_dist. rewrite moved_dist, (mw_trip _ _ _ M). cbn.
    destruct (sv_latest (tr_origin (@w_trip W t))), (sv_latest (tr_destination (@w_trip W t))); cbn; try done; f_equal; lia.
  Qed.
  Lemma moved_destination_latest t : destination_latest (@w_trip W' t) = moved_limit c (destination_latest (@w_trip W t)).
  Proof.
    unfold destination_latest. rewrite (mw_trip _ _ _ M). cbn.
    destruct (tr_timeout (@w_trip W t)), (sv_latest (tr_origin (@w_trip W t))), (sv_latest (tr_destination (@w_trip W t))); cbn; try done; f_equal; lia.
  Qed.
  Lemma moved_origin_position t : origin_position (@w_trip W' t) = origin_position (@w_trip W t).
  Proof. unfold origin_position. by rewrite (mw_trip _ _ _ M). Qed.
  Lemma moved_destination_position t : destination_position (@w_trip W' t) = destination_position (@w_trip W t).
  Proof. unfold destination_position. by rewrite (mw_trip _ _ _ M). Qed.
  Lemma moved_distance t : @trip_distance W' (@w_trip W' t) = @trip_distance W (@w_trip W t).
  Proof. unfold trip_distance. by rewrite moved_dist, (mw_trip _ _ _ M). Qed.
  Lemma moved_at_most z l : @at_most W' (z + c) (moved_limit c l) <-> @at_most W z l.
  Proof. destruct l; cbn; [|done]. rewrite moved_eb. lia. Qed.
  Lemma moved_at_most_same z l : @at_most W' z l <-> @at_most W z l.
  Proof. destruct l; cbn; [|done]. by rewrite moved_eb. Qed.
  Lemma moved_origin v : @v_origin_position W' v = @v_origin_position W v.
  Proof. unfold v_origin_position. by rewrite (mw_vehicle _ _ _ M). Qed.
  Lemma moved_opening v : @v_origin_earliest W' v = @v_origin_earliest W v + c.
  Proof. unfold v_origin_earliest. by rewrite (mw_vehicle _ _ _ M). Qed.
  Lemma moved_destination v : @v_destination_position W' v = @v_destination_position W v.
  Proof. unfold v_destination_position, vh_destination. rewrite (mw_vehicle _ _ _ M). cbn. by destruct (vh_destination_opt _). Qed.
  Lemma moved_closing v : @v_destination_latest W' v = moved_limit c (@v_destination_latest W v).
  Proof. unfold v_destination_latest, vh_destination. rewrite (mw_vehicle _ _ _ M). cbn. by destruct (vh_destination_opt _). Qed.
  Lemma moved_capacity v : @v_capacity W' v = @v_capacity W v.
  Proof. unfold v_capacity. by rewrite (mw_vehicle _ _ _ M). Qed.
  Lemma moved_duration v : @v_timeout W' v = @v_timeout W v.
  Proof. unfold v_timeout. by rewrite (mw_vehicle _ _ _ M). Qed.

  Lemma foldr_max_move (l : list Z) x : foldr Z.max (x + c) (map (fun z => z + c) l) = foldr Z.max x l + c.
  Proof. induction l as [|y l IH]; cbn; [done|]. rewrite IH. lia. Qed.
  Lemma max_or_move d l : l <> [] -> max_or d (map (fun z => z + c) l) = max_or d l + c.
  Proof. destruct l as [|x l]; [done|]. intros _. apply foldr_max_move. Qed.
  Lemma moved_visit_earliest x :
    @visit_earliest W' (moved_visit c x) = @visit_earliest W x + c \/ @visit_earliest W' (moved_visit c x) = 0 /\ @visit_earliest W x = 0.
  Proof.
    unfold visit_earliest. cbn.
    set (l := map (fun t => origin_earliest (@w_trip W t)) (vi_board x) ++ map (fun t => @destination_earliest W (@w_trip W t)) (vi_alight x)).
    assert (E : map (fun t => origin_earliest (@w_trip W' t)) (vi_board x) ++ map (fun t => @destination_earliest W' (@w_trip W' t)) (vi_alight x) = map (fun z => z + c) l).
    { unfold l. rewrite map_app, !map_map. f_equal; apply map_ext; intros; [apply moved_origin_earliest|apply moved_destination_earliest]. }
    rewrite E. destruct l as [|z l'] eqn:El; [by right|]. left. by rewrite max_or_move.
  Qed.
  Lemma moved_visit_duration x : @visit_duration W' (moved_visit c x) = @visit_duration W x.
  Proof.
    unfold visit_duration. cbn. f_equal. f_equal; apply map_ext; intros t; unfold origin_duration, destination_duration; by rewrite (mw_trip _ _ _ M).
  Qed.
  Lemma moved_weight ts : @weight W' ts = @weight W ts.
  Proof. unfold weight. f_equal. apply map_ext. intros t. by rewrite (mw_trip _ _ _ M). Qed.

  Lemma advance_move now here load x : 0 <= now -> 0 <= now + c ->
    @advance W' (now + c, here, load) (moved_visit c x) = moved_timing c (@advance W (now, here, load) x).
  Proof.
    intros H1 H2. unfold advance. rewrite moved_dist, moved_visit_duration, !moved_weight. cbn [vi_place vi_board vi_alight vi_request moved_visit].
    pose proof (@dist_nonneg W here (vi_place x)) as Hd.
    set (a := now + @dist W here (vi_place x)). replace (now + c + @dist W here (vi_place x)) with (a + c) by lia.
    assert (Es : Z.max (Z.max (default (a + c) ((fun z => z + c) <$> vi_request x)) (@visit_earliest W' (moved_visit c x))) (a + c)
      = Z.max (Z.max (default a (vi_request x)) (@visit_earliest W x)) a + c).
    { destruct (moved_visit_earliest x) as [->|[-> ->]], (vi_request x); cbn; lia. }
    cbn zeta. rewrite Es. unfold moved_timing. cbn. f_equal. lia.
  Qed.

  Lemma max_or_nonneg l : Forall (fun z => 0 <= z) l -> 0 <= max_or 0 l.
  Proof.
    destruct l as [|x l]; [done|]. intros [Hx Hl]%Forall_cons. cbn. clear - Hx. induction l; cbn; lia.
  Qed.
  Lemma visit_duration_nonneg x : @sane_durations W -> 0 <= @visit_duration W x.
  Proof.
    intros Hs. unfold visit_duration. apply max_or_nonneg. apply Forall_forall. intros z Hz.
    apply elem_of_app in Hz as [Hz|Hz]; apply elem_of_list_In, in_map_iff in Hz as (t & <- & _); apply Hs.
  Qed.

  Lemma schedule_move xs : @sane_durations W -> forall now here load, 0 <= now -> 0 <= now + c ->
    @schedule W' (now + c, here, load) (mv xs) = map (moved_timing c) (@schedule W (now, here, load) xs).
  Proof.
    intros Hs. induction xs as [|x xs IH]; intros now here load H1 H2; [done|]. cbn [map schedule].
    rewrite advance_move by done. f_equal. set (A := @advance W (now, here, load) x). unfold leave. cbn [moved_timing tm_departure tm_load moved_visit vi_place].
    assert (now <= tm_departure A).
    { unfold A, advance. cbn. pose proof (visit_duration_nonneg x Hs). pose proof (@dist_nonneg W here (vi_place x)). lia. }
    apply IH; lia.
  Qed.
  Lemma timetable_move v xs : @sane_durations W -> 0 <= @v_origin_earliest W v -> 0 <= @v_origin_earliest W v + c ->
    @timetable W' v (mv xs) = map (moved_timing c) (@timetable W v xs).
  Proof. intros. unfold timetable, ready. rewrite moved_opening, moved_origin. by apply schedule_move. Qed.

  Lemma boards_move xs : boards (mv xs) = boards xs.
  Proof. unfold boards. induction xs as [|x xs IH]; cbn; [done|]. by rewrite IH. Qed.
  Lemma alights_move xs : alights (mv xs) = alights xs.
  Proof. unfold alights. induction xs as [|x xs IH]; cbn; [done|]. by rewrite IH. Qed.
  Lemma lookup_move xs i x' : mv xs !! i = Some x' -> exists x, xs !! i = Some x /\ x' = moved_visit c x.
  Proof. change (mv xs) with (moved_visit c <$> xs). rewrite list_lookup_fmap. destruct (xs !! i); [|done]. intros [= <-]. eauto. Qed.
  Lemma timing_lookup Ts i (T' : timing) : map (moved_timing c) Ts !! i = Some T' -> exists T, Ts !! i = Some T /\ T' = moved_timing c T.
  Proof. change (map (moved_timing c) Ts) with (moved_timing c <$> Ts). rewrite list_lookup_fmap. destruct (Ts !! i); [|done]. intros [= <-]. eauto. Qed.

  Lemma on_time_move v x T : @on_time W v x T -> @on_time W' v (moved_visit c x) (moved_timing c T).
  Proof.
    intros (H1 & H2 & H3). split; [|split]; cbn.
    - intros t Ht. destruct (H1 t Ht) as [A B]. rewrite moved_origin_earliest, moved_eb, moved_origin_latest, moved_at_most. split; [lia|done].
    - intros t Ht. destruct (H2 t Ht) as [A B]. rewrite moved_destination_earliest, moved_eb, moved_destination_latest, moved_at_most. split; [lia|done].
    - rewrite moved_capacity. by apply moved_at_most_same.
  Qed.

  Lemma admissible_move v xs : @sane_durations W -> 0 <= @v_origin_earliest W v -> 0 <= @v_origin_earliest W v + c ->
    @admissible W v xs -> @admissible W' v (mv xs).
  Proof.
    intros Hs H1 H2 [A1 A2 A3 A4 A5]. pose proof (timetable_move v xs Hs H1 H2) as ET. split.
    - destruct A1 as (x & Hx & Px). exists (moved_visit c x). rewrite moved_origin. destruct xs; [done|]. cbn in *. injection Hx as ->. done.
    - destruct A2 as (x & Hx & Px). exists (moved_visit c x). rewrite moved_destination. split; [|done].
      change (mv xs) with (moved_visit c <$> xs). by rewrite fmap_last, Hx.
    - rewrite ET. change (map (moved_timing c)) with (fmap (M := list) (moved_timing c)). rewrite fmap_last. destruct (last (@timetable W v xs)) as [T|] eqn:E; [|done].
      intros ? [= <-]. cbn. rewrite moved_closing, moved_at_most. by apply A3.
    - rewrite ET. change (map (moved_timing c)) with (fmap (M := list) (moved_timing c)). rewrite fmap_last.
      intros T0' T' H0 HT. destruct (last (@timetable W v xs)) as [T|] eqn:E; [|done]. injection HT as <-.
      destruct (@timetable W v xs) as [|T0 Ts] eqn:E0; [done|]. injection H0 as <-. cbn. rewrite moved_duration, moved_at_most_same.
      replace (tm_departure T + c - (tm_departure T0 + c)) with (tm_departure T - tm_departure T0) by lia. by apply A4.
    - rewrite ET. intros t i j x' y' Ti' Tj' (x0 & y0 & X0 & Y0 & Bx & Ay) Hx Hy HTi HTj.
      apply lookup_move in Hx as (x & Hx & ->). apply lookup_move in Hy as (y & Hy & ->).
      apply lookup_move in X0 as (x1 & X1 & ->). apply lookup_move in Y0 as (y1 & Y1 & ->). cbn in Bx, Ay.
      apply timing_lookup in HTi as (Ti & HTi & ->). apply timing_lookup in HTj as (Tj & HTj & ->).
      destruct (A5 t i j x y Ti Tj) as (O1 & O2 & L); [by exists x1, y1|done..|].
      split; [by apply on_time_move|]. split; [by apply on_time_move|]. cbn.
      replace (tm_start Tj + c - (tm_departure Ti + c)) with (tm_start Tj - tm_departure Ti) by lia.
      rewrite moved_at_most_same, (mw_trip _ _ _ M). done.
  Qed.

  Lemma moment_move b f v xs : @sane_durations W -> 0 <= @v_origin_earliest W v -> 0 <= @v_origin_earliest W v + c ->
    (forall x, b (moved_visit c x) = b x) -> (forall T, f (moved_timing c T) = f T + c) -> (exists x, x ∈ xs /\ b x = true) ->
    @moment W' b f v (mv xs) = @moment W b f v xs + c.
  Proof.
    intros Hs H1 H2 Hb Hf (x & Hx & Bx). unfold moment. rewrite (timetable_move v xs Hs H1 H2).
    assert (Hl : length (@timetable W v xs) = length xs) by (unfold timetable; by rewrite schedule_length).
    revert Hx Hl. generalize (@timetable W v xs) as Ts. induction xs as [|y xs IH]; intros Ts Hx Hl; [by apply elem_of_nil in Hx|].
    destruct Ts as [|T Ts]; [done|]. cbn. rewrite Hb. destruct (b y) eqn:Ey; [apply Hf|]. apply IH; [|cbn in Hl; lia].
    apply elem_of_cons in Hx as [->|Hx]; [congruence|done].
  Qed.
  Lemma driven_move xs : forall here, @driven W' here (mv xs) = @driven W here xs.
  Proof. induction xs as [|x xs IH]; intros here; cbn; [done|]. by rewrite moved_dist, IH. Qed.

  Section rides.
    Context (v : nat) (xs : list visit) (Hs : @sane_durations W) (H1 : 0 <= @v_origin_earliest W v) (H2 : 0 <= @v_origin_earliest W v + c) (R : @rides W xs).
    Lemma picked_move t : t ∈ boards xs -> @picked_up_at W' v (mv xs) t = @picked_up_at W v xs t + c.
    Proof.
      intros Ht. apply moment_move; try done. apply elem_of_boards in Ht as (x & Hx & Bx). exists x. split; [done|]. by apply bool_decide_eq_true.
    Qed.
    Lemma dropped_move t : t ∈ boards xs -> @dropped_off_at W' v (mv xs) t = @dropped_off_at W v xs t + c.
    Proof.
      intros Ht. rewrite <- (rides_all _ R) in Ht. apply moment_move; try done. apply elem_of_alights in Ht as (x & Hx & Bx).
      exists x. split; [done|]. by apply bool_decide_eq_true.
    Qed.
    Lemma value_move o : @value_of W' o v (mv xs) = @value_of W o v xs.
    Proof.
      unfold value_of, unless_empty, travelled. rewrite boards_move. destruct o.
      - by rewrite moved_origin, driven_move.
      - f_equal. f_equal. apply map_ext_in. intros t Ht%elem_of_list_In. unfold ride_time. rewrite picked_move, dropped_move by done.
        rewrite (mw_trip _ _ _ M). cbn. destruct (decide _); lia.
      - f_equal. f_equal. apply map_ext_in. intros t Ht%elem_of_list_In. unfold ride_score. rewrite picked_move by done.
        rewrite moved_distance, moved_origin_earliest.
        assert (Et : tr_bonus (@w_trip W' t) = tr_bonus (@w_trip W t) /\ tr_capacity (@w_trip W' t) = tr_capacity (@w_trip W t)) by (by rewrite (mw_trip _ _ _ M)).
        destruct Et as [-> ->]. repeat destruct (decide _); lia.
    Qed.
  End rides.
End clock.

Lemma moved_world_back c W W' : moved_world c W W' -> moved_world (- c) W' W.
Proof.
  assert (L : forall l, moved_limit (- c) (moved_limit c l) = l) by (intros []; cbn; f_equal; lia).
  assert (S : forall s, moved_service (- c) (moved_service c s) = s).
  { intros [p e l d]. unfold moved_service. cbn. f_equal; [lia|apply L]. }
  intros [E1 E2 E3 E4]. split; [done|done|..].
  - intros t. rewrite E3. destruct (@w_trip W t). unfold moved_trip. cbn. by rewrite !S.
  - intros v. rewrite E4. destruct (@w_vehicle W v) as [? ? [s|] ? ?]; unfold moved_vehicle; cbn; by rewrite !S.
Qed.
Lemma moved_visit_back c xs : map (moved_visit (- c)) (map (moved_visit c) xs) = xs.
Proof.
  rewrite map_map. rewrite <- (map_id xs) at 2. apply map_ext. intros [p b a [z|]]; unfold moved_visit; cbn; [|done]. f_equal. f_equal. lia.
Qed.
