(** Insertion strategies: strategies/abc.py:33-104. *)
From Verif Require Export HushProofs.

Section restart.
  Context {W : World}.

  (** a visit with another requested start *)
  Definition restart (z : option Z) (x : visit) : visit := Visit (vi_place x) (vi_board x) (vi_alight x) z.
  Lemma restart_anytime z x : anytime (restart z x) = anytime x.
  Proof. done. Qed.

  Lemma similar_refl v L : similar v L L.
  Proof. done. Qed.
  Lemma similar_trans v L1 L2 L3 : similar v L1 L2 -> similar v L2 L3 -> similar v L1 L3.
  Proof. intros (A1 & B1 & C1) (A2 & B2 & C2). split; [congruence|split; congruence]. Qed.
  Lemma similar_sym v L1 L2 : similar v L1 L2 -> similar v L2 L1.
  Proof. by intros (A1 & B1 & C1). Qed.

  (** leaving the origin later without being late for the second visit *)
  Lemma leave_later v x0 x1 w :
    vi_place x0 = v_origin_position v -> vi_board x0 = [] -> vi_alight x0 = [] ->
    w = tm_start (tm v x1 [x0]) - tm_arrival (tm v x1 [x0]) -> w <> 0 ->
    service_of (tm v x1 [restart (Some w) x0]) = service_of (tm v x1 [x0]).
  Proof.
    intros HP HB HA Hw Hw0.
    assert (D : forall z, tm_departure (tm v (restart z x0) []) =
       Z.max (Z.max (default (v_origin_earliest v) z) 0) (v_origin_earliest v)).
    { intros z. rewrite tm_departure_eq, tm_start_eq, tm_arrival_eq. cbn. rewrite HP, dist_refl.
      unfold visit_earliest, visit_duration. cbn. rewrite HB, HA. cbn. rewrite !Z.add_0_r. done. }
    assert (E : restart (vi_request x0) x0 = x0) by (by destruct x0).
    assert (AR : forall z, tm_arrival (tm v x1 [restart z x0]) =
       tm_departure (tm v (restart z x0) []) + dist (vi_place x0) (vi_place x1)).
    { intros z. rewrite tm_arrival_eq, back_cons. done. }
    pose proof (AR (vi_request x0)) as AR0. rewrite D, E in AR0.
    pose proof (AR (Some w)) as AR1. rewrite D in AR1.
    assert (LD : tm_load (tm v x1 [restart (Some w) x0]) = tm_load (tm v x1 [x0])).
    { rewrite !tm_load_eq, !back_cons. cbn [leg_load snd]. by rewrite !tm_load_eq. }
    assert (ST : tm_start (tm v x1 [restart (Some w) x0]) = tm_start (tm v x1 [x0])).
    { rewrite (tm_start_eq v x1 [x0]) in Hw.
      rewrite (tm_start_eq v x1 [restart (Some w) x0]), (tm_start_eq v x1 [x0]).
      rewrite AR1, AR0. rewrite AR0 in Hw. cbn [default] in *.
      pose proof (dist_nonneg (vi_place x0) (vi_place x1)) as Hd.
      destruct (vi_request x0) as [q0|], (vi_request x1) as [q1|]; cbn in *; unfold id in *; lia. }
    unfold service_of. rewrite !tm_departure_eq, ST, LD. done.
  Qed.
End restart.

Section later.
  Context {W : World}.

  Lemma service_of_eq T T' : service_of T = service_of T' ->
    tm_start T = tm_start T' /\ tm_departure T = tm_departure T' /\ tm_load T = tm_load T'.
  Proof. unfold service_of. intros E. by injection E. Qed.
  Lemma similar_shift v x0 x1 X w :
    vi_place x0 = v_origin_position v -> vi_board x0 = [] -> vi_alight x0 = [] ->
    w = tm_start (tm v x1 [x0]) - tm_arrival (tm v x1 [x0]) -> w <> 0 ->
    similar v (x0 :: x1 :: X) (restart (Some w) x0 :: x1 :: X).
  Proof.
    intros HP HB HA Hw Hw0. split; [done|]. split; [done|].
    pose proof (leave_later v x0 x1 w HP HB HA Hw Hw0) as E. apply service_of_eq in E as (E1 & E2 & E3).
    unfold timetable. cbn [schedule map drop].
    change (advance (leave x0 (advance (ready v) x0)) x1) with (tm v x1 [x0]).
    change (advance (leave (restart (Some w) x0) (advance (ready v) (restart (Some w) x0))) x1) with (tm v x1 [restart (Some w) x0]).
    unfold leave, service_of. rewrite E1, E2, E3. done.
  Qed.
  Lemma back_shift v x0 x1 w :
    vi_place x0 = v_origin_position v -> vi_board x0 = [] -> vi_alight x0 = [] ->
    w = tm_start (tm v x1 [x0]) - tm_arrival (tm v x1 [x0]) -> w <> 0 ->
    back v [x1; restart (Some w) x0] = back v [x1; x0].
  Proof.
    intros HP HB HA Hw Hw0.
    pose proof (leave_later v x0 x1 w HP HB HA Hw Hw0) as E. apply service_of_eq in E as (E1 & E2 & E3).
    by rewrite !back_cons, E2, E3.
  Qed.

  Lemma back_app v A B B' : back v B = back v B' -> back v (A ++ B) = back v (A ++ B').
  Proof. intros E. induction A as [|x A IH]; [done|]. cbn. by rewrite IH. Qed.

  Lemma Path_rebase h h' v X Y A B B' :
    Path h v (X ++ Y) (A ++ B) -> length X = length A -> Path h' v Y B' -> back v B = back v B' ->
    (forall s c, s ∈ X -> h_stops h !! s = Some c ->
        exists c', h_stops h' !! s = Some c' /\ sk_stop c' = sk_stop c /\ weaker c' c) ->
    pts_ext h h' -> Path h' v (X ++ Y) (A ++ B').
  Proof.
    revert A. induction X as [|s X IH]; intros [|x A] P Hl PY Hb Hc He; cbn in Hl; try done.
    cbn [app] in *. apply Path_cons_inv in P as (c & Hs & V & Pr & K & -> & C & P).
    destruct (Hc s c) as (c' & Hs' & E & Wk); [set_solver|done|].
    rewrite <- (abs_grow h h' c c') by done.
    apply sk_stop_eq in E as (E1 & E2 & E3 & E4 & E5 & E6).
    econstructor; [exact Hs'|congruence|congruence| | |].
    - eapply known_grow; [exact He|exact K|]. apply sk_stop_eq. auto 10.
    - rewrite (abs_grow h h' c c') by (try done; apply sk_stop_eq; auto 10).
      assert (Et : tm v (abs h c) (A ++ B') = tm v (abs h c) (A ++ B)).
      { unfold tm. by rewrite (back_app v A B' B). }
      unfold caches_ok. rewrite Et. by eapply caches_ok_weaker.
    - apply IH; [done|lia|done|done| |done]. intros q d Hq. apply Hc. set_solver.
  Qed.

  Lemma RouteOK_frame h h' r v ids L :
    RouteOK h r v ids L ->
    (forall c, h_routes h !! r = Some c -> exists c', h_routes h' !! r = Some c' /\ sk_route c' = sk_route c) ->
    (forall s c, s ∈ ids -> h_stops h !! s = Some c ->
        exists c', h_stops h' !! s = Some c' /\ sk_stop c' = sk_stop c /\ weaker c' c) ->
    (forall p c, h_pts h !! p = Some c -> exists c', h_pts h' !! p = Some c' /\ sk_pt c' = sk_pt c) ->
    RouteOK h' r v ids L.
  Proof.
    intros [RW T] Hr Hs Hp. split; [|done]. destruct (rw_cell _ _ _ _ _ RW) as (c & Hc & E1 & E2).
    destruct (Hr c Hc) as (c' & Hc' & E). apply sk_route_eq in E as [F1 F2].
    split; [exists c'; split; [done|]; split; congruence| | apply RW|].
    - eapply Path_frame; [apply RW| |by apply pts_ext_sk]. intros s d Hin. apply Hs. by rewrite elem_of_reverse in Hin.
    - eapply Links_frame; [apply RW| | |].
      + intros s Hin. by eapply RouteW_ids_alloc.
      + intros s d Hin Hd. destruct (Hs s d Hin Hd) as (d' & Hd' & E & _). apply sk_stop_eq in E as (_ & _ & ? & ? & _).
        eauto.
      + intros s d p pc _ _ _. apply Hp.
  Qed.

  (** ** What a computation does to the routes that were there before *)
  Record later (h h' : heap) : Prop := {
    lt_routes : forall r v ids L, RouteOK h r v ids L -> exists L', RouteOK h' r v ids L' /\ similar v L L';
    lt_cells : forall r c, h_routes h !! r = Some c -> exists c', h_routes h' !! r = Some c' /\ sk_route c' = sk_route c;
    lt_stops : forall s c, h_stops h !! s = Some c -> exists c', h_stops h' !! s = Some c' /\
      st_pickups c' = st_pickups c /\ st_deliveries c' = st_deliveries c;
    lt_pts : forall p c, h_pts h !! p = Some c -> exists c', h_pts h' !! p = Some c' /\ sk_pt c' = sk_pt c
  }.
  Lemma later_grow h h' : grow h h' -> later h h'.
  Proof.
    intros G. split; [| apply G | |apply G].
    - intros r v ids L R. exists L. split; [by eapply RouteOK_grow|done].
    - intros s c Hc. destruct (g_stops _ _ G _ _ Hc) as (c' & Hc' & E). apply sk_stop_eq in E as (_ & _ & ? & ? & _). eauto.
  Qed.
  Lemma later_refl h : later h h.
  Proof. apply later_grow, grow_refl. Qed.
  Lemma later_trans h1 h2 h3 : later h1 h2 -> later h2 h3 -> later h1 h3.
  Proof.
    intros A B. split.
    - intros r v ids L R. destruct (lt_routes _ _ A _ _ _ _ R) as (L1 & R1 & S1).
      destruct (lt_routes _ _ B _ _ _ _ R1) as (L2 & R2 & S2). exists L2. split; [done|]. by eapply similar_trans.
    - intros r c Hc. destruct (lt_cells _ _ A _ _ Hc) as (c1 & H1 & E1). destruct (lt_cells _ _ B _ _ H1) as (c2 & H2 & E2).
      exists c2. split; [done|congruence].
    - intros r c Hc. destruct (lt_stops _ _ A _ _ Hc) as (c1 & H1 & E1 & F1). destruct (lt_stops _ _ B _ _ H1) as (c2 & H2 & E2 & F2).
      exists c2. split; [done|split; congruence].
    - intros r c Hc. destruct (lt_pts _ _ A _ _ Hc) as (c1 & H1 & E1). destruct (lt_pts _ _ B _ _ H1) as (c2 & H2 & E2).
      exists c2. split; [done|congruence].
  Qed.
  Lemma later_soft h1 h2 h3 : later h1 h2 -> soft h2 h3 -> later h1 h3.
  Proof. intros A [B _]. eapply later_trans; [exact A|by apply later_grow]. Qed.

  Lemma later_frame h0 h h' :
    later h0 h ->
    (forall s c, (s < length (h_stops h0))%nat -> h_stops h !! s = Some c ->
        exists c', h_stops h' !! s = Some c' /\ sk_stop c' = sk_stop c /\ weaker c' c) ->
    (forall p c, h_pts h !! p = Some c ->
        exists c', h_pts h' !! p = Some c' /\ sk_pt c' = sk_pt c) ->
    (forall r c, (r < length (h_routes h0))%nat -> h_routes h !! r = Some c ->
        exists c', h_routes h' !! r = Some c' /\ sk_route c' = sk_route c) ->
    later h0 h'.
  Proof.
    intros A HS HP HR. split.
    - intros r v ids L R. destruct (lt_routes _ _ A _ _ _ _ R) as (L1 & R1 & S1). exists L1. split; [|done].
      eapply RouteOK_frame; [exact R1| | |done].
      + intros c Hc. apply HR; [|done]. destruct R as [RW _]. destruct (rw_cell _ _ _ _ _ RW) as (c0 & Hc0 & _).
        by eapply lookup_lt_Some.
      + intros s c Hin Hc. apply HS; [|done]. destruct R as [RW _].
        destruct (RouteW_ids_alloc _ _ _ _ _ _ RW Hin) as [d Hd]. by eapply lookup_lt_Some.
    - intros r c Hc. destruct (lt_cells _ _ A _ _ Hc) as (c1 & H1 & E1).
      destruct (HR r c1) as (c2 & H2 & E2); [by eapply lookup_lt_Some|done|]. exists c2. split; [done|congruence].
    - intros s c Hc. destruct (lt_stops _ _ A _ _ Hc) as (c1 & H1 & E1 & F1).
      destruct (HS s c1) as (c2 & H2 & E2 & _); [by eapply lookup_lt_Some|done|].
      apply sk_stop_eq in E2 as (_ & _ & ? & ? & _). exists c2. split; [done|split; congruence].
    - intros p c Hc. destruct (lt_pts _ _ A _ _ Hc) as (c1 & H1 & E1).
      destruct (HP p c1) as (c2 & H2 & E2); [done|]. exists c2. split; [done|congruence].
  Qed.

  (** ** The heap invariant: every route is a tour, and routes that share the
      first stop share the second *)
  Definition HeadShare (h : heap) : Prop := forall r1 r2 c1 c2 s,
    h_routes h !! r1 = Some c1 -> h_routes h !! r2 = Some c2 ->
    rt_stops c1 !! 0%nat = Some s -> rt_stops c2 !! 0%nat = Some s -> rt_stops c1 !! 1%nat = rt_stops c2 !! 1%nat.
  Definition HInv (h : heap) : Prop :=
    (forall r c, h_routes h !! r = Some c -> exists L, RouteOK h r (rt_vehicle c) (rt_stops c) L) /\ HeadShare h.

  Lemma HInv_later h h' : HInv h -> later h h' -> length (h_routes h') = length (h_routes h) -> HInv h'.
  Proof.
    intros [A S] Lt Hl.
    assert (Hback : forall r c', h_routes h' !! r = Some c' -> exists c, h_routes h !! r = Some c /\ rt_vehicle c' = rt_vehicle c /\ rt_stops c' = rt_stops c).
    { intros r c' Hc'. destruct (h_routes h !! r) as [c|] eqn:Hc.
      - destruct (lt_cells _ _ Lt _ _ Hc) as (c2 & H2 & E). rewrite Hc' in H2. injection H2 as <-.
        apply sk_route_eq in E as [? ?]. eauto.
      - apply lookup_ge_None in Hc. apply lookup_lt_Some in Hc'. lia. }
    split.
    - intros r c' Hc'. destruct (Hback r c' Hc') as (c & Hc & -> & ->). destruct (A r c Hc) as [L R].
      destruct (lt_routes _ _ Lt _ _ _ _ R) as (L' & R' & _). eauto.
    - intros r1 r2 c1 c2 s H1 H2. destruct (Hback _ _ H1) as (d1 & D1 & _ & ->). destruct (Hback _ _ H2) as (d2 & D2 & _ & ->).
      by eapply S.
  Qed.
  Lemma HInv_extend h h' r' v ids' L' : HInv h -> later h h' ->
    length (h_routes h') = S (length (h_routes h)) -> r' = length (h_routes h) -> RouteOK h' r' v ids' L' ->
    (forall s, ids' !! 0%nat = Some s -> (length (h_stops h) <= s)%nat \/
       exists r c, h_routes h !! r = Some c /\ rt_stops c !! 0%nat = Some s /\ rt_stops c !! 1%nat = ids' !! 1%nat) ->
    HInv h'.
  Proof.
    intros [A S] Lt Hl Hr' R' Hh.
    destruct R' as [RW' T']. destruct (rw_cell _ _ _ _ _ RW') as (c0 & Hc0 & V0 & I0).
    assert (Hback : forall r c', h_routes h' !! r = Some c' -> (r = r' /\ c' = c0) \/ exists c, h_routes h !! r = Some c /\ rt_vehicle c' = rt_vehicle c /\ rt_stops c' = rt_stops c).
    { intros r c' Hc'. destruct (h_routes h !! r) as [c|] eqn:Hc.
      - right. destruct (lt_cells _ _ Lt _ _ Hc) as (c2 & H2 & E). rewrite Hc' in H2. injection H2 as <-.
        apply sk_route_eq in E as [? ?]. eauto.
      - left. apply lookup_ge_None in Hc. pose proof (lookup_lt_Some _ _ _ Hc'). assert (r = r') by lia. subst r.
        split; [done|congruence]. }
    assert (Hnew : forall r c s, h_routes h !! r = Some c -> rt_stops c !! 0%nat = Some s -> ids' !! 0%nat = Some s ->
       rt_stops c !! 1%nat = ids' !! 1%nat).
    { intros r c s Hc H0 H1. destruct (Hh s H1) as [Hs|(r2 & c2 & Hc2 & H2 & H3)].
      - exfalso. destruct (A r c Hc) as [L [RW _]].
        destruct (RouteW_ids_alloc _ _ _ _ _ s RW) as [d Hd]; [by eapply elem_of_list_lookup_2|].
        apply lookup_lt_Some in Hd. lia.
      - rewrite <- H3. by eapply S. }
    split.
    - intros r c' Hc'. destruct (Hback r c' Hc') as [[-> ->]|(c & Hc & -> & ->)].
      + rewrite V0, I0. exists L'. by split.
      + destruct (A r c Hc) as [L R]. destruct (lt_routes _ _ Lt _ _ _ _ R) as (L2 & R2 & _). eauto.
    - intros r1 r2 c1 c2 s H1 H2.
      destruct (Hback _ _ H1) as [[-> ->]|(d1 & D1 & _ & ->)]; destruct (Hback _ _ H2) as [[-> ->]|(d2 & D2 & _ & ->)].
      + done.
      + rewrite I0. intros. symmetry. by eapply Hnew.
      + rewrite I0. intros. by eapply Hnew.
      + by eapply S.
  Qed.
End later.

(** ** Recorded answers [True] *)
Section fair.
  Context {W : World}.

  Lemma anytime_load v L L' : map anytime L = map anytime L' -> forall k T T',
    timetable v L !! k = Some T -> timetable v L' !! k = Some T' -> tm_load T = tm_load T'.
  Proof.
    intros E.
    assert (H : forall p q k T T', leg_load p = leg_load q -> schedule p L !! k = Some T -> schedule q L' !! k = Some T' -> tm_load T = tm_load T').
    { revert L' E. induction L as [|x L IH]; intros [|y L'] E p q k T T' Epq HT HT'; cbn in *; try done.
      apply (f_equal tail) in E as E2. cbn in E2. apply (f_equal head) in E. cbn in E. injection E as E3 E4 E5.
      assert (El : tm_load (advance p x) = tm_load (advance q y)).
      { destruct p as [[? ?] ?], q as [[? ?] ?]. cbn in *. congruence. }
      destruct k as [|k]; cbn in *.
      - injection HT as <-. injection HT' as <-. done.
      - by eapply (IH L' E2); [|exact HT|exact HT']. }
    intros k T T'. by apply H.
  Qed.

  Lemma anytime_lookup (L L' : list visit) k x' : map anytime L = map anytime L' -> L' !! k = Some x' ->
    exists x, L !! k = Some x /\ anytime x = anytime x'.
  Proof.
    intros E Hx'. apply (f_equal (fun l => l !! k)) in E. change (map anytime L) with (anytime <$> L) in E. change (map anytime L') with (anytime <$> L') in E.
    rewrite !list_lookup_fmap, Hx' in E. destruct (L !! k) as [x|]; [|done]. apply (inj Some) in E. eauto.
  Qed.
  Lemma tour_events v L k x : tour v L -> L !! k = Some x -> k = 0%nat -> vi_board x = [] /\ vi_alight x = [].
  Proof.
    intros T Hx ->. destruct (tour_first _ _ T) as (x0 & rest & -> & _ & _ & HB & HA). cbn in Hx. by injection Hx as <-.
  Qed.
  Lemma tour_ride v L t i j : tour v L -> ride L t i j -> i <> 0%nat /\ j <> 0%nat.
  Proof.
    intros T (x & y & Hx & Hy & Hb & Ha). split; intros E.
    - destruct (tour_events _ _ _ _ T Hx E) as [E1 _]. rewrite E1 in Hb. inversion Hb.
    - destruct (tour_events _ _ _ _ T Hy E) as [_ E1]. rewrite E1 in Ha. inversion Ha.
  Qed.
  Lemma drop1_eq {A} (L L' : list A) k : drop 1 L = drop 1 L' -> k <> 0%nat -> L !! k = L' !! k.
  Proof. intros E Hk. destruct k as [|k]; [done|]. apply (f_equal (fun l => l !! k)) in E. by rewrite !lookup_drop in E. Qed.
  Lemma similar_service v L L' k T' : similar v L L' -> k <> 0%nat -> timetable v L' !! k = Some T' ->
    exists T, timetable v L !! k = Some T /\ tm_start T = tm_start T' /\ tm_departure T = tm_departure T' /\ tm_load T = tm_load T'.
  Proof.
    intros (_ & _ & E) Hk HT'. apply (drop1_eq _ _ k) in E; [|done].
    change (map service_of (timetable v L)) with (service_of <$> timetable v L) in E.
    change (map service_of (timetable v L')) with (service_of <$> timetable v L') in E. rewrite !list_lookup_fmap, HT' in E.
    destruct (timetable v L !! k) as [T|]; [|done]. apply (inj Some), service_of_eq in E as (? & ? & ?). eauto 10.
  Qed.
  Lemma similar_calm v L L' k : similar v L L' -> calm L' k -> calm L k.
  Proof.
    intros (_ & E & _) C i x Hi Hx. apply (C i); [done|]. by rewrite <- (drop1_eq _ _ i E) by lia.
  Qed.
  Lemma similar_heeded v L L' k : tour v L' -> similar v L L' -> heeded v L k -> heeded v L' k.
  Proof.
    intros T S H x' T' Hx' HT'. pose proof S as (E1 & E2 & _).
    destruct (anytime_lookup _ _ _ _ E1 Hx') as (x & Hx & Ea).
    destruct (timetable_some v L k x Hx) as [Tk HTk].
    destruct (H x Tk Hx HTk) as [H1 H2].
    pose proof (anytime_load v L L' E1 k Tk T' HTk HT') as El. rewrite El in H1. split; [done|].
    intros C. destruct (decide (k = 0%nat)) as [->|Hk].
    - destruct (tour_events _ _ _ _ T Hx' eq_refl) as [B1 B2]. unfold on_time. rewrite B1, B2.
      split; [|split; [|done]]; intros t Ht; inversion Ht.
    - destruct (similar_service v L L' k T' S Hk HT') as (Tk' & HTk' & S1 & S2 & S3). rewrite HTk in HTk'. injection HTk' as <-.
      rewrite (drop1_eq _ _ k E2 Hk), Hx' in Hx. injection Hx as <-.
      pose proof (H2 (similar_calm _ _ _ _ S C)) as O. unfold on_time in *. by rewrite S1, El in O.
  Qed.
  Lemma similar_ridden v t L L' i j : tour v L' -> similar v L L' -> i <> 0%nat -> j <> 0%nat ->
    ridden v t L i j -> ridden v t L' i j.
  Proof.
    intros T S Hi Hj (H1 & H2 & H3). split; [by eapply similar_heeded|]. split; [by eapply similar_heeded|].
    intros Ti Tj HTi HTj. destruct (similar_service v L L' i Ti S Hi HTi) as (Ti' & HTi' & _ & <- & _).
    destruct (similar_service v L L' j Tj S Hj HTj) as (Tj' & HTj' & <- & _ & _). by apply H3.
  Qed.
  Lemma similar_nearly v L L' : tour v L' -> similar v L L' -> nearly v L -> nearly v L'.
  Proof.
    intros T S [H1 H2]. pose proof S as (E1 & E2 & _). split.
    - intros Tn. rewrite last_lookup. intros HTn.
      assert (El : length (timetable v L') = length (timetable v L)).
      { unfold timetable. rewrite !schedule_length. apply (f_equal length) in E1. by rewrite !map_length in E1. }
      assert (length (timetable v L') = length L') as El' by apply schedule_length.
      pose proof (tour_length _ _ T) as Hlen.
      assert (Hn : Nat.pred (length (timetable v L')) <> 0%nat) by (rewrite El'; lia).
      destruct (similar_service v L L' _ Tn S Hn HTn) as (T0 & HT0 & _ & <- & _).
      apply H1. rewrite last_lookup, <- El. done.
    - intros t i j Hr. destruct (tour_ride _ _ _ _ _ T Hr) as [Hi Hj].
      eapply similar_ridden; [done..|]. apply H2. destruct Hr as (x & y & Hx & Hy & Hb & Ha).
      exists x, y. rewrite !(drop1_eq _ _ _ E2) by done. done.
  Qed.

  Lemma depot_on_time v x T : vi_board x = [] -> vi_alight x = [] -> on_time v x T <-> at_most (tm_load T) (v_capacity v).
  Proof.
    intros B1 B2. unfold on_time. rewrite B1, B2. split; [tauto|].
    intros H. split; [|split; [|done]]; intros t Ht; inversion Ht.
  Qed.
  Lemma similar_late v L L' k : tour v L' -> similar v L L' -> late v L k -> late v L' k.
  Proof.
    intros T S H x' T' Hx' HT' O. pose proof S as (E1 & E2 & _).
    destruct (anytime_lookup _ _ _ _ E1 Hx') as (x & Hx & Ea).
    destruct (timetable_some v L k x Hx) as [Tk HTk]. apply (H x Tk Hx HTk).
    pose proof (anytime_load v L L' E1 k Tk T' HTk HT') as El.
    destruct (decide (k = 0%nat)) as [->|Hk].
    - destruct (tour_events _ _ _ _ T Hx' eq_refl) as [B1 B2]. apply depot_on_time in O; [|done|done].
      injection Ea as E3 E4 E5. apply depot_on_time; congruence.
    - destruct (similar_service v L L' k T' S Hk HT') as (Tk' & HTk' & S1 & S2 & S3). rewrite HTk in HTk'. injection HTk' as <-.
      rewrite (drop1_eq _ _ k E2 Hk), Hx' in Hx. injection Hx as <-. unfold on_time in *. by rewrite S1, El.
  Qed.
  Lemma similar_missed v t L L' i j : similar v L L' -> i <> 0%nat -> j <> 0%nat ->
    missed v t L i j -> missed v t L' i j.
  Proof.
    intros S Hi Hj H x y Ti Tj Hx Hy HTi HTj. pose proof S as (_ & E2 & _).
    destruct (similar_service v L L' i Ti S Hi HTi) as (Ti' & HTi' & S1 & S2 & S3).
    destruct (similar_service v L L' j Tj S Hj HTj) as (Tj' & HTj' & S4 & S5 & S6).
    rewrite <- (drop1_eq _ _ i E2 Hi) in Hx. rewrite <- (drop1_eq _ _ j E2 Hj) in Hy.
    pose proof (H x y Ti' Tj' Hx Hy HTi' HTj') as N. unfold on_time in *. by rewrite S1, S2, S3, S4, S6 in N.
  Qed.
  Lemma similar_stop_worth g v L L' k : tour v L' -> similar v L L' -> stop_worth g v L k -> stop_worth g v L' k.
  Proof. destruct g; [apply similar_heeded|apply similar_late]. Qed.
  Lemma similar_ride_worth g v t L L' i j : tour v L' -> similar v L L' -> i <> 0%nat -> j <> 0%nat ->
    ride_worth g v t L i j -> ride_worth g v t L' i j.
  Proof. destruct g; [apply similar_ridden|intros _; apply similar_missed]. Qed.
  Lemma similar_tour_worth g v L L' : tour v L' -> similar v L L' -> tour_worth g v L -> tour_worth g v L'.
  Proof. destruct g; [apply similar_nearly|done]. Qed.

  (** what it takes to transfer answers to a route of the new heap *)
  Lemma HInv_route h r rc : HInv h -> h_routes h !! r = Some rc -> exists L, RouteOK h r (rt_vehicle rc) (rt_stops rc) L /\
    map (at_stop h) (rt_stops rc) = L.
  Proof.
    intros [HI _] Hrc. destruct (HI r rc Hrc) as [L R]. exists L. split; [done|].
    by eapply RouteP_visits, RouteW_P, R.
  Qed.
  Lemma RouteOK_pickup h r v ids L i s c p : RouteOK h r v ids L -> ids !! i = Some s -> h_stops h !! s = Some c -> p ∈ st_pickups c ->
    i <> 0%nat /\ exists j d pc, (i < j)%nat /\ ids !! j = Some d /\ h_pts h !! p = Some pc /\ pt_pickup pc = Some s /\ pt_delivery pc = Some d.
  Proof.
    intros [RW T] Hi Hc Hp. split.
    - intros E. destruct (RouteW_lookup _ _ _ _ _ _ _ RW Hi) as (c' & x & Hc' & Hx & Ex & _).
      rewrite Hc in Hc'. injection Hc' as <-. destruct (tour_events _ _ _ _ T Hx E) as [E1 _].
      rewrite Ex in E1. cbn in E1. apply fmap_nil_inv in E1. rewrite E1 in Hp. inversion Hp.
    - destruct (link_of_pickup _ _ _ _ _ _ _ _ _ RW Hi Hc Hp) as (j & d & dc & pc & Hij & Hj & _ & _ & Hpc & _ & P1 & P2).
      exists j, d, pc. done.
  Qed.
  Lemma Worth_extend g h h' : HInv h -> HInv h' -> later h h' -> hushes h h' ->
    (forall r rc s cs, (length (h_routes h) <= r)%nat -> h_routes h' !! r = Some rc -> s ∈ rt_stops rc -> h_stops h' !! s = Some cs ->
       (st_feasible cs = Some g \/ exists p pc, p ∈ st_pickups cs /\ h_pts h' !! p = Some pc /\ pt_feasible pc = Some g) ->
       exists r0 c0, h_routes h !! r0 = Some c0 /\ s ∈ rt_stops c0) ->
    Worth g h -> Worth g h'.
  Proof.
    intros I I' Lt (N1 & N2 & N3) Hnew F.
    assert (Old : forall r c, h_routes h !! r = Some c -> exists c' L L', h_routes h' !! r = Some c' /\
       rt_vehicle c' = rt_vehicle c /\ rt_stops c' = rt_stops c /\
       RouteOK h r (rt_vehicle c) (rt_stops c) L /\ RouteOK h' r (rt_vehicle c) (rt_stops c) L' /\ similar (rt_vehicle c) L L').
    { intros r c Hc. destruct (lt_cells _ _ Lt _ _ Hc) as (c' & Hc' & E). apply sk_route_eq in E as [E1 E2].
      destruct (proj1 I r c Hc) as [L R]. destruct (lt_routes _ _ Lt _ _ _ _ R) as (L' & R' & S). exists c', L, L'. auto 10. }
    assert (OldS : forall r c L' i s cs, h_routes h !! r = Some c -> RouteOK h' r (rt_vehicle c) (rt_stops c) L' ->
       rt_stops c !! i = Some s -> h_stops h' !! s = Some cs -> st_feasible cs = Some g -> stop_worth g (rt_vehicle c) L' i).
    { intros r c L' i s cs Hc R' Hi Hcs Hf. destruct (Old r c Hc) as (c' & L & L2 & _ & _ & _ & R & R2 & S).
      assert (L2 = L') as -> by (eapply RouteW_det; [apply R2|apply R']).
      destruct (N1 s cs g Hcs Hf) as (cs0 & Hcs0 & Hf0). eapply similar_stop_worth; [apply R'|exact S|].
      eapply Worth_stop; [exact F|apply RouteW_P, R|exact Hi|exact Hcs0|done]. }
    assert (OldP : forall r c L' i j s d cs p pc, h_routes h !! r = Some c -> RouteOK h' r (rt_vehicle c) (rt_stops c) L' ->
       rt_stops c !! i = Some s -> rt_stops c !! j = Some d -> h_stops h' !! s = Some cs -> p ∈ st_pickups cs ->
       h_pts h' !! p = Some pc -> pt_pickup pc = Some s -> pt_delivery pc = Some d -> pt_feasible pc = Some g ->
       ride_worth g (rt_vehicle c) (pt_trip pc) L' i j).
    { intros r c L' i j s d cs p pc Hc R' Hi Hj Hcs Hp Hpc P1 P2 Hf. destruct (Old r c Hc) as (c' & L & L2 & _ & _ & _ & R & R2 & S).
      assert (L2 = L') as -> by (eapply RouteW_det; [apply R2|apply R']).
      destruct (RouteOK_pickup _ _ _ _ _ _ _ _ _ R' Hi Hcs Hp) as (Hi0 & j1 & d1 & pc1 & Hij & Hj1 & Hpc1 & _ & P3).
      rewrite Hpc in Hpc1. injection Hpc1 as <-. rewrite P2 in P3. injection P3 as <-.
      assert (j1 = j) as -> by (eapply NoDup_lookup; [eapply RouteW_NoDup, R'|done|done]).
      destruct (N2 p pc g Hpc Hf) as (pc0 & Hpc0 & Hf0). destruct (lt_pts _ _ Lt _ _ Hpc0) as (pc2 & Hpc2 & E).
      rewrite Hpc in Hpc2. injection Hpc2 as <-. apply sk_pt_eq in E as (_ & E2 & E3 & E4).
      destruct (RouteW_ids_alloc _ _ _ _ _ s (proj1 R)) as [cs0 Hcs0]; [by eapply elem_of_list_lookup_2|].
      destruct (lt_stops _ _ Lt _ _ Hcs0) as (cs2 & Hcs2 & E5 & _). rewrite Hcs in Hcs2. injection Hcs2 as <-.
      eapply similar_ride_worth; [apply R'|exact S|done|lia|]. rewrite E2.
      eapply Worth_pt; [exact F|apply RouteW_P, R|exact Hi|exact Hj|exact Hcs0| |exact Hpc0| | |done]; congruence. }
    assert (Hold : forall r rc, h_routes h' !! r = Some rc -> (exists c, h_routes h !! r = Some c /\ rt_vehicle rc = rt_vehicle c /\ rt_stops rc = rt_stops c) \/
       (length (h_routes h) <= r)%nat).
    { intros r rc Hrc. destruct (h_routes h !! r) as [c|] eqn:Hc; [left|right; by apply lookup_ge_None].
      destruct (Old r c Hc) as (c' & _ & _ & Hc' & ? & ? & _). rewrite Hrc in Hc'. injection Hc' as <-. eauto. }
    split.
    - intros r rc i s cs Hrc C Hi Hcs Hf. destruct (HInv_route _ _ _ I' Hrc) as (L' & R' & ->).
      destruct (Hold r rc Hrc) as [(c & Hc & E1 & E2)|Hr].
      { rewrite E1, E2 in *. by eapply OldS. }
      destruct (Hnew r rc s cs Hr Hrc) as (r0 & c0 & Hc0 & Hin); [by eapply elem_of_list_lookup_2|done|by left|].
      apply elem_of_list_lookup in Hin as [k Hk]. destruct (Old r0 c0 Hc0) as (c0' & _ & L0 & _ & _ & _ & _ & R0 & _).
      pose proof (OldS r0 c0 L0 k s cs Hc0 R0 Hk Hcs Hf) as H.
      pose proof (RouteW_P _ _ _ _ _ (proj1 R0)) as P0. pose proof (RouteW_P _ _ _ _ _ (proj1 R')) as P'.
      destruct (chained_shared _ _ _ _ _ _ _ _ (RouteP_chained _ _ _ _ _ P0) (RouteP_chained _ _ _ _ _ P') Hk Hi) as (E1 & -> & E3).
      rewrite <- E1. eapply stop_worth_take; [|exact H].
      by rewrite <- (RouteP_visits _ _ _ _ _ P0), <- (RouteP_visits _ _ _ _ _ P'), !firstn_map, E3.
    - intros r rc i j s d cs p pc Hrc C Hi Hj Hcs Hp Hpc P1 P2 Hf. destruct (HInv_route _ _ _ I' Hrc) as (L' & R' & ->).
      destruct (Hold r rc Hrc) as [(c & Hc & E1 & E2)|Hr].
      { rewrite E1, E2 in *. by eapply OldP. }
      destruct (Hnew r rc s cs Hr Hrc) as (r0 & c0 & Hc0 & Hin); [by eapply elem_of_list_lookup_2|done|right; eauto|].
      apply elem_of_list_lookup in Hin as [k Hk]. destruct (Old r0 c0 Hc0) as (c0' & _ & L0 & _ & _ & _ & _ & R0 & _).
      destruct (RouteOK_pickup _ _ _ _ _ _ _ _ _ R0 Hk Hcs Hp) as (_ & j1 & d1 & pc1 & Hij & Hj1 & Hpc1 & _ & P3).
      rewrite Hpc in Hpc1. injection Hpc1 as <-. rewrite P2 in P3. injection P3 as <-.
      pose proof (OldP r0 c0 L0 k j1 s d cs p pc Hc0 R0 Hk Hj1 Hcs Hp Hpc P1 P2 Hf) as H.
      pose proof (RouteW_P _ _ _ _ _ (proj1 R0)) as Pt0. pose proof (RouteW_P _ _ _ _ _ (proj1 R')) as Pt'.
      destruct (chained_shared _ _ _ _ _ _ _ _ (RouteP_chained _ _ _ _ _ Pt0) (RouteP_chained _ _ _ _ _ Pt') Hk Hi) as (E1 & -> & E3).
      destruct (chained_shared _ _ _ _ _ _ _ _ (RouteP_chained _ _ _ _ _ Pt0) (RouteP_chained _ _ _ _ _ Pt') Hj1 Hj) as (_ & -> & E4).
      rewrite <- E1. eapply ride_worth_take; [| |exact H];
      by rewrite <- (RouteP_visits _ _ _ _ _ Pt0), <- (RouteP_visits _ _ _ _ _ Pt'), !firstn_map, ?E3, ?E4.
    - intros r rc Hrc C Hf. destruct (HInv_route _ _ _ I' Hrc) as (L' & R' & ->).
      destruct (N3 r rc g Hrc Hf) as (c & Hc & Hf0). destruct (Old r c Hc) as (c' & L & L2 & Hc' & E1 & E2 & R & R2 & S).
      rewrite Hrc in Hc'. injection Hc' as <-. rewrite E1, E2 in *.
      assert (L2 = L') as -> by (eapply RouteW_det; [apply R2|apply R']).
      eapply similar_tour_worth; [apply R'|exact S|]. eapply Worth_route; [exact F|apply RouteW_P, R|done|done].
  Qed.
  Lemma Worth_grow_only g h h' : HInv h -> HInv h' -> later h h' -> length (h_routes h') = length (h_routes h) ->
    hushes h h' -> Worth g h -> Worth g h'.
  Proof.
    intros I I' Lt Hl N. apply Worth_extend; [done..|]. intros r rc s cs Hr Hrc. apply lookup_lt_Some in Hrc. lia.
  Qed.

  (** moving start times of one route *)
  Lemma at_most_le x y l : x <= y -> at_most y l -> at_most x l.
  Proof. destruct l; cbn; [lia|done]. Qed.
  Lemma Worth_restart g h h' r v ids L L' : HInv h -> HInv h' -> hushes h h' ->
    (forall q c, h_routes h !! q = Some c -> exists c', h_routes h' !! q = Some c' /\ sk_route c' = sk_route c) ->
    length (h_routes h') = length (h_routes h) ->
    (forall s c, h_stops h !! s = Some c -> exists c', h_stops h' !! s = Some c' /\ st_pickups c' = st_pickups c) ->
    (forall p c, h_pts h !! p = Some c -> exists c', h_pts h' !! p = Some c' /\ sk_pt c' = sk_pt c) ->
    (forall r0 v0 ids0 L0, r0 <> r -> RouteOK h r0 v0 ids0 L0 -> RouteOK h' r0 v0 ids0 L0) ->
    RouteOK h r v ids L -> RouteOK h' r v ids L' -> map anytime L = map anytime L' ->
    (forall k, calm L' k -> take (S k) L' = take (S k) L) ->
    (forall k T T', timetable v L !! k = Some T -> timetable v L' !! k = Some T' -> tm_start T <= tm_start T') ->
    (forall p pc, p ∈ pts_of h' ids -> h_pts h' !! p = Some pc -> pt_feasible pc <> Some g) ->
    (forall rc, h_routes h' !! r = Some rc -> rt_feasible rc <> Some g) ->
    Worth g h -> Worth g h'.
  Proof.
    intros I I' (N1 & N2 & N3) HR Hl HS HP Hother R R' EL Hcalm Hlate Hpts Hflag F.
    assert (Hold : forall r rc, h_routes h' !! r = Some rc -> exists c, h_routes h !! r = Some c /\ rt_vehicle rc = rt_vehicle c /\ rt_stops rc = rt_stops c).
    { intros q rc Hrc. destruct (h_routes h !! q) as [c|] eqn:Hc.
      - destruct (HR q c Hc) as (c' & Hc' & E). rewrite Hrc in Hc'. injection Hc' as <-. apply sk_route_eq in E as [? ?]. eauto.
      - apply lookup_ge_None in Hc. apply lookup_lt_Some in Hrc. lia. }
    assert (Hr : forall rc, h_routes h' !! r = Some rc -> rt_vehicle rc = v /\ rt_stops rc = ids).
    { intros rc Hrc. destruct (rw_cell _ _ _ _ _ (proj1 R')) as (c & Hc & ? & ?). rewrite Hrc in Hc. by injection Hc as <-. }
    split.
    - intros q rc i s cs Hrc C Hi Hcs Hf. destruct (N1 s cs g Hcs Hf) as (cs0 & Hcs0 & Hf0).
      destruct (HInv_route _ _ _ I' Hrc) as (L2 & R2 & ->).
      destruct (decide (q = r)) as [->|Hne].
      + destruct (Hr rc Hrc) as [E1 E2]. rewrite E1, E2 in *.
        assert (L2 = L') as -> by (eapply RouteW_det; [apply R2|apply R']).
        assert (H : stop_worth g v L i) by (eapply Worth_stop; [exact F|apply RouteW_P, R|exact Hi|exact Hcs0|done]).
        destruct g; intros x' T' Hx' HT'; destruct (anytime_lookup _ _ _ _ EL Hx') as (x & Hx & Ea);
          destruct (timetable_some v L i x Hx) as [Tk HTk]; cbn in H; pose proof (anytime_load v L L' EL i Tk T' HTk HT') as El.
        -- destruct (H x Tk Hx HTk) as [H1 H2]. rewrite El in H1. split; [done|]. intros Cm.
           pose proof (Hcalm i Cm) as Et. eapply heeded_take; [symmetry; exact Et|exact H|done|done|done].
        -- intros O. apply (H x Tk Hx HTk). injection Ea as E3 E4 E5. pose proof (Hlate i Tk T' HTk HT') as Hle.
           pose proof (timetable_start_earliest v L i x Tk Hx HTk) as Hse. unfold on_time in *. rewrite E4, E5, El.
           destruct O as (O1 & O2 & O3). split; [|split; [|done]].
           ++ intros t Ht. destruct (O1 t Ht) as [_ O4]. split; [|by eapply at_most_le].
              assert (origin_earliest (w_trip t) <= visit_earliest x); [|unfold eb; lia].
              apply max_or_ge. rewrite E4. apply elem_of_app. left. by apply (elem_of_list_fmap_1 (fun t => origin_earliest (w_trip t))).
           ++ intros t Ht. destruct (O2 t Ht) as [_ O4]. split; [|by eapply at_most_le].
              assert (destination_earliest (w_trip t) <= visit_earliest x); [|unfold eb; lia].
              apply max_or_ge. rewrite E5. apply elem_of_app. right. by apply (elem_of_list_fmap_1 (fun t => destination_earliest (w_trip t))).
      + destruct (Hold q rc Hrc) as (c & Hc & E1 & E2). rewrite E1, E2 in *. destruct (proj1 I q c Hc) as [L0 R0].
        assert (L2 = L0) as -> by (eapply RouteW_det; [apply R2|eapply Hother; [done|exact R0]]).
        eapply Worth_stop; [exact F|apply RouteW_P, R0|exact Hi|exact Hcs0|done].
    - intros q rc i j s d cs p pc Hrc C Hi Hj Hcs Hp Hpc P1 P2 Hf.
      destruct (HInv_route _ _ _ I' Hrc) as (L2 & R2 & ->).
      destruct (decide (q = r)) as [->|Hne].
      + destruct (Hr rc Hrc) as [E1 E2]. rewrite E1, E2 in *. exfalso. eapply Hpts; [|exact Hpc|done].
        apply elem_of_pts_of. exists s, cs. split; [by eapply elem_of_list_lookup_2|done].
      + destruct (N2 p pc g Hpc Hf) as (pc0 & Hpc0 & Hf0). destruct (HP _ _ Hpc0) as (pc2 & Hpc2 & E).
        rewrite Hpc in Hpc2. injection Hpc2 as <-. apply sk_pt_eq in E as (_ & G2 & G3 & G4).
        destruct (Hold q rc Hrc) as (c & Hc & E1 & E2). rewrite E1, E2 in *. destruct (proj1 I q c Hc) as [L0 R0].
        assert (L2 = L0) as -> by (eapply RouteW_det; [apply R2|eapply Hother; [done|exact R0]]).
        destruct (RouteW_ids_alloc _ _ _ _ _ s (proj1 R0)) as [cs0 Hcs0]; [by eapply elem_of_list_lookup_2|].
        destruct (HS _ _ Hcs0) as (cs2 & Hcs2 & E5). rewrite Hcs in Hcs2. injection Hcs2 as <-. rewrite G2.
        eapply Worth_pt; [exact F|apply RouteW_P, R0|exact Hi|exact Hj|exact Hcs0| |exact Hpc0| | |done]; congruence.
    - intros q rc Hrc C Hf. destruct (decide (q = r)) as [->|Hne]; [by destruct (Hflag rc Hrc)|].
      destruct (N3 q rc g Hrc Hf) as (c & Hc & Hf0). destruct (Hold q rc Hrc) as (c1 & Hc1 & E1 & E2).
      rewrite Hc in Hc1. injection Hc1 as <-. destruct (HInv_route _ _ _ I' Hrc) as (L2 & R2 & ->).
      rewrite E1, E2 in *. destruct (proj1 I q c Hc) as [L0 R0].
      assert (L2 = L0) as -> by (eapply RouteW_det; [apply R2|eapply Hother; [done|exact R0]]).
      eapply Worth_route; [exact F|apply RouteW_P, R0|done|done].
  Qed.
End fair.

Section shift.
  Context {W : World}.

  (** a stop without predecessor can only be the first one *)
  Lemma first_only h r v ids L k s c :
    RouteP h r v ids L -> ids !! k = Some s -> h_stops h !! s = Some c -> st_previous c = None -> k = 0%nat.
  Proof.
    intros R Hk Hc Hp. destruct (RouteP_lookup _ _ _ _ _ _ _ R Hk) as (c' & x & Hc' & _ & _ & _ & _ & Pr & _).
    rewrite Hc in Hc'. injection Hc' as <-. rewrite Hp in Pr. symmetry in Pr.
    apply last_None in Pr. destruct k; [done|]. destruct ids; done.
  Qed.

  (** the state after moving the departure from the first stop [s0] *)
  Definition moved (s0 s1 : nat) (w : Z) (q : nat) (c : stop) : stop :=
    if decide (q = s0) then clear_caches (set_starting (Some w) c)
    else if decide (q = s1) then clear_caches c else c.

  Lemma later_moved h h' s0 s1 x0 x1 v w c0 :
    HInv h ->
    h_stops h !! s0 = Some c0 -> st_previous c0 = None -> s0 <> s1 ->
    Path h v [s1; s0] [x1; x0] ->
    vi_place x0 = v_origin_position v -> vi_board x0 = [] -> vi_alight x0 = [] ->
    w = tm_start (tm v x1 [x0]) - tm_arrival (tm v x1 [x0]) -> w <> 0 ->
    (exists r c, h_routes h !! r = Some c /\ rt_stops c !! 0%nat = Some s0 /\ rt_stops c !! 1%nat = Some s1) ->
    touch h h' (moved s0 s1 w) ->
    (forall r c, h_routes h !! r = Some c -> exists c', h_routes h' !! r = Some c' /\ sk_route c' = sk_route c) ->
    later h h'.
  Proof.
    intros [HI HS] Hc0 Hp0 Hne P01 HP HB HA Hw Hw0 (rr & cr & Hcr & Hr0 & Hr1) T HR.
    assert (HSt : forall q c, h_stops h !! q = Some c -> h_stops h' !! q = Some (moved s0 s1 w q c)).
    { intros q c Hq. rewrite (proj1 T q), Hq. done. }
    assert (Hpts : forall p c, h_pts h !! p = Some c -> exists c', h_pts h' !! p = Some c' /\ sk_pt c' = sk_pt c)
      by (intros; by eapply touch_pts).
    assert (Hpx : pts_ext h h') by (by apply pts_ext_sk).
    assert (Hlists : forall q c, st_pickups (moved s0 s1 w q c) = st_pickups c /\ st_deliveries (moved s0 s1 w q c) = st_deliveries c).
    { intros q c. unfold moved. repeat case_decide; done. }
    assert (Hother : forall q c, q <> s0 -> sk_stop (moved s0 s1 w q c) = sk_stop c /\ weaker (moved s0 s1 w q c) c).
    { intros q c Hq. unfold moved. rewrite decide_False by done. case_decide; [|split; [done|apply weaker_refl]].
      split; [done|]. repeat split; by left. }
    split; [|done| |done].
    2:{ intros s c Hs. exists (moved s0 s1 w s c). split; [by apply HSt|]. apply Hlists. }
    intros r v' ids L R. pose proof R as [RW Tr].
    destruct (decide (ids !! 0%nat = Some s0)) as [E0|E0].
    - (* a route that starts with the moved stop *)
      destruct (rw_cell _ _ _ _ _ RW) as (c & Hc & V & I).
      assert (E1 : ids !! 1%nat = Some s1).
      { rewrite <- Hr1, <- I. eapply HS; [exact Hc|exact Hcr| |exact Hr0]. by rewrite I. }
      destruct ids as [|a [|b X]]; [done..|]. cbn in E0, E1. injection E0 as ->. injection E1 as ->.
      pose proof (RouteW_length _ _ _ _ _ RW) as Hl. destruct L as [|y0 [|y1 Y]]; cbn in Hl; try lia.
      pose proof (rw_path _ _ _ _ _ RW) as P.
      rewrite !reverse_cons, <- !app_assoc in P. cbn [app] in P.
      assert (HlX : length (reverse X) = length (reverse Y)) by (rewrite !reverse_length; lia).
      assert (Py : Path h v' [s1; s0] [y1; y0]).
      { destruct (Path_app_inv _ _ _ _ _ P) as (A1 & A2 & EA & HlA & PA).
        apply app_inj_1 in EA as [<- <-]; [done|]. rewrite HlA. by rewrite <- HlX. }
      destruct (Path_det _ _ _ _ _ _ _ _ P01 Py) as (<- & _ & EA). injection EA as <- <-.
      exists (restart (Some w) x0 :: x1 :: Y). split; [|by apply similar_shift].
      assert (ET : map anytime (restart (Some w) x0 :: x1 :: Y) = map anytime (x0 :: x1 :: Y)) by done.
      destruct (HR r c Hc) as (c' & Hc' & E). apply sk_route_eq in E as [F1 F2].
      split; [|by eapply tour_same; [symmetry; exact ET|]].
      split; [exists c'; split; [done|split; congruence]| |by eapply rides_same; [symmetry; exact ET|apply RW]|].
      + rewrite !reverse_cons, <- !app_assoc. cbn [app].
        eapply Path_rebase; [exact P|done| |symmetry; by apply back_shift| |done].
        * destruct (Path_cons_inv _ _ _ _ _ _ P01) as (c1 & Hc1 & V1 & Pr1 & K1 & Ex1 & C1 & P0).
          destruct (Path_cons_inv _ _ _ _ _ _ P0) as (c0' & Hc0' & V0 & Pr0 & K0 & Ex0 & C0 & _).
          rewrite Hc0 in Hc0'. injection Hc0' as <-.
          assert (M1 : h_stops h' !! s1 = Some (clear_caches c1)).
          { rewrite (HSt _ _ Hc1). unfold moved. by rewrite decide_False, decide_True by done. }
          assert (M0 : h_stops h' !! s0 = Some (clear_caches (set_starting (Some w) c0))).
          { rewrite (HSt _ _ Hc0). unfold moved. by rewrite decide_True by done. }
          assert (A1 : x1 = abs h' (clear_caches c1)) by (rewrite Ex1; symmetry; by apply abs_grow).
          assert (A0 : restart (Some w) x0 = abs h' (clear_caches (set_starting (Some w) c0))).
          { rewrite Ex0. unfold abs, restart. cbn. f_equal; symmetry; apply map_trip_of_grow; try done;
              intros p Hp; apply K0; set_solver. }
          rewrite A1 at 1. rewrite A0 at 1.
          econstructor; [exact M1|done|done|by apply (known_grow h h' c1)|by repeat split|].
          econstructor; [exact M0|done|done| |by repeat split|constructor].
          intros p Hp. cbn in Hp. destruct (K0 p Hp) as [pc Hpc]. destruct (Hpts p pc Hpc) as (pc' & ? & _). eauto.
        * intros s d Hs Hd. exists (moved s0 s1 w s d). split; [by apply HSt|]. apply Hother.
          intros ->. rewrite elem_of_reverse in Hs. apply (RouteW_NoDup _ _ _ _ _) in RW.
          inversion RW as [|? ? Hn]. apply Hn. set_solver.
      + eapply Links_frame; [apply RW|intros; by eapply RouteW_ids_alloc| |].
        * intros s d _ Hd. exists (moved s0 s1 w s d). split; [by apply HSt|]. apply Hlists.
        * intros s d p pc _ _ _. apply Hpts.
    - (* the moved stop is not in this route *)
      exists L. split; [|done]. eapply RouteOK_frame; [exact R|apply HR| |done].
      intros s d Hs Hd. exists (moved s0 s1 w s d). split; [by apply HSt|]. apply Hother. intros ->.
      apply elem_of_list_lookup in Hs as [k Hk].
      pose proof (first_only _ _ _ _ _ _ _ _ (RouteW_P _ _ _ _ _ RW) Hk Hc0 Hp0). subst k. done.
  Qed.

  Lemma shift_departure_runs h r v ids L : HInv h -> RouteOK h r v ids L ->
    runs (shift_departure r) h (fun _ h' => later h h' /\ length (h_stops h') = length (h_stops h) /\
      length (h_pts h') = length (h_pts h) /\ length (h_routes h') = length (h_routes h)).
  Proof.
    intros HI R. pose proof R as [RW T].
    unfold shift_departure. step. eapply runs_route_stops; [exact RW|].
    destruct (tour_first _ _ T) as (x0 & rest & EL & Hrest & HP & HB & HA).
    destruct rest as [|x1 LX]; [done|]. clear Hrest.
    pose proof (RouteW_length _ _ _ _ _ RW) as Hl. rewrite EL in Hl.
    destruct ids as [|s0 [|s1 X]]; cbn in Hl; try lia.
    step. eapply runs_nth; [done|].
    assert (P01 : Path h v [s1; s0] [x1; x0]).
    { destruct (RouteW_lookup _ _ _ _ _ 1%nat s1 RW eq_refl) as (c1 & x & _ & Hx & _ & _ & _ & _ & P1).
      rewrite EL in Hx, P1. cbn in Hx. by injection Hx as <-. }
    eapply gives_seq; [by eapply waiting_time_gives|]. intros h1 Q1.
    destruct (Z.eqb_spec (tm_start (tm v x1 [x0]) - tm_arrival (tm v x1 [x0])) 0) as [Ew|Ew].
    { apply runs_ret. destruct Q1 as [(G & L1 & L2 & L3 & F1) _]. split; [by apply later_grow|]. done. }
    step. eapply runs_nth; [done|].
    pose proof (quiet_path _ _ _ _ _ Q1 P01) as P01'.
    eapply gives_seq; [by eapply waiting_time_gives|]. intros h2 Q2.
    pose proof (quiet_path _ _ _ _ _ Q2 P01') as P2.
    assert (Q : quiet h h2) by (eapply quiet_trans; eauto).
    pose proof Q as [(G & L1 & L2 & L3 & FQ) _].
    pose proof (RouteOK_soft _ _ _ _ _ _ (quiet_soft _ _ Q) R) as R2. pose proof R2 as [RW2 _].
    destruct (Path_cons_inv _ _ _ _ _ _ P2) as (c1 & Hc1 & V1 & Pr1 & K1 & Ex1 & C1 & P0).
    destruct (Path_cons_inv _ _ _ _ _ _ P0) as (c0 & Hc0 & V0 & Pr0 & K0 & Ex0 & C0 & _). cbn in Pr0.
    assert (Hne : s0 <> s1).
    { apply RouteW_NoDup in RW. inversion RW as [|? ? Hn]. set_solver. }
    set (w := tm_start (tm v x1 [x0]) - tm_arrival (tm v x1 [x0])) in *.
    set (h3 := with_stops (alter (set_starting (Some w)) s0) h2).
    unfold set_starting_time. step. step. apply runs_stop_upd. fold h3.
    assert (Hc0' : h_stops h3 !! s0 = Some (set_starting (Some w) c0)).
    { cbn. by rewrite list_lookup_alter, Hc0. }
    eapply runs_mono; [by eapply stop_flush_soft|]. intros ? h4 [S4 E4].
    assert (Hc4 : h_stops h4 !! s0 = Some (clear_caches (set_starting (Some w) c0))).
    { by rewrite E4, list_lookup_alter, Hc0'. }
    step. eapply runs_mono; [by eapply stop_flush_soft|]. intros ? h5 [S5 E5].
    assert (Hc5 : h_stops h5 !! s1 = Some c1).
    { rewrite E5, list_lookup_alter_ne, E4, list_lookup_alter_ne by done. cbn. by rewrite list_lookup_alter_ne by done. }
    eapply runs_mono; [by eapply stop_flush_soft|]. intros ? h6 [S6 E6].
    assert (S36 : soft h3 h6) by (eapply soft_trans; [exact S4|eapply soft_trans; eauto]).
    pose proof S36 as (G36 & M1 & M2 & M3 & _).
    split; [|cbn in M1, M2, M3; rewrite alter_length in M1; split; [lia|split; lia]].
    eapply later_trans; [apply later_grow; exact G|].
    eapply (later_moved h2 h6 s0 s1 x0 x1 v w); try done.
    - eapply HInv_later; [exact HI|by apply later_grow|done].
    - destruct (rw_cell _ _ _ _ _ RW2) as (c & Hc & _ & I). exists r, c. rewrite I. done.
    - split.
      + intros q. rewrite E6. destruct (decide (q = s1)) as [->|H1].
        * rewrite list_lookup_alter, Hc5, Hc1. cbn. unfold moved. by rewrite decide_False, decide_True by done.
        * rewrite list_lookup_alter_ne by done. rewrite E5. destruct (decide (q = s0)) as [->|H0].
          -- rewrite list_lookup_alter, Hc4, Hc0. cbn. unfold moved. by rewrite decide_True by done.
          -- rewrite list_lookup_alter_ne, E4, list_lookup_alter_ne by done. cbn. rewrite list_lookup_alter_ne by done.
             destruct (h_stops h2 !! q); [|done]. cbn. unfold moved. by rewrite !decide_False by done.
      + intros p. destruct (h_pts h2 !! p) as [pc|] eqn:Hp.
        * destruct (g_pts _ _ G36 p pc Hp) as (pc' & Hp' & E). rewrite Hp'. cbn. by rewrite E.
        * destruct (h_pts h6 !! p) eqn:Hp'; [|done]. apply lookup_lt_Some in Hp'. apply lookup_ge_None in Hp. cbn in M2. lia.
    - intros q c Hq. by apply (g_routes _ _ G36).
  Qed.
End shift.

Section delay.
  Context {W : World}.

  (** assigning the start of stop [s] and dropping the times from there on *)
  Lemma RouteP_restart h h' r v ids L i s x z :
    RouteP h r v ids L -> ids !! i = Some s -> L !! i = Some x ->
    (forall c, h_routes h !! r = Some c -> exists c', h_routes h' !! r = Some c' /\ sk_route c' = sk_route c) ->
    (forall q c, q ∈ ids -> q <> s -> h_stops h !! q = Some c ->
       exists c', h_stops h' !! q = Some c' /\ sk_stop c' = sk_stop c /\ weaker c' c) ->
    (forall c, h_stops h !! s = Some c -> exists c', h_stops h' !! s = Some c' /\ sk_stop c' = sk_stop (set_starting (Some z) c)) ->
    (forall q c', q ∈ drop i ids -> h_stops h' !! q = Some c' -> cleared c') ->
    (forall p c, h_pts h !! p = Some c -> exists c', h_pts h' !! p = Some c' /\ sk_pt c' = sk_pt c) ->
    RouteP h' r v ids (<[i := restart (Some z) x]> L).
  Proof.
    intros R Hs Hx HR Ho Hc Hcl Hp. pose proof R as [(c & Hrc & E1 & E2) P].
    pose proof (RouteP_NoDup _ _ _ _ _ R) as ND. pose proof (RouteP_length _ _ _ _ _ R) as Hl.
    destruct (HR c Hrc) as (c' & Hrc' & E). apply sk_route_eq in E as [F1 F2].
    split; [exists c'; split; [done|split; congruence]|].
    destruct (lookup_split _ _ _ Hs) as (X & Y & -> & HX). destruct (lookup_split _ _ _ Hx) as (A & B & -> & HA).
    rewrite insert_app_r_alt, HA, Nat.sub_diag by lia. cbn [insert list_insert].
    assert (HXA : length X = length A) by lia.
    pose proof (Path_chain _ _ _ _ P) as C. apply (chain_app h v None X (s :: Y) A (x :: B) HXA) in C as [CX CY].
    cbn [chain] in CY. destruct CY as [(cs & Hcs & Vs & Ps & Ks & Es) CY].
    destruct (Hc cs Hcs) as (cs' & Hcs' & Esk).
    assert (Hnd : s ∉ X /\ s ∉ Y).
    { apply NoDup_app in ND as (_ & H1 & H2). apply NoDup_cons in H2 as [H2 _]. split; [|done].
      intros Hin. apply (H1 s Hin). set_solver. }
    assert (Hpx : pts_ext h h') by (by apply pts_ext_sk).
    assert (CX' : chain h' v None X A).
    { eapply chain_frame; [exact CX| |done]. intros q d Hq Hd. destruct (Ho q d) as (d' & ? & ? & _); [set_solver|set_solver|done|]. eauto. }
    eapply chain_Path.
    - apply (chain_app h' v None X (s :: Y) A (restart (Some z) x :: B) HXA). split; [done|]. cbn [chain]. split.
      + exists cs'. apply sk_stop_eq in Esk as (G1 & G2 & G3 & G4 & G5 & G6). cbn in *.
        split; [done|]. split; [congruence|]. split; [congruence|]. split.
        * intros p Hpin. rewrite G3, G4 in Hpin. destruct (Ks p Hpin) as [pc Hpc]. destruct (Hp p pc Hpc) as (pc' & ? & _). eauto.
        * rewrite Es. unfold abs, restart. cbn. rewrite G2, G3, G4, G6.
          f_equal; symmetry; apply map_trip_of_grow; try done; intros p Hpin; apply Ks; set_solver.
      + eapply chain_frame; [exact CY| |done]. intros q d Hq Hd. destruct (Ho q d) as (d' & ? & ? & _); [set_solver|set_solver|done|]. eauto.
    - destruct (lookup_lt_is_Some_2 (X ++ s :: Y) i) as [q Hq]; [rewrite app_length; cbn; lia|].
      assert (PX : Path h v (reverse X) (reverse A)).
      { rewrite !reverse_app in P. destruct (Path_app_inv _ _ _ _ _ P) as (A1 & A2 & EA & HlA & PA).
        apply app_inj_1 in EA as [_ <-]; [done|]. rewrite HlA, !reverse_length. rewrite !app_length in Hl. cbn in *. lia. }
      eapply Path_frame; [exact PX| |done]. intros y d Hy Hd. rewrite elem_of_reverse in Hy. apply Ho; [set_solver|set_solver|done].
    - intros q d Hq Hd. eapply Hcl; [|exact Hd]. rewrite drop_app_alt by done. done.
  Qed.
  Lemma insert_anytime i z x (L : list visit) : L !! i = Some x ->
    map anytime (<[i := restart z x]> L) = map anytime L.
  Proof.
    intros Hx. rewrite list_fmap_insert. apply list_insert_id. by rewrite list_lookup_fmap, Hx.
  Qed.
  Lemma RouteOK_restart h h' r v ids L i s x z :
    RouteOK h r v ids L -> ids !! i = Some s -> L !! i = Some x ->
    (forall c, h_routes h !! r = Some c -> exists c', h_routes h' !! r = Some c' /\ sk_route c' = sk_route c) ->
    (forall q c, q ∈ ids -> q <> s -> h_stops h !! q = Some c ->
       exists c', h_stops h' !! q = Some c' /\ sk_stop c' = sk_stop c /\ weaker c' c) ->
    (forall c, h_stops h !! s = Some c -> exists c', h_stops h' !! s = Some c' /\ sk_stop c' = sk_stop (set_starting (Some z) c)) ->
    (forall q c', q ∈ drop i ids -> h_stops h' !! q = Some c' -> cleared c') ->
    (forall p c, h_pts h !! p = Some c -> exists c', h_pts h' !! p = Some c' /\ sk_pt c' = sk_pt c) ->
    RouteOK h' r v ids (<[i := restart (Some z) x]> L).
  Proof.
    intros [RW T] Hs Hx HR Ho Hc Hcl Hp.
    pose proof (RouteP_restart h h' r v ids L i s x z (RouteW_P _ _ _ _ _ RW) Hs Hx HR Ho Hc Hcl Hp) as R'.
    pose proof (insert_anytime i (Some z) x L Hx) as E. symmetry in E.
    split; [|by eapply tour_same].
    split; [apply R'|apply R'|by eapply rides_same; [|apply RW]|].
    eapply Links_frame; [apply RW|intros; by eapply RouteW_ids_alloc| |].
    - intros q d Hq Hd. destruct (decide (q = s)) as [->|Hne].
      + destruct (Hc d Hd) as (d' & Hd' & G). apply sk_stop_eq in G as (_ & _ & ? & ? & _). eauto.
      + destruct (Ho q d Hq Hne Hd) as (d' & Hd' & G & _). apply sk_stop_eq in G as (_ & _ & ? & ? & _). eauto.
    - intros q d p pc _ _ _. apply Hp.
  Qed.

  Lemma set_starting_time_runs h s z c : h_stops h !! s = Some c ->
    runs (set_starting_time s z) h (fun _ h' =>
      h_stops h' = alter clear_caches s (alter (set_starting (Some z)) s (h_stops h)) /\
      h_routes h' = h_routes h /\ h_tick h' = h_tick h /\
      (forall p, sk_pt <$> h_pts h' !! p = sk_pt <$> h_pts h !! p)).
  Proof.
    intros Hc. unfold set_starting_time, stop_flush. step. apply runs_stop_upd. step. apply runs_stop_upd.
    step. eapply runs_stop_get; [cbn; by rewrite !list_lookup_alter, Hc|].
    eapply runs_mono; [apply iter_pt_flush|]. intros ? h' (E1 & E2 & E3 & E4). done.
  Qed.

  Lemma max_from_in {A K} (lt : K -> K -> bool) l : forall (b : K * A), max_from lt b l = b \/ max_from lt b l ∈ l.
  Proof.
    induction l as [|x l IH]; intros b; [by left|]. cbn. destruct (lt b.1 x.1).
    - destruct (IH x) as [->|H]; right; set_solver.
    - destruct (IH b) as [->|H]; [by left|right; set_solver].
  Qed.
  Lemma max_keyed_in {A K} (lt : K -> K -> bool) (ks : list K) (l : list A) a :
    max_keyed lt (zip ks l) = Some a -> a ∈ l.
  Proof.
    unfold max_keyed. destruct (zip ks l) as [|x m] eqn:E; [done|]. intros [= <-].
    assert (H : max_from lt x m ∈ zip ks l).
    { rewrite E. destruct (max_from_in lt m x) as [->|H]; set_solver. }
    apply elem_of_list_lookup in H as [i Hi]. destruct (max_from lt x m) as [k a] eqn:Em. cbn.
    apply lookup_zip_with_Some in Hi as (k' & a' & [= -> ->] & _ & Ha). by eapply elem_of_list_lookup_2.
  Qed.

  Lemma runs_set_order h l (Q : list nat -> heap -> Prop) :
    (forall l', l' ≡ₚ l -> Q l' (MkHeap (h_stops h) (h_pts h) (h_routes h) (S (h_tick h)))) -> runs (set_order l) h Q.
  Proof. intros HQ. unfold set_order. step. apply runs_ret. apply HQ. apply w_shuffle_perm. Qed.

  Lemma longest_ride_runs h r v ids L i s c :
    RouteOK h r v ids L -> ids !! i = Some s -> h_stops h !! s = Some c ->
    runs (longest_ride (st_pickups c)) h (fun o h' => quiet h h' /\
      match o with None => True | Some p => p ∈ st_pickups c end).
  Proof.
    intros R Hi Hc. unfold longest_ride. step. apply runs_set_order. intros l Hl. step.
    set (h1 := MkHeap _ _ _ _). assert (Q1 : quiet h h1) by (split; [apply soft_tick|done]).
    eapply runs_mono; [apply (runs_mapM _ (fun h' => quiet h h') (fun _ _ => True)); [done|]|].
    - intros p h2 Hp Q2. pose proof (RouteOK_soft _ _ _ _ _ _ (quiet_soft _ _ Q2) R) as [RW2 _].
      destruct (pts_of_Ride h2 r v ids L p RW2) as (t & a & b & s1 & d1 & HRd & Hr).
      { apply elem_of_pts_of. destruct (g_stops _ _ (proj1 (quiet_soft _ _ Q2)) _ _ Hc) as (c' & Hc' & E).
        apply sk_stop_eq in E as (_ & _ & E & _). exists s, c'. split; [by eapply elem_of_list_lookup_2|]. split; [done|].
        rewrite E. by rewrite <- Hl. }
      destruct Hr as (x & y & Hx & Hy & _).
      destruct (timetable_some v L a x Hx) as [Ta HTa]. destruct (timetable_some v L b y Hy) as [Tb HTb].
      eapply gives_det_runs; [by eapply pt_duration_gives|]. intros h3 Q3. split; [eapply quiet_trans; eauto|done].
    - intros ks h2 [Q2 _]. apply runs_ret. split; [done|].
      destruct (max_keyed _ _) eqn:E; [|done]. apply max_keyed_in in E. by rewrite <- Hl.
  Qed.

  (** what is left as it was when start times of the stops [drop lo ids] move *)
  Record moves (v lo : nat) (ids : list nat) (h h' : heap) (L L' : list visit) : Prop := {
    mv_cells : forall q c, h_routes h !! q = Some c -> exists c', h_routes h' !! q = Some c' /\ sk_route c' = sk_route c;
    mv_stops : forall s c, h_stops h !! s = Some c -> exists c', h_stops h' !! s = Some c' /\ st_pickups c' = st_pickups c;
    mv_pts : forall p c, h_pts h !! p = Some c -> exists c', h_pts h' !! p = Some c' /\ sk_pt c' = sk_pt c;
    mv_other : forall r0 v0 ids0 L0, RouteOK h r0 v0 ids0 L0 -> (forall q, q ∈ ids0 -> q ∉ drop lo ids) -> RouteOK h' r0 v0 ids0 L0;
    mv_calm : (0 < lo)%nat -> forall k, calm L' k -> take (S k) L' = take (S k) L;
    mv_len : length L' = length L;
    mv_late : forall k T T', timetable v L !! k = Some T -> timetable v L' !! k = Some T' -> tm_start T <= tm_start T';
    mv_same : limitless -> timetable v L' = timetable v L
  }.
  Lemma moves_soft v lo ids h h' L : soft h h' -> moves v lo ids h h' L L.
  Proof.
    intros S. pose proof S as [G _]. split; [apply G| |apply G| |done|done|intros k T T' HT HT'; rewrite HT in HT'; injection HT' as <-; lia|done].
    - intros s c Hc. destruct (g_stops _ _ G _ _ Hc) as (c' & Hc' & E). apply sk_stop_eq in E as (_ & _ & ? & _). eauto.
    - intros r0 v0 ids0 L0 R _. by eapply RouteOK_soft.
  Qed.
  Lemma calm_take xs ys k : take (S k) xs = take (S k) ys -> calm xs k -> calm ys k.
  Proof.
    intros E C i x Hi Hx. apply (C i); [done|]. rewrite <- (lookup_take xs (S k)), E, lookup_take by lia. done.
  Qed.
  Lemma moves_trans v lo ids h1 h2 h3 L1 L2 L3 : moves v lo ids h1 h2 L1 L2 -> moves v lo ids h2 h3 L2 L3 -> moves v lo ids h1 h3 L1 L3.
  Proof.
    intros A B. split.
    - intros r c Hc. destruct (mv_cells _ _ _ _ _ _ _ A _ _ Hc) as (c1 & H1 & E1). destruct (mv_cells _ _ _ _ _ _ _ B _ _ H1) as (c2 & H2 & E2).
      exists c2. split; [done|congruence].
    - intros r c Hc. destruct (mv_stops _ _ _ _ _ _ _ A _ _ Hc) as (c1 & H1 & E1). destruct (mv_stops _ _ _ _ _ _ _ B _ _ H1) as (c2 & H2 & E2).
      exists c2. split; [done|congruence].
    - intros r c Hc. destruct (mv_pts _ _ _ _ _ _ _ A _ _ Hc) as (c1 & H1 & E1). destruct (mv_pts _ _ _ _ _ _ _ B _ _ H1) as (c2 & H2 & E2).
      exists c2. split; [done|congruence].
    - intros r0 v0 ids0 L0 R Hq. eapply (mv_other _ _ _ _ _ _ _ B); [|done]. by eapply (mv_other _ _ _ _ _ _ _ A).
    - intros Hlo k C. pose proof (mv_calm _ _ _ _ _ _ _ B Hlo k C) as E. rewrite E. apply (mv_calm _ _ _ _ _ _ _ A Hlo).
      by eapply calm_take.
    - rewrite (mv_len _ _ _ _ _ _ _ B). apply A.
    - intros k T T3 HT HT3. destruct (lookup_lt_is_Some_2 (timetable v L2) k) as [T2 HT2].
      { apply lookup_lt_Some in HT. unfold timetable in *. rewrite schedule_length in *. by rewrite (mv_len _ _ _ _ _ _ _ A). }
      etransitivity; [by eapply (mv_late _ _ _ _ _ _ _ A)|by eapply (mv_late _ _ _ _ _ _ _ B)].
    - intros Hl. rewrite (mv_same _ _ _ _ _ _ _ B Hl). by apply (mv_same _ _ _ _ _ _ _ A).
  Qed.
  Lemma moves_le v lo lo' ids h h' L L' : (lo <= lo')%nat -> moves v lo' ids h h' L L' -> moves v lo ids h h' L L'.
  Proof.
    intros Hle [A B C D E F G G']. split; [done|done|done| |intros ?; apply E; lia|done|done|done].
    intros r0 v0 ids0 L0 R Hq. apply D; [done|]. intros q Hin Hd. apply (Hq q Hin).
    apply elem_of_drop in Hd as (k & Hk & Hl). apply elem_of_drop. exists k. split; [lia|done].
  Qed.
  Lemma insert_calm (L : list visit) i x z k : L !! i = Some x -> (0 < i)%nat ->
    calm (<[i := restart (Some z) x]> L) k -> take (S k) (<[i := restart (Some z) x]> L) = take (S k) L.
  Proof.
    intros Hx Hi C. destruct (decide (i <= k)%nat) as [Hk|Hk].
    - specialize (C i (restart (Some z) x) (conj Hi Hk)). rewrite list_lookup_insert in C by (by eapply lookup_lt_Some). by specialize (C eq_refl).
    - rewrite take_insert by lia. done.
  Qed.

  Lemma schedule_later L : forall l l' k T T', leg_time l <= leg_time l' -> leg_place l = leg_place l' ->
    schedule l L !! k = Some T -> schedule l' L !! k = Some T' -> tm_start T <= tm_start T'.
  Proof.
    induction L as [|x L IH]; intros [[n p] w] [[n' p'] w'] k T T' Hl Hp HT HT'; [done|]. cbn in Hl, Hp. subst p'.
    destruct k as [|k]; cbn in HT, HT'.
    - injection HT as <-. injection HT' as <-. cbn. destruct (vi_request x); cbn; lia.
    - eapply IH; [| |exact HT|exact HT']; cbn; [|done]. destruct (vi_request x); cbn; lia.
  Qed.
  Lemma schedule_restart L : forall l i x z k S T T', L !! i = Some x -> schedule l L !! i = Some S -> tm_start S <= z ->
    schedule l L !! k = Some T -> schedule l (<[i := restart (Some z) x]> L) !! k = Some T' -> tm_start T <= tm_start T'.
  Proof.
    induction L as [|y L IH]; intros l i x z k S T T' Hx HS Hz HT HT'; [done|]. destruct i as [|i].
    - cbn in Hx, HS, HT'. injection Hx as ->. injection HS as <-. destruct l as [[n p] w]. cbn in Hz, HT, HT'. destruct k as [|k]; cbn in HT, HT'.
      + injection HT as <-. injection HT' as <-. cbn. lia.
      + eapply schedule_later; [| |exact HT|exact HT']; cbn; [|done]. unfold visit_earliest, visit_duration in *. cbn. lia.
    - cbn in Hx, HS, HT'. destruct k as [|k]; cbn in HT, HT'.
      + injection HT as <-. injection HT' as <-. lia.
      + by eapply (IH _ i x z k S).
  Qed.
  Lemma schedule_restart_same L : forall l i x S, L !! i = Some x -> schedule l L !! i = Some S ->
    schedule l (<[i := restart (Some (tm_start S)) x]> L) = schedule l L.
  Proof.
    induction L as [|y L IH]; intros l i x S Hx HS; [done|]. destruct i as [|i].
    - cbn in Hx, HS. injection Hx as ->. injection HS as <-. destruct l as [[n p] w].
      assert (E : advance (n, p, w) (restart (Some (tm_start (advance (n, p, w) x))) x) = advance (n, p, w) x); [|cbn [insert list_insert schedule]; by rewrite E].
      cbn. unfold visit_earliest, visit_duration. cbn. f_equal; lia.
    - cbn in Hx, HS. cbn. f_equal. by apply IH.
  Qed.
  Lemma max_sub_lim_nonneg d l : 0 <= max_sub_lim d l 0.
  Proof. destruct l; cbn; lia. Qed.

  Lemma delay_stop_runs h r v ids L i :
    RouteOK h r v ids L -> (i < length ids)%nat ->
    runs (delay_stop r i) h (fun _ h' => (exists L', RouteOK h' r v ids L' /\ map anytime L' = map anytime L /\ moves v i ids h h' L L') /\
      length (h_stops h') = length (h_stops h) /\ length (h_pts h') = length (h_pts h) /\
      length (h_routes h') = length (h_routes h) /\
      (forall h0, later h0 h -> (forall q, q ∈ drop i ids -> (length (h_stops h0) <= q)%nat) -> later h0 h')).
  Proof.
    intros R Hi. pose proof R as [RW T]. unfold delay_stop.
    step. eapply runs_route_stops; [exact RW|].
    destruct (lookup_lt_is_Some_2 ids i Hi) as [s Hs]. step. eapply runs_nth; [exact Hs|].
    destruct (RouteW_lookup _ _ _ _ _ _ _ RW Hs) as (c & x & Hc & Hx & _).
    step. eapply runs_stop_get; [exact Hc|].
    step. eapply runs_mono; [by eapply longest_ride_runs|]. intros o h1 [Q1 Ho].
    destruct o as [p|].
    2:{ apply runs_ret. pose proof (quiet_soft _ _ Q1) as S1. split.
        - exists L. split; [by eapply RouteOK_soft|]. split; [done|by apply moves_soft].
        - destruct S1 as (G & L1 & L2 & L3 & _). split; [done|]. split; [done|]. split; [done|]. intros h0 Lt _. eapply later_trans; [done|by apply later_grow]. }
    pose proof (RouteOK_soft _ _ _ _ _ _ (quiet_soft _ _ Q1) R) as [RW1 _].
    destruct (stop_times _ _ _ _ _ _ _ RW1 Hs) as (x' & Tm & Hx' & HTm & _ & Hst & _).
    eapply gives_seq; [exact Hst|]. intros h2 Q2.
    assert (Q12 : quiet h h2) by (eapply quiet_trans; eauto).
    pose proof (RouteOK_soft _ _ _ _ _ _ (quiet_soft _ _ Q12) R) as [RW2 _].
    destruct (g_stops _ _ (proj1 (quiet_soft _ _ Q12)) _ _ Hc) as (c2 & Hc2 & E2).
    destruct (pts_of_Ride h2 r v ids L p RW2) as (t & a & b & s1 & d1 & HRd & Hr).
    { apply elem_of_pts_of. apply sk_stop_eq in E2 as (_ & _ & E & _). exists s, c2.
      split; [by eapply elem_of_list_lookup_2|]. split; [done|]. by rewrite E. }
    pose proof HRd as (pc & Hpc & _).
    destruct Hr as (xa & xb & Hxa & Hxb & _).
    destruct (timetable_some v L a xa Hxa) as [Ta HTa]. destruct (timetable_some v L b xb Hxb) as [Tb HTb].
    eapply gives_seq; [by eapply pt_duration_gives|]. intros h3 Q3.
    assert (Q13 : quiet h h3) by (eapply quiet_trans; eauto).
    destruct (g_pts _ _ (proj1 (quiet_soft _ _ Q3)) _ _ Hpc) as (pc3 & Hpc3 & _).
    step. eapply runs_pt_get; [exact Hpc3|].
    destruct (g_stops _ _ (proj1 (quiet_soft _ _ Q13)) _ _ Hc) as (c3 & Hc3 & E3).
    set (z := tm_start Tm + _).
    pose proof (RouteOK_soft _ _ _ _ _ _ (quiet_soft _ _ Q13) R) as R3. pose proof R3 as [RW3 _].
    step. eapply runs_mono; [by eapply set_starting_time_runs|]. intros ? h4 (E4 & ER4 & _ & EP4).
    destruct (rw_cell _ _ _ _ _ RW3) as (rc & Hrc & V & I).
    step. unfold route_stops. step. eapply runs_route_get; [rewrite ER4; exact Hrc|]. apply runs_ret. rewrite I.
    assert (Hal : forall q, is_Some (h_stops h4 !! q) <-> is_Some (h_stops h3 !! q)).
    { intros q. rewrite !lookup_lt_is_Some, E4, !alter_length. done. }
    eapply runs_mono; [apply iter_stop_flush|].
    { intros q Hq. apply Hal. eapply RouteW_ids_alloc; [exact RW3|]. apply elem_of_drop in Hq as (k & _ & Hk).
      by eapply elem_of_list_lookup_2. }
    intros ? h5 ([TS TP] & ER5 & _).
    assert (HP : forall q d, h_pts h3 !! q = Some d -> exists d', h_pts h5 !! q = Some d' /\ sk_pt d' = sk_pt d).
    { intros q d Hd. pose proof (TP q) as E5. rewrite EP4, Hd in E5. destruct (h_pts h5 !! q) as [d'|]; [|done].
      cbn in E5. exists d'. split; [done|]. by apply (inj Some). }
    assert (HO : forall q d, q <> s -> h_stops h3 !! q = Some d -> exists d', h_stops h5 !! q = Some d' /\ sk_stop d' = sk_stop d /\ weaker d' d).
    { intros q d Hne Hd. rewrite TS, E4, !list_lookup_alter_ne, Hd by done. cbn. eexists. split; [done|].
      split; [apply clear_if_sk|apply clear_if_weaker]. }
    assert (Hin : s ∈ drop i ids) by (apply elem_of_drop; eauto).
    assert (HSs : h_stops h5 !! s = Some (clear_caches (clear_caches (set_starting (Some z) c3)))).
    { rewrite TS, E4, !list_lookup_alter, Hc3. cbn. unfold clear_if. by rewrite bool_decide_eq_true_2. }
    split; [|split; [|split; [|split]]].
    - exists (<[i := restart (Some z) x]> L). split; [|split; [by apply insert_anytime|]].
      2:{ eapply moves_trans; [apply (moves_soft v i ids h h3 L), quiet_soft; done|]. split; [|  |done| | | | |].
          - intros q d Hd. exists d. by rewrite ER5, ER4.
          - intros q d Hd. destruct (decide (q = s)) as [->|Hq].
            + rewrite Hc3 in Hd. injection Hd as <-. eexists. split; [exact HSs|done].
            + destruct (HO q d Hq Hd) as (d' & Hd' & E & _). apply sk_stop_eq in E as (_ & _ & ? & _). eauto.
          - intros r0 v0 ids0 L0 R0 Hq. eapply RouteOK_frame; [exact R0| | |done].
            + intros d Hd. exists d. by rewrite ER5, ER4.
            + intros q d Hin0 Hd. apply HO; [|done]. intros ->. by apply (Hq s Hin0).
          - intros Hlo k. by apply insert_calm.
          - by rewrite insert_length.
          - intros k Tk Tk' HTk HTk'. eapply (schedule_restart L _ i x z k Tm); [exact Hx|exact HTm| |exact HTk|exact HTk'].
            unfold z. pose proof (max_sub_lim_nonneg (tm_start Tb - tm_departure Ta) (tr_timeout (w_trip (pt_trip pc3)))). lia.
          - intros Hl. unfold z. rewrite Hl. cbn [max_sub_lim]. rewrite Z.add_0_r. by apply schedule_restart_same. }
      eapply (RouteOK_restart h3 h5); [exact R3|exact Hs|exact Hx| | | | |done].
      + intros d Hd. exists d. by rewrite ER5, ER4.
      + intros q d _ Hne Hd. by apply HO.
      + intros d Hd. rewrite Hc3 in Hd. injection Hd as <-. eexists. split; [exact HSs|done].
      + intros q d' Hq Hd'. rewrite TS in Hd'. destruct (h_stops h4 !! q) as [d|]; [|done]. cbn in Hd'. injection Hd' as <-.
        by apply clear_if_in.
    - pose proof (quiet_soft _ _ Q13) as (_ & L1 & _ & _).
      pose proof (touch_len h4 h5 _ (conj TS TP)) as [L4 _]. rewrite L4, E4, !alter_length. done.
    - pose proof (quiet_soft _ _ Q13) as (_ & _ & L2 & _).
      pose proof (touch_len h4 h5 _ (conj TS TP)) as [_ L4]. rewrite L4.
      assert (H : length (h_pts h4) = length (h_pts h3)); [|lia].
      pose proof (list_eq (sk_pt <$> h_pts h4) (sk_pt <$> h_pts h3)) as E.
      rewrite <- (fmap_length sk_pt (h_pts h4)), <- (fmap_length sk_pt (h_pts h3)), E; [done|].
      intros q. by rewrite !list_lookup_fmap.
    - pose proof (quiet_soft _ _ Q13) as (_ & _ & _ & L3 & _). by rewrite ER5, ER4.
    - intros h0 Lt Hq. eapply (later_frame h0 h3 h5); [by eapply later_soft; [|apply quiet_soft]| |done|].
      + intros q d Hlt Hd. apply HO; [|done]. intros ->. specialize (Hq s Hin). lia.
      + intros q d _ Hd. exists d. by rewrite ER5, ER4.
  Qed.

  Lemma delay_loop_runs r v ids lo n : forall h L,
    RouteOK h r v ids L -> (n <= length ids)%nat ->
    runs (delay_loop r lo n) h (fun _ h' => (exists L', RouteOK h' r v ids L' /\ map anytime L' = map anytime L /\ moves v lo ids h h' L L') /\
      length (h_stops h') = length (h_stops h) /\ length (h_pts h') = length (h_pts h) /\
      length (h_routes h') = length (h_routes h) /\
      (forall h0, later h0 h -> (forall q, q ∈ drop lo ids -> (length (h_stops h0) <= q)%nat) -> later h0 h')).
  Proof.
    induction n as [|i IH]; intros h L R Hn; cbn [delay_loop].
    { apply runs_ret. split; [exists L; split; [done|split; [done|apply moves_soft, soft_refl]]|done]. }
    destruct (Nat.ltb_spec i lo) as [Hlo|Hlo].
    { apply runs_ret. split; [exists L; split; [done|split; [done|apply moves_soft, soft_refl]]|done]. }
    step. eapply runs_mono; [eapply delay_stop_runs; [exact R|lia]|].
    intros ? h1 ((L1 & R1 & E1 & M1) & A1 & A2 & A3 & A4).
    eapply runs_mono; [apply IH; [exact R1|lia]|].
    intros ? h2 ((L2 & R2 & E2 & M2) & B1 & B2 & B3 & B4).
    split; [exists L2; split; [done|split; [congruence|eapply moves_trans; [eapply moves_le; [exact Hlo|exact M1]|exact M2]]]|]. split; [congruence|]. split; [congruence|]. split; [congruence|].
    intros h0 Lt Hq. apply B4; [|done]. apply A4; [done|]. intros q Hin. apply Hq.
    apply elem_of_drop in Hin as (k & Hk & Hl). apply elem_of_drop. exists k. split; [lia|done].
  Qed.
End delay.

Section flush.
  Context {W : World}.

  Lemma iter_pt_flush_all l : forall h,
    runs (iterM pt_flush l) h (fun _ h' => h_stops h' = h_stops h /\ h_routes h' = h_routes h /\ h_tick h' = h_tick h /\
      (forall p, h_pts h' !! p = (fun c => if bool_decide (p ∈ l) then cache_pt_feasible None c else c) <$> h_pts h !! p)).
  Proof.
    induction l as [|q l IH]; intros h; cbn.
    { apply runs_ret. split; [done|]. split; [done|]. split; [done|]. intros p. by destruct (h_pts h !! p). }
    step. apply runs_pt_upd. eapply runs_mono; [apply IH|]. intros ? h' (E1 & E2 & E3 & E4).
    split; [done|]. split; [done|]. split; [done|]. intros p. rewrite E4. cbn.
    destruct (decide (p = q)) as [->|Hne].
    - rewrite list_lookup_alter. destruct (h_pts h !! q); [|done]. cbn. f_equal.
      rewrite (bool_decide_eq_true_2 (q ∈ q :: l)) by set_solver. by case_bool_decide.
    - rewrite list_lookup_alter_ne by done. destruct (h_pts h !! p); [|done]. cbn. f_equal.
      destruct (decide (p ∈ l)).
      + by rewrite !bool_decide_eq_true_2 by set_solver.
      + by rewrite !bool_decide_eq_false_2 by set_solver.
  Qed.

  Lemma route_flush_plain h r ids : (exists c, h_routes h !! r = Some c /\ rt_stops c = ids) ->
    (forall s, s ∈ ids -> is_Some (h_stops h !! s)) ->
    runs (route_flush r) h (fun _ h' => soft h h' /\
      (forall q, h_stops h' !! q = clear_if ids q <$> h_stops h !! q) /\
      (forall p c, p ∈ pts_of h ids -> h_pts h' !! p = Some c -> pt_feasible c = None) /\
      (forall c, h_routes h' !! r = Some c -> rt_feasible c = None)).
  Proof.
    intros (rc & Hrc & I) Hal.
    enough (Hraw : runs (route_flush r) h (fun _ h' => (grow h h' /\ length (h_stops h') = length (h_stops h) /\
        length (h_pts h') = length (h_pts h) /\ length (h_routes h') = length (h_routes h)) /\
      (forall q, h_stops h' !! q = clear_if ids q <$> h_stops h !! q) /\
      (forall p c, p ∈ pts_of h ids -> h_pts h' !! p = Some c -> pt_feasible c = None) /\
      (forall c, h_routes h' !! r = Some c -> rt_feasible c = None))).
    { eapply runs_mono; [eapply runs_hush; [apply hush_route_flush|exact Hraw]|].
      intros ? h' [((? & ? & ? & ?) & ?) N]. split; [by apply soft_intro|done]. }
    unfold route_flush. step. apply runs_route_upd.
    set (h1 := with_routes _ h).
    assert (Hrc1 : h_routes h1 !! r = Some (cache_route_feasible None rc)) by (cbn; by rewrite list_lookup_alter, Hrc).
    step. unfold route_stops. step. eapply runs_route_get; [exact Hrc1|]. apply runs_ret. cbn [rt_stops cache_route_feasible]. rewrite I.
    step. eapply runs_mono; [apply (iter_stop_flush ids h1)|].
    { intros s Hs. by apply Hal. }
    intros ? h2 ([TS TP] & ER2 & ET2).
    unfold planned_trips, route_stops. step. step. step. eapply runs_route_get; [rewrite ER2; exact Hrc1|].
    apply runs_ret. cbn [rt_stops cache_route_feasible]. rewrite I.
    assert (HM : runs (mapM (fun s => let! c := stop_get s in ret (st_pickups c)) ids) h2
       (fun l h' => h' = h2 /\ concat l = pts_of h ids)).
    { assert (Hall : forall s, s ∈ ids -> exists c, h_stops h2 !! s = Some c /\ exists d, h_stops h !! s = Some d /\ st_pickups c = st_pickups d).
      { intros s Hs. destruct (Hal s Hs) as [d Hd]. rewrite TS. cbn. rewrite Hd. cbn.
        eexists. split; [done|]. exists d. split; [done|]. unfold clear_if. by case_bool_decide. }
      clear -Hall. induction ids as [|s ids IH]; cbn; [by apply runs_ret|].
      destruct (Hall s) as (c & Hc & d & Hd & E); [set_solver|].
      step. step. eapply runs_stop_get; [exact Hc|]. apply runs_ret. step.
      eapply runs_mono; [apply IH; intros q Hq; apply Hall; set_solver|]. intros l h' [-> El]. apply runs_ret.
      split; [done|]. unfold pts_of. cbn. rewrite Hd, E. by f_equal. }
    step. eapply runs_mono; [exact HM|]. intros l h3 [-> El]. apply runs_ret. rewrite El.
    eapply runs_mono; [apply iter_pt_flush_all|]. intros ? h4 (E1 & E2 & E3 & E4).
    assert (HSt : forall q, h_stops h4 !! q = clear_if ids q <$> h_stops h !! q) by (intros q; by rewrite E1, TS).
    split; [|split; [done|split]].
    - split.
      + apply grow_intro.
        * intros s c Hc. rewrite HSt, Hc. cbn. eexists. split; [done|]. split; [apply clear_if_sk|apply clear_if_weaker].
        * intros p c Hc. rewrite E4. pose proof (TP p) as E. cbn in E. rewrite Hc in E.
          destruct (h_pts h2 !! p) as [d|]; [|done]. cbn. eexists. split; [done|].
          cbn in E. apply (inj Some) in E. rewrite <- E. by case_bool_decide.
        * intros q c Hc. rewrite E2, ER2. cbn. destruct (decide (q = r)) as [->|Hne].
          -- rewrite list_lookup_alter, Hc. cbn. eauto.
          -- rewrite list_lookup_alter_ne by done. eauto.
      + rewrite E1, E2, ER2. pose proof (touch_len h1 h2 _ (conj TS TP)) as [L1 L2]. cbn in L1, L2.
        split; [done|]. split; [|cbn; by rewrite alter_length].
        rewrite <- L2.
        assert (E : cache_pt_feasible None <$> h_pts h4 = cache_pt_feasible None <$> h_pts h2).
        { apply list_eq. intros q. rewrite !list_lookup_fmap, E4. destruct (h_pts h2 !! q); [|done]. cbn. by case_bool_decide. }
        apply (f_equal length) in E. by rewrite !fmap_length in E.
    - intros p c Hp Hc. rewrite E4, bool_decide_eq_true_2 in Hc by done.
      destruct (h_pts h2 !! p); [|done]. cbn in Hc. by injection Hc as <-.
    - intros c Hc. rewrite E2, ER2, Hrc1 in Hc. by injection Hc as <-.
  Qed.
  Lemma route_flush_runs h r v ids L : RouteP h r v ids L ->
    runs (route_flush r) h (fun _ h' => soft h h' /\
      (forall q, h_stops h' !! q = clear_if ids q <$> h_stops h !! q) /\
      (forall p c, p ∈ pts_of h ids -> h_pts h' !! p = Some c -> pt_feasible c = None) /\
      (forall c, h_routes h' !! r = Some c -> rt_feasible c = None)).
  Proof.
    intros R. pose proof R as [(rc & Hrc & V & I) P]. apply route_flush_plain; [eauto|].
    intros s Hs. by eapply RouteP_alloc.
  Qed.
End flush.

Section compute_one.
  Context {W : World}.

  Lemma RouteW_nonempty h r v ids L : RouteOK h r v ids L -> ids <> [].
  Proof.
    intros [RW T] ->. apply RouteW_length in RW. apply tour_length in T. cbn in RW. lia.
  Qed.

  Lemma HInv_moves h h' r v ids L L' lo : HInv h -> moves v lo ids h h' L L' -> length (h_routes h') = length (h_routes h) ->
    RouteOK h' r v ids L' ->
    (forall r0 v0 ids0 L0 q, r0 <> r -> RouteOK h r0 v0 ids0 L0 -> q ∈ ids0 -> q ∉ drop lo ids) -> HInv h'.
  Proof.
    intros [HI HS] Mv Hl R' Hd.
    assert (Hback : forall q c', h_routes h' !! q = Some c' -> exists c, h_routes h !! q = Some c /\ rt_vehicle c' = rt_vehicle c /\ rt_stops c' = rt_stops c).
    { intros q c' Hc'. destruct (h_routes h !! q) as [c|] eqn:Hc.
      - destruct (mv_cells _ _ _ _ _ _ _ Mv _ _ Hc) as (c2 & H2 & E). rewrite Hc' in H2. injection H2 as <-.
        apply sk_route_eq in E as [? ?]. eauto.
      - apply lookup_ge_None in Hc. apply lookup_lt_Some in Hc'. lia. }
    split.
    - intros q c' Hc'. destruct (decide (q = r)) as [->|Hne].
      + destruct (rw_cell _ _ _ _ _ (proj1 R')) as (c & Hc & E1 & E2). rewrite Hc' in Hc. injection Hc as <-.
        rewrite E1, E2. eauto.
      + destruct (Hback q c' Hc') as (c & Hc & -> & ->). destruct (HI q c Hc) as [L0 R0]. exists L0.
        eapply (mv_other _ _ _ _ _ _ _ Mv); [done|]. intros s Hs. by eapply Hd.
    - intros r1 r2 c1 c2 s H1 H2. destruct (Hback _ _ H1) as (d1 & D1 & _ & ->). destruct (Hback _ _ H2) as (d2 & D2 & _ & ->).
      by eapply HS.
  Qed.
  Lemma pts_of_kept h h' ids p : (forall s, s ∈ ids -> is_Some (h_stops h !! s)) ->
    (forall s c, h_stops h !! s = Some c -> exists c', h_stops h' !! s = Some c' /\ st_pickups c' = st_pickups c) ->
    p ∈ pts_of h' ids -> p ∈ pts_of h ids.
  Proof.
    intros Hal HS (s & c' & Hs & Hc' & Hp)%elem_of_pts_of. destruct (Hal s Hs) as [c Hc].
    destruct (HS s c Hc) as (c2 & Hc2 & E). rewrite Hc' in Hc2. injection Hc2 as <-. apply elem_of_pts_of. exists s, c. by rewrite <- E.
  Qed.

  Lemma okb_anytime v x y T : anytime x = anytime y -> stop_okb v x T = stop_okb v y T.
  Proof. destruct x, y. by intros [= -> -> ->]. Qed.
  (** feasibility depends on the times, not on how they were requested *)
  Lemma okb_same v L L' : map anytime L = map anytime L' -> timetable v L = timetable v L' -> route_okb v L -> route_okb v L'.
  Proof.
    intros E Et (x0 & xn & T0 & Tn & H1 & H2 & H3 & H4 & H5 & H6 & H7 & H8 & H9).
    assert (Hin : forall k y, L' !! k = Some y -> exists x, L !! k = Some x /\ anytime x = anytime y).
    { intros k y Hy. by apply (anytime_lookup L L'). }
    assert (Hh : exists y0, head L' = Some y0 /\ anytime y0 = anytime x0).
    { destruct L as [|a L], L' as [|b L']; try done. injection H1 as ->. cbn in E. injection E as E1 E2 E3 _. exists b. split; [done|]. destruct x0, b. cbn in *. by subst. }
    assert (Hl : exists yn, last L' = Some yn /\ anytime yn = anytime xn).
    { assert (El : last (map anytime L) = last (map anytime L')) by by rewrite E. rewrite !fmap_last, H2 in El. cbn in El.
      destruct (last L') as [yn|]; [|done]. injection El as E1 E2 E3. exists yn. split; [done|]. destruct xn, yn. cbn in *. by subst. }
    destruct Hh as (y0 & Hy0 & E0). destruct Hl as (yn & Hyn & En). exists y0, yn, T0, Tn. rewrite <- Et.
    split; [done|]. split; [done|]. split; [done|]. split; [done|].
    split; [destruct x0, y0; injection E0 as -> -> ->; done|]. split; [destruct xn, yn; injection En as -> -> ->; done|].
    split; [done|]. split; [done|].
    intros t i j x y Ti Tj (x' & y' & Hx & Hy & Hb & Ha) Hx2 Hy2 HTi HTj. rewrite Hx in Hx2. rewrite Hy in Hy2. injection Hx2 as <-. injection Hy2 as <-.
    destruct (Hin i x' Hx) as (u & Hu & Eu). destruct (Hin j y' Hy) as (w & Hw & Ew). rewrite <- Et in HTi, HTj.
    assert (Hr : ride L t i j). { exists u, w. split; [done|]. split; [done|]. destruct u, x', w, y'. injection Eu as -> -> ->. injection Ew as -> -> ->. done. }
    pose proof (H9 t i j u w Ti Tj Hr Hu Hw HTi HTj) as H. unfold ride_okb in *. by rewrite <- (okb_anytime v u x'), <- (okb_anytime v w y').
  Qed.

  Lemma improve_ride_times_runs h r v ids L idx :
    sane_durations -> sane_capacities -> HInv h -> RouteOK h r v ids L ->
    runs (improve_ride_times r idx) h (fun _ h' =>
      (exists L', RouteOK h' r v ids L' /\ map anytime L' = map anytime L /\
        ((forall r0 v0 ids0 L0 q, r0 <> r -> RouteOK h r0 v0 ids0 L0 -> q ∈ ids0 -> q ∉ drop (Nat.max idx 1) ids) ->
         (forall g, Worth g h -> Worth g h') /\
         (Fair h -> (forall c, h_routes h !! r = Some c -> rt_feasible c <> Some true) ->
           forall c, h_routes h' !! r = Some c -> rt_feasible c = Some true -> brief v L') /\
         (limitless -> Fair h -> Worth false h -> (forall c, h_routes h !! r = Some c -> rt_feasible c <> Some false) -> calm L (length L) ->
           forall c, h_routes h' !! r = Some c -> rt_feasible c = Some true -> similar v L L')) /\
        (Worth false h -> (forall c, h_routes h !! r = Some c -> rt_feasible c <> Some false) ->
           (forall L1, tour v L1 -> similar v L L1 -> route_okb v L1) ->
           similar v L L' /\ forall c, h_routes h' !! r = Some c -> rt_feasible c = Some true)) /\
      (exists c b, h_routes h' !! r = Some c /\ rt_feasible c = Some b) /\
      length (h_stops h') = length (h_stops h) /\ length (h_pts h') = length (h_pts h) /\
      length (h_routes h') = length (h_routes h) /\
      (forall h0, later h0 h -> (forall q, q ∈ drop (Nat.max idx 1) ids -> (length (h_stops h0) <= q)%nat) -> later h0 h')).
  Proof.
    intros SD SC HI R. unfold improve_ride_times.
    step. eapply runs_mono; [eapply runs_hush; [apply hush_shift_departure|by eapply shift_departure_runs]|].
    intros ? h1 ((Lt1 & A1 & A2 & A3) & N1).
    destruct (lt_routes _ _ Lt1 _ _ _ _ R) as (L1 & R1 & Sim1).
    pose proof (RouteW_nonempty _ _ _ _ _ R) as Hne.
    assert (HI1 : HInv h1) by by eapply HInv_later.
    assert (F01 : forall g, Worth g h -> Worth g h1) by (intros g; by apply Worth_grow_only).
    assert (Hflag1 : forall g, (forall c, h_routes h !! r = Some c -> rt_feasible c <> Some g) -> forall c, h_routes h1 !! r = Some c -> rt_feasible c <> Some g).
    { intros g Hf c Hc E. destruct N1 as (_ & _ & N1). destruct (N1 r c g Hc E) as (c0 & Hc0 & E0). by apply (Hf c0). }
    step. eapply runs_mono; [eapply route_feasible_runs; [done|done|apply R1|done]|]. intros b h2 (S2 & _ & Nb & Rb & Ob).
    pose proof (RouteOK_soft _ _ _ _ _ _ S2 R1) as R2. pose proof S2 as (_ & B1 & B2 & B3 & F12).
    destruct b.
    { apply runs_ret. split; [exists L1; split; [done|split; [symmetry; apply Sim1|]]|].
      - split; [|by split].
        intros _. split; [auto|]. split; [|done]. intros F Hf _ _ _. apply Nb; [auto|done|auto].
      - split; [destruct (rw_cell _ _ _ _ _ (proj1 R2)) as (c & Hc & _); exists c, true; eauto|].
        split; [lia|]. split; [lia|]. split; [lia|]. intros h0 Lt _.
        eapply later_soft; [|exact S2]. by eapply later_trans. }
    step. eapply runs_route_stops; [apply R2|].
    step. eapply runs_mono; [eapply runs_hush; [apply hush_delay_loop|eapply (delay_loop_runs r v ids); [exact R2|done]]|].
    intros ? h3 (((L3 & R3 & E3 & M3) & C1 & C2 & C3 & C4) & N3).
    step. eapply runs_mono; [eapply runs_hush; [apply hush_route_flush|eapply route_flush_runs; apply RouteW_P, R3]|].
    intros ? h4 ((S4 & _ & P4 & Q4) & N4).
    pose proof (RouteOK_soft _ _ _ _ _ _ S4 R3) as R4. pose proof S4 as (_ & D1 & D2 & D3 & _).
    step. eapply runs_mono; [eapply route_feasible_runs; [done|done|apply R4|done]|]. intros b h5 (S5 & Fl5 & Nb5 & Rb5 & _).
    pose proof (RouteOK_soft _ _ _ _ _ _ S5 R4) as R5. pose proof S5 as (_ & F1 & F2 & F3 & F45).
    apply runs_ret. split; [exists L3; split; [done|split; [rewrite E3; symmetry; apply Sim1|]]|].
    - split; [|intros F Hf Hok; by destruct (Ob (F01 _ F) (Hflag1 _ Hf) eq_refl (Hok L1 (proj2 R1) Sim1))].
      intros Hd. set (lo := Nat.max idx 1) in *.
      assert (HI2 : HInv h2) by (eapply HInv_later; [exact HI1|by apply later_grow, S2|lia]).
      assert (M4 : moves v lo ids h2 h4 L1 L3) by (eapply moves_trans; [exact M3|by apply moves_soft]).
      assert (Hd2 : forall r0 v0 ids0 L0 q, r0 <> r -> RouteOK h2 r0 v0 ids0 L0 -> q ∈ ids0 -> q ∉ drop lo ids).
      { intros r0 v0 ids0 L0 q H0 R0. destruct (rw_cell _ _ _ _ _ (proj1 R0)) as (c2 & Hc2 & <- & <-).
        assert (Hc0 : exists c0, h_routes h !! r0 = Some c0) by (apply lookup_lt_is_Some; apply lookup_lt_Some in Hc2; lia).
        destruct Hc0 as [c0 Hc0]. destruct (proj1 HI r0 c0 Hc0) as [L00 R00].
        destruct (lt_cells _ _ (later_soft _ _ _ Lt1 S2) _ _ Hc0) as (c2' & Hc2' & E). rewrite Hc2 in Hc2'. injection Hc2' as <-.
        apply sk_route_eq in E as [_ ->]. by eapply Hd. }
      assert (HI4 : HInv h4) by (eapply (HInv_moves h2 h4); [done|exact M4|lia|exact R4|exact Hd2]).
      assert (Fair4 : forall g, Worth g h -> Worth g h4).
      { intros g F. assert (Worth g h2) as Fair2 by auto. eapply (Worth_restart g h2 h4 r v ids L1 L3); try done.
        - eapply hushes_trans; eauto.
        - apply (mv_cells _ _ _ _ _ _ _ M4).
        - lia.
        - apply (mv_stops _ _ _ _ _ _ _ M4).
        - apply (mv_pts _ _ _ _ _ _ _ M4).
        - intros r0 v0 ids0 L0 H0 R0. eapply (mv_other _ _ _ _ _ _ _ M4); [done|]. intros q Hq. by eapply Hd2.
        - apply (mv_calm _ _ _ _ _ _ _ M4). unfold lo. lia.
        - apply (mv_late _ _ _ _ _ _ _ M4).
        - intros p pc Hp Hpc. rewrite (P4 p pc); [done| |done].
          eapply (pts_of_kept h3 h4); [intros s Hs; by eapply RouteW_ids_alloc; [apply R3|]| |exact Hp].
          apply (mv_stops _ _ _ _ _ _ _ (moves_soft v lo ids h3 h4 L3 S4)).
        - intros rc Hrc. by rewrite (Q4 rc Hrc). }
      split; [auto|]. split.
      { intros F Hf c Hc Hfc. rewrite (Rb5 c Hc) in Hfc. injection Hfc as ->.
        apply Nb5; [auto|done|]. intros c4 Hc4. by rewrite (Q4 c4 Hc4). }
      (* without limits the delays change no time, so that the answer stays [False] *)
      intros Hl Ft Ff Hf Hc c Hrc Hfc. exfalso. rewrite (Rb5 c Hrc) in Hfc. injection Hfc as ->.
      assert (Et : timetable v L3 = timetable v L1) by by apply (mv_same _ _ _ _ _ _ _ M4).
      apply (Ob (F01 _ Ff) (Hflag1 _ Hf) eq_refl). apply (okb_same v L3 L1 E3 Et). apply Fl5; [|apply Q4|done].
      assert (Hc1 : calm L1 (length L)) by by eapply similar_calm; [apply similar_sym|].
      assert (Hlen : length L1 = length L) by (by rewrite <- (map_length anytime L1), <- (map_length anytime L), (proj1 Sim1)).
      split.
      + intros i s x c' T g Hi Hx HT Hc' Hg. destruct (hushes_trans _ _ _ N3 N4) as (K1 & _). destruct (K1 s c' g Hc' Hg) as (c2 & Hc2 & Hg2).
        assert (Wh : Worth g h2) by (destruct g; auto).
        assert (Wg : stop_worth g v L1 i) by (eapply Worth_stop; [exact Wh|apply RouteW_P; exact (proj1 R2)|exact Hi|exact Hc2|exact Hg2]).
        destruct (anytime_lookup L1 L3 i x (eq_sym E3) Hx) as (x1 & Hx1 & Ex). rewrite Et in HT.
        rewrite (okb_anytime v x x1 T) by done. symmetry. destruct g.
        * apply not_false_is_true. intros Hno. apply (stop_okb_late v L1 i x1 T Hx1 HT) in Hno. apply (Hno x1 T Hx1 HT).
          apply (Wg x1 T Hx1 HT). intros k y Hk. apply Hc1. apply lookup_lt_Some in Hx1. lia.
        * apply not_true_is_false. intros Hyes. apply (Wg x1 T Hx1 HT). by apply stop_okb_on_time.
      + intros p pc i j s d x y Ti Tj g Hpc Hpk _ _ Hi _ _ _ _ _ Hg. rewrite (P4 p pc) in Hg; [done| |done].
        destruct Hpk as (cs & Hcs & Hin).
        eapply (pts_of_kept h3 h4); [intros q Hq; by eapply RouteW_ids_alloc; [apply R3|]| |].
        * apply (mv_stops _ _ _ _ _ _ _ (moves_soft v lo ids h3 h4 L3 S4)).
        * apply elem_of_pts_of. exists s, cs. split; [by eapply elem_of_list_lookup_2|done].
    - split; [destruct (rw_cell _ _ _ _ _ (proj1 R5)) as (c & Hc & _); exists c, b; eauto|].
      split; [lia|]. split; [lia|]. split; [lia|]. intros h0 Lt Hq.
      eapply later_soft; [|exact S5]. eapply later_soft; [|exact S4]. apply C4; [|done].
      eapply later_soft; [|exact S2]. by eapply later_trans.
  Qed.

  Lemma weave_drop {A} (l : list A) i j p d k x : (i < j)%nat -> (j <= length l)%nat -> (k <= S i)%nat ->
    x ∈ drop k (weave i j p d l) -> x = p \/ x = d \/ x ∈ drop k l.
  Proof.
    intros Hij Hj Hk Hx. destruct (weave_split l i j Hij Hj) as (X & Y & Z & E & HX & HXY & HW).
    rewrite HW in Hx. rewrite drop_app_le in Hx by lia. rewrite E, drop_app_le by lia. set_solver.
  Qed.

  Lemma calm_elem (L : list visit) : calm L (length L) <-> forall x, x ∈ drop 1 L -> vi_request x = None.
  Proof.
    split.
    - intros C x Hx. apply elem_of_drop in Hx as (k & Hk & Hx). apply (C k); [|done]. apply lookup_lt_Some in Hx. lia.
    - intros H k x [Hk _] Hx. apply H, elem_of_drop. exists k. split; [lia|done].
  Qed.
  Lemma serve_calm t i j (L : list visit) : (i < j < length L)%nat -> calm L (length L) -> calm (serve t i j L) (length (serve t i j L)).
  Proof.
    intros Hij C. rewrite calm_elem in *. intros x Hx.
    apply (weave_drop L i j (pick_up t) (drop_off t) 1) in Hx as [->|[->|Hx]]; [done|done|auto|lia|lia|lia].
  Qed.

  Lemma compute_one_runs h r v ids L t pi fi :
    sane_durations -> sane_capacities -> HInv h -> RouteOK h r v ids L ->
    t ∉ boards L -> (pi < fi < length L)%nat ->
    runs (compute_one r t pi fi) h (fun r' h' =>
      later h h' /\ HInv h' /\ r' = length (h_routes h) /\ length (h_routes h') = S (length (h_routes h)) /\
      exists ids' L', RouteOK h' r' v ids' L' /\ map anytime L' = map anytime (serve t pi fi L) /\
        (forall g, Worth g h -> Worth g h') /\
        (Fair h -> forall c, h_routes h' !! r' = Some c -> rt_feasible c = Some true -> brief v L') /\
        (limitless -> Fair h -> Worth false h -> calm L (length L) ->
           forall c, h_routes h' !! r' = Some c -> rt_feasible c = Some true -> similar v (serve t pi fi L) L') /\
        (exists c b, h_routes h' !! r' = Some c /\ rt_feasible c = Some b) /\
        (Worth false h -> (forall L1, tour v L1 -> similar v (serve t pi fi L) L1 -> route_okb v L1) ->
           similar v (serve t pi fi L) L' /\ forall c, h_routes h' !! r' = Some c -> rt_feasible c = Some true)).
  Proof.
    intros SD SC HI R Ht Hpf. pose proof R as [RW T].
    pose proof (RouteW_length _ _ _ _ _ RW) as Hlen.
    unfold compute_one. step. eapply runs_mono; [eapply runs_hush; [apply hush_cloner_clone|by eapply cloner_clone_runs]|].
    intros [r' th] h1 [C Nc]. cbn [fst snd] in C.
    pose proof (Cloned_grow _ _ _ _ _ _ _ _ C) as G1.
    pose proof (cl_route _ _ _ _ _ _ _ _ C) as Er'. pose proof (cl_th _ _ _ _ _ _ _ _ C) as Hth.
    pose proof (cl_cut _ _ _ _ _ _ _ _ C) as Hcut. pose proof (cl_ok _ _ _ _ _ _ _ _ C) as R1.
    set (cids := clone_ids h th ids) in *.
    assert (Hcl : length cids = length ids) by (by apply clone_ids_length).
    assert (Hrc : h_routes h1 !! r' = Some (MkRoute v cids None)).
    { rewrite (cl_routes _ _ _ _ _ _ _ _ C), Er', lookup_app_r, Nat.sub_diag by done. done. }
    destruct (lookup_lt_is_Some_2 cids pi) as [prev Hprev]; [lia|].
    destruct (cl_stops _ _ _ _ _ _ _ _ C) as (N & EN & HlN & HfN).
    (* pickup *)
    step. unfold build_pickup. step. eapply runs_route_get; [exact Hrc|]. cbn [rt_stops rt_vehicle].
    step. eapply runs_nth; [exact Hprev|].
    set (ck0 := MkStop v (origin_position (w_trip t)) [] [] (Some prev) None None None None None).
    set (pk := length (h_stops h1)).
    change (new_stop v (origin_position (w_trip t)) (Some prev) None) with (alloc_stop ck0).
    set (h2 := with_stops (fun l => l ++ [ck0]) h1).
    change (runs (alloc_stop ck0) h1 ?Q) with (Q pk h2). cbv beta.
    (* delivery *)
    step. unfold build_delivery. step. eapply runs_route_get; [exact Hrc|]. cbn [rt_stops rt_vehicle].
    assert (Hdprev : exists dprev, (if decide (S pi = fi) then Some pk else cids !! (fi - 1)%nat) = Some dprev /\
       runs (if (pi + 1 =? fi)%nat then ret pk else py_nth cids (fi - 1)) h2 (fun x h' => x = dprev /\ h' = h2)).
    { destruct (decide (S pi = fi)) as [E|E].
      - exists pk. split; [done|]. replace (pi + 1 =? fi)%nat with true by (symmetry; apply Nat.eqb_eq; lia). by apply runs_ret.
      - destruct (lookup_lt_is_Some_2 cids (fi - 1)) as [q Hq]; [lia|]. exists q. split; [done|].
        replace (pi + 1 =? fi)%nat with false by (symmetry; apply Nat.eqb_neq; lia). by eapply runs_nth. }
    destruct Hdprev as (dprev & Hdprev & Hrun).
    step. eapply runs_mono; [exact Hrun|]. intros ? ? [-> ->].
    set (cd0 := MkStop v (destination_position (w_trip t)) [] [] (Some dprev) None None None None None).
    change (new_stop v (destination_position (w_trip t)) (Some dprev) None) with (alloc_stop cd0).
    set (dl := length (h_stops h2)).
    set (h3 := with_stops (fun l => l ++ [cd0]) h2).
    change (runs (alloc_stop cd0) h2 ?Q) with (Q dl h3). cbv beta.
    (* planned trip *)
    step. eapply runs_route_get; [exact Hrc|]. cbn [rt_vehicle].
    set (p := length (h_pts h1)).
    set (pc := MkPtrip v t (Some pk) (Some dl) None).
    assert (Hst3 : h_stops h3 = h_stops h1 ++ [ck0; cd0]) by (cbn; by rewrite <- app_assoc).
    set (ck := set_pickups [p] ck0). set (cd := set_deliveries [p] cd0).
    set (h5 := MkHeap (h_stops h1 ++ [ck; cd]) (h_pts h1 ++ [pc]) (h_routes h1) (h_tick h1)).
    assert (Hdl : dl = S pk) by (unfold dl, pk; cbn; rewrite app_length; cbn; lia).
    assert (Hnew : runs (new_planned_trip v t (Some pk) (Some dl)) h3 (fun x h' => x = p /\ h' = h5)).
    { unfold new_planned_trip. step.
      set (h4 := with_pts (fun l => l ++ [pc]) h3). change (runs (alloc_pt pc) h3 ?Q) with (Q p h4). cbv beta.
      assert (Hpc4 : h_pts h4 !! p = Some pc) by (cbn; by rewrite lookup_app_r, Nat.sub_diag by done).
      assert (Hpk4 : h_stops h4 !! pk = Some ck0).
      { change (h_stops h4) with (h_stops h3). rewrite Hst3, lookup_app_r by done. by rewrite Nat.sub_diag. }
      assert (Hdl4 : h_stops h4 !! dl = Some cd0).
      { change (h_stops h4) with (h_stops h3). rewrite Hst3, Hdl, lookup_app_r by (unfold pk; lia).
        by replace (S pk - length (h_stops h1))%nat with 1%nat by (unfold pk; lia). }
      assert (Hdl4' : alter (fun c => set_pickups (set_add p (st_pickups c)) c) pk (h_stops h4) !! dl = Some cd0)
        by (rewrite list_lookup_alter_ne by lia; exact Hdl4).
      step. unfold append_pickup. step. eapply runs_stop_get; [exact Hpk4|]. step. eapply runs_pt_get; [exact Hpc4|].
      step. apply runs_assert; [by apply bool_decide_eq_true_2|]. apply runs_stop_upd.
      step. unfold append_delivery. step. eapply (runs_stop_get _ _ cd0); [exact Hdl4'|].
      step. eapply runs_pt_get; [exact Hpc4|].
      step. apply runs_assert; [by apply bool_decide_eq_true_2|]. apply runs_stop_upd. apply runs_ret.
      split; [done|]. unfold h5, with_stops. f_equal. cbn [h_stops].
      change (h_stops (with_pts _ h3)) with (h_stops h3). rewrite Hst3, Hdl. unfold pk.
      rewrite (alter_app_r_alt _ _ _ (length _)), Nat.sub_diag by lia.
      rewrite (alter_app_r_alt _ _ _ (S (length _))) by lia.
      replace (S (length (h_stops h1)) - length (h_stops h1))%nat with 1%nat by lia. done. }
    step. eapply runs_mono; [exact Hnew|]. intros ? ? [-> ->].
    assert (G5 : grow h1 h5).
    { apply grow_intro.
      - intros s c Hc. exists c. split; [by apply lookup_app_l_Some|]. split; [done|apply weaker_refl].
      - intros q c Hc. exists c. split; [by apply lookup_app_l_Some|done].
      - intros q c Hc. by exists c. }
    pose proof (RouteOK_grow _ _ _ _ _ _ G5 R1) as R5.
    assert (Hpk5 : h_stops h5 !! pk = Some ck) by (cbn; by rewrite lookup_app_r, Nat.sub_diag by done).
    assert (Hdl5 : h_stops h5 !! dl = Some cd).
    { rewrite Hdl. cbn. rewrite lookup_app_r by (unfold pk; lia).
      by replace (S pk - length (h_stops h1))%nat with 1%nat by (unfold pk; lia). }
    assert (Hold : forall s, s ∈ cids -> (s < pk)%nat).
    { intros s Hs. destruct R1 as [RW1 _]. destruct (RouteW_ids_alloc _ _ _ _ _ _ RW1 Hs) as [c Hc]. by eapply lookup_lt_Some. }
    step. eapply runs_mono.
    { eapply runs_hush; [apply hush_append_planned_trip|]. eapply (append_planned_trip_runs h5 r' v cids L p pc t pk dl ck cd pi fi R5); try done.
      - cbn. by rewrite lookup_app_r, Nat.sub_diag by done.
      - intros Hin. apply Hold in Hin. lia.
      - intros Hin. apply Hold in Hin. lia.
      - lia.
      - lia. }
    intros ? h6 ((R6 & EA & M1 & M2 & M3 & MG & MP) & N6).
    set (ids6 := weave pi fi pk dl cids) in *. set (L6 := weave pi fi (abs h5 ck) (abs h5 cd) L) in *.
    assert (Hns : (length (h_stops h) <= pk)%nat) by (unfold pk; rewrite EN, app_length; lia).
    assert (Hfresh : forall k q, (th <= k)%nat -> cids !! k = Some q -> (length (h_stops h) <= q)%nat).
    { intros k q Hk Hq. pose proof (lookup_lt_Some _ _ _ Hq) as Hlt.
      replace k with (th + (k - th))%nat in Hq by lia. unfold cids in Hq. rewrite clone_ids_new in Hq by lia.
      injection Hq as <-. lia. }
    assert (G6 : grow h h6).
    { apply MG; [by eapply grow_trans| |].
      - intros q Hq. apply elem_of_drop in Hq as (k & Hk & Hq). eapply (Hfresh k); [|exact Hq]. lia.
      - by rewrite Er'. }
    assert (Hroutes : length (h_routes h6) = S (length (h_routes h))).
    { rewrite M3. cbn. rewrite (cl_routes _ _ _ _ _ _ _ _ C), app_length. cbn. lia. }
    assert (Hhead : forall s, ids6 !! 0%nat = Some s -> (length (h_stops h) <= s)%nat \/
       exists q c, h_routes h !! q = Some c /\ rt_stops c !! 0%nat = Some s /\ rt_stops c !! 1%nat = ids6 !! 1%nat).
    { intros s Hs. unfold ids6 in Hs |- *. rewrite weave_lookup_before in Hs by lia.
      destruct Hcut as [Hz|Hcut].
      - left. eapply (Hfresh 0%nat); [lia|done].
      - right. destruct (rw_cell _ _ _ _ _ RW) as (c & Hc & _ & I). exists r, c. split; [done|].
        rewrite I, weave_lookup_before by lia. unfold cids in Hs |- *. rewrite clone_ids_old in Hs |- * by lia. done. }
    assert (HI6 : HInv h6) by (eapply (HInv_extend h h6 r' v ids6 L6); [done|by apply later_grow|done|done|done|done]).
    step. eapply runs_mono; [by eapply (improve_ride_times_runs h6 r' v ids6 L6 th)|].
    intros ? h7 ((L7 & R7 & E7 & F7 & O7) & Known & N1 & N2 & N3 & N4). apply runs_ret.
    assert (Lt : later h h7).
    { apply N4; [by apply later_grow|]. intros q Hq.
      assert (Hq' : q = pk \/ q = dl \/ q ∈ drop (Nat.max th 1) cids) by (eapply weave_drop; [| | |exact Hq]; lia).
      destruct Hq' as [->|[->|Hq']]; [done|lia|]. apply elem_of_drop in Hq' as (k & Hk & Hq').
      eapply (Hfresh k); [lia|done]. }
    split; [done|]. split; [|split; [done|split; [lia|]]].
    - eapply (HInv_extend h h7 r' v ids6 L7); [done|done|lia|done|done|done].
    - exists ids6, L7. split; [done|]. split; [by rewrite E7|].
      assert (N15 : hushes h1 h5).
      { split; [|split]; cbn.
        - intros q c g Hc Hf. apply lookup_app_Some in Hc as [Hc|[_ Hc]]; [eauto|].
          destruct (q - length (h_stops h1))%nat as [|[|?]]; cbn in Hc; try done; by injection Hc as <-.
        - intros q c g Hc Hf. apply lookup_app_Some in Hc as [Hc|[_ Hc]]; [eauto|].
          destruct (q - length (h_pts h1))%nat as [|?]; cbn in Hc; try done; by injection Hc as <-.
        - eauto. }
      assert (N06 : hushes h h6) by (eapply hushes_trans; [exact Nc|eapply hushes_trans; [exact N15|exact N6]]).
      assert (Hsrc : forall q, q ∈ ids6 -> (q < length (h_stops h))%nat -> q ∈ ids).
      { intros q Hq Hlt. unfold ids6 in Hq. apply weave_drop with (k := 0%nat) in Hq; [|lia|lia|lia].
        destruct Hq as [->|[->|Hq]]; [lia|lia|]. cbn in Hq. apply (clone_ids_elem h th ids q Hth) in Hq as [(k & _ & Hk)|(k & _ & ->)]; [|lia].
        by eapply elem_of_list_lookup_2. }
      assert (Hdel : forall r0 v0 ids0 L0 q, r0 <> r' -> RouteOK h6 r0 v0 ids0 L0 -> q ∈ ids0 -> (q < length (h_stops h))%nat).
      { intros r0 v0 ids0 L0 q H0 R0 Hq. destruct (rw_cell _ _ _ _ _ (proj1 R0)) as (c6 & Hc6 & _ & <-).
        assert (Hc0 : exists c0, h_routes h !! r0 = Some c0) by (apply lookup_lt_is_Some; apply lookup_lt_Some in Hc6; lia).
        destruct Hc0 as [c0 Hc0]. destruct (proj1 HI r0 c0 Hc0) as [L00 R00].
        destruct (g_routes _ _ G6 _ _ Hc0) as (c6' & Hc6' & E). rewrite Hc6 in Hc6'. injection Hc6' as <-.
        apply sk_route_eq in E as [_ E]. rewrite E in Hq.
        destruct (RouteW_ids_alloc _ _ _ _ _ _ (proj1 R00) Hq) as [d Hd]. by eapply lookup_lt_Some. }
      assert (W06 : forall g, Worth g h -> Worth g h6).
      { intros g F. eapply (Worth_extend g h h6); [done|done|by apply later_grow|done| |done].
        intros r0 rc s cs Hr0 Hrc6 Hs Hcs Hcase.
        assert (r0 = r') as -> by (apply lookup_lt_Some in Hrc6; lia).
        assert (Hs6 : s ∈ ids6).
        { destruct (rw_cell _ _ _ _ _ (proj1 R6)) as (c6 & Hc6 & _ & E). rewrite Hrc6 in Hc6. injection Hc6 as <-. by rewrite <- E. }
        assert (Hlt : (s < length (h_stops h))%nat).
        { destruct N06 as (K1 & K2 & _). destruct Hcase as [Hf|(q & qc & Hq & Hqc & Hf)].
          - destruct (K1 s cs g Hcs Hf) as (c & Hc & _). by eapply lookup_lt_Some.
          - destruct (K2 q qc g Hqc Hf) as (qc0 & Hqc0 & _). apply lookup_lt_Some in Hqc0.
            destruct (decide (s < length (h_stops h))%nat) as [|Hge]; [done|exfalso].
            assert (Hs5 : exists c5, h_stops h5 !! s = Some c5) by (apply lookup_lt_is_Some; apply lookup_lt_Some in Hcs; lia).
            destruct Hs5 as [c5 Hc5]. destruct (MP s c5 Hc5) as (c6 & Hc6 & E & _). rewrite Hcs in Hc6. injection Hc6 as <-.
            rewrite E in Hq. cbn in Hc5. apply lookup_app_Some in Hc5 as [Hc5|[Hge2 Hc5]].
            + rewrite EN in Hc5. apply lookup_app_Some in Hc5 as [Hc5|[_ Hc5]]; [apply lookup_lt_Some in Hc5; lia|].
              rewrite Forall_lookup in HfN. destruct (HfN _ _ Hc5) as (_ & _ & HN). specialize (HN q). rewrite elem_of_app in HN. specialize (HN (or_introl Hq)). lia.
            + assert (Hp0 : (length (h_pts h) <= p)%nat).
              { unfold p. destruct (decide (length (h_pts h1) < length (h_pts h))%nat) as [Hn|]; [|lia].
                destruct (lookup_lt_is_Some_2 _ _ Hn) as [pc0 Hpc0]. apply (cl_pts _ _ _ _ _ _ _ _ C) in Hpc0. apply lookup_lt_Some in Hpc0. lia. }
              destruct (s - length (h_stops h1))%nat as [|[|?]]; cbn in Hc5; try done; injection Hc5 as <-; cbn in Hq;
                [apply elem_of_list_singleton in Hq; lia|inversion Hq]. }
        destruct (rw_cell _ _ _ _ _ RW) as (c0 & Hc0 & _ & E0). exists r, c0. split; [done|]. rewrite E0. by apply Hsrc. }
      destruct F7 as (W67 & B7 & S7).
      { intros r0 v0 ids0 L0 q H0 R0 Hq Hd. pose proof (Hdel r0 v0 ids0 L0 q H0 R0 Hq) as Hlt.
        assert (Hq' : q = pk \/ q = dl \/ q ∈ drop (Nat.max th 1) cids) by (eapply weave_drop; [| | |exact Hd]; lia).
        destruct Hq' as [->|[->|Hq']]; [lia|lia|]. apply elem_of_drop in Hq' as (k & Hk & Hq').
        pose proof (Hfresh k q ltac:(lia) Hq'). lia. }
      assert (Hnof : forall g c, h_routes h6 !! r' = Some c -> rt_feasible c <> Some g).
      { intros g c Hc Hf. destruct N06 as (_ & _ & K3). destruct (K3 r' c g Hc Hf) as (c0 & Hc0 & _). apply lookup_lt_Some in Hc0. lia. }
      assert (EL6 : L6 = serve t pi fi L).
      { unfold L6, weave, serve, pick_up, drop_off. unfold abs. cbn. unfold trip_of. cbn.
        unfold p. rewrite lookup_app_r, Nat.sub_diag by done. done. }
      split; [auto|]. split.
      + intros F. apply B7; auto.
      + split; [|split; [done|]].
        { intros Hl Ft Ff Hc. rewrite <- EL6. apply S7; auto. rewrite EL6. by apply serve_calm. }
        intros F Hok. rewrite <- EL6 in *. apply O7; auto.
  Qed.
End compute_one.
