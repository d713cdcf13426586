(** append_planned_trip: routes.py:272-283. *)
From Verif Require Export EditProofs.

Definition weave {A} (i j : nat) (p d : A) (l : list A) : list A :=
  take (S i) l ++ p :: drop (S i) (take j l) ++ d :: drop j l.

Lemma lookup_cons_S {A} (x : A) l k : (x :: l) !! S k = l !! k.
Proof. done. Qed.
Lemma weave_split {A} (l : list A) i j :
  (i < j)%nat -> (j <= length l)%nat ->
  exists X Y Z, l = X ++ Y ++ Z /\ length X = S i /\ length (X ++ Y) = j /\
    (forall p d, weave i j p d l = X ++ p :: Y ++ d :: Z).
Proof.
  intros Hij Hj. exists (take (S i) l), (drop (S i) (take j l)), (drop j l).
  assert (E1 : take (S i) l = take (S i) (take j l)) by (rewrite take_take; f_equal; lia).
  split; [|split; [|split]].
  - rewrite E1, app_assoc, take_drop. by rewrite take_drop.
  - rewrite take_length. lia.
  - rewrite E1, take_drop, take_length. lia.
  - done.
Qed.
Lemma insert_twice {A} (l : list A) i j p d :
  (i < j)%nat -> (j <= length l)%nat ->
  list_insert_at (S j) d (list_insert_at (S i) p l) = weave i j p d l.
Proof.
  intros Hij Hj. destruct (weave_split l i j Hij Hj) as (X & Y & Z & -> & H1 & H2 & ->).
  rewrite insert_at_split by done.
  replace (X ++ p :: Y ++ Z) with ((X ++ p :: Y) ++ Z) by (by rewrite <- app_assoc).
  rewrite insert_at_split; [by rewrite <- app_assoc|].
  rewrite app_length in *. cbn. lia.
Qed.
Lemma weave_length {A} (l : list A) i j p d : (i < j)%nat -> (j <= length l)%nat ->
  length (weave i j p d l) = S (S (length l)).
Proof. intros H1 H2. rewrite <- insert_twice by done. by rewrite !insert_at_length. Qed.
Lemma weave_sublist {A} (l : list A) i j p d : (i < j)%nat -> (j <= length l)%nat ->
  l `sublist_of` weave i j p d l.
Proof. intros H1 H2. rewrite <- insert_twice by done. etrans; apply insert_at_sublist. Qed.
Lemma weave_elem {A} (l : list A) i j p d x : (i < j)%nat -> (j <= length l)%nat ->
  x ∈ weave i j p d l <-> x = p \/ x = d \/ x ∈ l.
Proof. intros H1 H2. rewrite <- insert_twice by done. rewrite !elem_of_insert_at. tauto. Qed.
Lemma weave_pair {A} (l : list A) i j p d : [p; d] `sublist_of` weave i j p d l.
Proof.
  unfold weave. apply sublist_inserts_l, sublist_skip, sublist_inserts_l, sublist_skip, sublist_nil_l.
Qed.
Lemma weave_map {A B} (f : A -> B) (l : list A) i j p d :
  map f (weave i j p d l) = weave i j (f p) (f d) (map f l).
Proof.
  unfold weave. rewrite map_app. cbn [map]. rewrite map_app. cbn [map].
  by rewrite <- !skipn_map, <- !firstn_map.
Qed.
Lemma weave_lookup_before {A} (l : list A) i j p d k : (k <= i)%nat -> (i < length l)%nat -> weave i j p d l !! k = l !! k.
Proof.
  intros Hk Hi. unfold weave. rewrite lookup_app_l by (rewrite take_length; lia).
  by rewrite lookup_take by lia.
Qed.

Section append.
  Context {W : World}.

  Lemma serve_weave t i j xs : serve t i j xs = weave i j (pick_up t) (drop_off t) xs.
  Proof. done. Qed.

  Lemma Links_weave h h' v ids i j p pk dl ck cd pc :
    Links h v ids -> (forall s, s ∈ ids -> is_Some (h_stops h !! s)) ->
    (i < j)%nat -> (j <= length ids)%nat ->
    (forall s c, s ∈ ids -> h_stops h !! s = Some c ->
       exists c', h_stops h' !! s = Some c' /\ st_pickups c' = st_pickups c /\ st_deliveries c' = st_deliveries c) ->
    (forall q c, h_pts h !! q = Some c -> exists c', h_pts h' !! q = Some c' /\ sk_pt c' = sk_pt c) ->
    h_stops h' !! pk = Some ck -> st_pickups ck = [p] -> st_deliveries ck = [] ->
    h_stops h' !! dl = Some cd -> st_pickups cd = [] -> st_deliveries cd = [p] ->
    h_pts h' !! p = Some pc -> pt_vehicle pc = v -> pt_pickup pc = Some pk -> pt_delivery pc = Some dl ->
    Links h' v (weave i j pk dl ids).
  Proof.
    intros HL Ha Hij Hj Hs Hp Hpk P1 P2 Hdl D1 D2 Hpc V1 V2 V3 s c' Hin Hc'.
    pose proof (weave_sublist ids i j pk dl Hij Hj) as Hsub.
    pose proof (weave_pair ids i j pk dl) as Hpair.
    rewrite weave_elem in Hin by done. destruct Hin as [->|[->|Hin]].
    - rewrite Hpk in Hc'. injection Hc' as <-. rewrite P1, P2. split.
      + intros q ->%elem_of_list_singleton. exists dl, cd, pc. rewrite D2. repeat split; try done. left.
      + intros q Hq. inversion Hq.
    - rewrite Hdl in Hc'. injection Hc' as <-. rewrite D1, D2. split.
      + intros q Hq. inversion Hq.
      + intros q ->%elem_of_list_singleton. exists pk, ck, pc. rewrite P1. repeat split; try done. left.
    - destruct (Ha s Hin) as [c Hc]. destruct (Hs s c Hin Hc) as (c'' & Hc'' & E1 & E2).
      rewrite Hc' in Hc''. injection Hc'' as <-.
      destruct (HL s c Hin Hc) as [H1 H2]. split.
      + intros q Hq. rewrite E1 in Hq.
        destruct (H1 q Hq) as (d & dc & qc & Hsub' & Hd & Hqd & Hqc & U1 & U2 & U3).
        assert (Hdin : d ∈ ids) by (eapply elem_of_submseteq; [|by apply sublist_submseteq]; set_solver).
        destruct (Hs d dc Hdin Hd) as (dc' & Hd' & _ & E4).
        destruct (Hp q qc Hqc) as (qc' & Hqc' & E). apply sk_pt_eq in E as (F1 & F2 & F3 & F4).
        exists d, dc', qc'. rewrite E4, F1, F3, F4. split; [by etrans|done].
      + intros q Hq. rewrite E2 in Hq.
        destruct (H2 q Hq) as (d & dc & qc & Hsub' & Hd & Hqd & Hqc & U1 & U2 & U3).
        assert (Hdin : d ∈ ids) by (eapply elem_of_submseteq; [|by apply sublist_submseteq]; set_solver).
        destruct (Hs d dc Hdin Hd) as (dc' & Hd' & E4 & _).
        destruct (Hp q qc Hqc) as (qc' & Hqc' & E). apply sk_pt_eq in E as (F1 & F2 & F3 & F4).
        exists d, dc', qc'. rewrite E4, F1, F3, F4. split; [by etrans|done].
  Qed.

  Lemma relink_fields f s l q c :
    st_vehicle (relink f s l q c) = st_vehicle c /\ st_position (relink f s l q c) = st_position c /\
    st_pickups (relink f s l q c) = st_pickups c /\ st_deliveries (relink f s l q c) = st_deliveries c /\
    st_starting (relink f s l q c) = st_starting c.
  Proof. unfold relink, clear_if. case_bool_decide; case_decide; done. Qed.

  (** objects of [h0] are not affected by relinking newer stops *)
  Lemma grow_relink h0 h h' r f s l x :
    grow h0 h -> touch h h' (relink f s l) ->
    h_routes h' = alter (set_route_stops x) r (h_routes h) ->
    (length (h_stops h0) <= f)%nat ->
    (length (h_routes h0) <= r)%nat -> grow h0 h'.
  Proof.
    intros G T ER Hf Hr. eapply grow_frame; [exact G| | | |by eapply touch_ext].
    - intros q c Hq Hc. destruct T as [T1 _]. rewrite T1, Hc. cbn. eexists. split; [done|].
      rewrite relink_other by lia. split; [apply clear_if_sk|apply clear_if_weaker].
    - intros p c _ Hc. by eapply touch_pts.
    - intros q c Hq Hc. rewrite ER, list_lookup_alter_ne by lia. eauto.
  Qed.

  Lemma append_planned_trip_runs h r v ids L p pc t pk dl ck cd i j :
    RouteOK h r v ids L ->
    h_pts h !! p = Some pc -> pt_vehicle pc = v -> pt_trip pc = t ->
    pt_pickup pc = Some pk -> pt_delivery pc = Some dl ->
    pk ∉ ids -> dl ∉ ids -> pk <> dl ->
    h_stops h !! pk = Some ck -> st_vehicle ck = v -> st_position ck = origin_position (w_trip t) ->
    st_pickups ck = [p] -> st_deliveries ck = [] -> st_previous ck = ids !! i ->
    h_stops h !! dl = Some cd -> st_vehicle cd = v -> st_position cd = destination_position (w_trip t) ->
    st_pickups cd = [] -> st_deliveries cd = [p] ->
    st_previous cd = (if decide (S i = j) then Some pk else ids !! (j - 1)%nat) ->
    (i < j < length ids)%nat -> t ∉ boards L ->
    runs (append_planned_trip r p) h (fun _ h' =>
      RouteOK h' r v (weave i j pk dl ids) (weave i j (abs h ck) (abs h cd) L) /\
      map anytime (weave i j (abs h ck) (abs h cd) L) = map anytime (serve t i j L) /\
      length (h_stops h') = length (h_stops h) /\ length (h_pts h') = length (h_pts h) /\
      length (h_routes h') = length (h_routes h) /\
      (forall h0, grow h0 h -> (forall q, q ∈ drop (S i) ids -> (length (h_stops h0) <= q)%nat) ->
         (length (h_routes h0) <= r)%nat -> grow h0 h') /\
      (forall x c, h_stops h !! x = Some c -> exists c', h_stops h' !! x = Some c' /\
         st_pickups c' = st_pickups c /\ st_deliveries c' = st_deliveries c)).
  Proof.
    intros R Hpc V T Epk Edl Npk Ndl Hne Hck Vk Pk K1 K2 K3 Hcd Vd Pd D1 D2 D3 Hij Ht.
    pose proof R as [RW TT]. pose proof (RouteW_P _ _ _ _ _ RW) as RP.
    unfold append_planned_trip. step. eapply runs_pt_get; [exact Hpc|].
    rewrite Epk, Edl. step. apply runs_assert; [by rewrite bool_decide_eq_true|].
    step. apply runs_assert; [by rewrite bool_decide_eq_true|].
    eapply runs_seq; [by eapply assert_linked_runs|]. intros ? h1' ->.
    eapply runs_seq; [by eapply assert_monotone_runs|]. intros ? h1 Q1.
    pose proof (quiet_soft _ _ Q1) as S1. pose proof (RouteP_soft _ _ _ _ _ _ S1 RP) as RP1.
    pose proof S1 as [G1 _].
    destruct (g_stops _ _ G1 _ _ Hck) as (ck1 & Hck1 & Ek1).
    destruct (g_stops _ _ G1 _ _ Hcd) as (cd1 & Hcd1 & Ed1).
    destruct (g_pts _ _ G1 _ _ Hpc) as (pc1 & Hpc1 & Ep1).
    assert (X1 : pts_ext h h1) by (apply pts_ext_sk, G1).
    assert (Kk : known h ck) by (intros q; rewrite K1, K2; cbn; intros ->%elem_of_list_singleton; eauto).
    assert (Kd : known h cd) by (intros q; rewrite D1, D2; cbn; intros ->%elem_of_list_singleton; eauto).
    pose proof (known_grow _ _ _ _ X1 Kk Ek1) as Kk1. pose proof (known_grow _ _ _ _ X1 Kd Ed1) as Kd1.
    pose proof (abs_grow _ _ _ _ X1 Kk Ek1) as Ak1. pose proof (abs_grow _ _ _ _ X1 Kd Ed1) as Ad1.
    apply sk_stop_eq in Ek1 as (Ek1a & Ek1b & Ek1c & Ek1d & Ek1e & Ek1f).
    apply sk_stop_eq in Ed1 as (Ed1a & Ed1b & Ed1c & Ed1d & Ed1e & Ed1f).
    destruct (lookup_lt_is_Some_2 ids i) as [q Hq]; [lia|].
    destruct (lookup_lt_is_Some_2 ids (S i)) as [f Hf]; [lia|].
    step. apply runs_some.
    eapply runs_seq; [eapply (insert_stop_runs h1 r v ids L i q f pk ck1)|].
    { done. } { done. } { done. } { done. } { done. } { congruence. } { by rewrite Ek1e, K3. } { done. }
    { intros x. rewrite Ek1d, K2. intros _ Hx. inversion Hx. }
    intros ? h2 (RP2 & T2 & ER2 & ET2 & _).
    rewrite Ak1 in RP2. step. apply runs_some.
    (* the delivery *)
    assert (Hf_in : f ∈ ids) by (by eapply elem_of_list_lookup_2).
    set (cd2 := relink f pk (pk :: drop (S i) ids) dl cd1).
    assert (Hcd2 : h_stops h2 !! dl = Some cd2) by (destruct T2 as [-> _]; by rewrite Hcd1).
    assert (Ecd2 : sk_stop cd2 = sk_stop cd1) by (apply relink_chain_sk; intros ->; done).
    pose proof (touch_ext _ _ _ T2) as X2.
    pose proof (known_grow _ _ _ _ X2 Kd1 Ecd2) as Kd2.
    pose proof (abs_grow _ _ _ _ X2 Kd1 Ecd2) as Ad2.
    apply sk_stop_eq in Ecd2 as (Ed2a & Ed2b & Ed2c & Ed2d & Ed2e & Ed2f).
    set (ids1 := list_insert_at (S i) pk ids) in *.
    set (L1 := list_insert_at (S i) (abs h ck) L) in *.
    assert (Hlen1 : length ids1 = S (length ids)) by apply insert_at_length.
    assert (Hq2 : ids1 !! j = if decide (S i = j) then Some pk else ids !! (j - 1)%nat).
    { unfold ids1, list_insert_at. rewrite lookup_app_r by (rewrite take_length; lia).
      rewrite take_length, Nat.min_l by lia. case_decide as Hd.
      - by replace (j - S i)%nat with 0%nat by lia.
      - replace (j - S i)%nat with (S (j - 1 - S i)) by lia. rewrite lookup_cons_S, lookup_drop.
        f_equal. lia. }
    destruct (lookup_lt_is_Some_2 ids1 j) as [q2 Hq2']; [lia|].
    destruct (lookup_lt_is_Some_2 ids1 (S j)) as [f2 Hf2]; [lia|].
    assert (Hdl1 : dl ∉ ids1) by (unfold ids1; rewrite elem_of_insert_at; intuition).
    eapply runs_seq; [eapply (insert_stop_runs h2 r v ids1 L1 j q2 f2 dl cd2)|].
    { done. } { done. } { done. } { done. } { done. } { congruence. } { congruence. } { done. }
    { intros x. rewrite Ed2c, Ed1c, D1. intros Hx. inversion Hx. }
    intros ? h3 (RP3 & T3 & ER3 & ET3 & _).
    rewrite Ad2, Ad1 in RP3. unfold ids1, L1 in RP3.
    assert (HlL : length L = length ids) by (symmetry; by eapply RouteP_length).
    rewrite !insert_twice in RP3 by lia.
    eapply runs_seq; [by eapply assert_linked_runs|]. intros ? h3' ->.
    eapply runs_mono; [by eapply assert_monotone_runs|]. intros ? h4 Q4.
    pose proof (quiet_soft _ _ Q4) as S4. pose proof (RouteP_soft _ _ _ _ _ _ S4 RP3) as RP4.
    assert (Hsame : map anytime (weave i j (abs h ck) (abs h cd) L) = map anytime (serve t i j L)).
    { rewrite serve_weave, !weave_map. f_equal; unfold abs, anytime; cbn.
      - rewrite Pk, K1, K2. cbn. unfold trip_of. by rewrite Hpc, T.
      - rewrite Pd, D1, D2. cbn. unfold trip_of. by rewrite Hpc, T. }
    assert (TT' : tour v (weave i j (abs h ck) (abs h cd) L)).
    { eapply tour_same; [symmetry; exact Hsame|]. apply tour_serve; [done|done|lia]. }
    (* planned trips *)
    assert (Hpts : forall q c, h_pts h !! q = Some c -> exists c', h_pts h4 !! q = Some c' /\ sk_pt c' = sk_pt c).
    { intros x c Hc. destruct (g_pts _ _ G1 _ _ Hc) as (c1 & Hc1 & E1).
      destruct (touch_pts _ _ _ _ _ T2 Hc1) as (c2 & Hc2 & E2).
      destruct (touch_pts _ _ _ _ _ T3 Hc2) as (c3 & Hc3 & E3).
      destruct S4 as [G4 _]. destruct (g_pts _ _ G4 _ _ Hc3) as (c4 & Hc4 & E4).
      exists c4. split; [done|congruence]. }
    assert (Hst : forall x c, h_stops h !! x = Some c -> exists c', h_stops h4 !! x = Some c' /\
              st_pickups c' = st_pickups c /\ st_deliveries c' = st_deliveries c).
    { intros x c Hc. destruct (g_stops _ _ G1 _ _ Hc) as (c1 & Hc1 & E1). apply sk_stop_eq in E1.
      destruct T2 as [T2 _]. specialize (T2 x). rewrite Hc1 in T2. cbn in T2.
      destruct T3 as [T3 _]. specialize (T3 x). rewrite T2 in T3. cbn in T3.
      destruct S4 as [G4 _]. destruct (g_stops _ _ G4 _ _ T3) as (c4 & Hc4 & E4). apply sk_stop_eq in E4.
      exists c4. split; [done|].
      destruct E4 as (_ & _ & -> & -> & _). destruct E1 as (_ & _ & <- & <- & _).
      by rewrite !(proj1 (proj2 (proj2 (relink_fields _ _ _ _ _)))), !(proj1 (proj2 (proj2 (proj2 (relink_fields _ _ _ _ _))))). }
    split; [|split; [done|]].
    { split; [|done]. split; [by destruct RP4|by destruct RP4|apply TT'|].
      destruct (Hst pk ck Hck) as (ck4 & Hck4 & ? & ?). destruct (Hst dl cd Hcd) as (cd4 & Hcd4 & ? & ?).
      destruct (Hpts p pc Hpc) as (pc4 & Hpc4 & E). apply sk_pt_eq in E as (F1 & F2 & F3 & F4).
      eapply (Links_weave h h4 v ids i j p pk dl ck4 cd4 pc4);
        [apply RW|intros; by eapply RouteW_ids_alloc|lia|lia|intros x c _; apply Hst|exact Hpts|done|congruence|congruence|
         done|congruence|congruence|done|congruence|congruence|congruence]. }
    destruct S1 as [_ (La & Lb & Lc & _)]. destruct S4 as [G4 (Ld & Le & Lf & _)].
    destruct (touch_len _ _ _ T2) as [Lg Lh]. destruct (touch_len _ _ _ T3) as [Li Lj].
    assert (Lk : length (h_routes h2) = length (h_routes h1)) by (by rewrite ER2, alter_length).
    assert (Ll : length (h_routes h3) = length (h_routes h2)) by (by rewrite ER3, alter_length).
    split; [congruence|]. split; [congruence|]. split; [congruence|]. split; [|exact Hst].
    intros h0 G0 Hnew Hr.
    pose proof (grow_trans _ _ _ G0 G1) as G01.
    assert (G02 : grow h0 h2).
    { eapply grow_relink; [exact G01|exact T2|exact ER2| |done].
      apply Hnew. apply elem_of_list_lookup. exists 0%nat. rewrite lookup_drop, Nat.add_0_r. done. }
    assert (G03 : grow h0 h3).
    { eapply grow_relink; [exact G02|exact T3|exact ER3| |done].
      assert (f2 ∈ drop (S i) ids) as Hin; [|by apply Hnew].
      unfold ids1, list_insert_at in Hf2. rewrite lookup_app_r in Hf2 by (rewrite take_length; lia).
      rewrite take_length, Nat.min_l in Hf2 by lia.
      replace (S j - S i)%nat with (S (j - S i)) in Hf2 by lia. rewrite lookup_cons_S in Hf2.
      by eapply elem_of_list_lookup_2. }
    by eapply grow_trans.
  Qed.
End append.
