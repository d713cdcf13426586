(** Proofs about the totals of rides and routes (C56). *)
From Verif Require Import SpecAccount RepresentsProofs ComputeProofs ValueProofs TimeTheorems Witness.

Lemma span_snoc {A} (l : list A) i j x : (i <= j)%nat -> l !! S j = Some x -> span l i (S j) = span l i j ++ [x].
Proof.
  intros Hij Hx. unfold span. replace (S j - i)%nat with (S (j - i)) by lia. apply take_S_r.
  rewrite lookup_drop. by replace (S i + (j - i))%nat with (S j) by lia.
Qed.
Lemma span_none {A} (l : list A) i : span l i i = [].
Proof. unfold span. by rewrite Nat.sub_diag. Qed.
Lemma span_all {A} (x : A) l : span (x :: l) 0 (length l) = l.
Proof. unfold span. cbn. rewrite drop_0, Nat.sub_0_r. by apply take_ge. Qed.
Lemma span_last {A} (l : list A) i j x : (i <= j)%nat -> l !! j = Some x -> l !! i <> None -> last (span l i j) = if decide (i = j) then None else Some x.
Proof.
  intros Hij Hx _. destruct (decide (i = j)) as [->|Hne]; [by rewrite span_none|].
  destruct j as [|j]; [lia|]. rewrite (span_snoc _ _ _ x) by (done || lia). apply last_snoc.
Qed.
Lemma driven_snoc `{W : World} o L x : driven o (L ++ [x]) = driven o L + dist (default o (vi_place <$> last L)) (vi_place x).
Proof.
  revert o. induction L as [|y L IH]; intros o; cbn [app driven]; [cbn; lia|]. rewrite IH.
  destruct L as [|z L]; [cbn; lia|]. rewrite last_cons_cons. destruct (last (z :: L)) as [u|] eqn:E; [cbn; lia|]. by apply last_None in E.
Qed.
Section proofs.
  Context {W : World}.
  Lemma step_arrival v xs i x y T T' : xs !! i = Some x -> xs !! S i = Some y -> timetable v xs !! i = Some T -> timetable v xs !! S i = Some T' ->
    tm_arrival T' = tm_departure T + dist (vi_place x) (vi_place y).
  Proof.
    intros Hx Hy HT HT'. rewrite (timetable_lookup v xs _ _ Hx) in HT. rewrite (timetable_lookup v xs _ _ Hy) in HT'.
    injection HT as <-. injection HT' as <-. rewrite tm_arrival_eq, (take_S_r _ _ _ Hx), reverse_snoc, back_cons. done.
  Qed.
  Lemma step_departure v xs i x T : xs !! i = Some x -> timetable v xs !! i = Some T -> tm_departure T = tm_start T + visit_duration x.
  Proof. intros Hx HT. rewrite (timetable_lookup v xs _ _ Hx) in HT. injection HT as <-. by rewrite tm_departure_eq. Qed.
  Lemma passes v xs i j x Ti Tj : (i <= j)%nat -> xs !! i = Some x -> timetable v xs !! i = Some Ti -> timetable v xs !! j = Some Tj ->
    tm_departure Tj - tm_departure Ti = driven_between xs i j + waited_between v xs i j + served_between xs i j.
  Proof.
    intros Hij Hx HTi. revert Tj. induction Hij as [|j Hij IH]; intros Tj HTj.
    - rewrite HTi in HTj. injection HTj as <-. unfold driven_between, waited_between, served_between. rewrite Hx, !span_none. cbn. lia.
    - destruct (lookup_lt_is_Some_2 xs (S j)) as [y Hy]. { apply lookup_lt_Some in HTj. unfold timetable in HTj. by rewrite schedule_length in HTj. }
      destruct (lookup_lt_is_Some_2 xs j) as [z Hz]. { apply lookup_lt_Some in Hy. lia. }
      destruct (timetable_some v xs j z Hz) as [T HT]. specialize (IH T HT).
      pose proof (step_arrival v xs j z y T Tj Hz Hy HT HTj) as Ea. pose proof (step_departure v xs (S j) y Tj Hy HTj) as Ed.
      unfold driven_between, waited_between, served_between in *. rewrite Hx in *.
      rewrite (span_snoc xs i j y), (span_snoc (timetable v xs) i j Tj), !map_app, !sum_of_app, driven_snoc by done. cbn [map].
      assert (E : default (vi_place x) (vi_place <$> last (span xs i j)) = vi_place z).
      { rewrite (span_last xs i j z) by (done || congruence). case_decide as E; [|done]. subst. cbn. congruence. }
      rewrite E. cbn [sum_of]. unfold sum_of in *. cbn. lia.
  Qed.

  (** the loop of planned_trips.py:92-108 *)
  Lemma ride_sum h r v ids L (f : nat -> M Z) (g : nat -> Z) i s :
    RouteP h r v ids L -> ids !! i = Some s ->
    (forall k q h', ids !! k = Some q -> quiet h h' -> gives (f q) h' (g k)) ->
    forall k n acc h', (i <= k)%nat -> (k < length ids)%nat -> (k - i < n)%nat -> quiet h h' ->
      gives (ride_sum_fuel n f (Some s) (ids !! k) acc) h' (acc + sum_of (map g (seq (S i) (k - i)))).
  Proof.
    intros R Hs Hf k. pose proof (RouteP_NoDup _ _ _ _ _ R) as Hnd.
    induction k as [|k IH]; intros n acc h' Hik Hk Hn Q; (destruct n as [|n]; [lia|]); cbn [ride_sum_fuel].
    - assert (i = 0%nat) as -> by lia. rewrite decide_True by done. replace (acc + _) with acc by (cbn; lia). apply gives_ret.
    - destruct (decide (i = S k)) as [->|Hne].
      + rewrite decide_True by done. rewrite Nat.sub_diag. replace (acc + _) with acc by (cbn; lia). apply gives_ret.
      + destruct (lookup_lt_is_Some_2 ids (S k) Hk) as [q Hq]. rewrite Hq.
        rewrite decide_False. 2:{ intros E. injection E as ->. apply Hne. by eapply NoDup_lookup. }
        unfold py_some at 1. eapply gives_bind; [apply gives_ret|]. intros h1 Q1.
        eapply gives_bind; [apply Hf; [exact Hq|by eapply quiet_trans]|]. intros h2 Q2.
        assert (Q' : quiet h h2) by (eapply quiet_trans; [|exact Q2]; by eapply quiet_trans).
        assert (R2 : RouteP h2 r v ids L) by (by eapply RouteP_soft; [apply quiet_soft|]).
        destruct (RouteP_lookup _ _ _ _ _ _ _ R2 Hq) as (c & x & Hc & _ & _ & _ & _ & Pr & _).
        eapply gives_bind with (a := c).
        { unfold gives. eapply runs_stop_get; [done|]. split; [done|apply quiet_refl]. }
        intros h3 Q3. rewrite Pr. assert (El : last (take (S k) ids) = ids !! k).
        { destruct (lookup_lt_is_Some_2 ids k ltac:(lia)) as [q' Hq']. by rewrite (take_S_r _ _ _ Hq'), last_snoc. }
        rewrite El. replace (acc + sum_of (map g (seq (S i) (S k - i)))) with (acc + g (S k) + sum_of (map g (seq (S i) (k - i)))).
        * apply IH; [lia|lia|lia|by eapply quiet_trans].
        * replace (S k - i)%nat with (S (k - i)) by lia. rewrite seq_S, map_app, sum_of_app. replace (S i + (k - i))%nat with (S k) by lia. cbn. lia.
  Qed.
  Lemma span_seq {A} (l : list A) (g : A -> Z) (g' : nat -> Z) i j : (i <= j)%nat -> (j < length l)%nat ->
    (forall k a, l !! k = Some a -> g' k = g a) -> sum_of (map g' (seq (S i) (j - i))) = sum_of (map g (span l i j)).
  Proof.
    intros Hij Hj H. induction Hij as [|j Hij IH].
    - rewrite span_none, Nat.sub_diag. done.
    - destruct (lookup_lt_is_Some_2 l (S j) Hj) as [a Ha]. rewrite (span_snoc l i j a) by done. replace (S j - i)%nat with (S (j - i)) by lia.
      rewrite seq_S, !map_app, !sum_of_app, IH by lia. replace (S i + (j - i))%nat with (S j) by lia. cbn. by rewrite (H _ _ Ha).
  Qed.
  Lemma driven_seq v xs i j x : (i <= j)%nat -> (j < length xs)%nat -> xs !! i = Some x ->
    sum_of (map (fun k => match xs !! k with
                          | Some y => dist (default (v_origin_position v) (vi_place <$> last (take k xs))) (vi_place y)
                          | None => 0 end) (seq (S i) (j - i))) = driven_between xs i j.
  Proof.
    intros Hij Hj Hx. unfold driven_between. rewrite Hx. induction Hij as [|j Hij IH].
    - by rewrite span_none, Nat.sub_diag.
    - destruct (lookup_lt_is_Some_2 xs (S j) Hj) as [y Hy]. destruct (lookup_lt_is_Some_2 xs j ltac:(lia)) as [z Hz].
      replace (S j - i)%nat with (S (j - i)) by lia. rewrite seq_S, map_app, sum_of_app, IH by lia.
      replace (S i + (j - i))%nat with (S j) by lia. rewrite (span_snoc xs i j y), driven_snoc by done.
      cbn [map]. rewrite Hy, (take_S_r _ _ _ Hz), last_snoc.
      assert (E : default (vi_place x) (vi_place <$> last (span xs i j)) = vi_place z).
      { rewrite (span_last xs i j z) by (done || congruence). case_decide as E; [|done]. subst. cbn. congruence. }
      rewrite E. cbn. lia.
  Qed.
  Lemma waited_seq v xs i j : (i <= j)%nat -> (j < length xs)%nat ->
    sum_of (map (fun k => match timetable v xs !! k with Some T => tm_start T - tm_arrival T | None => 0 end) (seq (S i) (j - i))) =
    waited_between v xs i j.
  Proof.
    intros Hij Hj. unfold waited_between. apply span_seq; [done| |].
    - unfold timetable. by rewrite schedule_length.
    - intros k T ->. done.
  Qed.

  Lemma ride_terms h r v ids L p t i j s d : RouteP h r v ids L -> Ride h ids v p t i j s d ->
    gives (pt_transit_time p) h (driven_between L i j) /\ gives (pt_waiting_time p) h (waited_between v L i j).
  Proof.
    intros R (pc & Hpc & _ & _ & P1 & P2 & Hi & Hj & Hij).
    assert (Hlen : length ids = length L) by (by eapply RouteP_length).
    assert (Hjl : (j < length ids)%nat) by (by eapply lookup_lt_Some).
    assert (Hfuel : (length ids <= length (h_stops h))%nat).
    { pose proof (Path_ids_length _ _ _ _ (proj2 R)) as X. by rewrite reverse_length in X. }
    destruct (lookup_lt_is_Some_2 L i ltac:(lia)) as [x Hx].
    assert (G : forall f g, (forall k q h', ids !! k = Some q -> quiet h h' -> gives (f q) h' (g k)) ->
      gives (let! c := pt_get p in chain_fuel (fun n => ride_sum_fuel n f (pt_pickup c) (pt_delivery c) 0)) h
        (sum_of (map g (seq (S i) (j - i))))).
    { intros f g Hf. eapply gives_bind with (a := pc).
      { unfold gives. eapply runs_pt_get; [done|]. split; [done|apply quiet_refl]. }
      intros h1 Q1. rewrite P1, P2, <- Hj. unfold gives, runs, chain_fuel.
      apply (ride_sum h r v ids L f g i s R Hi Hf j _ 0 h1); [lia|lia| |done].
      pose proof (proj1 (proj2 (quiet_soft _ _ Q1))). lia. }
    split.
    - rewrite <- (driven_seq v L i j x) by (done || lia). apply G. intros k q h' Hq Q.
      assert (R' : RouteP h' r v ids L) by (by eapply RouteP_soft; [apply quiet_soft|]).
      destruct (RouteP_times _ _ _ _ _ _ _ R' Hq) as (y & T & Hy & _ & _ & _ & _ & _ & G5). by rewrite Hy.
    - rewrite <- (waited_seq v L i j) by lia. apply G. intros k q h' Hq Q.
      assert (R' : RouteP h' r v ids L) by (by eapply RouteP_soft; [apply quiet_soft|]).
      destruct (RouteP_times _ _ _ _ _ _ _ R' Hq) as (y & T & _ & HT & _ & _ & _ & G4 & _). by rewrite HT.
  Qed.
  Lemma load_term h r v ids L p t i j s d x y : RouteP h r v ids L -> Ride h ids v p t i j s d -> L !! i = Some x -> L !! j = Some y ->
    gives (pt_load_time p) h (visit_duration x + visit_duration y).
  Proof.
    intros R (pc & Hpc & _ & _ & P1 & P2 & Hi & Hj & Hij) Hx Hy.
    destruct (RouteP_lookup _ _ _ _ _ _ _ R Hi) as (c & x' & Hc & Hx' & Ex & K & _).
    destruct (RouteP_lookup _ _ _ _ _ _ _ R Hj) as (c' & y' & Hc' & Hy' & Ey & K' & _).
    rewrite Hx in Hx'. injection Hx' as <-. rewrite Hy in Hy'. injection Hy' as <-.
    unfold gives, pt_load_time. step. eapply runs_pt_get; [done|]. rewrite P1, P2. cbn [py_some].
    step. apply runs_ret. step. eapply runs_load_time; [done..|]. step. apply runs_ret. step. eapply runs_load_time; [done..|].
    apply runs_ret. split; [subst; lia|apply quiet_refl].
  Qed.
  Lemma ride_account v xs i j x Ti Tj : (i < j)%nat -> xs !! i = Some x -> timetable v xs !! i = Some Ti -> timetable v xs !! j = Some Tj ->
    tm_start Tj - tm_departure Ti = driven_between xs i j + waited_between v xs i j + served_between xs i (j - 1).
  Proof.
    intros Hij Hx HTi HTj. pose proof (passes v xs i j x Ti Tj ltac:(lia) Hx HTi HTj) as E.
    destruct j as [|j]; [lia|]. replace (S j - 1)%nat with j by lia.
    destruct (lookup_lt_is_Some_2 xs (S j)) as [y Hy]. { apply lookup_lt_Some in HTj. unfold timetable in HTj. by rewrite schedule_length in HTj. }
    pose proof (step_departure v xs _ y Tj Hy HTj). unfold served_between in *.
    rewrite (span_snoc xs i j y), map_app, sum_of_app in E by (done || lia). cbn in E. unfold sum_of in *. lia.
  Qed.
  Lemma route_waiting_gives h r v ids L : RouteW h r v ids L -> gives (route_waiting_time r) h (waited v L).
  Proof.
    intros R. unfold route_waiting_time. eapply gives_bind; [apply gives_of_runs; intros; by eapply runs_route_stops|]. intros h1 Q1.
    assert (Hn : length ids = length L) by (by eapply RouteW_length).
    assert (Hlen : length ids = length (timetable v L)) by (unfold timetable; by rewrite schedule_length).
    assert (F : Forall2 (fun s z => forall h', quiet h h' -> gives (waiting_time s) h' z) ids (map (fun T => tm_start T - tm_arrival T) (timetable v L))).
    { apply Forall2_fmap_r, Forall2_same_length_lookup. split; [done|]. intros i s T Hs HT h' Q.
      destruct (stop_times _ _ _ _ _ _ _ (RouteW_quiet _ _ _ _ _ _ Q R) Hs) as (x & T' & _ & HT' & _ & _ & _ & G & _).
      rewrite HT in HT'. by injection HT' as <-. }
    assert (G : gives (mapM waiting_time ids) h1 (map (fun T => tm_start T - tm_arrival T) (timetable v L))).
    { clear -F Q1. revert h1 Q1. induction F as [|s z ids l H _ IH]; intros h1 Q1; cbn [mapM]; [apply gives_ret|].
      eapply gives_bind; [by apply H|]. intros h2 Q2. eapply gives_bind; [apply IH; by eapply quiet_trans|]. intros h3 Q3. apply gives_ret. }
    eapply gives_bind; [exact G|]. intros h2 Q2. unfold waited. rewrite zsum_sum_of. apply gives_ret.
  Qed.
  Lemma route_transit_gives h r v ids L : RouteW h r v ids L -> gives (route_transit_time r) h (sum_of (map (ride_time v L) (boards L))).
  Proof.
    intros R. unfold route_transit_time. pose proof (trips_pts_of _ _ _ _ _ R) as Etr.
    eapply gives_bind; [apply gives_of_runs; intros; by eapply runs_planned_trips|]. intros h1 Q1.
    assert (Gm : gives (mapM pt_duration (pts_of h ids)) h1 (map (fun p => ride_time v L (trip_of h p)) (pts_of h ids))).
    { apply gives_mapM. intros q h2 Hq Q2. assert (Q3 : quiet h h2) by (by eapply quiet_trans).
      rewrite <- (trip_of_quiet _ _ _ _ _ _ _ R Hq Q3).
      eapply pts_of_times; [by eapply RouteW_quiet|]. by rewrite (pts_of_quiet _ _ _ _ _ _ R Q3). }
    eapply gives_bind; [exact Gm|]. intros h2 Q2. rewrite <- Etr, map_map, zsum_sum_of. apply gives_ret.
  Qed.
End proofs.

(** ** C56 *)
Lemma c56_ride `{W : World} : forall h r v ids xs ps h1 p pc,
  well_formed h r v ids xs -> planned_trips r h = (Ok ps, h1) -> p ∈ ps -> h_pts h !! p = Some pc ->
  exists i j x y, ride xs (pt_trip pc) i j /\ xs !! i = Some x /\ xs !! j = Some y /\
    returns (pt_transit_time p) h (driven_between xs i j) /\
    returns (pt_waiting_time p) h (waited_between v xs i j) /\
    returns (pt_load_time p) h (visit_duration x + visit_duration y) /\
    returns (pt_duration p) h (driven_between xs i j + waited_between v xs i j + served_between xs i (j - 1)).
Proof.
  intros h r v ids xs ps h1 p pc R E Hp Hpc. apply well_formed_RouteW in R.
  assert (X : gives (planned_trips r) h (pts_of h ids)) by (apply gives_of_runs; intros; by eapply runs_planned_trips).
  apply gives_eq in X as (h' & E' & _). rewrite E in E'. injection E' as -> _.
  destruct (pts_of_Ride _ _ _ _ _ _ R Hp) as (t & i & j & s & d & Rd & Rl).
  assert (Et : pt_trip pc = t). { destruct Rd as (pc' & Hpc' & _ & <- & _). by rewrite Hpc in Hpc'; injection Hpc' as <-. }
  pose proof Rl as (x & y & Hx & Hy & _).
  destruct (timetable_some v xs i x Hx) as [Ti HTi]. destruct (timetable_some v xs j y Hy) as [Tj HTj].
  assert (Hlt : (i < j)%nat) by (destruct Rd as (?&?&?&?&?&?&?&?&?); done).
  exists i, j, x, y. rewrite Et. split; [done|]. split; [done|]. split; [done|].
  destruct (ride_terms _ _ _ _ _ _ _ _ _ _ _ (RouteW_P _ _ _ _ _ R) Rd) as [G1 G2].
  split; [by apply gives_returns|]. split; [by apply gives_returns|].
  split; [apply gives_returns; eapply load_term; [by eapply RouteW_P|done..]|].
  rewrite <- (ride_account v xs i j x Ti Tj Hlt Hx HTi HTj). apply gives_returns. by eapply pt_duration_gives.
Qed.
Lemma c56_route `{W : World} : forall h r v ids xs x T, well_formed h r v ids xs -> head xs = Some x -> head (timetable v xs) = Some T ->
  exists d w, returns (route_distance r) h d /\ returns (route_waiting_time r) h w /\
    d = dist (v_origin_position v) (vi_place x) + driven_between xs 0 (length xs - 1) /\
    w = (tm_start T - tm_arrival T) + waited_between v xs 0 (length xs - 1) /\
    returns (route_duration r) h
      (driven_between xs 0 (length xs - 1) + waited_between v xs 0 (length xs - 1) + served_between xs 0 (length xs - 1)).
Proof.
  intros h r v ids xs x T R Hx HT. apply well_formed_RouteW in R.
  exists (travelled v xs), (waited v xs).
  split; [by apply gives_returns, route_distance_gives with (1 := R)|].
  split; [by apply gives_returns, route_waiting_gives with (1 := R)|].
  pose proof (RouteW_length _ _ _ _ _ R) as Hl. rewrite head_lookup in Hx. rewrite head_lookup in HT.
  assert (Hne : ids <> []). { intros ->. destruct xs; done. }
  destruct (RouteW_last _ _ _ _ _ R Hne) as (n & sn & xn & Tn & _ & Hxn & HTn & _ & _ & HlT & Hlen).
  assert (Hn : (length xs - 1 = n)%nat) by lia. rewrite Hn.
  split; [|split].
  - unfold travelled, driven_between. rewrite Hx. destruct xs as [|x' xs]; [done|]. injection Hx as ->. cbn [driven].
    assert (n = length xs) as -> by (cbn in Hn; lia). by rewrite span_all.
  - unfold waited, waited_between. assert (Hlt : length (timetable v xs) = S n) by (unfold timetable; by rewrite schedule_length).
    destruct (timetable v xs) as [|T' Ts]; [done|]. injection HT as ->.
    assert (n = length Ts) as -> by (cbn in Hlt; lia). rewrite span_all. cbn. done.
  - rewrite <- (passes v xs 0 n x T Tn ltac:(lia) Hx HT HTn). apply gives_returns.
    pose proof (route_duration_gives _ _ _ _ _ R Hne) as G. unfold returned_at, left_at in G.
    rewrite HlT, head_lookup, HT in G. exact G.
Qed.
Lemma c56_passengers `{W : World} : forall h r v ids xs, well_formed h r v ids xs ->
  returns (route_transit_time r) h (sum_of (map (ride_time v xs) (boards xs))).
Proof. intros h r v ids xs R. apply gives_returns, route_transit_gives with (ids := ids). by apply well_formed_RouteW. Qed.

(** a route of [town] (Witness.v) that waits for trip 2 with trip 3 on board,
    which takes time to board *)
Section errand.
  #[local] Existing Instance town.
  Definition errand_town : heap := Eval vm_compute in after
    (let! r0 := new_route 0 in
     let! r1 := compute_one r0 3 0 1 in
     let! r2 := compute_one r1 2 1 3 in
     ret r2) empty_heap.
  Definition errand_stops : list nat := Eval vm_compute in stops_in errand_town 2.
  Definition errand_visits : list visit := Eval vm_compute in visits_of errand_town 2.
End errand.
