(** Limits on nested calls (C83). *)
From Verif Require Import Reads TimeTheorems DepthProofs SpecDepth.

(** ** Too little room *)
Section deep.
  Context {W : World}.

  Lemma all_previous_deep n : forall h v s ids x A,
    Path h v (s :: ids) (x :: A) -> (n <= length ids)%nat -> all_previous_fuel n s h = (Raise RecursionError, h).
  Proof.
    induction n as [|n IH]; intros h v s ids x A P Hn; [done|].
    pose proof (Path_cons_inv _ _ _ _ _ _ P) as (c & Hc & V & Pr & K & Ex & C & P').
    cbn [all_previous_fuel]. unfold bind at 1, stop_get at 1. rewrite Hc, Pr.
    destruct ids as [|q ids]; [cbn in Hn; lia|]. cbn [head]. destruct A as [|y A]; [inversion P'|].
    unfold bind. erewrite IH; [done|exact P'|cbn in Hn; lia].
  Qed.

  (** no departure, and no arrival at a stop with a predecessor, is memoised *)
  Definition Cold (h : heap) (ids : list nat) : Prop :=
    forall s c, s ∈ ids -> h_stops h !! s = Some c -> st_departure c = None /\ (st_previous c <> None -> st_arrival c = None).
  Lemma departure_deep n : forall h v s ids x A,
    Path h v (s :: ids) (x :: A) -> Cold h (s :: ids) -> (n <= length ids)%nat ->
    departure_fuel n s h = (Raise RecursionError, h).
  Proof.
    induction n as [|n IH]; intros h v s ids x A P Co Hn; [done|].
    pose proof (Path_cons_inv _ _ _ _ _ _ P) as (c & Hc & V & Pr & K & Ex & C & P').
    destruct ids as [|q ids]; [cbn in Hn; lia|]. destruct A as [|y A]; [inversion P'|]. cbn [head] in Pr.
    destruct (Co s c) as [A2 A1]; [left|done|]. rewrite Pr in A1. specialize (A1 ltac:(done)).
    cbn [departure_fuel]. unfold bind at 1, stop_get at 1. rewrite Hc, A2.
    assert (EP : previous_departure_with (departure_fuel n) s h = (Raise RecursionError, h)).
    { unfold previous_departure_with, bind, stop_get. rewrite Hc, Pr. eapply IH; [exact P'| |cbn in Hn; lia].
      intros s' c' Hs'. apply Co. by right. }
    assert (EA : arrival_with (departure_fuel n) s h = (Raise RecursionError, h)).
    { unfold arrival_with. unfold bind at 1, stop_get at 1. rewrite Hc, A1. unfold bind at 1. by rewrite EP. }
    assert (EE : stop_earliest s h = (Ok (visit_earliest (abs h c)), h)).
    { assert (G : runs (stop_earliest s) h (fun z h' => z = visit_earliest (abs h c) /\ h' = h)).
      { by eapply runs_earliest. }
      apply runs_eq in G as (z & h' & -> & -> & ->). done. }
    assert (ES : starting_with (departure_fuel n) s h = (Raise RecursionError, h)).
    { unfold starting_with. unfold bind at 1, stop_get at 1. rewrite Hc. destruct (st_starting c) as [z|].
      - unfold bind at 1, ret at 1. unfold bind at 1. rewrite EE. unfold bind. by rewrite EA.
      - unfold bind at 1. by rewrite EA. }
    unfold bind at 1. by rewrite ES.
  Qed.
End deep.

(** ** Reading in order *)
Section order.
  Context {W : World}.

  (** the two programs do the same in [h] *)
  Lemma bind_same {A B} (m1 m2 : M A) (k1 k2 : A -> M B) h :
    m1 h = m2 h -> (forall a, fst (m2 h) = Ok a -> k1 a (snd (m2 h)) = k2 a (snd (m2 h))) -> bind m1 k1 h = bind m2 k2 h.
  Proof. intros E H. unfold bind. rewrite E. destruct (m2 h) as [[a|e] h1]; [by apply H|done]. Qed.

  (** the stop before [s] has its departure memoised *)
  Definition Ready (s : nat) (h : heap) : Prop :=
    exists c, h_stops h !! s = Some c /\
      forall q, st_previous c = Some q -> exists cq d, h_stops h !! q = Some cq /\ st_departure cq = Some d.
  Lemma ready_get s h : Ready s h -> exists c, stop_get s h = (Ok c, h) /\ h_stops h !! s = Some c /\
      forall q, st_previous c = Some q -> exists cq d, h_stops h !! q = Some cq /\ st_departure cq = Some d.
  Proof. intros (c & Hc & Hq). exists c. unfold stop_get. by rewrite Hc. Qed.
  Lemma ready_previous n s h : Ready s h -> exists z, previous_departure_with (departure_fuel (S n)) s h = (Ok z, h) /\
      forall m, previous_departure_with (departure_fuel (S m)) s h = (Ok z, h).
  Proof.
    intros H. destruct (ready_get s h H) as (c & E & Hc & Hq). unfold previous_departure_with.
    destruct (st_previous c) as [q|] eqn:Eq.
    - destruct (Hq q eq_refl) as (cq & d & Hcq & Hd).
      assert (forall m, (let! c := stop_get s in match st_previous c with None => ret (v_origin_earliest (st_vehicle c)) | Some q => departure_fuel (S m) q end) h = (Ok d, h)) as G.
      { intros m. rewrite (bind_ok _ _ _ _ _ E), Eq. cbn [departure_fuel]. erewrite bind_ok; [|unfold stop_get; rewrite Hcq; reflexivity]. by rewrite Hd. }
      exists d. split; [|intros m]; apply G.
    - eexists. split; [|intros m]; rewrite (bind_ok _ _ _ _ _ E), Eq; reflexivity.
  Qed.
  Lemma ready_transit n s h : Ready s h -> exists z, transit_with (departure_fuel (S n)) s h = (Ok z, h) /\
      forall m, transit_with (departure_fuel (S m)) s h = (Ok z, h).
  Proof.
    intros H. destruct (ready_get s h H) as (c & E & Hc & Hq). destruct (ready_previous n s h H) as (z & Hz & Hz').
    assert (exists pp, previous_position s h = (Ok pp, h)) as [pp Hpp].
    { unfold previous_position. rewrite (bind_ok _ _ _ _ _ E). destruct (st_previous c) as [q|]; [|by eexists].
      destruct (Hq q eq_refl) as (cq & d & Hcq & Hd). eexists. erewrite bind_ok; [reflexivity|]. unfold stop_get. by rewrite Hcq. }
    eexists. unfold transit_with. split; [|intros m]; rewrite (bind_ok _ _ _ _ _ E), (bind_ok _ _ _ _ _ Hpp); (erewrite bind_ok; [reflexivity|done]).
  Qed.
  Lemma ready_arrival n s h : Ready s h -> exists z h', arrival_with (departure_fuel (S n)) s h = (Ok z, h') /\ Ready s h' /\
      forall m, arrival_with (departure_fuel (S m)) s h = (Ok z, h').
  Proof.
    intros H. destruct (ready_get s h H) as (c & E & Hc & Hq). destruct (ready_previous n s h H) as (z & Hz & Hz').
    destruct (ready_transit n s h H) as (y & Hy & Hy').
    destruct (st_arrival c) as [a|] eqn:Ea.
    { exists a, h. unfold arrival_with. split; [by rewrite (bind_ok _ _ _ _ _ E), Ea|]. split; [done|]. intros m. by rewrite (bind_ok _ _ _ _ _ E), Ea. }
    exists (z + y), (with_stops (alter (cache_arrival (Some (z + y))) s) h).
    assert (G : forall m, arrival_with (departure_fuel (S m)) s h = (Ok (z + y), with_stops (alter (cache_arrival (Some (z + y))) s) h)).
    { intros m. unfold arrival_with. by rewrite (bind_ok _ _ _ _ _ E), Ea, (bind_ok _ _ _ _ _ (Hz' m)), (bind_ok _ _ _ _ _ (Hy' m)). }
    split; [apply G|]. split; [|apply G]. exists (cache_arrival (Some (z + y)) c). cbn [with_stops h_stops].
    split; [by rewrite list_lookup_alter, Hc|]. intros q Eq. destruct (Hq q) as (cq & d & Hcq & Hd); [by destruct c|].
    destruct (decide (q = s)) as [->|Hne].
    - rewrite list_lookup_alter, Hcq. eexists _, d. split; [done|]. by destruct cq.
    - rewrite list_lookup_alter_ne by done. eauto.
  Qed.
  Lemma ready_starting n m s h : Ready s h ->
    starting_with (departure_fuel (S n)) s h = starting_with (departure_fuel (S m)) s h.
  Proof.
    intros H. destruct (ready_get s h H) as (c & E & Hc & Hq). unfold starting_with. rewrite !(bind_ok _ _ _ _ _ E).
    assert (T : forall z h', Ready s h' ->
      (let! e := stop_earliest s in let! a := arrival_with (departure_fuel (S n)) s in ret (Z.max (Z.max z e) a)) h' =
      (let! e := stop_earliest s in let! a := arrival_with (departure_fuel (S m)) s in ret (Z.max (Z.max z e) a)) h').
    { intros z h' H'. apply bind_same; [done|]. intros e _. rewrite (looks_earliest s h'). apply bind_same; [|done].
      destruct (ready_arrival n s h' H') as (a & h2 & E1 & _ & E2). by rewrite E1, E2. }
    destruct (st_starting c) as [z|].
    - by apply T.
    - destruct (ready_arrival n s h H) as (a & h2 & E1 & R & E2). rewrite (bind_ok _ _ _ _ _ E1), (bind_ok _ _ _ _ _ (E2 m)). by apply T.
  Qed.
  Lemma ready_departure n m s h : Ready s h -> departure_fuel (S (S n)) s h = departure_fuel (S (S m)) s h.
  Proof.
    intros H. destruct (ready_get s h H) as (c & E & Hc & Hq).
    change (departure_fuel (S (S n)) s h) with ((let! c := stop_get s in match st_departure c with Some d => ret d | None =>
      let! st := starting_with (departure_fuel (S n)) s in let! lt := stop_load_time s in let d := st + lt in stop_upd s (cache_departure (Some d)) ;;; ret d end) h).
    change (departure_fuel (S (S m)) s h) with ((let! c := stop_get s in match st_departure c with Some d => ret d | None =>
      let! st := starting_with (departure_fuel (S m)) s in let! lt := stop_load_time s in let d := st + lt in stop_upd s (cache_departure (Some d)) ;;; ret d end) h).
    rewrite !(bind_ok _ _ _ _ _ E). destruct (st_departure c); [done|]. apply bind_same; [by apply ready_starting|done].
  Qed.
  (** reading a departure memoises it *)
  Lemma departure_memo n s h d h' : departure_fuel n s h = (Ok d, h') -> is_Some (h_stops h' !! s) ->
    exists c, h_stops h' !! s = Some c /\ st_departure c = Some d.
  Proof.
    destruct n as [|n]; [done|]. cbn [departure_fuel]. unfold bind at 1, stop_get. destruct (h_stops h !! s) as [c|] eqn:Hc; [|done].
    destruct (st_departure c) as [z|] eqn:Hd.
    { intros E _. unfold ret in E. exists c. pose proof (f_equal snd E) as E1. pose proof (f_equal fst E) as E2. cbn in E1, E2. subst h'. injection E2 as <-. done. }
    unfold bind at 1. destruct (starting_with _ s h) as [[st|] h1]; [|done].
    unfold bind at 1. destruct (stop_load_time s h1) as [[lt|] h2]; [|done]. cbv zeta. unfold bind, stop_upd, ret. intros E.
    pose proof (f_equal snd E) as E1. pose proof (f_equal fst E) as E2. cbn [fst snd] in E1, E2. injection E2 as <-. subst h'. cbn [with_stops h_stops].
    rewrite list_lookup_alter. intros [c' Hc']. destruct (h_stops h2 !! s) as [c2|]; [|done]. cbn. exists (cache_departure (Some (st + lt)) c2). by split.
  Qed.

  Lemma in_order v r ids L : forall l h i, RouteP h r v ids L -> drop i ids = l ->
    (forall s, ids !! i = Some s -> Ready s h) ->
    exists h', mapM (departure_within 2) l h = (Ok (map tm_departure (drop i (timetable v L))), h') /\ quiet h h'.
  Proof.
    induction l as [|s l IH]; intros h i R El Hr.
    - exists h. assert (length (timetable v L) <= i)%nat as Hi.
      { unfold timetable. rewrite schedule_length. pose proof (RouteP_length _ _ _ _ _ R) as E. rewrite <- E.
        apply (f_equal length) in El. rewrite drop_length in El. cbn in El. lia. }
      rewrite drop_ge by done. split; [done|apply quiet_refl].
    - assert (Hs : ids !! i = Some s) by (rewrite <- (Nat.add_0_r i), <- lookup_drop, El; done).
      destruct (RouteP_times _ _ _ _ _ _ _ R Hs) as (x & T & Hx & HT & _ & _ & G & _).
      apply gives_eq in G as (h1 & E & Q).
      destruct (RouteP_lookup _ _ _ _ _ _ _ R Hs) as (c & x' & Hc & _).
      assert (E2 : departure_within 2 s h = (Ok (tm_departure T), h1)).
      { rewrite <- E. unfold departure_time, chain_fuel, departure_within. 
        destruct (length (h_stops h)) as [|k] eqn:Hl; [apply nil_length_inv in Hl; by rewrite Hl in Hc|].
        apply ready_departure. by apply Hr. }
      pose proof (RouteP_soft _ _ _ _ _ _ (quiet_soft _ _ Q) R) as R1.
      destruct (IH h1 (S i) R1) as (h2 & E3 & Q3).
      + rewrite <- (drop_drop ids 1 i), (Nat.add_comm i 1) || idtac. rewrite (drop_S _ _ _ Hs) in El. by injection El.
      + intros s' Hs'. destruct (RouteP_lookup _ _ _ _ _ _ _ R1 Hs') as (c' & x1 & Hc' & _ & _ & _ & _ & Pr & _).
        exists c'. split; [done|]. intros q Eq. rewrite Pr, (take_S_r _ _ _ Hs), last_snoc in Eq. injection Eq as <-.
        destruct (departure_memo _ _ _ _ _ E2) as (cq & Hcq & Hd); [|eauto].
        destruct (RouteP_lookup _ _ _ _ _ _ _ R1 Hs) as (c2 & ? & Hc2 & _). by exists c2.
      + exists h2. split; [|by eapply quiet_trans]. cbn [mapM]. rewrite (bind_ok _ _ _ _ _ E2), (bind_ok _ _ _ _ _ E3).
        by rewrite (drop_S _ _ _ HT).
  Qed.
End order.

(** ** C83 *)
Lemma c83_limit `{W : World} : forall n m r h, (n <= m)%nat ->
  fst (feasible_within n r h) = Raise RecursionError \/ feasible_within n r h = feasible_within m r h.
Proof. intros n m r h H. by apply tamer_feasible. Qed.

Lemma c83_enough `{W : World} : forall h r v ids xs n,
  sane_capacities -> well_formed h r v ids xs -> (length ids <= n)%nat ->
  feasible_within n r h = route_feasible r h.
Proof.
  intros h r v ids xs n SC R Hn. apply well_formed_RouteW in R.
  destruct (agree_feasible SC h r v ids xs R n Hn h) as [E _]; [apply grow_refl|done].
Qed.

Lemma c83_unread `{W : World} : forall h r v ids xs n,
  on_tour h r v ids xs -> unread h ids -> (forall c, h_routes h !! r = Some c -> rt_feasible c = None) ->
  (n < length ids)%nat -> fst (feasible_within n r h) = Raise RecursionError.
Proof.
  intros h r v ids xs n R U F Hn. apply on_tour_RouteOK in R as [R T].
  destruct (rw_cell _ _ _ _ _ R) as (c & Hc & E1 & E2).
  assert (Hne : ids <> []) by (intros ->; cbn in Hn; lia).
  destruct (RouteW_first _ _ _ _ _ R Hne) as (s0 & x0 & T0 & Hs0 & Hx0 & HT0).
  destruct (RouteW_last _ _ _ _ _ R Hne) as (k & sn & xn & Tn & Hsn & Hxn & HTn & Hls & HlL & HlT & Hlen).
  destruct (RouteW_lookup _ _ _ _ _ _ _ R Hs0) as (c0 & x0' & Hc0 & Hx0' & Ex0 & _ & V0 & Pr0 & _).
  rewrite Hx0 in Hx0'. injection Hx0' as <-. cbn [take last] in Pr0.
  destruct (RouteW_lookup _ _ _ _ _ _ _ R Hsn) as (cn & xn' & Hcn & Hxn' & Exn & _).
  rewrite Hxn in Hxn'. injection Hxn' as <-.
  assert (P0 : st_position c0 = v_origin_position v).
  { destruct (tour_first _ _ T) as (y & rest & -> & _ & Ey & _). cbn in Hx0. injection Hx0 as ->. by rewrite Ex0 in Ey. }
  assert (Pn : st_position cn = v_destination_position v).
  { destruct (tour_last _ _ T) as (front & y & -> & Ey & _). rewrite last_snoc in HlL. injection HlL as ->. by rewrite Exn in Ey. }
  destruct (U s0 c0) as [A0 D0]; [by eapply elem_of_list_lookup_2|done|].
  assert (Ef : first_stop r h = (Ok s0, h)).
  { unfold first_stop, route_stops. rewrite (bind_ok _ _ h ids h); [|by rewrite (bind_ok _ _ h c h); [rewrite <- E2|unfold route_get; rewrite Hc]].
    rewrite (bind_ok _ _ h s0 h); [|unfold py_nth; by rewrite Hs0]. rewrite (bind_ok _ _ h c0 h); [|unfold stop_get; by rewrite Hc0].
    by rewrite Pr0. }
  set (a := v_origin_earliest v + dist (v_origin_position v) (st_position c0)).
  set (h1 := with_stops (alter (cache_arrival (Some a)) s0) h).
  assert (Ea : arrival_within n s0 h = (Ok a, h1)).
  { assert (Ep : previous_departure_with (departure_fuel n) s0 h = (Ok (v_origin_earliest v), h)).
    { unfold previous_departure_with. rewrite (bind_ok _ _ h c0 h); [|unfold stop_get; by rewrite Hc0]. by rewrite Pr0, V0. }
    assert (Et : transit_with (departure_fuel n) s0 h = (Ok (dist (v_origin_position v) (st_position c0)), h)).
    { unfold transit_with. rewrite (bind_ok _ _ h c0 h); [|unfold stop_get; by rewrite Hc0].
      rewrite (bind_ok _ _ h (v_origin_position v) h); [by rewrite (bind_ok _ _ _ _ _ Ep)|].
      unfold previous_position. rewrite (bind_ok _ _ h c0 h); [|unfold stop_get; by rewrite Hc0]. by rewrite Pr0, V0. }
    unfold arrival_within, arrival_with. rewrite (bind_ok _ _ h c0 h); [|unfold stop_get; by rewrite Hc0]. rewrite A0.
    by rewrite (bind_ok _ _ _ _ _ Ep), (bind_ok _ _ _ _ _ Et). }
  assert (Q1 : quiet h h1).
  { assert (G : gives (arrival_within n s0) h a); [|apply runs_eq in G as (a' & h' & E & -> & Q); rewrite Ea in E; by injection E as <-].
    destruct (RouteW_lookup _ _ _ _ _ _ _ R Hs0) as (c0' & x0' & _ & _ & _ & _ & _ & _ & P).
    assert (G : gives (arrival_with (departure_fuel n) s0) h (tm_arrival (tm v x0' []))).
    { eapply arrival_gives; [exact P|]. intros ? ? ? E. by destruct n. }
    apply runs_eq in G as (a' & h' & E & -> & Q). unfold arrival_within in Ea. rewrite Ea in E.
    pose proof (f_equal snd E) as F1. cbn [snd] in F1. subst h'. apply runs_eq. exists a, h1. done. }
  pose proof (RouteW_soft _ _ _ _ _ _ (quiet_soft _ _ Q1) R) as R1.
  destruct (RouteW_lookup _ _ _ _ _ _ _ R1 Hsn) as (cn1 & xn1 & Hcn1 & Hxn1 & Exn1 & _ & _ & _ & Pn1).
  rewrite Hxn in Hxn1. injection Hxn1 as <-.
  assert (El : last_stop r h1 = (Ok sn, h1)).
  { destruct (rw_cell _ _ _ _ _ R1) as (c1 & Hc1 & _ & E3). unfold last_stop, route_stops.
    rewrite (bind_ok _ _ h1 ids h1); [|by rewrite (bind_ok _ _ h1 c1 h1); [rewrite <- E3|unfold route_get; rewrite Hc1]]. by rewrite Hls. }
  assert (Hk : k = (length ids - 1)%nat) by (rewrite (RouteW_length _ _ _ _ _ R); lia).
  assert (Ed : departure_within n sn h1 = (Raise RecursionError, h1)).
  { eapply departure_deep; [exact Pn1| |rewrite reverse_length, take_length_le; lia].
    assert (Hin : forall s, s ∈ sn :: reverse (take k ids) -> s ∈ ids).
    { intros s Hs. apply elem_of_cons in Hs as [->|Hs]; [by eapply elem_of_list_lookup_2|]. rewrite elem_of_reverse in Hs.
      apply elem_of_list_lookup in Hs as [z Hz]. eapply elem_of_list_lookup_2. apply lookup_take_Some in Hz as [Hz _]. exact Hz. }
    intros s c' Hs Hc'. specialize (Hin s Hs). cbn in Hc'. destruct (decide (s = s0)) as [->|Hne0].
    - rewrite list_lookup_alter, Hc0 in Hc'. cbn in Hc'. injection Hc' as <-. cbn. by rewrite D0, Pr0.
    - rewrite list_lookup_alter_ne in Hc' by done. destruct (U s c' Hin Hc') as [? ?]. done. }
  unfold feasible_within. rewrite (bind_ok _ _ h c h); [|unfold route_get; by rewrite Hc]. rewrite (F c Hc). cbv zeta. rewrite E1.
  unfold bind at 1.
  match goal with |- fst (match ?m h with _ => _ end) = _ => assert (E : m h = (Raise RecursionError, h1)); [|by rewrite E] end.
  rewrite (bind_ok _ _ _ _ _ Ef). rewrite (bind_ok _ _ h c0 h); [|unfold stop_get; by rewrite Hc0].
  rewrite bool_decide_true by done. cbn [negb]. rewrite (bind_ok _ _ _ _ _ Ef), (bind_ok _ _ _ _ _ Ea).
  assert (v_origin_earliest v - eb <=? a = true) as ->.
  { apply Z.leb_le. subst a. pose proof (dist_nonneg (v_origin_position v) (st_position c0)). unfold eb. lia. }
  cbn [negb]. rewrite (bind_ok _ _ _ _ _ El). rewrite (bind_ok _ _ h1 cn1 h1); [|unfold stop_get; by rewrite Hcn1].
  rewrite bool_decide_true; [|rewrite <- Pn; transitivity (vi_place xn); [by rewrite Exn1|by rewrite Exn]]. cbn [negb].
  unfold bind at 1. unfold last_departure_within. rewrite (bind_ok _ _ _ _ _ El), Ed. done.
Qed.

Lemma c83_trip `{W : World} : forall h r v ids xs n p s d j pc,
  sane_capacities -> well_formed h r v ids xs -> ids !! j = Some d -> picked h ids s p -> planned_between h v p s d ->
  h_pts h !! p = Some pc -> pt_feasible pc = None ->
  ((j < n)%nat -> pt_feasible_within n p h = pt_is_feasible p h) /\
  ((n <= j)%nat -> pt_feasible_within n p h = (Raise RecursionError, h)).
Proof.
  intros h r v ids xs n p s d j pc SC R Hj Hpk (pc' & Hpc' & _ & P1 & P2) Hpc Hf. apply well_formed_RouteW in R.
  rewrite Hpc in Hpc'. injection Hpc' as <-. split.
  - intros Hn. destruct Hpk as (i & c & Hi & Hc & Hp).
    assert (p ∈ pts_of h ids) as Hp' by (apply elem_of_pts_of; exists s, c; split; [by eapply elem_of_list_lookup_2|done]).
    destruct (pts_of_Ride _ _ _ _ _ _ R Hp') as (t & i' & j' & s' & d' & (pc' & Hpc' & _ & _ & P1' & P2' & Hi' & Hj' & Hij) & _).
    rewrite Hpc in Hpc'. injection Hpc' as <-. rewrite P1 in P1'. rewrite P2 in P2'. injection P1' as <-. injection P2' as <-.
    assert (j' = j) as -> by (eapply NoDup_lookup; [by eapply RouteW_NoDup|done|done]).
    destruct (agree_pt SC h r v ids xs R n i' j s d p Hi' Hj Hij Hn) with (h := h) as [E _]; [|apply grow_refl|done].
    intros h' pc' G Hpc'. destruct (g_pts _ _ G _ _ Hpc) as (pc2 & Hpc2 & E). rewrite Hpc' in Hpc2. injection Hpc2 as <-.
    apply sk_pt_eq in E as (_ & _ & -> & ->). done.
  - intros Hn. destruct (RouteW_lookup _ _ _ _ _ _ _ R Hj) as (c & x & Hc & Hx & _ & _ & _ & _ & P).
    unfold pt_feasible_within. rewrite (bind_ok _ _ h pc h); [|unfold pt_get; by rewrite Hpc]. rewrite Hf, P2.
    unfold bind at 1. rewrite (bind_ok _ _ h d h) by done. unfold bind at 1, all_previous_within.
    rewrite (all_previous_deep n h v d _ _ _ P); [done|]. rewrite reverse_length, take_length_le; [done|]. apply lookup_lt_Some in Hj. lia.
Qed.

Lemma c83_in_order `{W : World} : forall h r v ids xs, linked h r v ids xs ->
  exists h', mapM (departure_within 2) ids h = (Ok (map tm_departure (timetable v xs)), h') /\
    linked h' r v ids xs /\ only_memoised h h'.
Proof.
  intros h r v ids xs R. apply linked_RouteP in R.
  destruct (in_order v r ids xs ids h 0 R) as (h' & E & Q); [done| |].
  - intros s Hs. destruct (RouteP_lookup _ _ _ _ _ _ _ R Hs) as (c & x & Hc & _ & _ & _ & _ & Pr & _).
    exists c. split; [done|]. rewrite Pr. done.
  - exists h'. split; [done|]. split; [|by apply quiet_memoised]. apply linked_RouteP. eapply RouteP_soft; [by apply quiet_soft|done].
Qed.
