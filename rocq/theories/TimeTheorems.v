(** Properties of times, loads and feasibility of routes (C01-C05, C50). *)
From Verif Require Import Reads RepresentsProofs ComputeProofs ValueProofs.

Section time.
  Context {W : World}.

  Lemma bind_ok {A B} (m : M A) (k : A -> M B) h a h1 : m h = (Ok a, h1) -> (bind m k) h = k a h1.
  Proof. unfold bind. by intros ->. Qed.
  Lemma gives_eq {B} (m : M B) h b : gives m h b -> exists h', m h = (Ok b, h') /\ quiet h h'.
  Proof. intros G. apply runs_eq in G as (a & h' & E & -> & Q). eauto. Qed.
  Lemma gives_returns {B} (m : M B) h b : gives m h b -> returns m h b.
  Proof. intros G. apply gives_eq in G as (h' & E & _). by exists h'. Qed.
  Lemma unasked_quiet h h' r ids : quiet h h' -> unasked h r ids -> unasked h' r ids.
  Proof.
    intros [S [F1 [F2 F3]]] [U1 [U2 U3]]. split; [|split].
    - intros c' Hc'. specialize (F3 r). rewrite Hc' in F3. destruct (h_routes h !! r) as [c|] eqn:Hc; [|done].
      cbn in F3. injection F3 as ->. by apply U1.
    - intros s c' Hs Hc'. specialize (F1 s). rewrite Hc' in F1. destruct (h_stops h !! s) as [c|] eqn:Hc; [|done].
      cbn in F1. injection F1 as ->. by eapply U2.
    - intros s c' p pc' Hs Hc' Hp Hpc'. specialize (F2 p). rewrite Hpc' in F2. destruct (h_pts h !! p) as [pc|] eqn:Hpc; [|done].
      cbn in F2. injection F2 as ->. destruct S as [G (Ls & _)].
      assert (Hpk : picks h s p) by (eapply (picks_back h); [exact Ls|by apply (g_stops _ _ G)|by exists c']).
      destruct Hpk as (c & Hc & Hpc2). by eapply U3.
  Qed.
  Lemma quiet_memoised h h' : quiet h h' -> only_memoised h h'.
  Proof. intros Q. split; [apply soft_kept; by apply quiet_soft|]. intros r ids. by apply unasked_quiet. Qed.

  Lemma place_before_take v xs i : (i < length xs)%nat ->
    default (v_origin_position v) (vi_place <$> last (take i xs)) = place_before v xs i.
  Proof.
    intros Hi. destruct i as [|j]; [done|]. cbn [place_before].
    destruct (lookup_lt_is_Some_2 xs j) as [x Hx]; [lia|]. rewrite Hx.
    by rewrite (take_S_r _ _ _ Hx), last_snoc.
  Qed.

  Lemma read_time h r v ids xs k i s :
    RouteP h r v ids xs -> ids !! i = Some s -> k <> Load ->
    exists z, right v xs k i z /\ gives (read k s) h z.
  Proof.
    intros R Hs Hk. destruct (RouteP_times _ _ _ _ _ _ _ R Hs) as (x & T & Hx & HT & G1 & G2 & G3 & G4 & G5).
    rewrite place_before_take in G5 by (by eapply lookup_lt_Some).
    destruct k; try done; eexists; (split; [exists x, T; by split|done]).
  Qed.
  Lemma read_any h r v ids xs k i s :
    sane_capacities -> RouteW h r v ids xs -> ids !! i = Some s ->
    exists z, right v xs k i z /\ gives (read k s) h z.
  Proof.
    intros SC R Hs. assert (k = Load \/ k <> Load) as [->|Hk] by (destruct k; by (left + right)).
    - destruct (stop_times _ _ _ _ _ _ _ R Hs) as (x & T & Hx & HT & _ & _ & _ & _ & G).
      exists (tm_load T). split; [exists x, T; by split|by apply G].
    - eapply read_time; [by apply RouteW_P|done|done].
  Qed.

  (** C01: times *)
  Lemma reads_runs h r v ids xs qs :
    RouteP h r v ids xs ->
    (forall k i, (k, i) ∈ qs -> (i < length ids)%nat) ->
    (forall h', quiet h h' -> forall k i s, (k, i) ∈ qs -> ids !! i = Some s ->
       exists z, right v xs k i z /\ gives (read k s) h' z) ->
    exists zs h', mapM (fun q : reading * nat => let! s := py_nth ids q.2 in read q.1 s) qs h = (Ok zs, h') /\
      Forall2 (fun q z => right v xs q.1 q.2 z) qs zs /\ quiet h h'.
  Proof.
    intros R. revert h R. induction qs as [|[k i] qs IH]; intros h R Hi Hq.
    - exists [], h. split; [done|]. split; [constructor|apply quiet_refl].
    - assert (Hlt : (i < length ids)%nat) by (eapply Hi; left).
      apply lookup_lt_is_Some_2 in Hlt as [s Hs].
      destruct (Hq h (quiet_refl h) k i s) as (z & Hz & G); [left|done|].
      apply gives_eq in G as (h1 & E1 & Q1).
      destruct (IH h1) as (zs & h2 & E2 & F & Q2).
      + eapply RouteP_soft; [by apply quiet_soft|done].
      + intros k' i' Hin. eapply Hi. by right.
      + intros h' Q' k' i' s' Hin Hs'. eapply Hq; [by eapply quiet_trans|by right|done].
      + exists (z :: zs), h2. split; [|split; [by constructor|by eapply quiet_trans]].
        cbn [mapM]. erewrite bind_ok; [by erewrite bind_ok|]. cbn [fst snd]. unfold py_nth. by rewrite Hs.
  Qed.
End time.

Lemma c01_times `{W : World} : forall h r v ids xs (qs : list (reading * nat)),
  linked h r v ids xs ->
  (forall k i, (k, i) ∈ qs -> (i < length ids)%nat /\ k <> Load) ->
  exists zs h',
    mapM (fun q : reading * nat => let! s := py_nth ids q.2 in read q.1 s) qs h = (Ok zs, h') /\
    Forall2 (fun q z => right v xs q.1 q.2 z) qs zs /\
    linked h' r v ids xs /\ only_memoised h h'.
Proof.
  intros h r v ids xs qs R Hq. apply linked_RouteP in R.
  destruct (reads_runs h r v ids xs qs) as (zs & h' & E & F & Q); [done|by intros; eapply Hq| |].
  - intros h' Q k i s Hin Hs. eapply read_time; [|done|by eapply Hq].
    eapply RouteP_soft; [by apply quiet_soft|done].
  - exists zs, h'. split; [done|]. split; [done|]. split; [|by apply quiet_memoised].
    apply linked_RouteP. eapply RouteP_soft; [by apply quiet_soft|done].
Qed.

Lemma c01_all `{W : World} : forall h r v ids xs (qs : list (reading * nat)),
  sane_capacities -> well_formed h r v ids xs ->
  (forall k i, (k, i) ∈ qs -> (i < length ids)%nat) ->
  exists zs h',
    mapM (fun q : reading * nat => let! s := py_nth ids q.2 in read q.1 s) qs h = (Ok zs, h') /\
    Forall2 (fun q z => right v xs q.1 q.2 z) qs zs /\
    well_formed h' r v ids xs /\ only_memoised h h'.
Proof.
  intros h r v ids xs qs SC R Hq. apply well_formed_RouteW in R.
  destruct (reads_runs h r v ids xs qs) as (zs & h' & E & F & Q); [by apply RouteW_P|done| |].
  - intros h' Q k i s Hin Hs. eapply read_any; [done| |done].
    eapply RouteW_soft; [by apply quiet_soft|done].
  - exists zs, h'. split; [done|]. split; [done|]. split; [|by apply quiet_memoised].
    apply well_formed_RouteW. eapply RouteW_soft; [by apply quiet_soft|done].
Qed.

(** C02 *)
Lemma c02_stop `{W : World} : forall h r v ids xs i s,
  sane_durations -> linked h r v ids xs -> ids !! i = Some s ->
  exists a b d w, returns (arrival_time s) h a /\ returns (starting_time s) h b /\
    returns (departure_time s) h d /\ returns (waiting_time s) h w /\
    a <= b <= d /\ w = b - a /\ 0 <= w.
Proof.
  intros h r v ids xs i s SD R Hs. apply linked_RouteP in R.
  destruct (RouteP_times _ _ _ _ _ _ _ R Hs) as (x & T & Hx & HT & G1 & G2 & G3 & G4 & _).
  exists (tm_arrival T), (tm_start T), (tm_departure T), (tm_start T - tm_arrival T).
  split; [by apply gives_returns|]. split; [by apply gives_returns|]. split; [by apply gives_returns|].
  split; [by apply gives_returns|].
  rewrite (timetable_lookup v xs i x Hx) in HT. injection HT as <-.
  pose proof (tm_arrival_le_start v x (reverse (take i xs))).
  pose proof (tm_start_le_departure v x (reverse (take i xs)) SD).
  unfold tm in *. lia.
Qed.
Lemma c02_next `{W : World} : forall h r v ids xs i s s',
  linked h r v ids xs -> ids !! i = Some s -> ids !! S i = Some s' ->
  exists d a, returns (departure_time s) h d /\ returns (arrival_time s') h a /\ d <= a.
Proof.
  intros h r v ids xs i s s' R Hs Hs'. apply linked_RouteP in R.
  destruct (RouteP_times _ _ _ _ _ _ _ R Hs) as (x & T & Hx & HT & _ & _ & G & _).
  destruct (RouteP_times _ _ _ _ _ _ _ R Hs') as (x' & T' & Hx' & HT' & G' & _).
  exists (tm_departure T), (tm_arrival T').
  split; [by apply gives_returns|]. split; [by apply gives_returns|]. by eapply timetable_next.
Qed.
Lemma c02_route `{W : World} : forall h r v ids xs,
  sane_durations -> well_formed h r v ids xs -> ids <> [] ->
  exists d, returns (route_duration r) h d /\ 0 <= d.
Proof.
  intros h r v ids xs SD R Hne. apply well_formed_RouteW in R.
  eexists. split; [by apply gives_returns; eapply route_duration_gives|].
  destruct (RouteW_first _ _ _ _ _ R Hne) as (s & x & T & _ & _ & HT).
  destruct (RouteW_last _ _ _ _ _ R Hne) as (n & s' & x' & T' & _ & _ & HT' & _ & _ & E' & _).
  unfold returned_at, left_at. rewrite E', head_lookup, HT. cbn.
  destruct n as [|n]; [rewrite HT in HT'; injection HT' as <-; lia|].
  pose proof (timetable_ride_mono v xs 0 (S n) T T' SD ltac:(lia) HT HT').
  pose proof (timetable_arrival_start v xs (S n) T' HT').
  assert (tm_start T' <= tm_departure T').
  { destruct (lookup_lt_is_Some_2 xs (S n)) as [y Hy].
    { apply lookup_lt_Some in HT'. unfold timetable in HT'. by rewrite schedule_length in HT'. }
    rewrite (timetable_lookup v xs _ y Hy) in HT'. injection HT' as <-. by apply (tm_start_le_departure v). }
  lia.
Qed.
Lemma c02_asserts `{W : World} : forall h r v ids xs,
  linked h r v ids xs ->
  (exists h', assert_linked r h = (Ok tt, h') /\ only_memoised h h') /\
  (exists h', assert_monotone r h = (Ok tt, h') /\ only_memoised h h').
Proof.
  intros h r v ids xs R. apply linked_RouteP in R. split.
  - pose proof (assert_linked_runs _ _ _ _ _ R) as G. apply runs_eq in G as ([] & h' & E & ->).
    exists h. split; [done|]. apply quiet_memoised, quiet_refl.
  - pose proof (assert_monotone_runs _ _ _ _ _ R) as G. apply runs_eq in G as ([] & h' & E & Q).
    exists h'. split; [done|]. by apply quiet_memoised.
Qed.

(** C03 *)
Section loads.
  Context {W : World}.
  Lemma on_board_end xs : rides xs -> on_board xs = [].
  Proof.
    intros R. unfold on_board. apply not_elem_of_nil_inv || idtac.
    destruct (filter (fun t => t ∉ alights xs) (boards xs)) as [|t l] eqn:E; [done|].
    assert (Ht : t ∈ filter (fun t => t ∉ alights xs) (boards xs)) by (rewrite E; left).
    apply elem_of_list_filter in Ht as [H1 H2]. exfalso. apply H1. by rewrite (rides_all _ R).
  Qed.
End loads.
Lemma c03_load `{W : World} : forall h r v ids xs i s,
  sane_capacities -> well_formed h r v ids xs -> ids !! i = Some s ->
  exists q h', capacity s h = (Ok q, h') /\ only_memoised h h' /\
    q = weight (on_board (take (S i) xs)) /\ 0 <= q.
Proof.
  intros h r v ids xs i s SC R Hs. apply well_formed_RouteW in R.
  destruct (stop_times _ _ _ _ _ _ _ R Hs) as (x & T & Hx & HT & _ & _ & _ & _ & G).
  specialize (G SC). apply gives_eq in G as (h' & E & Q).
  assert (Eq : tm_load T = weight (on_board (take (S i) xs))).
  { rewrite (timetable_lookup v xs i x Hx) in HT. injection HT as <-.
    apply (rides_load v xs i x); [apply (rw_rides _ _ _ _ _ R)|done]. }
  exists (tm_load T), h'. split; [done|]. split; [by apply quiet_memoised|]. split; [done|].
  rewrite Eq. by apply weight_nonneg.
Qed.
Lemma c03_end `{W : World} : forall h r v ids xs s,
  sane_capacities -> well_formed h r v ids xs -> last ids = Some s ->
  returns (capacity s) h 0.
Proof.
  intros h r v ids xs s SC R Hs.
  assert (Hne : ids <> []) by (by intros ->).
  pose proof R as R'. apply well_formed_RouteW in R'.
  destruct (RouteW_last _ _ _ _ _ R' Hne) as (n & s' & x & T & Hn & Hx & HT & Hl & _ & _ & Ln).
  rewrite Hs in Hl. injection Hl as <-.
  destruct (c03_load _ _ _ _ _ _ _ SC R Hn) as (q & h' & E & _ & -> & _).
  exists h'. rewrite E. do 2 f_equal. rewrite take_ge by lia.
  by rewrite on_board_end by apply (rw_rides _ _ _ _ _ R').
Qed.

(** C04 *)
Section restart.
  Context {W : World}.

  Lemma set_and_flush h r v ids xs i s x z :
    RouteP h r v ids xs -> ids !! i = Some s -> xs !! i = Some x ->
    runs (set_starting_time s z ;;; route_flush r) h (fun _ h' =>
      RouteP h' r v ids (<[i := restart (Some z) x]> xs) /\
      (forall q, h_stops h' !! q = clear_if ids q <$> alter (set_starting (Some z)) s (h_stops h) !! q) /\
      (forall p, sk_pt <$> h_pts h' !! p = sk_pt <$> h_pts h !! p) /\
      (forall p c, p ∈ pts_of h ids -> h_pts h' !! p = Some c -> pt_feasible c = None) /\
      (forall q c, h_routes h !! q = Some c -> exists c', h_routes h' !! q = Some c' /\ sk_route c' = sk_route c) /\
      (forall c, h_routes h' !! r = Some c -> rt_feasible c = None)).
  Proof.
    intros R Hs Hx.
    destruct (RouteP_lookup _ _ _ _ _ _ _ R Hs) as (c & x' & Hc & Hx' & Ex & K & Vc & Pc & _).
    rewrite Hx in Hx'. injection Hx' as <-. step.
    eapply runs_mono; [by eapply set_starting_time_runs|]. intros ? h1 (S1 & R1 & T1 & P1).
    pose proof R as [(rc & Hrc & Vr & Ir) _].
    eapply runs_mono; [apply (route_flush_plain h1 r ids)|].
    - rewrite R1. eauto.
    - intros q Hq. destruct (RouteP_alloc _ _ _ _ _ _ R Hq) as [d Hd].
      apply lookup_lt_is_Some. rewrite S1, !alter_length. by eapply lookup_lt_Some.
    - intros ? h2 (Sf & S2 & P2 & R2).
      assert (Hin : forall q, q ∈ ids -> is_Some (h_stops h !! q)) by (intros; by eapply RouteP_alloc).
      assert (HS : forall q, h_stops h2 !! q = clear_if ids q <$> alter (set_starting (Some z)) s (h_stops h) !! q).
      { intros q. rewrite S2, S1. destruct (decide (q = s)) as [->|Hne].
        - rewrite !list_lookup_alter, Hc. cbn. unfold clear_if. by rewrite bool_decide_eq_true_2 by (by eapply elem_of_list_lookup_2).
        - by rewrite !list_lookup_alter_ne by done. }
      assert (HP : forall p, sk_pt <$> h_pts h2 !! p = sk_pt <$> h_pts h !! p).
      { intros p. rewrite <- P1. destruct (h_pts h1 !! p) as [pc|] eqn:Hpc.
        - destruct (g_pts _ _ (proj1 Sf) _ _ Hpc) as (pc' & -> & E). cbn. by rewrite E.
        - rewrite lookup_ge_None in *. destruct Sf as (_ & _ & L2 & _). rewrite lookup_ge_None_2 by lia. done. }
      assert (HR : forall q d, h_routes h !! q = Some d -> exists d', h_routes h2 !! q = Some d' /\ sk_route d' = sk_route d).
      { intros q d Hd. eapply (g_routes _ _ (proj1 Sf)). by rewrite R1. }
      split; [|split; [done|split; [done|split; [|done]]]].
      + eapply (RouteP_restart h h2); [exact R|done|done|by apply HR| | | |].
        * intros q d Hq Hne Hd. rewrite HS, list_lookup_alter_ne, Hd by done. cbn. eexists. split; [done|].
          split; [apply clear_if_sk|apply clear_if_weaker].
        * intros d Hd. rewrite HS, list_lookup_alter, Hd. cbn. eexists. split; [done|]. apply clear_if_sk.
        * intros q c' Hq Hc'. rewrite HS in Hc'. destruct (alter _ _ _ !! q); [|done]. cbn in Hc'. injection Hc' as <-.
          apply clear_if_in. apply elem_of_drop in Hq as (k & _ & Hk). by eapply elem_of_list_lookup_2.
        * intros p pc Hpc. pose proof (HP p) as E. rewrite Hpc in E. destruct (h_pts h2 !! p) as [pc'|]; [|done].
          cbn in E. exists pc'. split; [done|]. by apply (inj Some).
      + intros p pc Hp Hpc. eapply P2; [|exact Hpc]. rewrite (pts_of_ext h h1); [done| |done].
        intros q d Hq Hd. rewrite S1. destruct (decide (q = s)) as [->|Hne].
        * rewrite !list_lookup_alter, Hd. cbn. eauto.
        * rewrite !list_lookup_alter_ne, Hd by done. eauto.
  Qed.
End restart.

Lemma restart_ask `{W : World} z x : restart (Some z) x = ask z x.
Proof. done. Qed.

Lemma asked_linked `{W : World} : forall h r v ids xs i s x z,
  linked h r v ids xs -> ids !! i = Some s -> xs !! i = Some x ->
  exists h', (set_starting_time s z ;;; route_flush r) h = (Ok tt, h') /\
    linked h' r v ids (<[i := ask z x]> xs).
Proof.
  intros h r v ids xs i s x z R Hs Hx. apply linked_RouteP in R.
  pose proof (set_and_flush _ _ _ _ _ _ _ _ z R Hs Hx) as G.
  apply runs_eq in G as ([] & h' & E & R' & _). exists h'. split; [done|]. by apply linked_RouteP.
Qed.

Lemma asked_formed `{W : World} : forall h r v ids xs i s x z,
  sane_durations -> sane_capacities ->
  well_formed h r v ids xs -> ids !! i = Some s -> xs !! i = Some x ->
  (forall s c, s ∈ ids -> h_stops h !! s = Some c -> st_feasible c = None) ->
  exists h', (set_starting_time s z ;;; route_flush r) h = (Ok tt, h') /\
    well_formed h' r v ids (<[i := ask z x]> xs) /\ unasked h' r ids.
Proof.
  intros h r v ids xs i s x z SD SC R Hs Hx HF. apply well_formed_RouteW in R.
  pose proof (set_and_flush _ _ _ _ _ _ _ _ z (RouteW_P _ _ _ _ _ R) Hs Hx) as G.
  apply runs_eq in G as ([] & h' & E & R' & S' & P' & F' & Rt' & RF').
  exists h'. split; [done|].
  assert (HS : forall q c, q ∈ ids -> h_stops h !! q = Some c -> exists c', h_stops h' !! q = Some c' /\
     st_pickups c' = st_pickups c /\ st_deliveries c' = st_deliveries c /\ st_feasible c' = st_feasible c).
  { intros q c Hq Hc. rewrite S'. destruct (decide (q = s)) as [->|Hne].
    - rewrite list_lookup_alter, Hc. cbn. eexists. split; [done|]. unfold clear_if. by case_bool_decide.
    - rewrite list_lookup_alter_ne, Hc by done. cbn. eexists. split; [done|]. unfold clear_if. by case_bool_decide. }
  split.
  - apply well_formed_RouteW. destruct R' as [Rc Pa]. split; [done|done| |].
    + eapply rides_same; [|apply (rw_rides _ _ _ _ _ R)]. symmetry. by apply insert_anytime.
    + eapply Links_frame; [apply (rw_links _ _ _ _ _ R)| | |].
      * intros q Hq. eapply RouteP_alloc; [by apply RouteW_P|done].
      * intros q c Hq Hc. destruct (HS q c Hq Hc) as (c' & ? & ? & ? & _). eauto.
      * intros q c p pc _ _ _ Hpc. pose proof (P' p) as Ep. rewrite Hpc in Ep. destruct (h_pts h' !! p) as [pc'|]; [|done].
        cbn in Ep. exists pc'. split; [done|]. by apply (inj Some).
  - split; [done|]. split.
    + intros q c' Hq Hc'. destruct (RouteP_alloc _ _ _ _ _ q (RouteW_P _ _ _ _ _ R) Hq) as [c Hc].
      destruct (HS q c Hq Hc) as (c2 & Hc2 & _ & _ & Ef). rewrite Hc' in Hc2. injection Hc2 as <-.
      rewrite Ef. by eapply HF.
    + intros q c' p pc' Hq Hc' Hp Hpc'. destruct (RouteP_alloc _ _ _ _ _ q (RouteW_P _ _ _ _ _ R) Hq) as [c Hc].
      destruct (HS q c Hq Hc) as (c2 & Hc2 & Ep & _ & _). rewrite Hc' in Hc2. injection Hc2 as <-.
      eapply F'; [|exact Hpc']. apply elem_of_pts_of. exists q, c. split; [done|]. split; [done|]. by rewrite <- Ep.
Qed.

(** C05 *)
Lemma c05_feasible `{W : World} : forall h r v ids xs,
  sane_durations -> sane_capacities ->
  well_formed h r v ids xs -> ids <> [] -> unasked h r ids ->
  exists b h', route_feasible r h = (Ok b, h') /\ (b = true <-> admissible v xs) /\
    routes_kept h h' /\ route_feasible r h' = (Ok b, h').
Proof.
  intros h r v ids xs SD SC R Hne U. apply well_formed_RouteW in R.
  pose proof (unasked_Flags _ _ _ _ _ R U) as [F Fr].
  pose proof (route_feasible_runs _ _ _ _ _ SD SC R Hne) as G.
  apply runs_eq in G as (b & h' & E & S & G & _). destruct (G F Fr) as [_ Hb].
  exists b, h'. split; [done|]. split; [|split; [by apply soft_kept|]].
  - rewrite Hb. apply route_okb_admissible. intros ->. pose proof (RouteW_length _ _ _ _ _ R). by destruct ids.
  - pose proof R as [(c & Hc & _) _ _ _]. 
    unfold route_feasible in E. unfold bind at 1 in E. unfold route_get in E at 1. rewrite Hc in E.
    rewrite (Fr c Hc) in E. unfold bind at 1 in E.
    match type of E with (match ?m ?x with _ => _ end = _) => destruct (m x) as [[b1|e] h1] eqn:E1 end; [|done].
    unfold bind at 1, route_upd at 1, ret at 1 in E. injection E as <- <-.
    assert (S1 : exists c1, h_routes h1 !! r = Some c1).
    { destruct (g_routes _ _ (proj1 S) _ _ Hc) as (c' & Hc' & _). cbn in Hc'. rewrite list_lookup_alter in Hc'.
      destruct (h_routes h1 !! r); [eauto|done]. }
    destruct S1 as [c1 Hc1]. unfold route_feasible. unfold bind at 1. unfold route_get at 1. cbn [with_routes h_routes].
    rewrite list_lookup_alter, Hc1. done.
Qed.

(** C04, what is read afterwards *)
Lemma c04_times `{W : World} : forall h r v ids xs i s x z (qs : list (reading * nat)),
  linked h r v ids xs -> ids !! i = Some s -> xs !! i = Some x ->
  (forall k j, (k, j) ∈ qs -> (j < length ids)%nat /\ k <> Load) ->
  exists h' zs h'', (set_starting_time s z ;;; route_flush r) h = (Ok tt, h') /\
    linked h' r v ids (<[i := ask z x]> xs) /\
    mapM (fun q : reading * nat => let! s := py_nth ids q.2 in read q.1 s) qs h' = (Ok zs, h'') /\
    Forall2 (fun q y => right v (<[i := ask z x]> xs) q.1 q.2 y) qs zs.
Proof.
  intros h r v ids xs i s x z qs R Hs Hx Hq. destruct (asked_linked h r v ids xs i s x z R Hs Hx) as (h' & E & R').
  destruct (c01_times h' r v ids _ qs R' Hq) as (zs & h'' & E' & F & _). by exists h', zs, h''.
Qed.
Lemma c04_feasible `{W : World} : forall h r v ids xs i s x z (qs : list (reading * nat)),
  sane_durations -> sane_capacities ->
  well_formed h r v ids xs -> ids !! i = Some s -> xs !! i = Some x ->
  (forall s c, s ∈ ids -> h_stops h !! s = Some c -> st_feasible c = None) ->
  (forall k j, (k, j) ∈ qs -> (j < length ids)%nat) ->
  exists h', (set_starting_time s z ;;; route_flush r) h = (Ok tt, h') /\
    well_formed h' r v ids (<[i := ask z x]> xs) /\
    (exists zs h'', mapM (fun q : reading * nat => let! s := py_nth ids q.2 in read q.1 s) qs h' = (Ok zs, h'') /\
       Forall2 (fun q y => right v (<[i := ask z x]> xs) q.1 q.2 y) qs zs) /\
    exists b, returns (route_feasible r) h' b /\ (b = true <-> admissible v (<[i := ask z x]> xs)).
Proof.
  intros h r v ids xs i s x z qs SD SC R Hs Hx HF Hq.
  destruct (asked_formed h r v ids xs i s x z SD SC R Hs Hx HF) as (h' & E & R' & U).
  exists h'. split; [done|]. split; [done|]. split.
  - destruct (c01_all h' r v ids _ qs SC R' Hq) as (zs & h'' & E' & F & _). by exists zs, h''.
  - destruct (c05_feasible h' r v ids _ SD SC R') as (b & h'' & E' & B & _); [by intros ->|done|]. exists b. split; [by exists h''|done].
Qed.

(** C50 *)
Section fresh.
  Context {W : World}.

  Lemma tidy_HInv h : tidy h <-> HInv h.
  Proof.
    unfold tidy, HInv, HeadShare. split; intros [A B]; (split; [|exact B]); intros r c Hc;
      destruct (A r c Hc) as [L HL]; exists L; by apply on_tour_RouteOK.
  Qed.

  Lemma new_route_runs v h : runs (new_route v) h (fun r h' =>
    r = length (h_routes h) /\ grow h h' /\
    h' = MkHeap (h_stops h ++ [MkStop v (v_origin_position v) [] [] None None None None None None;
                               MkStop v (v_destination_position v) [] [] (Some (length (h_stops h))) None None None None None])
                (h_pts h) (h_routes h ++ [MkRoute v [length (h_stops h); S (length (h_stops h))] None]) (h_tick h) /\
    RouteOK h' r v [length (h_stops h); S (length (h_stops h))] (idle v)).
  Proof.
    unfold new_route, new_stop, alloc_stop, alloc_route, runs, bind. cbn [with_stops with_routes h_stops h_pts h_routes h_tick].
    rewrite app_length. cbn [length]. rewrite Nat.add_1_r.
    match goal with |- _ /\ grow h ?x /\ _ => set (h' := x) end.
    assert (E : h' = MkHeap (h_stops h ++ [MkStop v (v_origin_position v) [] [] None None None None None None;
                               MkStop v (v_destination_position v) [] [] (Some (length (h_stops h))) None None None None None])
                (h_pts h) (h_routes h ++ [MkRoute v [length (h_stops h); S (length (h_stops h))] None]) (h_tick h)).
    { unfold h', with_routes, with_stops. cbn. by rewrite <- app_assoc. }
    split; [done|]. split; [|split; [done|]].
    - rewrite E. apply grow_intro; cbn.
      + intros s c Hc. exists c. split; [by apply lookup_app_l_Some|]. split; [done|apply weaker_refl].
      + eauto.
      + intros r c Hc. exists c. split; [by apply lookup_app_l_Some|done].
    - rewrite E. split; [|apply tour_idle]. split.
      + cbn. eexists. split; [by rewrite lookup_app_r, Nat.sub_diag by done|done].
      + change (reverse [length (h_stops h); S (length (h_stops h))]) with [S (length (h_stops h)); length (h_stops h)].
        match goal with |- Path ?x _ _ _ => set (h2 := x) end.
        change (reverse (idle v)) with
          [abs h2 (MkStop v (v_destination_position v) [] [] (Some (length (h_stops h))) None None None None None);
           abs h2 (MkStop v (v_origin_position v) [] [] None None None None None None)].
        apply Path_cons; [cbn; rewrite lookup_app_r by lia; by replace (S (length (h_stops h)) - length (h_stops h))%nat with 1%nat by lia|done|done| |by repeat split|].
        { intros p Hp. inversion Hp. }
        apply Path_cons; [cbn; by rewrite lookup_app_r, Nat.sub_diag by lia|done|done| |by repeat split|constructor].
        intros p Hp. inversion Hp.
      + apply (tour_rides v), tour_idle.
      + intros s c Hs Hc. cbn in Hc.
        assert (st_pickups c = [] /\ st_deliveries c = []) as [-> ->].
        { rewrite elem_of_cons, elem_of_list_singleton in Hs. destruct Hs as [->| ->].
          - rewrite lookup_app_r, Nat.sub_diag in Hc by lia. by injection Hc as <-.
          - rewrite lookup_app_r in Hc by lia. replace (S (length (h_stops h)) - length (h_stops h))%nat with 1%nat in Hc by lia. by injection Hc as <-. }
        split; intros p Hp; inversion Hp.
  Qed.
  Lemma new_route_HInv v h h' r : new_route v h = (Ok r, h') -> HInv h -> HInv h'.
  Proof.
    intros E HI. pose proof (new_route_runs v h) as G. unfold runs in G. rewrite E in G. destruct G as (-> & G & E' & R).
    eapply (HInv_extend h h'); [done|by apply later_grow| |done|exact R|].
    - rewrite E'. cbn. rewrite app_length. cbn. lia.
    - intros s [= <-]. left. done.
  Qed.
End fresh.

Lemma c50_fresh `{W : World} : forall v h,
  exists r ids h', new_route v h = (Ok r, h') /\
    on_tour h' r v ids (doing_nothing v) /\ length ids = 2%nat /\ unasked h' r ids /\
    h_routes h !! r = None /\ (forall s, s ∈ ids -> h_stops h !! s = None) /\
    routes_kept h h' /\ (tidy h -> tidy h').
Proof.
  intros v h. pose proof (new_route_runs v h) as G. apply runs_eq in G as (r & h' & E & Er & G & E' & R).
  exists r, [length (h_stops h); S (length (h_stops h))], h'. split; [done|].
  split; [by apply on_tour_RouteOK|]. split; [done|]. split; [|split; [|split; [|split]]].
  - rewrite E'. split; [|split]; cbn.
    + subst r. intros c Hc. rewrite lookup_app_r, Nat.sub_diag in Hc by lia. by injection Hc as <-.
    + intros s c Hs Hc. rewrite elem_of_cons, elem_of_list_singleton in Hs. destruct Hs as [->| ->].
      * rewrite lookup_app_r, Nat.sub_diag in Hc by lia. by injection Hc as <-.
      * rewrite lookup_app_r in Hc by lia. replace (S (length (h_stops h)) - length (h_stops h))%nat with 1%nat in Hc by lia. by injection Hc as <-.
    + intros s c p pc Hs Hc Hp. exfalso. rewrite elem_of_cons, elem_of_list_singleton in Hs. destruct Hs as [->| ->].
      * rewrite lookup_app_r, Nat.sub_diag in Hc by lia. injection Hc as <-. inversion Hp.
      * rewrite lookup_app_r in Hc by lia. replace (S (length (h_stops h)) - length (h_stops h))%nat with 1%nat in Hc by lia. injection Hc as <-. inversion Hp.
  - subst r. by apply lookup_ge_None_2.
  - intros s Hs. apply lookup_ge_None_2. set_solver by lia.
  - by apply grow_kept.
  - intros T. apply tidy_HInv. eapply new_route_HInv; [exact E|]. by apply tidy_HInv.
Qed.

Lemma admissible_idle `{W : World} v : admissible v (doing_nothing v) <->
  at_most (Z.max 0 (v_origin_earliest v) + dist (v_origin_position v) (v_destination_position v)) (v_destination_latest v) /\
  at_most (dist (v_origin_position v) (v_destination_position v)) (v_timeout v).
Proof.
  set (D := dist (v_origin_position v) (v_destination_position v)).
  assert (HD : 0 <= D) by apply dist_nonneg.
  set (E := v_origin_earliest v).
  assert (HT : timetable v (doing_nothing v) =
    [Timing E (Z.max 0 E) (Z.max 0 E) 0; Timing (Z.max 0 E + D) (Z.max 0 E + D) (Z.max 0 E + D) 0]).
  { unfold timetable, doing_nothing, schedule, ready, advance, leave, visit_earliest, visit_duration, weight.
    cbn [tm_departure tm_load vi_place vi_board vi_alight vi_request map app max_or sum_of foldr default].
    rewrite dist_refl. fold D E. f_equal; [|f_equal]; f_equal; lia. }
  split.
  - intros A. pose proof (ad_return _ _ A) as A1. pose proof (ad_duration _ _ A) as A2. rewrite HT in A1, A2. cbn in A1, A2.
    split; [by apply (A1 _ eq_refl)|]. specialize (A2 _ _ eq_refl eq_refl). cbn in A2.
    by replace (Z.max 0 E + D - Z.max 0 E) with D in A2 by lia.
  - intros [A1 A2]. split.
    + eexists. split; [done|]. done.
    + eexists. split; [done|]. done.
    + rewrite HT. by intros T [= <-].
    + rewrite HT. intros T0 T [= <-] [= <-]. cbn. by replace (Z.max 0 E + D - Z.max 0 E) with D by lia.
    + intros t i j x y Ti Tj (x' & y' & Hx & _ & Hb & _). exfalso.
      destruct i as [|[|i]]; [injection Hx as <-|injection Hx as <-|done]; inversion Hb.
Qed.
Lemma c50_feasible `{W : World} : forall v h r h',
  sane_durations -> sane_capacities ->
  new_route v h = (Ok r, h') ->
  exists b, returns (route_feasible r) h' b /\
    (b = true <->
      at_most (Z.max 0 (v_origin_earliest v) + dist (v_origin_position v) (v_destination_position v)) (v_destination_latest v) /\
      at_most (dist (v_origin_position v) (v_destination_position v)) (v_timeout v)).
Proof.
  intros v h r h' SD SC E. destruct (c50_fresh v h) as (r2 & ids & h2 & E2 & [R _] & Hl & U & _).
  rewrite E in E2. injection E2 as <- <-.
  destruct (c05_feasible h' r v ids _ SD SC R) as (b & h3 & E3 & Hb & _); [by intros ->|done|].
  exists b. split; [by exists h3|]. rewrite Hb. apply admissible_idle.
Qed.
