(** Proofs about the readable report (C60). *)
From Verif Require Import SpecReport FeasibleProofs FeasibleTheorems CloneProofs ComputeProofs TimeTheorems ValueTheorems AccountTheorems StoreTheorems Witness.

Lemma free_lacks c s : free_of c s <-> lacks c s.
Proof. induction s as [|a s IH]; cbn; [done|]. by rewrite IH. Qed.

Section rows.
  Context {W : World}.
  Lemma names_of_order x bs als : bs ≡ₚ vi_board x -> als ≡ₚ vi_alight x ->
    names_visit x ("[" +:+ String.concat "|" (map (fun t => "P" +:+ tr_identifier (w_trip t)) bs ++
                                    map (fun t => "D" +:+ tr_identifier (w_trip t)) als) +:+ "]").
  Proof.
    intros Hb Ha. set (l := _ ++ _).
    assert (Hl : l ≡ₚ event_names x). { unfold l, event_names. by rewrite Hb, Ha. }
    clearbody l. exists (String.concat "|" l). split; [done|]. split.
    - intros E. rewrite E in Hl. apply Permutation_nil_r in Hl. by subst.
    - intros Hne HF. change "|"%string with (String bar EmptyString). rewrite split_on_concat; [done| |].
      + intros ->. by apply Permutation_nil in Hl.
      + apply Forall_forall. intros s Hs. rewrite Hl in Hs. rewrite Forall_forall in HF. by apply free_lacks, HF.
  Qed.
  Lemma identifier_runs h r v ids L i s x : RouteW h r v ids L -> ids !! i = Some s -> L !! i = Some x ->
    runs (stop_identifier s) h (fun name h' => quiet h h' /\ names_visit x name).
  Proof.
    intros R Hs Hx. destruct (RouteW_lookup _ _ _ _ _ _ _ R Hs) as (c & x' & Hc & Hx' & Ex & K & _).
    rewrite Hx in Hx'. injection Hx' as <-.
    unfold stop_identifier. step. eapply runs_stop_get; [exact Hc|].
    step. apply runs_set_order. intros ps Hps. step. apply runs_trips_of.
    { intros p Hp. rewrite Hps in Hp. cbn. apply K. apply elem_of_app. by left. }
    step. apply runs_set_order. intros ds Hds. step. apply runs_trips_of.
    { intros p Hp. rewrite Hds in Hp. cbn. apply K. apply elem_of_app. by right. }
    apply runs_ret. split; [eapply (quiet_trans _ (MkHeap _ _ _ _)); (split; [apply soft_tick|done])|].
    rewrite Ex. apply names_of_order; cbn; [by rewrite Hps|by rewrite Hds].
  Qed.
  Lemma stop_row_runs h r v ids L i s : sane_capacities -> RouteW h r v ids L -> ids !! i = Some s ->
    runs (stop_to_str s) h (fun w h' => quiet h h' /\ shows_visit v L i w).
  Proof.
    intros SC R Hs. destruct (stop_times _ _ _ _ _ _ _ R Hs) as (x & T & Hx & HT & _).
    unfold stop_to_str. step. eapply runs_mono; [by eapply identifier_runs|]. cbn. intros name h1 [Q1 Hn].
    assert (Rq : forall h', quiet h h' -> RouteW h' r v ids L) by (intros; by eapply RouteW_quiet).
    destruct (RouteW_lookup _ _ _ _ _ _ _ (Rq _ Q1) Hs) as (c & x' & Hc & Hx' & Ex & K & _).
    rewrite Hx in Hx'. injection Hx' as <-.
    step. eapply runs_stop_get; [exact Hc|]. step. eapply runs_earliest; [exact Hc|exact K|]. rewrite <- Ex.
    step. eapply runs_latest; [exact Hc|exact K|]. rewrite <- Ex.
    assert (Gt : forall h', quiet h h' -> gives (departure_time s) h' (tm_departure T) /\ gives (waiting_time s) h' (tm_start T - tm_arrival T) /\
      gives (capacity s) h' (tm_load T) /\ gives (transit_time s) h' (dist (place_before v L i) (vi_place x))).
    { intros h' Q. destruct (stop_times _ _ _ _ _ _ _ (Rq _ Q) Hs) as (x1 & T1 & Hx1 & HT1 & _ & _ & G1 & G2 & G3).
      destruct (RouteP_times _ _ _ _ _ _ _ (RouteW_P _ _ _ _ _ (Rq _ Q)) Hs) as (x2 & T2 & Hx2 & HT2 & _ & _ & _ & _ & G4).
      rewrite Hx in Hx1, Hx2. rewrite HT in HT1. injection Hx1 as <-. injection Hx2 as <-. injection HT1 as <-.
      split; [done|]. split; [done|]. split; [by apply G3|].
      replace (place_before v L i) with (default (v_origin_position v) (vi_place <$> last (take i L))); [done|].
      unfold place_before. destruct i as [|i]; [done|].
      destruct (lookup_lt_is_Some_2 L i) as [z Hz]; [apply lookup_lt_Some in Hx; lia|].
      by rewrite (take_S_r _ _ _ Hz), last_snoc, Hz. }
    eapply gives_seq; [by apply Gt|]. intros h2 Q2. assert (Q02 : quiet h h2) by (by eapply quiet_trans).
    eapply gives_seq; [by apply Gt|]. intros h3 Q3. assert (Q03 : quiet h h3) by (by eapply quiet_trans).
    destruct (RouteW_lookup _ _ _ _ _ _ _ (Rq _ Q03) Hs) as (c3 & x3 & Hc3 & Hx3 & Ex3 & K3 & _).
    rewrite Hx in Hx3. injection Hx3 as <-.
    step. eapply runs_load_time; [exact Hc3|exact K3|]. rewrite <- Ex3.
    eapply gives_seq; [by apply Gt|]. intros h4 Q4. assert (Q04 : quiet h h4) by (by eapply quiet_trans).
    eapply gives_seq; [by apply Gt|]. intros h5 Q5. assert (Q05 : quiet h h5) by (by eapply quiet_trans).
    apply runs_ret. split; [done|].
    exists x, T. cbn. split; [done|]. split; [done|]. split; [done|]. split; [by rewrite Ex|]. split; [done|]. split.
    { intros z. assert (Hw : forall l, within z l <-> lim_ge z l = true) by (intros [y|]; cbn; [by rewrite Z.leb_le|done]).
      rewrite Hw, py_min_lim_ge. split.
      - intros H. split; intros t Ht; apply Hw, H, elem_of_app; [left|right]; apply elem_of_list_fmap; eauto.
      - intros [H1 H2] y Hy. apply elem_of_app in Hy as [Hy|Hy]; apply elem_of_list_fmap in Hy as (t & -> & Ht); apply Hw; auto. }
    split; [done|]. split; [done|]. split; [done|]. split; [done|].
    destruct (c03_load h r v ids L i s SC) as (q & h' & E & _ & -> & _); [by apply well_formed_RouteW|done|].
    destruct (Gt h (quiet_refl _)) as (_ & _ & G & _). apply gives_eq in G as (h'' & E' & _). rewrite E in E'. by injection E' as ->.
  Qed.
  Lemma trip_row_runs h r v ids L p : RouteW h r v ids L -> p ∈ pts_of h ids ->
    runs (planned_trip_to_str p) h (fun w h' => quiet h h' /\ shows_ride v L (trip_of h p) w).
  Proof.
    intros R Hp. destruct (pts_of_Ride _ _ _ _ _ _ R Hp) as (t & i & j & s & d & Rd & Rl).
    assert (Rq : forall h', quiet h h' -> RouteW h' r v ids L) by (intros; by eapply RouteW_quiet).
    assert (Rdq : forall h', quiet h h' -> Ride h' ids v p t i j s d) by (intros; by eapply Ride_soft; [apply quiet_soft|]).
    pose proof Rd as (pc & Hpc & _ & Et & _ & _ & Hi & Hj & Hij).
    pose proof Rl as (x & y & Hx & Hy & Hbx & Hay).
    destruct (timetable_some v L i x Hx) as [Ti HTi]. destruct (timetable_some v L j y Hy) as [Tj HTj].
    unfold planned_trip_to_str. step. eapply runs_pt_get; [exact Hpc|]. rewrite Et.
    assert (Gq : forall h', quiet h h' ->
      gives (pt_waiting_time p) h' (waited_between v L i j) /\ gives (pt_transit_time p) h' (driven_between L i j) /\
      gives (pt_load_time p) h' (visit_duration x + visit_duration y) /\ gives (pt_duration p) h' (tm_start Tj - tm_departure Ti) /\
      gives (pickup_time p) h' (tm_departure Ti) /\ gives (delivery_time p) h' (tm_start Tj)).
    { intros h' Q. destruct (ride_terms _ _ _ _ _ _ _ _ _ _ _ (RouteW_P _ _ _ _ _ (Rq _ Q)) (Rdq _ Q)) as [G1 G2].
      split; [done|]. split; [done|]. split; [by eapply load_term; [apply RouteW_P, Rq, Q|apply Rdq, Q|..]|].
      split; [by eapply pt_duration_gives; [apply Rq, Q|apply Rdq, Q|..]|].
      split; [by eapply pickup_time_gives; [apply Rq, Q|apply Rdq, Q|..]|by eapply delivery_time_gives; [apply Rq, Q|apply Rdq, Q|..]]. }
    eapply gives_seq; [apply Gq, quiet_refl|]. intros h1 Q1.
    eapply gives_seq; [by apply Gq|]. intros h2 Q2. assert (Q02 : quiet h h2) by (by eapply quiet_trans).
    eapply gives_seq; [by apply Gq|]. intros h3 Q3. assert (Q03 : quiet h h3) by (by eapply quiet_trans).
    eapply gives_seq; [by apply Gq|]. intros h4 Q4. assert (Q04 : quiet h h4) by (by eapply quiet_trans).
    eapply gives_seq; [by apply Gq|]. intros h5 Q5. assert (Q05 : quiet h h5) by (by eapply quiet_trans).
    eapply gives_seq; [by apply Gq|]. intros h6 Q6. assert (Q06 : quiet h h6) by (by eapply quiet_trans).
    apply runs_ret. split; [done|].
    assert (trip_of h p = t) as -> by (unfold trip_of; by rewrite Hpc).
    pose proof (rw_rides _ _ _ _ _ R) as Hr.
    exists i, j, x, y, Ti, Tj. cbn. repeat (split; [done|]).
    split; [symmetry; apply (rides_places _ Hr x); [by eapply elem_of_list_lookup_2|done]|].
    split; [symmetry; apply (rides_places _ Hr y); [by eapply elem_of_list_lookup_2|done]|].
    repeat (split; [done|]). split; [|done]. by eapply ride_account.
  Qed.
  Lemma block_runs h r v ids L : sane_capacities -> RouteW h r v ids L ->
    runs (route_to_str r) h (fun b h' => quiet h h' /\ shows_route h r b).
  Proof.
    intros SC R. assert (Rq : forall h', quiet h h' -> RouteW h' r v ids L) by (intros; by eapply RouteW_quiet).
    unfold route_to_str. step. eapply runs_planned_trips; [exact R|].
    step. eapply runs_mono; [apply (runs_mapM _ (fun h' => quiet h h') (fun p w => shows_ride v L (trip_of h p) w)); [apply quiet_refl|]|].
    { intros p h1 Hp Q1. eapply runs_mono; [apply (trip_row_runs h1 r v ids L p); [by apply Rq|]|].
      - by rewrite (pts_of_quiet _ _ _ _ _ _ R Q1).
      - cbn. intros w h2 [Q2 H]. split; [by eapply quiet_trans|]. by rewrite <- (trip_of_quiet _ _ _ _ _ _ _ R Hp Q1). }
    cbn. intros trips h1 [Q1 F1].
    step. eapply runs_route_stops; [by apply Rq|].
    step. eapply runs_mono; [apply (runs_mapM _ (fun h' => quiet h h') (fun s w => forall i, ids !! i = Some s -> shows_visit v L i w)); [exact Q1|]|].
    { intros s h2 Hs Q2. apply elem_of_list_lookup in Hs as [i Hi].
      eapply runs_mono; [apply (stop_row_runs h2 r v ids L i s SC); [by apply Rq|done]|].
      cbn. intros w h3 [Q3 H]. split; [by eapply quiet_trans|]. intros i' Hi'.
      assert (i' = i) as ->; [|done]. eapply NoDup_lookup; [by eapply RouteW_NoDup|done|done]. }
    cbn. intros stops h2 [Q2 F2]. destruct (rw_cell _ _ _ _ _ (Rq _ Q2)) as (c & Hc & Ev & Ei).
    step. eapply runs_route_get; [exact Hc|]. step. eapply runs_planned_trips; [by apply Rq|].
    step. eapply runs_route_stops; [by apply Rq|]. apply runs_ret. split; [done|].
    pose proof (RouteW_length _ _ _ _ _ R) as Hlen. pose proof (trips_pts_of _ _ _ _ _ R) as Et.
    exists v, ids, L. cbn. rewrite Ev. split; [by apply well_formed_RouteW|]. split.
    { unfold shows_vehicle, vehicle_to_str, v_destination_position, vh_destination. cbn. repeat (split; [done|]).
      done. }
    split; [|split; [|split; [|split]]].
    - rewrite (pts_of_quiet _ _ _ _ _ _ R Q2), <- Et. by rewrite map_length.
    - rewrite <- Et. by apply Forall2_fmap_l.
    - done.
    - rewrite <- Hlen. symmetry. by eapply Forall2_length.
    - intros i w Hw. destruct (Forall2_lookup_r _ _ _ _ _ F2 Hw) as (s & Hs & H). by apply H.
  Qed.
End rows.

(** ** C60 *)
Lemma verdict_quiet `{W : World} h h' r b : quiet h h' -> verdict h r b -> verdict h' r b.
Proof.
  intros Q (v & ids & xs & T & H). exists v, ids, xs. pose proof T as T1. apply on_tour_RouteOK in T1.
  destruct Q as [S (F1 & F2 & F3)]. split; [apply on_tour_RouteOK; by eapply RouteOK_soft|].
  destruct H as [Ha|[U H]]; [left; by apply (proj2 (mono_quiet _ _ (conj S (conj F1 (conj F2 F3)))))|right]. split; [|done].
  by eapply unasked_quiet; [split; [exact S|]|..].
Qed.
Lemma total_worth_quiet `{W : World} o h h' pl x : quiet h h' -> total_worth o h pl x -> total_worth o h' pl x.
Proof. intros Q (xs & F & ->). exists xs. split; [|done]. eapply Forall2_impl; [exact F|]. intros ??. by apply worth_quiet. Qed.
Lemma well_planned_quiet `{W : World} h h' pl : quiet h h' -> well_planned h pl -> well_planned h' pl.
Proof.
  intros Q H r Hr. destruct (H r Hr) as (v & ids & xs & R). exists v, ids, xs. apply well_formed_RouteW.
  apply well_formed_RouteW in R. by eapply RouteW_quiet.
Qed.
Lemma shows_route_quiet `{W : World} h h' r b : well_planned h [r] -> quiet h h' -> shows_route h' r b -> shows_route h r b.
Proof.
  intros Hw Q (v & ids & xs & R & H). destruct (Hw r ltac:(left)) as (v' & ids' & xs' & R').
  exists v, ids, xs. split; [|done]. pose proof R' as R1. apply well_formed_RouteW in R, R'.
  apply (RouteW_quiet _ _ _ _ _ _ Q) in R'. by destruct (RouteW_det _ _ _ _ _ _ _ _ R R') as (-> & -> & ->).
Qed.
Lemma c60_report `{W : World} : forall remove o h pl job, sane -> NoDup pl -> separate h pl ->
  (forall r, r ∈ pl -> exists b, verdict h r b) -> pl <> [] -> job <> [] ->
  exists rp h' order ts, columnar_format remove o pl job h = (Ok rp, h') /\ routes_kept h h' /\
    NoDup order /\ (forall r, r ∈ order <-> r ∈ pl /\ (remove = true -> has_passengers h r)) /\
    rp_count rp = length order /\ Forall2 (shows_route h) order (rp_routes rp) /\
    NoDup ts /\ (forall t, t ∈ ts <-> tr_capacity (w_trip t) <> 0 /\ carried h pl t) /\
    rp_coverage rp = Z.of_nat (length ts) # Pos.of_nat (length job) /\
    total_worth o h pl (rp_value rp) /\
    (rp_feasible rp = true <-> forall r, r ∈ pl -> verdict h r true).
Proof.
  intros remove o h pl job Hs Hn Hsep HV Hne Hj. pose proof Hs as [_ SC].
  assert (HW : well_planned h pl).
  { intros r Hr. destruct (HV r Hr) as (b & v & ids & xs & T & _). exists v, ids, xs. apply well_formed_RouteW. apply on_tour_RouteOK in T. apply T. }
  assert (HWq : forall h', quiet h h' -> well_planned h' pl) by (intros; by eapply well_planned_quiet).
  destruct (well_planned_worth o h pl HW) as [x Hx].
  cut (runs (columnar_format remove o pl job) h (fun rp h' => routes_kept h h' /\ exists order ts,
    NoDup order /\ (forall r, r ∈ order <-> r ∈ pl /\ (remove = true -> has_passengers h r)) /\
    rp_count rp = length order /\ Forall2 (shows_route h) order (rp_routes rp) /\
    NoDup ts /\ (forall t, t ∈ ts <-> tr_capacity (w_trip t) <> 0 /\ carried h pl t) /\
    rp_coverage rp = Z.of_nat (length ts) # Pos.of_nat (length job) /\
    total_worth o h pl (rp_value rp) /\
    (rp_feasible rp = true <-> forall r, r ∈ pl -> verdict h r true))).
  { intros H. apply runs_eq in H as (rp & h' & E & K & order & ts & H). by exists rp, h', order, ts. }
  unfold columnar_format. step. eapply runs_mono; [by apply formatter_routes_runs|]. cbn. intros rs h1 (Q1 & Hn1 & H1).
  step. eapply runs_mono; [by apply formatter_routes_runs; [apply HWq|]|]. cbn. intros rs' h2 (Q2 & Hn2 & H2).
  assert (Hlen : length rs' = length rs).
  { apply Permutation_length, NoDup_Permutation; [done|done|]. intros r. rewrite H1, H2.
    split; intros [Hr Hp]; (split; [done|]); intros E; specialize (Hp E); destruct Hp as (v & ids & xs & R & Hb).
    - destruct (HW r Hr) as (v' & ids' & xs' & R'). exists v', ids', xs'. split; [done|].
      apply well_formed_RouteW in R, R'. apply (RouteW_quiet _ _ _ _ _ _ Q1) in R'. by destruct (RouteW_det _ _ _ _ _ _ _ _ R R') as (-> & -> & ->).
    - exists v, ids, xs. split; [|done]. apply well_formed_RouteW. apply well_formed_RouteW in R. by eapply RouteW_quiet. }
  assert (Q02 : quiet h h2) by (by eapply quiet_trans).
  step. apply runs_set_order. intros order Ho.
  set (h3 := MkHeap _ _ _ _). assert (Q03 : quiet h h3) by (eapply quiet_trans; [exact Q02|split; [apply soft_tick|done]]). clearbody h3.
  step. eapply runs_mono; [apply (runs_mapM _ (fun h' => quiet h h') (fun r b => shows_route h r b)); [exact Q03|]|].
  { intros r h4 Hr Q4. rewrite Ho, H1 in Hr. destruct Hr as [Hr _]. destruct (HW r Hr) as (v & ids & xs & R).
    apply well_formed_RouteW in R. eapply runs_mono; [apply (block_runs h4 r v ids xs SC); by eapply RouteW_quiet|].
    cbn. intros b h5 [Q5 Hb]. split; [by eapply quiet_trans|]. eapply shows_route_quiet; [|exact Q4|exact Hb].
    intros r' Hr'. apply elem_of_list_singleton in Hr' as ->. by apply HW. }
  cbn. intros blocks h4 [Q04 F].
  destruct (c46_rate h4 pl job (HWq _ Q04) Hj) as (ts & h5 & Hnt & Hts & Ec & M5).
  pose proof (completed_runs h4 pl (HWq _ Q04)) as C. apply runs_eq in C as (ts' & h5' & E' & Q5 & _ & _).
  assert (h5' = h5) as ->.
  { unfold coverage_rate in Ec. rewrite (bind_ok _ _ _ _ _ E') in Ec. destruct job; [done|]. by injection Ec. }
  assert (Q05 : quiet h h5) by (by eapply quiet_trans).
  step. unfold runs at 1. rewrite Ec.
  eapply gives_seq; [apply planning_value_gives; by eapply total_worth_quiet|]. intros h6 Q6.
  assert (Q06 : quiet h h6) by (by eapply quiet_trans).
  set (f := fun r => match (route_feasible r h).1 with Ok b => b | Raise _ => false end).
  assert (Vf : forall r, r ∈ pl -> verdict h r (f r)).
  { intros r Hr. destruct (HV r Hr) as [b' V]. pose proof (route_verdict h pl r b' Hs Hsep Hr V) as G.
    apply runs_eq in G as (b'' & h' & E1 & -> & _). unfold f. by rewrite E1. }
  step. eapply runs_mono; [apply (planning_verdicts h6 pl f Hs Hne)|].
  { eapply separate_mono; [|by apply mono_quiet|exact Hsep]. intros r Hr. destruct (HV r Hr) as (b & v & ids & xs & T & _). by exists v, ids, xs. }
  { intros r Hr. by eapply verdict_quiet; [|apply Vf]. }
  cbn. intros b h7 (Hb & M7 & _). apply runs_ret. split; [apply mono_kept; eapply mono_trans; [by apply mono_quiet|done]|].
  exists order, ts. cbn. split; [by rewrite Ho|]. split; [intros r; by rewrite Ho, H1|].
  split; [by rewrite Hlen, Ho|]. split; [done|]. split; [done|]. split.
  { intros t. rewrite Hts. split; intros [Ht (r & v & ids & xs & Hr & R & Hin)]; (split; [done|]).
    - destruct (HW r Hr) as (v' & ids' & xs' & R'). exists r, v', ids', xs'. split; [done|]. split; [done|].
      apply well_formed_RouteW in R, R'. apply (RouteW_quiet _ _ _ _ _ _ Q04) in R'. by destruct (RouteW_det _ _ _ _ _ _ _ _ R R') as (-> & -> & ->).
    - exists r, v, ids, xs. split; [done|]. split; [|done]. apply well_formed_RouteW. apply well_formed_RouteW in R. by eapply RouteW_quiet. }
  split; [done|]. split; [done|]. rewrite Hb. split; intros H r Hr.
  - rewrite <- (H r Hr). by apply Vf.
  - by eapply verdict_det; [apply Vf|apply H].
Qed.
Lemma c60_no_trips `{W : World} : forall remove o h pl, sane -> NoDup pl -> well_planned h pl ->
  exists h', columnar_format remove o pl [] h = (Raise ZeroDivisionError, h').
Proof.
  intros remove o h pl Hs Hn HW. pose proof Hs as [_ SC].
  assert (HWq : forall h', quiet h h' -> well_planned h' pl) by (intros; by eapply well_planned_quiet).
  unfold columnar_format.
  pose proof (formatter_routes_runs h pl remove HW Hn) as G. apply runs_eq in G as (rs & h1 & E & Q1 & Hn1 & H1). rewrite (bind_ok _ _ _ _ _ E). clear E.
  pose proof (formatter_routes_runs h1 pl remove (HWq _ Q1) Hn) as G. apply runs_eq in G as (rs' & h2 & E & Q2 & _). rewrite (bind_ok _ _ _ _ _ E). clear E.
  assert (Q02 : quiet h h2) by (by eapply quiet_trans).
  assert (runs (set_order rs) h2 (fun l h' => l ≡ₚ rs /\ quiet h h')) as G.
  { apply runs_set_order. intros l Hl. split; [done|]. eapply quiet_trans; [exact Q02|]. split; [apply soft_tick|done]. }
  apply runs_eq in G as (order & h3 & E & Ho & Q3). rewrite (bind_ok _ _ _ _ _ E). clear E.
  assert (runs (mapM route_to_str order) h3 (fun _ h' => quiet h h')) as G.
  { eapply runs_mono; [apply (runs_mapM _ (fun h' => quiet h h') (fun r b => True)); [exact Q3|]|by intros ?? [? _]].
    intros r h4 Hr Q4. rewrite Ho, H1 in Hr. destruct Hr as [Hr _]. destruct (HW r Hr) as (v & ids & xs & R).
    apply well_formed_RouteW in R. eapply runs_mono; [apply (block_runs h4 r v ids xs SC); by eapply RouteW_quiet|].
    cbn. intros b h5 [Q5 Hb]. split; [by eapply quiet_trans|done]. }
  apply runs_eq in G as (bs & h4 & E & Q4). rewrite (bind_ok _ _ _ _ _ E). clear E.
  pose proof (completed_runs h4 pl (HWq _ Q4)) as G. apply runs_eq in G as (ts & h5 & E & _).
  unfold coverage_rate. exists h5. unfold bind. rewrite E. done.
Qed.
Lemma c60_no_routes `{W : World} : forall remove o h job, job <> [] ->
  exists h', columnar_format remove o [] job h = (Raise TypeError, h').
Proof.
  intros remove o h job Hj. assert (HW : forall h, well_planned h []) by (intros h' r Hr; by apply elem_of_nil in Hr).
  assert (Hf : forall h, exists h', formatter_routes remove [] h = (Ok [], h')).
  { intros h0. pose proof (formatter_routes_runs h0 [] remove (HW _) (NoDup_nil_2)) as G. apply runs_eq in G as (rs & h1 & E & _ & _ & H).
    assert (rs = []) as ->; [|by exists h1]. apply elem_of_nil_inv. intros r Hr. apply H in Hr as [Hr _]. by apply elem_of_nil in Hr. }
  unfold columnar_format. destruct (Hf h) as [h1 E1]. rewrite (bind_ok _ _ _ _ _ E1).
  destruct (Hf h1) as [h2 E2]. rewrite (bind_ok _ _ _ _ _ E2).
  assert (runs (set_order []) h2 (fun l h' => l = [])) as G.
  { apply runs_set_order. intros l Hl. by apply Permutation_nil_r in Hl. }
  apply runs_eq in G as (l & h3 & E3 & ->). rewrite (bind_ok _ _ _ _ _ E3). rewrite (bind_ok _ _ _ [] h3) by done.
  destruct (c46_rate h3 [] job (HW _) Hj) as (ts & h4 & _ & _ & E4 & _). rewrite (bind_ok _ _ _ _ _ E4).
  destruct (well_planned_worth o h4 [] (HW _)) as [x Hx]. apply planning_value_gives in Hx. apply runs_eq in Hx as (x' & h5 & E5 & _).
  rewrite (bind_ok _ _ _ _ _ E5). destruct (planning_feasible_nil h5) as [h6 E6]. exists h6. unfold bind. by rewrite E6.
Qed.
