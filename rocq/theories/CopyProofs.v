(** [deepcopy_routes] makes routes with the same visits on stops of their own. *)
From Verif Require Export StrategyProofs TimeTheorems.

Section copy.
  Context {W : World}.

  (** the heap after copying all stops and planned trips *)
  Definition doubled (h : heap) : heap :=
    MkHeap (h_stops h ++ map (shift_stop (length (h_stops h)) (length (h_pts h))) (h_stops h))
           (h_pts h ++ map (shift_pt (length (h_stops h))) (h_pts h)) (h_routes h) (h_tick h).
  Definition up (h : heap) (s : nat) : nat := (length (h_stops h) + s)%nat.

  Lemma doubled_old_stop h s c : h_stops h !! s = Some c -> h_stops (doubled h) !! s = Some c.
  Proof. intros E. cbn. by apply lookup_app_l_Some. Qed.
  Lemma doubled_old_pt h s c : h_pts h !! s = Some c -> h_pts (doubled h) !! s = Some c.
  Proof. intros E. cbn. by apply lookup_app_l_Some. Qed.
  Lemma doubled_stop h s : h_stops (doubled h) !! (up h s) =
    shift_stop (length (h_stops h)) (length (h_pts h)) <$> h_stops h !! s.
  Proof.
    cbn. unfold up. rewrite lookup_app_r by lia.
    replace (length (h_stops h) + s - length (h_stops h))%nat with s by lia. apply list_lookup_fmap.
  Qed.
  Lemma doubled_pt h p : h_pts (doubled h) !! (length (h_pts h) + p)%nat =
    shift_pt (length (h_stops h)) <$> h_pts h !! p.
  Proof.
    cbn. rewrite lookup_app_r by lia.
    replace (length (h_pts h) + p - length (h_pts h))%nat with p by lia. apply list_lookup_fmap.
  Qed.
  Lemma doubled_grow h : grow h (doubled h).
  Proof.
    apply grow_intro.
    - intros s c E. exists c. split; [by apply doubled_old_stop|]. split; [done|apply weaker_refl].
    - intros p c E. exists c. split; [by apply doubled_old_pt|done].
    - intros r c E. exists c. done.
  Qed.
  Lemma doubled_trip_of h p : trip_of (doubled h) (length (h_pts h) + p) = trip_of h p.
  Proof. unfold trip_of. rewrite doubled_pt. destruct (h_pts h !! p) eqn:E; done. Qed.
  Lemma doubled_abs h c :
    abs (doubled h) (shift_stop (length (h_stops h)) (length (h_pts h)) c) = abs h c.
  Proof.
    unfold abs. cbn. rewrite !map_map. f_equal; apply map_ext; intros p; apply doubled_trip_of.
  Qed.
  Lemma doubled_known h c : known h c ->
    known (doubled h) (shift_stop (length (h_stops h)) (length (h_pts h)) c).
  Proof.
    intros K p Hp. cbn [shift_stop st_pickups st_deliveries] in Hp. rewrite <- map_app in Hp.
    apply elem_of_list_fmap in Hp as (q & -> & Hq). rewrite doubled_pt. destruct (K q Hq) as [c' ->]. done.
  Qed.
  Lemma doubled_path h v ids A : Path h v ids A -> Path (doubled h) v (map (up h) ids) A.
  Proof.
    induction 1 as [|s c ids A Hs Hv Hp Hk Hc HP IH]; [constructor|].
    rewrite <- doubled_abs. cbn [map].
    apply Path_cons.
    - rewrite doubled_stop, Hs. done.
    - done.
    - cbn. rewrite Hp. destruct ids; done.
    - by apply doubled_known.
    - rewrite doubled_abs. exact Hc.
    - exact IH.
  Qed.
  Lemma map_sublist {A B} (f : A -> B) l k : l `sublist_of` k -> map f l `sublist_of` map f k.
  Proof. induction 1; cbn; by constructor. Qed.
  Lemma doubled_links h v ids : Links h v ids -> Links (doubled h) v (map (up h) ids).
  Proof.
    intros HL s c Hs Hc. apply elem_of_list_fmap in Hs as (q & -> & Hq).
    rewrite doubled_stop in Hc. destruct (h_stops h !! q) as [c0|] eqn:E0; [|done].
    cbn in Hc. injection Hc as <-. destruct (HL q c0 Hq E0) as [H1 H2].
    cbn [shift_stop st_pickups st_deliveries]. split.
    - intros p Hp. apply elem_of_list_fmap in Hp as (p0 & -> & Hp).
      destruct (H1 p0 Hp) as (d & dc & pc & Hsub & Hd & Hdel & Hpc & Hv & Hpk & Hdl).
      exists (up h d), (shift_stop (length (h_stops h)) (length (h_pts h)) dc), (shift_pt (length (h_stops h)) pc).
      rewrite doubled_stop, Hd, doubled_pt, Hpc. cbn. rewrite Hpk, Hdl.
      split; [exact (map_sublist (up h) _ _ Hsub)|]. split; [done|]. split; [by apply elem_of_list_fmap_1|]. done.
    - intros p Hp. apply elem_of_list_fmap in Hp as (p0 & -> & Hp).
      destruct (H2 p0 Hp) as (d & dc & pc & Hsub & Hd & Hdel & Hpc & Hv & Hpk & Hdl).
      exists (up h d), (shift_stop (length (h_stops h)) (length (h_pts h)) dc), (shift_pt (length (h_stops h)) pc).
      rewrite doubled_stop, Hd, doubled_pt, Hpc. cbn. rewrite Hpk, Hdl.
      split; [exact (map_sublist (up h) _ _ Hsub)|]. split; [done|]. split; [by apply elem_of_list_fmap_1|]. done.
  Qed.

  (** copies of routes of [h] appended one by one *)
  Definition copy_cell (h : heap) (c : route) : route := MkRoute (rt_vehicle c) (map (up h) (rt_stops c)) None.
  Definition Copied (h h' : heap) : Prop :=
    h_stops h' = h_stops (doubled h) /\ h_pts h' = h_pts (doubled h) /\ h_tick h' = h_tick h /\
    exists N, h_routes h' = h_routes h ++ map (copy_cell h) N /\ forall c, c ∈ N -> exists r, h_routes h !! r = Some c.
  Lemma Copied_grow h h' : Copied h h' -> grow h h'.
  Proof.
    intros (E1 & E2 & _ & N & E3 & _). eapply grow_trans; [apply doubled_grow|]. apply grow_intro.
    - intros s c E. exists c. rewrite E1. split; [done|]. split; [done|apply weaker_refl].
    - intros s c E. exists c. rewrite E2. done.
    - intros s c E. exists c. rewrite E3. split; [by apply lookup_app_l_Some|done].
  Qed.
  Lemma Copied_route h h' r r' c v ids L :
    Copied h h' -> RouteOK h r v ids L -> h_routes h !! r = Some c -> h_routes h' !! r' = Some (copy_cell h c) ->
    RouteOK h' r' v (map (up h) ids) L.
  Proof.
    intros (E1 & E2 & _ & _) [[(c' & Hc' & Hv & Hids) HP HR HL] HT] Hc Hr'.
    assert (c' = c) as -> by congruence. split; [|done]. split.
    - exists (copy_cell h c). cbn. by rewrite Hv, Hids.
    - rewrite <- fmap_reverse. eapply Path_frame; [by apply doubled_path| |].
      + intros s cs _ Hs. exists cs. rewrite E1. split; [done|]. split; [done|apply weaker_refl].
      + by apply pts_ext_eq.
    - done.
    - intros s cs Hs Hcs. rewrite E1 in Hcs. rewrite E1, E2. by apply (doubled_links h v ids HL).
  Qed.
  Lemma Copied_HInv h h' : HInv h -> Copied h h' -> HInv h'.
  Proof.
    intros [HR HS] HC. pose proof HC as (E1 & E2 & _ & N & E3 & HN). split.
    - intros r c Hc. pose proof Hc as Hc0. rewrite E3 in Hc. apply lookup_app_Some in Hc as [Hc|[Hl Hc]].
      + destruct (HR r c Hc) as [L HL]. exists L. eapply RouteOK_grow; [by apply Copied_grow|done].
      + rewrite list_lookup_fmap in Hc. destruct (N !! (r - length (h_routes h))%nat) as [c0|] eqn:En; [|done].
        cbn in Hc. injection Hc as <-. destruct (HN c0) as [r0 Hr0]; [by eapply elem_of_list_lookup_2|].
        destruct (HR r0 c0 Hr0) as [L HL]. exists L. by eapply Copied_route.
    - assert (Hb : forall r c s, h_routes h !! r = Some c -> s ∈ rt_stops c -> (s < length (h_stops h))%nat).
      { intros r c s Hc Hs. destruct (HR r c Hc) as [L [HL _]].
        eapply lookup_lt_is_Some. by eapply RouteW_ids_alloc. }
      assert (Hcl : forall r c, h_routes h' !! r = Some c ->
          (h_routes h !! r = Some c) \/ exists r0 c0, h_routes h !! r0 = Some c0 /\ c = copy_cell h c0).
      { intros r c Hc. rewrite E3 in Hc. apply lookup_app_Some in Hc as [Hc|[Hl Hc]]; [by left|right].
        rewrite list_lookup_fmap in Hc. destruct (N !! (r - length (h_routes h))%nat) as [c0|] eqn:En; [|done].
        cbn in Hc. injection Hc as <-. destruct (HN c0) as [r0 Hr0]; [by eapply elem_of_list_lookup_2|]. eauto. }
      intros r1 r2 c1 c2 s H1 H2 F1 F2.
      destruct (Hcl _ _ H1) as [G1|(q1 & d1 & G1 & ->)], (Hcl _ _ H2) as [G2|(q2 & d2 & G2 & ->)].
      + by apply (HS r1 r2 c1 c2 s).
      + exfalso. cbn in F2. rewrite list_lookup_fmap in F2. destruct (rt_stops d2 !! 0%nat) eqn:Ed; [|done].
        cbn in F2. injection F2 as <-. apply elem_of_list_lookup_2 in F1. pose proof (Hb _ _ _ G1 F1). unfold up in *. lia.
      + exfalso. cbn in F1. rewrite list_lookup_fmap in F1. destruct (rt_stops d1 !! 0%nat) eqn:Ed; [|done].
        cbn in F1. injection F1 as <-. apply elem_of_list_lookup_2 in F2. pose proof (Hb _ _ _ G2 F2). unfold up in *. lia.
      + cbn in *. rewrite list_lookup_fmap in F1, F2 |- *. rewrite list_lookup_fmap.
        destruct (rt_stops d1 !! 0%nat) as [s1|] eqn:Ed1; [|done]. destruct (rt_stops d2 !! 0%nat) as [s2|] eqn:Ed2; [|done].
        cbn in F1, F2. injection F1 as <-. injection F2 as F2. assert (s2 = s1) as -> by (unfold up in F2; lia).
        f_equal. by apply (HS q1 q2 d1 d2 s1).
  Qed.
  Lemma new_route_evolves v h h' r : new_route v h = (Ok r, h') -> HInv h -> evolves h h'.
  Proof.
    intros E I. pose proof (new_route_HInv v h h' r E I) as I'. pose proof (new_route_runs v h) as G.
    pose proof (hush_new_route v h) as N. rewrite E in N. cbn in N.
    unfold runs in G. rewrite E in G. destruct G as (-> & G & E' & R).
    split; [by apply later_grow|]. split; [by apply grow_routes_len|].
    intros g. apply Worth_extend; [done|done|by apply later_grow|done|].
    intros q rc s cs Hq Hrc Hs Hcs Hf. exfalso. rewrite E' in Hrc, Hcs. cbn in Hrc, Hcs.
    rewrite lookup_app_r in Hrc by done. apply list_lookup_singleton_Some in Hrc as [_ <-]. cbn in Hs.
    assert (st_pickups cs = [] /\ st_feasible cs = None) as [E1 E2].
    { rewrite elem_of_cons, elem_of_list_singleton in Hs. destruct Hs as [->| ->].
      - rewrite lookup_app_r, Nat.sub_diag in Hcs by lia. by injection Hcs as <-.
      - rewrite lookup_app_r in Hcs by lia. replace (S (length (h_stops h)) - length (h_stops h))%nat with 1%nat in Hcs by lia. by injection Hcs as <-. }
    rewrite E1, E2 in Hf. destruct Hf as [?|(p & _ & Hp & _)]; [done|inversion Hp].
  Qed.
  (** recorded answers are copied for stops and planned trips, with their visits *)
  Lemma Copied_Worth g h h' : HInv h -> Copied h h' -> Worth g h -> Worth g h'.
  Proof.
    intros I HC F. pose proof (Copied_HInv _ _ I HC) as I'. pose proof (Copied_grow _ _ HC) as G.
    pose proof HC as (E1 & E2 & _ & N & E3 & HN).
    assert (Hcl : forall r c, h_routes h' !! r = Some c ->
        (h_routes h !! r = Some c) \/ exists r0 c0, h_routes h !! r0 = Some c0 /\ c = copy_cell h c0).
    { intros r c Hc. rewrite E3 in Hc. apply lookup_app_Some in Hc as [Hc|[Hl Hc]]; [by left|right].
      rewrite list_lookup_fmap in Hc. destruct (N !! (r - length (h_routes h))%nat) as [c0|] eqn:En; [|done].
      cbn in Hc. injection Hc as <-. destruct (HN c0) as [r0 Hr0]; [by eapply elem_of_list_lookup_2|]. eauto. }
    assert (Hst : forall s c, h_stops h !! s = Some c -> h_stops h' !! s = Some c) by (intros; rewrite E1; by apply doubled_old_stop).
    assert (Hpt : forall p c, h_pts h !! p = Some c -> h_pts h' !! p = Some c) by (intros; rewrite E2; by apply doubled_old_pt).
    (* the visits of a route of the new heap and the old route they come from *)
    assert (Vis : forall r c L, RouteOK h r (rt_vehicle c) (rt_stops c) L -> h_routes h !! r = Some c -> map (at_stop h') (rt_stops c) = L).
    { intros r c L R Hc. eapply RouteP_visits, RouteW_P. eapply RouteOK_grow in R; [|exact G]. apply R. }
    assert (VisC : forall r r' c L, RouteOK h r (rt_vehicle c) (rt_stops c) L -> h_routes h !! r = Some c ->
       h_routes h' !! r' = Some (copy_cell h c) -> map (at_stop h') (map (up h) (rt_stops c)) = L).
    { intros r r' c L R Hc Hc'. eapply RouteP_visits, RouteW_P. eapply Copied_route in R; [|exact HC|exact Hc|exact Hc']. apply R. }
    split.
    - intros r rc i s c Hrc _ Hi Hcs Hf. destruct (Hcl r rc Hrc) as [Hr|(r0 & c0 & Hr0 & ->)].
      + destruct (HInv_route _ _ _ I Hr) as (L & R & _). rewrite (Vis r rc L R Hr).
        destruct (RouteW_ids_alloc _ _ _ _ _ s (proj1 R)) as [cs Hs]; [by eapply elem_of_list_lookup_2|].
        rewrite (Hst _ _ Hs) in Hcs. injection Hcs as ->. eapply Worth_stop; [exact F|apply RouteW_P, R|done..].
      + destruct (HInv_route _ _ _ I Hr0) as (L & R & _). cbn in Hi |- *. rewrite (VisC r0 r c0 L R Hr0 Hrc).
        rewrite list_lookup_fmap in Hi. destruct (rt_stops c0 !! i) as [s0|] eqn:Es; [|done]. cbn in Hi. injection Hi as <-.
        rewrite E1, doubled_stop in Hcs. destruct (h_stops h !! s0) as [cs|] eqn:Ecs; [|done]. cbn in Hcs. injection Hcs as <-.
        eapply Worth_stop; [exact F|apply RouteW_P, R|done..].
    - intros r rc i j s d c p pc Hrc _ Hi Hj Hcs Hp Hpc P1 P2 Hf. destruct (Hcl r rc Hrc) as [Hr|(r0 & c0 & Hr0 & ->)].
      + destruct (HInv_route _ _ _ I Hr) as (L & R & _). rewrite (Vis r rc L R Hr).
        destruct (RouteW_ids_alloc _ _ _ _ _ s (proj1 R)) as [cs Hs]; [by eapply elem_of_list_lookup_2|].
        rewrite (Hst _ _ Hs) in Hcs. injection Hcs as ->.
        destruct (RouteOK_pickup _ _ _ _ _ _ _ _ _ R Hi Hs Hp) as (_ & _ & _ & pc1 & _ & _ & Hpc1 & _).
        rewrite (Hpt _ _ Hpc1) in Hpc. injection Hpc as ->.
        eapply Worth_pt; [exact F|apply RouteW_P, R|exact Hi|exact Hj|exact Hs|done..].
      + destruct (HInv_route _ _ _ I Hr0) as (L & R & _). cbn in Hi, Hj |- *. rewrite (VisC r0 r c0 L R Hr0 Hrc).
        rewrite list_lookup_fmap in Hi. destruct (rt_stops c0 !! i) as [s0|] eqn:Es; [|done]. cbn in Hi. injection Hi as <-.
        rewrite list_lookup_fmap in Hj. destruct (rt_stops c0 !! j) as [d0|] eqn:Ed; [|done]. cbn in Hj. injection Hj as <-.
        rewrite E1, doubled_stop in Hcs. destruct (h_stops h !! s0) as [cs|] eqn:Ecs; [|done]. cbn in Hcs. injection Hcs as <-.
        cbn in Hp. apply elem_of_list_fmap in Hp as (p0 & -> & Hp). rewrite E2, doubled_pt in Hpc.
        destruct (h_pts h !! p0) as [pc0|] eqn:Ep; [|done]. cbn in Hpc. injection Hpc as <-. cbn in P1, P2, Hf |- *.
        destruct (pt_pickup pc0) as [a|] eqn:Ea; [|done]. destruct (pt_delivery pc0) as [b|] eqn:Eb; [|done].
        cbn in P1, P2. injection P1 as P1. injection P2 as P2. assert (a = s0) as -> by (unfold up in P1; lia).
        assert (b = d0) as -> by (unfold up in P2; lia).
        eapply Worth_pt; [exact F|apply RouteW_P, R|exact Es|exact Ed|exact Ecs|done..].
    - intros r rc Hrc _ Hf. destruct (Hcl r rc Hrc) as [Hr|(r0 & c0 & Hr0 & ->)]; [|done].
      destruct (HInv_route _ _ _ I Hr) as (L & R & _). rewrite (Vis r rc L R Hr).
      eapply Worth_route; [exact F|apply RouteW_P, R|done..].
  Qed.
  Lemma Copied_evolves h h' : HInv h -> Copied h h' -> evolves h h'.
  Proof.
    intros I HC. apply Copied_grow in HC as G. split; [by apply later_grow|]. split; [by apply grow_routes_len|].
    intros g. by apply Copied_Worth.
  Qed.
  Lemma deepcopy_runs h rs : (forall r, r ∈ rs -> is_Some (h_routes h !! r)) ->
    runs (deepcopy_routes rs) h (fun rs' h' => Copied h h' /\
      rs' = seq (length (h_routes h)) (length rs) /\
      Forall2 (fun r r' => exists c, h_routes h !! r = Some c /\ h_routes h' !! r' = Some (copy_cell h c)) rs rs').
  Proof.
    intros Hrs. unfold deepcopy_routes. step. unfold runs, copy_objects. fold (doubled h). fold (up h).
    assert (G : forall hh, Copied h hh ->
       runs (mapM (fun r => let! c := route_get r in alloc_route (MkRoute (rt_vehicle c) (map (up h) (rt_stops c)) None)) rs) hh
         (fun rs' h' => Copied h h' /\ (length (h_routes hh) <= length (h_routes h'))%nat /\
            (forall i c, h_routes hh !! i = Some c -> h_routes h' !! i = Some c) /\
            rs' = seq (length (h_routes hh)) (length rs) /\
            Forall2 (fun r r' => exists c, h_routes h !! r = Some c /\ h_routes h' !! r' = Some (copy_cell h c)) rs rs')).
    { induction rs as [|r rs IH]; intros hh HC.
      { apply runs_ret. split; [done|]. split; [done|]. split; [done|]. split; [done|constructor]. }
      destruct (Hrs r) as [c Hc]; [left|].
      cbn [mapM]. step. step.
      eapply runs_route_get with (c := c).
      { destruct HC as (_ & _ & _ & N & -> & _). by apply lookup_app_l_Some. }
      unfold alloc_route, runs at 1. step.
      set (hh1 := with_routes _ hh).
      assert (HC1 : Copied h hh1).
      { destruct HC as (E1 & E2 & E3 & N & E4 & HN). split; [done|]. split; [done|]. split; [done|].
        exists (N ++ [c]). cbn. rewrite E4, map_app, app_assoc. split; [done|].
        intros c0 [?|Hc0]%elem_of_app; [by apply HN|]. apply elem_of_list_singleton in Hc0 as ->. eauto. }
      eapply runs_mono; [apply (IH ltac:(intros; apply Hrs; by right) hh1 HC1)|].
      intros rs' h' (HC' & Hle & Hk & -> & HF). apply runs_ret.
      assert (El : length (h_routes hh1) = S (length (h_routes hh))) by (cbn; rewrite app_length; cbn; lia).
      split; [done|]. split; [lia|]. split.
      { intros i ci Hi. apply Hk. cbn. by apply lookup_app_l_Some. }
      split; [by rewrite El|].
      constructor; [|done]. exists c. split; [done|]. apply Hk. cbn. by rewrite lookup_app_r, Nat.sub_diag by lia. }
    eapply runs_mono; [apply (G (doubled h))|].
    { split; [done|]. split; [done|]. split; [done|]. exists []. cbn. rewrite app_nil_r. split; [done|]. intros ? H; inversion H. }
    intros rs' h' (? & _ & _ & ? & ?). done.
  Qed.
End copy.
