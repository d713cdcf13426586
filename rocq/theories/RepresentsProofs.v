(** The readable definitions of Represents.v agree with those used in the
    proofs. *)
From Verif Require Export Represents ScoreProofs.

Section agree.
  Context {W : World}.

  Lemma plans_map h ps ts : plans h ps ts <-> ts = map (trip_of h) ps /\ forall p, p ∈ ps -> is_Some (h_pts h !! p).
  Proof.
    unfold plans, trip_of. split.
    - induction 1 as [|p t ps ts (pc & Hpc & Et) _ [IH1 IH2]]; [split; [done|intros p H; inversion H]|]. split.
      + cbn. rewrite Hpc. congruence.
      + intros q [->|Hq]%elem_of_cons; eauto.
    - revert ts. induction ps as [|p ps IH]; intros ts [-> H]; cbn; constructor.
      + destruct (H p) as [pc Hpc]; [left|]. exists pc. by rewrite Hpc.
      + apply IH. split; [done|]. intros q Hq. apply H. by right.
  Qed.
  Lemma memoised_cached {B} (o : option B) b : memoised o b <-> cached o b.
  Proof. unfold memoised, cached. destruct o as [x|]; split; [intros [[=]|[= ->]]; done|intros ->; by right|done|by left]. Qed.
  Lemma stop_shows_abs h v prev c A : known h c -> caches_ok v c (abs h c) A -> st_vehicle c = v -> st_previous c = prev ->
    stop_shows h v prev c (abs h c) (tm v (abs h c) A).
  Proof.
    intros K (C1 & C2 & C3) V P. split; try done; try (by apply memoised_cached).
    - apply plans_map. split; [done|]. intros p Hp. apply K. set_solver.
    - apply plans_map. split; [done|]. intros p Hp. apply K. set_solver.
  Qed.
  Lemma stop_shows_inv h v prev c x A : stop_shows h v prev c x (tm v x A) ->
    x = abs h c /\ known h c /\ caches_ok v c (abs h c) A /\ st_vehicle c = v /\ st_previous c = prev.
  Proof.
    intros [V P E1 E2 B1 B2 C1 C2 C3]. apply plans_map in B1 as [B1 K1], B2 as [B2 K2].
    assert (E : x = abs h c). { destruct x; unfold abs; cbn in *. congruence. }
    split; [done|]. split; [intros p Hp; apply elem_of_app in Hp as [?|?]; auto|]. rewrite <- E.
    split; [|done]. split; [|split]; by apply memoised_cached.
  Qed.
  Lemma last_take_before (ids : list nat) i : (i < length ids)%nat -> last (take i ids) = before_at ids i.
  Proof.
    intros H. destruct i as [|i]; [done|]. cbn [before_at].
    destruct (lookup_lt_is_Some_2 ids i) as [s Hs]; [lia|]. by rewrite (take_S_r _ _ _ Hs), last_snoc.
  Qed.

  Lemma linked_RouteP h r v ids L : linked h r v ids L <-> RouteP h r v ids L.
  Proof.
    split.
    - intros [C Hl Hs]. split; [done|].
      assert (G : forall k, (k <= length ids)%nat -> Path h v (reverse (take k ids)) (reverse (take k L))).
      { induction k as [|k IH]; intros Hk; [rewrite !take_0; constructor|].
        destruct (lookup_lt_is_Some_2 ids k) as [s Es]; [lia|].
        destruct (lookup_lt_is_Some_2 L k) as [x Ex]; [lia|].
        destruct (Hs k s x _ Es Ex (timetable_lookup v L k x Ex)) as (c & Hc & Sh).
        apply stop_shows_inv in Sh as (-> & K & Ck & V & P).
        rewrite (take_S_r _ _ _ Es), (take_S_r _ _ _ Ex), !reverse_snoc.
        econstructor; [done|done| |done|done|apply IH; lia].
        rewrite P, head_reverse. symmetry. apply last_take_before. lia. }
      specialize (G (length ids)). rewrite (take_ge ids), (take_ge L) in G by lia. by apply G.
    - intros R. split; [apply R|by eapply RouteP_length|].
      intros i s x T Hs Hx HT. destruct (RouteP_lookup _ _ _ _ _ _ _ R Hs) as (c & x' & Hc & Hx' & Ex & K & V & Pr & P).
      rewrite Hx in Hx'. injection Hx' as <-. rewrite (timetable_lookup v L i x Hx) in HT. injection HT as <-.
      exists c. split; [done|]. pose proof (Path_cons_inv _ _ _ _ _ _ P) as (c' & Hc' & _ & _ & _ & _ & C & _).
      rewrite Hc in Hc'. injection Hc' as <-. rewrite Ex. apply stop_shows_abs; [done| |done|].
      { rewrite <- Ex. done. }
      rewrite Pr. apply last_take_before. by eapply lookup_lt_Some.
  Qed.

  Lemma well_formed_RouteW h r v ids L : well_formed h r v ids L <-> RouteW h r v ids L.
  Proof.
    split.
    - intros [Lk R Pk Dl]. pose proof (proj1 (linked_RouteP _ _ _ _ _) Lk) as RP. split; [apply RP|apply RP|done|].
      intros s c Hs Hc. apply elem_of_list_lookup in Hs as [i Hi]. split.
      + intros p Hp. destruct (Pk i s c p Hi Hc Hp) as (j & d & dc & Hij & Hj & Hd & Hpd & pc & Hpc & ? & ? & ?).
        exists d, dc, pc. split; [|done]. apply sublist2. eauto.
      + intros p Hp. destruct (Dl i s c p Hi Hc Hp) as (j & d & dc & Hij & Hj & Hd & Hpd & pc & Hpc & ? & ? & ?).
        exists d, dc, pc. split; [|done]. apply sublist2. eauto.
    - intros R. pose proof (RouteW_P _ _ _ _ _ R) as RP. split; [by apply linked_RouteP|apply R| |].
      + intros i s c p Hi Hc Hp. destruct (rw_links _ _ _ _ _ R s c) as [H1 _]; [by eapply elem_of_list_lookup_2|done|].
        destruct (H1 p Hp) as (d & dc & pc & Hsub & Hd & Hpd & Hpc & V & P1 & P2). apply sublist2 in Hsub as (i' & j & Hij & Hi' & Hj).
        assert (i' = i) as -> by (eapply NoDup_lookup; [by eapply RouteP_NoDup|done|done]).
        exists j, d, dc. split; [done|]. split; [done|]. split; [done|]. split; [done|]. by exists pc.
      + intros i s c p Hi Hc Hp. destruct (rw_links _ _ _ _ _ R s c) as [_ H1]; [by eapply elem_of_list_lookup_2|done|].
        destruct (H1 p Hp) as (d & dc & pc & Hsub & Hd & Hpd & Hpc & V & P1 & P2). apply sublist2 in Hsub as (j & i' & Hij & Hj & Hi').
        assert (i' = i) as -> by (eapply NoDup_lookup; [by eapply RouteP_NoDup|done|done]).
        exists j, d, dc. split; [done|]. split; [done|]. split; [done|]. split; [done|]. by exists pc.
  Qed.
  Lemma on_tour_RouteOK h r v ids L : on_tour h r v ids L <-> RouteOK h r v ids L.
  Proof. unfold on_tour, RouteOK. by rewrite well_formed_RouteW. Qed.

  Lemma grow_kept h h' : grow h h' -> routes_kept h h'.
  Proof.
    intros G. split; intros r v ids xs H.
    - apply linked_RouteP. apply linked_RouteP in H as [(c & Hc & E1 & E2) P]. split; [|by apply (g_path _ _ G)].
      destruct (g_routes _ _ G _ _ Hc) as (c' & Hc' & E). apply sk_route_eq in E as [F1 F2].
      exists c'. rewrite F1, F2. done.
    - apply well_formed_RouteW. eapply RouteW_grow; [exact G|]. by apply well_formed_RouteW.
  Qed.
  Lemma soft_kept h h' : soft h h' -> routes_kept h h'.
  Proof. intros [G _]. by apply grow_kept. Qed.
  Lemma kept_trans h1 h2 h3 : routes_kept h1 h2 -> routes_kept h2 h3 -> routes_kept h1 h3.
  Proof. intros [A1 A2] [B1 B2]. split; eauto. Qed.

  Lemma unasked_Flags h r v ids L : RouteW h r v ids L -> unasked h r ids ->
    FlagsOK v ids L h /\ (forall c, h_routes h !! r = Some c -> rt_feasible c = None).
  Proof.
    intros R (U1 & U2 & U3). split; [|done]. split.
    - intros i s x c T b Hi Hx HT Hc Hb. rewrite (U2 s c) in Hb; [done|by eapply elem_of_list_lookup_2|done].
    - intros p pc i j s d x y Ti Tj b Hpc (c & Hc & Hp) Hs Hd Hi Hj Hx Hy HTi HTj Hb.
      rewrite (U3 s c p pc) in Hb; [done|by eapply elem_of_list_lookup_2|done|done|done].
  Qed.

  (** ** The feasibility conditions *)
  Lemma events_board t x : t ∈ vi_board x -> events x <> 0%nat.
  Proof. unfold events. intros H. destruct (vi_board x); [inversion H|cbn; lia]. Qed.
  Lemma events_alight t x : t ∈ vi_alight x -> events x <> 0%nat.
  Proof. unfold events. intros H. destruct (vi_alight x); [inversion H|cbn; lia]. Qed.
  Lemma route_okb_admissible v L : L <> [] -> route_okb v L <-> admissible v L.
  Proof.
    intros Hne. split.
    - intros (x0 & xn & T0 & Tn & H0 & Hn & HT0 & HTn & P0 & Pn & A1 & A2 & A3). split.
      + eauto.
      + eauto.
      + intros T HT. rewrite HTn in HT. by injection HT as <-.
      + intros T T' HT HT'. rewrite HTn in HT'. rewrite HT0 in HT. injection HT' as <-. by injection HT as <-.
      + intros t i j x y Ti Tj R Hx Hy HTi HTj. pose proof (A3 t i j x y Ti Tj R Hx Hy HTi HTj) as Ok.
        unfold ride_okb in Ok. rewrite !andb_true_iff, lim_ge_add in Ok. destruct Ok as [[O1 O2] O3].
        destruct R as (x' & y' & Hx' & Hy' & Bx & Ay). rewrite Hx in Hx'. injection Hx' as <-. rewrite Hy in Hy'. injection Hy' as <-.
        split; [apply stop_okb_spec; [by eapply events_board|done]|]. split; [apply stop_okb_spec; [by eapply events_alight|done]|done].
    - intros [(x0 & H0 & P0) (xn & Hn & Pn) A1 A2 A3].
      assert (exists T0, head (timetable v L) = Some T0) as [T0 HT0].
      { destruct L; [done|]. cbn. eauto. }
      assert (exists Tn, last (timetable v L) = Some Tn) as [Tn HTn].
      { destruct (last (timetable v L)) eqn:E; [eauto|]. apply last_None in E. apply (f_equal length) in E.
        unfold timetable in E. rewrite schedule_length in E. by destruct L. }
      exists x0, xn, T0, Tn. split; [done|]. split; [done|]. split; [done|]. split; [done|]. split; [done|]. split; [done|].
      split; [by apply A1|]. split; [by apply A2|].
      intros t i j x y Ti Tj R Hx Hy HTi HTj. destruct (A3 t i j x y Ti Tj R Hx Hy HTi HTj) as (O1 & O2 & O3).
      destruct R as (x' & y' & Hx' & Hy' & Bx & Ay). rewrite Hx in Hx'. injection Hx' as <-. rewrite Hy in Hy'. injection Hy' as <-.
      unfold ride_okb. rewrite !andb_true_iff, lim_ge_add. split; [|done]. split; apply stop_okb_spec; try done; [by eapply events_board|by eapply events_alight].
  Qed.
End agree.
