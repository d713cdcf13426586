(** 2-opt: the search ends where no stretch it tries is worth reversing. *)
From Verif Require Export TwoOptBest.

Section settled.
  Context {W : World}.

  Lemma turns_length xs ys : turns xs ys -> (4 <= length xs)%nat /\ length ys = length xs.
  Proof. intros H. split; [destruct H as (i & k & ? & ? & ? & _); lia|]. by apply Permutation_length, turns_perm. Qed.
  Lemma ride_time_nonneg v xs t : sane_durations -> rides xs -> t ∈ boards xs -> 0 <= ride_time v xs t.
  Proof.
    intros SD R Ht. destruct (rides_order _ R t Ht) as (x & y & Hs & Hb & Ha). apply sublist2 in Hs as (i & j & Hij & Hi & Hj).
    destruct (timetable_some v _ _ _ Hi) as [Ti HTi]. destruct (timetable_some v _ _ _ Hj) as [Tj HTj].
    destruct (ride_at v xs t i j Ti Tj R) as [E1 E2]; [by exists x, y|done|done|]. unfold ride_time. rewrite E1, E2.
    pose proof (timetable_ride_mono v xs i j Ti Tj SD Hij HTi HTj). pose proof (timetable_arrival_start v xs j Tj HTj). lia.
  Qed.
  Lemma sum_nonneg {A} (f : A -> Z) l : (forall x, x ∈ l -> 0 <= f x) -> 0 <= sum_of (map f l).
  Proof.
    intros H. unfold sum_of. induction l as [|x l IH]; cbn; [lia|]. pose proof (H x ltac:(left)). assert (0 <= foldr Z.add 0 (map f l)); [|lia].
    apply IH. intros y Hy. apply H. by right.
  Qed.
  Lemma value_nonneg o v ys : sane -> (o = HashCode -> forall t, 0 <= tr_bonus (w_trip t)) -> tour v ys -> boards ys <> [] ->
    at_least (tuple_zero o) (value_of o v ys).
  Proof.
    intros [SD _] HB T Hne. destruct o; cbn [value_of].
    - right. apply lex_here. destruct (boards ys); [done|]. cbn. lia.
    - assert (H : 0 <= sum_of (map (fun t => unless_empty t (ride_time v ys t)) (boards ys))).
      { apply sum_nonneg. intros t Ht. unfold unless_empty. destruct (decide _); [lia|]. apply ride_time_nonneg; [done|apply T|done]. }
      destruct (Z.eq_dec 0 (sum_of (map (fun t => unless_empty t (ride_time v ys t)) (boards ys)))) as [E|E]; [left; by rewrite <- E|].
      right. apply lex_here. lia.
    - assert (H : 0 <= sum_of (map (fun t => unless_empty t (ride_score v ys t)) (boards ys))).
      { apply sum_nonneg. intros t Ht. unfold unless_empty. destruct (decide _); [lia|]. unfold ride_score, trip_distance.
        pose proof (dist_nonneg (sv_position (tr_origin (w_trip t))) (sv_position (tr_destination (w_trip t)))).
        specialize (HB eq_refl t). unfold origin_position, destination_position. destruct (decide _); lia. }
      destruct (Z.eq_dec 0 (sum_of (map (fun t => unless_empty t (ride_score v ys t)) (boards ys)))) as [E|E]; [left; by rewrite <- E|].
      right. apply lex_here. lia.
  Qed.

  Definition Busy (h : heap) (pl : list nat) : Prop :=
    forall r v ids L, r ∈ pl -> RouteOK h r v ids L -> (4 <= length L)%nat -> boards L <> [].
  Lemma Busy_Dear o h pl : sane -> (o = HashCode -> forall t, 0 <= tr_bonus (w_trip t)) -> Busy h pl -> Dear o h pl.
  Proof.
    intros Hs HB B r v ids L ys Hr R Ht T. destruct (turns_length _ _ Ht) as [Hl _].
    apply value_nonneg; [done|done|done|]. intros E. apply (B r v ids L Hr R Hl).
    pose proof (turns_boards _ _ Ht) as P. rewrite E in P. by apply Permutation_nil in P.
  Qed.
  Lemma Busy_spreads h h' pl : spreads h h' -> Tours h pl -> Busy h pl -> Busy h' pl.
  Proof.
    intros [G _] T B r v ids L Hr R. destruct (T r Hr) as (v0 & ids0 & L0 & R0). pose proof (RouteOK_grow _ _ _ _ _ _ G R0) as R1.
    destruct (RouteW_det _ _ _ _ _ _ _ _ (proj1 R) (proj1 R1)) as (-> & -> & ->). by eapply B.
  Qed.
  Lemma Busy_offspring o h pl h' pl' : Busy h pl -> (forall r', r' ∈ pl' -> exists v ids' ys, Offspring o h pl h' r' v ids' ys) -> Busy h' pl'.
  Proof.
    intros B O r v ids L Hr R Hl. destruct (O r Hr) as (v0 & ids0 & ys & R' & q & idq & Lq & Hq & Rq & Hc).
    destruct (RouteW_det _ _ _ _ _ _ _ _ (proj1 R) (proj1 R')) as (-> & -> & ->).
    destruct Hc as [->|(Ht & _)]; [by eapply B|]. destruct (turns_length _ _ Ht) as [Hl' _]. intros E. apply (B q v0 idq Lq Hq Rq Hl').
    pose proof (turns_boards _ _ Ht) as P. rewrite E in P. by apply Permutation_nil in P.
  Qed.

  (** no stretch that is tried is worth reversing *)
  Definition Done (o : objective) (h : heap) (pl : list nat) : Prop :=
    NoDup (map (veh h) pl) -> forall r v ids L i k ys, r ∈ pl -> RouteOK h r v ids L -> better_turn o v L ys i k -> ~ tried i k (length L).
  Lemma map_veh_spreads h h' pl : spreads h h' -> Tours h pl -> map (veh h') pl = map (veh h) pl.
  Proof.
    intros [G _] T. apply map_ext_in. intros r Hr. apply elem_of_list_In in Hr. destruct (T r Hr) as (v & ids & L & R).
    pose proof (RouteOK_grow _ _ _ _ _ _ G R) as R1. destruct (RouteW_seen _ _ _ _ _ (proj1 R)) as [-> _].
    by destruct (RouteW_seen _ _ _ _ _ (proj1 R1)) as [-> _].
  Qed.
  Lemma Done_spreads o h h' pl : spreads h h' -> Tours h pl -> Done o h pl -> Done o h' pl.
  Proof.
    intros S T D Hn r v ids L i k ys Hr R. rewrite (map_veh_spreads _ _ _ S T) in Hn.
    destruct (T r Hr) as (v0 & ids0 & L0 & R0). pose proof (RouteOK_grow _ _ _ _ _ _ (proj1 S) R0) as R1.
    destruct (RouteW_det _ _ _ _ _ _ _ _ (proj1 R) (proj1 R1)) as (-> & -> & ->). by eapply D.
  Qed.
  Lemma two_opt_loop_done o threshold fuel : sane -> (1 <= threshold)%nat -> (o = HashCode -> forall t, 0 <= tr_bonus (w_trip t)) ->
    forall count best h pl h', HInv h -> Worth false h -> Tours h best -> Busy h best -> ((1 <= count)%nat -> Done o h best) ->
    ls_loop fuel TwoOpt o threshold count best h = (Ok pl, h') -> Tours h' pl /\ Done o h' pl.
  Proof.
    intros Hs Hth HB. induction fuel as [|fuel IH]; intros count best h pl h' HI Wf T B Hd; cbn [ls_loop].
    { destruct (Nat.ltb_spec count threshold) as [Hc|Hc]; [done|]. intros [= <- <-]. split; [done|]. apply Hd. lia. }
    destruct (Nat.ltb_spec count threshold) as [Hc|Hc]; [|intros [= <- <-]; split; [done|]; apply Hd; lia].
    pose proof (two_opt_runs o h best Hs HI T) as R. apply runs_eq in R as (cur & h1 & R1 & Sp1 & HI1 & O1 & _).
    pose proof (two_opt_gains o h best Hs HI T) as R'. apply runs_eq in R' as (cur' & h1' & R1' & HG). rewrite R1 in R1'. injection R1' as <- <-.
    assert (T1 : Tours h1 cur). { intros r' Hr'. destruct (O1 r' Hr') as (v & ids' & ys & [R' _]). eauto. }
    pose proof (Tours_spreads _ _ _ Sp1 T) as TB1.
    destruct (objective_best_eq o h1 [best; cur]) as (w & h2 & R2 & Q & Hw).
    { intros p [->|[->|H]%elem_of_cons]%elem_of_cons; [by apply Tours_planned|by apply Tours_planned|inversion H]. }
    assert (S2 : soft h1 h2) by apply Q. rewrite (bind_ok _ _ _ _ _ R1), (bind_ok _ _ _ _ _ R2).
    pose proof (spreads_soft _ _ S2) as Sp2. pose proof (HInv_soft _ _ HI1 S2) as HI2.
    assert (Sp02 : spreads h h2) by (exact (spreads_trans _ _ _ Sp1 Sp2)).
    destruct w as [[|[|i]]|].
    - apply (IH (S count) best h2); [done|by apply Sp02|by eapply Tours_spreads|by eapply Busy_spreads|]. intros _.
      apply (Done_spreads o h h2 best Sp02 T). intros Hn r v ids L i k ys Hr R Hb Ht.
      destruct (Tours_worth o h best T) as [x Wx]. destruct (Tours_worth o h1 cur T1) as [y Wy].
      destruct (HG Wf r v ids L i k ys Hr R Hb Ht) as [_ HG2].
      specialize (HG2 Hn (Busy_Dear o h best Hs HB B) x y Wx Wy).
      pose proof (total_worth_kept _ _ _ _ _ (grow_kept _ _ (proj1 Sp1)) Wx) as Wx1.
      destruct Hw as (p & x' & [= <-] & Wx' & _ & Hn'). rewrite (total_worth_det _ _ _ _ _ Wx' Wx1) in Hn'.
      by apply (Hn' 1%nat cur y ltac:(lia) eq_refl Wy).
    - apply (IH 0%nat cur h2); [done|by apply Sp02|exact (Tours_spreads _ _ _ Sp2 T1)| |lia]. eapply Busy_spreads; [exact Sp2|done|].
      by eapply Busy_offspring.
    - by destruct Hw as (p & y & ? & _).
    - done.
  Qed.
  Lemma one_each_NoDup h pl : Tours h pl -> one_each h pl -> NoDup (map (veh h) pl).
  Proof.
    intros T O. apply NoDup_alt. intros i j a Hi Hj. rewrite list_lookup_fmap in Hi, Hj.
    destruct (pl !! i) as [r|] eqn:Er; [|done]. destruct (pl !! j) as [r'|] eqn:Er'; [|done]. cbn in Hi, Hj. injection Hi as Hi. injection Hj as Hj.
    destruct (T r) as (v & ids & L & R); [by eapply elem_of_list_lookup_2|]. destruct (T r') as (v' & ids' & L' & R'); [by eapply elem_of_list_lookup_2|].
    destruct (RouteW_seen _ _ _ _ _ (proj1 R)) as [E _]. destruct (RouteW_seen _ _ _ _ _ (proj1 R')) as [E' _].
    assert (v' = v) as -> by congruence. eapply O; [done|done|by apply on_tour_RouteOK|by apply on_tour_RouteOK].
  Qed.
End settled.

Lemma c80_round `{W : World} : forall o h initial,
  sane -> tidy h -> honest h -> (forall r, r ∈ initial -> a_tour h r) ->
  exists pl h', ls_improve TwoOpt o initial h = (Ok pl, h') /\
    forall r v ids xs ys i k, r ∈ initial -> on_tour h r v ids xs -> better_turn o v xs ys i k -> tried i k (length xs) ->
      exists r' ids' zs, r' ∈ pl /\ on_tour h' r' v ids' zs /\ at_least (value_of o v ys) (value_of o v zs).
Proof.
  intros o h initial Hs HT HH HA. apply tidy_HInv in HT. apply honest_Worth in HH; [|done].
  assert (HTo : Tours h initial).
  { intros r Hr. destruct (HA r Hr) as (v & ids & xs & R). exists v, ids, xs. by apply on_tour_RouteOK. }
  pose proof (two_opt_gains o h initial Hs HT HTo) as R. apply runs_eq in R as (pl & h' & E & G). exists pl, h'. split; [done|].
  intros r v ids xs ys i k Hr R Hb Ht. apply on_tour_RouteOK in R. destruct (G HH r v ids xs i k ys Hr R Hb Ht) as [(r' & ids' & zs & Hp & R' & Hz) _].
  exists r', ids', zs. split; [done|]. split; [by apply on_tour_RouteOK|done].
Qed.
Lemma c80_local_optimum `{W : World} : forall fuel o threshold h initial pl h',
  sane -> tidy h -> honest h -> (forall r, r ∈ initial -> a_tour h r) -> no_idle_stops h initial ->
  (o = HashCode -> forall t, 0 <= tr_bonus (w_trip t)) -> (1 <= threshold)%nat ->
  local_search_optimize fuel TwoOpt o threshold initial h = (Ok pl, h') -> one_each h' pl ->
  forall r v ids xs ys i k, r ∈ pl -> on_tour h' r v ids xs -> better_turn o v xs ys i k -> ~ tried i k (length xs).
Proof.
  intros fuel o threshold h initial pl h' Hs HT HH HA HN HB Hth E HO r v ids xs ys i k Hr R. apply tidy_HInv in HT. apply honest_Worth in HH; [|done].
  assert (HTo : Tours h initial).
  { intros q Hq. destruct (HA q Hq) as (v' & ids' & xs' & R'). exists v', ids', xs'. by apply on_tour_RouteOK. }
  assert (HBu : Busy h initial). { intros q v' ids' xs' Hq R'. apply (HN q v' ids' xs'); [done|]. by apply on_tour_RouteOK. }
  unfold local_search_optimize in E.
  destruct (two_opt_loop_done o threshold fuel Hs Hth HB 0%nat initial h pl h' HT HH HTo HBu ltac:(lia) E) as [T D].
  intros Hb. apply on_tour_RouteOK in R. eapply D; [by apply one_each_NoDup|done|done|done].
Qed.
