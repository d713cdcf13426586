(** Objective values and criterion scores read from the heap are those of
    SpecValue.v: objectives.py, criterions.py. *)
From Verif Require Export SpecValue StrategyProofs.

Section getters.
  Context {W : World}.

  Lemma manhattan_sym a b : manhattan a b = manhattan b a.
  Proof.
    unfold manhattan. f_equal. revert b. induction a as [|x a IH]; intros [|y b]; cbn; [done..|]. rewrite IH. f_equal. lia.
  Qed.
  Lemma euclidean_sym a b : euclidean a b = euclidean b a.
  Proof.
    unfold euclidean. do 2 f_equal. revert b. induction a as [|x a IH]; intros [|y b]; cbn; [done..|]. rewrite IH. f_equal. lia.
  Qed.
  Lemma dist_sym a b : dist a b = dist b a.
  Proof. unfold dist, metric_distance. destruct w_metric; [apply euclidean_sym|apply manhattan_sym]. Qed.

  Lemma gives_mapM {A B} (f : A -> M B) (g : A -> B) l : forall h,
    (forall x h', x ∈ l -> quiet h h' -> gives (f x) h' (g x)) -> gives (mapM f l) h (map g l).
  Proof.
    induction l as [|x l IH]; intros h H; cbn.
    - apply runs_ret. split; [done|apply quiet_refl].
    - unfold gives. eapply gives_seq; [apply H; [left|apply quiet_refl]|]. intros h1 Q1.
      eapply gives_seq; [apply IH|].
      + intros y h' Hy Q. apply H; [by right|by eapply quiet_trans].
      + intros h2 Q2. apply runs_ret. split; [done|by eapply quiet_trans].
  Qed.
  Lemma gives_foldM {A B} (f : B -> A -> M B) (g : B -> A -> B) l : forall b h,
    (forall b x h', x ∈ l -> quiet h h' -> gives (f b x) h' (g b x)) -> gives (foldM f b l) h (foldl g b l).
  Proof.
    induction l as [|x l IH]; intros b h H; cbn.
    - apply runs_ret. split; [done|apply quiet_refl].
    - unfold gives. eapply gives_seq; [apply H; [left|apply quiet_refl]|]. intros h1 Q1.
      eapply runs_mono; [apply IH|].
      + intros b' y h' Hy Q. apply H; [by right|by eapply quiet_trans].
      + intros ? h2 [-> Q2]. split; [done|by eapply quiet_trans].
  Qed.
  Lemma gives_of_runs {A} (m : M A) h a : (forall Q : A -> heap -> Prop, Q a h -> runs m h Q) -> gives m h a.
  Proof. intros H. apply H. split; [done|apply quiet_refl]. Qed.
  Lemma gives_ret {A} (a : A) h : gives (ret a) h a.
  Proof. apply runs_ret. split; [done|apply quiet_refl]. Qed.
  Lemma gives_bind {A B} (m : M A) (k : A -> M B) h a b :
    gives m h a -> (forall h', quiet h h' -> gives (k a) h' b) -> gives (bind m k) h b.
  Proof.
    intros Hm Hk. unfold gives. eapply gives_seq; [exact Hm|]. intros h1 Q1. eapply runs_mono; [by apply Hk|].
    intros ? h2 [-> Q2]. split; [done|by eapply quiet_trans].
  Qed.
  Lemma RouteW_quiet h h' r v ids L : quiet h h' -> RouteW h r v ids L -> RouteW h' r v ids L.
  Proof. intros Q. apply RouteW_soft, Q. Qed.
  Lemma pts_of_quiet h h' r v ids L : RouteW h r v ids L -> quiet h h' -> pts_of h' ids = pts_of h ids.
  Proof. intros R Q. eapply pts_of_soft; [exact R|apply Q]. Qed.
  Lemma trip_of_quiet h h' r v ids L p : RouteW h r v ids L -> p ∈ pts_of h ids -> quiet h h' -> trip_of h' p = trip_of h p.
  Proof.
    intros R Hp [[G _] _]. destruct (pts_of_known _ _ _ _ _ _ R Hp) as (?&?&?&?&pc&?&?&?&?&?&?&Hpc&_).
    destruct (g_pts _ _ G _ _ Hpc) as (pc' & Hpc' & E). apply sk_pt_eq in E as (_ & E & _). unfold trip_of. by rewrite Hpc, Hpc'.
  Qed.

  (** ** Moments *)
  Lemma moment_unique b f v xs i x T :
    xs !! i = Some x -> timetable v xs !! i = Some T -> b x = true ->
    (forall j y, xs !! j = Some y -> b y = true -> j = i) ->
    moment b f v xs = f T.
  Proof.
    unfold moment, timetable. generalize (ready v) as l. revert i. induction xs as [|y xs IH]; intros i l Hx HT Hb Hu; [done|].
    cbn. destruct i as [|i].
    - cbn in *. injection Hx as ->. injection HT as <-. by rewrite Hb.
    - destruct (b y) eqn:Hy.
      + specialize (Hu 0%nat y eq_refl Hy). done.
      + cbn in Hx, HT. eapply IH; [exact Hx|exact HT|done|]. intros j z Hz Hbz. specialize (Hu (S j) z Hz Hbz). lia.
  Qed.
  Lemma ride_at v xs t i j Ti Tj : rides xs -> ride xs t i j ->
    timetable v xs !! i = Some Ti -> timetable v xs !! j = Some Tj ->
    picked_up_at v xs t = tm_departure Ti /\ dropped_off_at v xs t = tm_start Tj.
  Proof.
    intros R (x & y & Hx & Hy & Bx & Ay) HTi HTj. split.
    - eapply moment_unique; [exact Hx|exact HTi|by apply bool_decide_eq_true|].
      intros k z Hz Hb%bool_decide_eq_true. eapply (flat_map_NoDup_lookup vi_board xs k i z x t); try done. apply R.
    - eapply moment_unique; [exact Hy|exact HTj|by apply bool_decide_eq_true|].
      intros k z Hz Hb%bool_decide_eq_true. eapply (flat_map_NoDup_lookup vi_alight xs k j z y t); try done. by apply rides_alights_nodup.
  Qed.

  (** ** Planned trips of a route *)
  Lemma pts_of_times h r v ids L p : RouteW h r v ids L -> p ∈ pts_of h ids ->
    gives (pickup_time p) h (picked_up_at v L (trip_of h p)) /\
    gives (pt_duration p) h (ride_time v L (trip_of h p)).
  Proof.
    intros R Hp. destruct (pts_of_Ride _ _ _ _ _ _ R Hp) as (t & i & j & s & d & Rd & Rl).
    assert (Et : trip_of h p = t). { destruct Rd as (pc & Hpc & _ & <- & _). unfold trip_of. by rewrite Hpc. }
    pose proof Rl as (x & y & Hx & Hy & _).
    destruct (timetable_some v L i x Hx) as [Ti HTi]. destruct (timetable_some v L j y Hy) as [Tj HTj].
    destruct (ride_at v L t i j Ti Tj (rw_rides _ _ _ _ _ R) Rl HTi HTj) as [E1 E2].
    rewrite Et. unfold ride_time. rewrite E1, E2. split; [by eapply pickup_time_gives|by eapply pt_duration_gives].
  Qed.
  Lemma pts_of_pt h r v ids L p : RouteW h r v ids L -> p ∈ pts_of h ids ->
    exists pc, h_pts h !! p = Some pc /\ pt_trip pc = trip_of h p.
  Proof.
    intros R Hp. destruct (pts_of_known _ _ _ _ _ _ R Hp) as (?&?&?&?&pc&?&?&?&?&?&?&Hpc&_).
    exists pc. split; [done|]. unfold trip_of. by rewrite Hpc.
  Qed.

  Lemma route_distance_gives h r v ids L : RouteW h r v ids L -> gives (route_distance r) h (travelled v L).
  Proof.
    intros R. unfold gives, route_distance. step. eapply runs_route_stops; [exact R|]. step.
    assert (E : forall ids2 L2, Path h v (reverse ids2) (reverse L2) ->
       runs (mapM stop_distance ids2) h (fun l h' => h' = h /\ zsum l = travelled v L2)).
    { clear. induction ids2 as [|s ids2 IH] using rev_ind; intros L2 P.
      - rewrite reverse_nil in P. inversion P as [E|]. destruct L2 as [|x L2]; [apply runs_ret; done|].
        rewrite reverse_cons in H. by destruct (reverse L2).
      - rewrite reverse_snoc in P. destruct L2 as [|x L2 _] using rev_ind; [inversion P|].
        rewrite reverse_snoc in P.
        pose proof (Path_cons_inv _ _ _ _ _ _ P) as (c & _ & _ & _ & _ & _ & _ & P2).
        assert (Emap : forall (l k : list nat) h (Q : list Z -> heap -> Prop),
          runs (mapM stop_distance l) h (fun a h1 => runs (mapM stop_distance k) h1 (fun b h2 => Q (a ++ b) h2)) ->
          runs (mapM stop_distance (l ++ k)) h Q).
        { clear. induction l as [|s l IH]; intros k h Q H; cbn in *; [exact H|].
          apply runs_bind_inv in H. step. eapply runs_mono; [exact H|]. intros d h1 H1. cbn in H1.
          step. apply IH. apply runs_bind_inv in H1. eapply runs_mono; [exact H1|].
          intros a h2 H2. cbn in H2. eapply runs_mono; [exact H2|]. intros b h3 H3. by apply runs_ret. }
        apply Emap. eapply runs_mono; [by apply (IH L2)|]. intros l h' [-> El]. cbn. step.
        eapply runs_stop_distance; [exact P|]. step. apply runs_ret. apply runs_ret. split; [done|].
        rewrite zsum_sum_of, sum_of_app, <- zsum_sum_of, El. cbn. rewrite Z.add_0_r, dist_sym.
        unfold travelled. clear. rewrite back_place.
        assert (G : forall o L x, driven o (L ++ [x]) = driven o L + dist (default o (vi_place <$> head (reverse L))) (vi_place x)).
        { clear. intros o L x. revert o. induction L as [|y L IH]; intros o; [cbn; lia|].
          cbn [driven app]. rewrite IH, reverse_cons. rewrite <- Z.add_assoc. f_equal. f_equal.
          destruct (reverse L) as [|z L']; done. }
        rewrite G. done. }
    eapply runs_mono; [apply E, R|]. intros l h' [-> ->]. apply runs_ret. split; [done|apply quiet_refl].
  Qed.

  (** ** Objective value of a route *)
  Lemma foldl_add_sum {A} (g : A -> Z) l z : foldl (fun acc x => tuple_add acc [g x]) [z] l = [z + sum_of (map g l)].
  Proof.
    revert z. induction l as [|x l IH]; intros z; cbn; [by rewrite Z.add_0_r|]. rewrite IH. f_equal. fold (sum_of (map g l)). lia.
  Qed.
  Definition trip_score (o : objective) (v : nat) (xs : list visit) (t : nat) : Z :=
    unless_empty t (match o with TaxiSharing => ride_time v xs t | _ => ride_score v xs t end).
  Lemma planned_trip_value_gives o h r v ids L p : o <> DialARide ->
    RouteW h r v ids L -> p ∈ pts_of h ids ->
    gives (planned_trip_value o p) h [trip_score o v L (trip_of h p)].
  Proof.
    intros Ho R Hp. destruct (pts_of_pt _ _ _ _ _ _ R Hp) as (pc & Hpc & Et).
    destruct (pts_of_times _ _ _ _ _ _ R Hp) as [G1 G2].
    unfold gives, planned_trip_value. step. eapply runs_pt_get; [exact Hpc|]. rewrite Et.
    unfold trip_score, unless_empty. destruct (decide (tr_capacity (w_trip (trip_of h p)) = 0)) as [E|E].
    - rewrite E. destruct o; [done|apply gives_ret..].
    - rewrite (proj2 (Z.eqb_neq _ _) E). destruct o; [done| |].
      + eapply gives_bind; [exact G2|]. intros h' Q. apply gives_ret.
      + eapply gives_bind; [exact G1|]. intros h' Q.
        unfold ride_score. destruct (decide _) as [E2|E2].
        * rewrite E2, Z.eqb_refl. apply gives_ret.
        * rewrite (proj2 (Z.eqb_neq _ _)) by done. apply gives_ret.
  Qed.
  Lemma stop_value_gives o h r v ids L s c : o <> DialARide ->
    RouteW h r v ids L -> s ∈ ids -> h_stops h !! s = Some c ->
    gives (stop_value o s) h [sum_of (map (trip_score o v L) (map (trip_of h) (st_pickups c)))].
  Proof.
    intros Ho R Hs Hc. unfold gives, stop_value. step. eapply runs_stop_get; [exact Hc|].
    assert (Hin : forall p, p ∈ st_pickups c -> p ∈ pts_of h ids).
    { intros p Hp. apply elem_of_flat_map. exists s. by rewrite Hc. }
    rewrite map_map.
    replace [sum_of (map (fun x => trip_score o v L (trip_of h x)) (st_pickups c))]
      with (foldl (fun acc p => tuple_add acc [trip_score o v L (trip_of h p)]) (tuple_zero o) (st_pickups c)).
    2:{ destruct o; [done| |]; cbn; rewrite foldl_add_sum; done. }
    apply gives_foldM. intros b p h' Hp Q.
    eapply gives_bind; [|intros h2 Q2; apply gives_ret].
    rewrite <- (trip_of_quiet _ _ _ _ _ _ _ R (Hin p Hp) Q).
    eapply planned_trip_value_gives; [done|by eapply RouteW_quiet|]. rewrite (pts_of_quiet _ _ _ _ _ _ R Q). by apply Hin.
  Qed.
  Lemma route_value_gives o h r v ids L : RouteW h r v ids L -> gives (route_value o r) h (value_of o v L).
  Proof.
    intros R. assert (Ho : o = DialARide \/ o <> DialARide) by (destruct o; by (left + right)). destruct Ho as [->|Ho].
    - unfold route_value, value_of. eapply gives_bind; [apply gives_of_runs; intros; by eapply runs_route_trips|].
      intros h1 Q1. eapply gives_bind; [eapply route_distance_gives, RouteW_quiet; eauto|]. intros h2 Q2. apply gives_ret.
    - assert (E : value_of o v L = [sum_of (map (trip_score o v L) (boards L))]) by (by destruct o).
      rewrite E. 
      assert (G : gives (let! ss := route_stops r in
        foldM (fun acc s => let! x := stop_value o s in ret (tuple_add acc x)) (tuple_zero o) ss) h
          [sum_of (map (trip_score o v L) (boards L))]).
      { unfold gives. step. eapply runs_route_stops; [exact R|].
        rewrite <- (trips_pts_of _ _ _ _ _ R).
        set (g := fun s => sum_of (map (trip_score o v L) (map (trip_of h)
            (match h_stops h !! s with Some c => st_pickups c | None => [] end)))).
        replace [sum_of (map (trip_score o v L) (map (trip_of h) (pts_of h ids)))]
          with (foldl (fun acc s => tuple_add acc [g s]) (tuple_zero o) ids).
        2:{ transitivity [0 + sum_of (map g ids)]; [rewrite <- foldl_add_sum; by destruct o|]. f_equal. rewrite Z.add_0_l.
            unfold g, pts_of. clear. induction ids as [|s ids IH]; [done|].
            cbn [map flat_map]. rewrite !map_app, sum_of_app, <- IH. done. }
        apply gives_foldM. intros b s h' Hs Q.
        eapply gives_bind; [|intros h2 Q2; apply gives_ret].
        destruct (RouteW_ids_alloc _ _ _ _ _ s R Hs) as [c Hc].
        pose proof (g_stops _ _ (soft_grow _ _ (quiet_soft _ _ Q)) _ _ Hc) as (c' & Hc' & E').
        apply sk_stop_eq in E' as (_ & _ & E' & _).
        unfold g. rewrite Hc, <- E'.
        replace (map (trip_of h) (st_pickups c')) with (map (trip_of h') (st_pickups c')).
        - eapply stop_value_gives; [done|by eapply RouteW_quiet|done|done].
        - apply map_ext_in. intros p Hp%elem_of_list_In. eapply trip_of_quiet; [exact R| |done].
          apply elem_of_flat_map. exists s. rewrite Hc, <- E'. done. }
      unfold route_value. by destruct o.
  Qed.

  (** ** First and last departure *)
  Lemma last_departure_gives h r v ids L : RouteW h r v ids L -> ids <> [] ->
    gives (last_departure_time r) h (returned_at v L).
  Proof.
    intros R Hne. destruct (RouteW_last _ _ _ _ _ R Hne) as (n & sn & xn & Tn & Hsn & Hxn & HTn & Hls & HlL & HlT & Hlen).
    unfold gives, last_departure_time. step. eapply runs_last_stop; [exact R|done|].
    destruct (stop_times _ _ _ _ _ _ _ R Hsn) as (x & T & _ & HT & _ & _ & Gd & _).
    rewrite HTn in HT. injection HT as <-. unfold returned_at. rewrite HlT. exact Gd.
  Qed.
  Lemma first_departure_gives h r v ids L : RouteW h r v ids L -> ids <> [] ->
    gives (first_departure_time r) h (left_at v L).
  Proof.
    intros R Hne. destruct (RouteW_first _ _ _ _ _ R Hne) as (s0 & x0 & T0 & Hs0 & Hx0 & HT0).
    unfold gives, first_departure_time. step. eapply runs_first_stop; [exact R|done|].
    destruct (stop_times _ _ _ _ _ _ _ R Hs0) as (x & T & _ & HT & _ & _ & Gd & _).
    rewrite HT0 in HT. injection HT as <-. unfold left_at. rewrite head_lookup, HT0. exact Gd.
  Qed.
  Lemma route_duration_gives h r v ids L : RouteW h r v ids L -> ids <> [] ->
    gives (route_duration r) h (returned_at v L - left_at v L).
  Proof.
    intros R Hne. unfold route_duration. eapply gives_bind; [by eapply last_departure_gives|].
    intros h1 Q1. eapply gives_bind; [eapply first_departure_gives; [by eapply RouteW_quiet|done]|].
    intros h2 Q2. apply gives_ret.
  Qed.

  (** ** Scores *)
  Lemma score_feasible_gives k h r v ids L : RouteW h r v ids L -> ids <> [] ->
    gives (score_feasible k r) h (score_of k v L).
  Proof.
    intros R Hne. unfold score_feasible, score_of, sfin.
    pose proof (trips_pts_of _ _ _ _ _ R) as Etr.
    assert (Hpl : gives (planned_trips r) h (pts_of h ids)) by (apply gives_of_runs; intros; by eapply runs_planned_trips).
    destruct k.
    - eapply gives_bind; [by eapply last_departure_gives|]. intros. apply gives_ret.
    - eapply gives_bind; [exact Hpl|]. intros h1 Q1.
      destruct (boards L) as [|b B] eqn:EB.
      { destruct (pts_of h ids); [apply gives_ret|done]. }
      destruct (pts_of h ids) as [|p P] eqn:EP; [done|]. rewrite <- EP, <- EB.
      assert (Gm : gives (mapM pt_duration (pts_of h ids)) h1 (map (fun p => ride_time v L (trip_of h p)) (pts_of h ids))).
      { apply gives_mapM. intros q h2 Hq Q2.
        assert (Q3 : quiet h h2) by (by eapply quiet_trans).
        rewrite <- (trip_of_quiet _ _ _ _ _ _ _ R Hq Q3).
        eapply pts_of_times; [by eapply RouteW_quiet|]. by rewrite (pts_of_quiet _ _ _ _ _ _ R Q3). }
      eapply gives_bind; [exact Gm|]. intros h2 Q2. 
      replace (zsum (map (fun p => ride_time v L (trip_of h p)) (pts_of h ids))) with (sum_of (map (ride_time v L) (boards L))).
      2:{ rewrite EP, EB, <- Etr, map_map. symmetry. apply zsum_sum_of. }
      replace (length (pts_of h ids)) with (length (boards L)); [apply gives_ret|]. rewrite EP, EB, <- Etr, map_length. done.
    - eapply gives_bind; [by eapply route_duration_gives|]. intros. apply gives_ret.
    - eapply gives_bind; [by eapply route_duration_gives|]. intros. apply gives_ret.
    - eapply gives_bind; [apply gives_of_runs; intros; by eapply runs_route_trips|]. intros h1 Q1.
      rewrite zsum_sum_of. apply gives_ret.
    - eapply gives_bind; [exact Hpl|]. intros h1 Q1.
      assert (Gm : gives (mapM (fun p =>
            let! c := pt_get p in
            let t := w_trip (pt_trip c) in
            let! s := pickup_time p in
            ret (trip_distance t + (if s =? origin_earliest t then tr_bonus t else 0))) (pts_of h ids)) h1
              (map (fun p => ride_score v L (trip_of h p)) (pts_of h ids))).
      { apply gives_mapM. intros q h2 Hq Q2.
        assert (Q3 : quiet h h2) by (by eapply quiet_trans).
        rewrite <- (trip_of_quiet _ _ _ _ _ _ _ R Hq Q3).
        pose proof (RouteW_quiet _ _ _ _ _ _ Q3 R) as R2.
        assert (Hq2 : q ∈ pts_of h2 ids) by (by rewrite (pts_of_quiet _ _ _ _ _ _ R Q3)).
        destruct (pts_of_pt _ _ _ _ _ _ R2 Hq2) as (pc & Hpc & Et).
        unfold gives. step. eapply runs_pt_get; [exact Hpc|]. rewrite Et.
        eapply gives_bind; [by eapply pts_of_times|]. intros h3 Q4.
        unfold ride_score. destruct (decide _) as [E2|E2].
        * rewrite E2, Z.eqb_refl. apply gives_ret.
        * rewrite (proj2 (Z.eqb_neq _ _)) by done. apply gives_ret. }
      eapply gives_bind; [exact Gm|]. intros h2 Q2. rewrite zsum_sum_of, <- Etr, map_map. apply gives_ret.
  Qed.
End getters.
