(** Routes in the heap: well-formedness and the getters of routes.py. *)
From Verif Require Export PathProofs TourProofs Routes.

Section route_ok.
  Context {W : World}.

  (** planned trips of the stops [ids] point to the stops that list them *)
  Definition Links (h : heap) (v : nat) (ids : list nat) : Prop :=
    forall s c, s ∈ ids -> h_stops h !! s = Some c ->
    (forall p, p ∈ st_pickups c -> exists d dc pc,
       [s; d] `sublist_of` ids /\ h_stops h !! d = Some dc /\ p ∈ st_deliveries dc /\
       h_pts h !! p = Some pc /\ pt_vehicle pc = v /\ pt_pickup pc = Some s /\ pt_delivery pc = Some d) /\
    (forall p, p ∈ st_deliveries c -> exists q qc pc,
       [q; s] `sublist_of` ids /\ h_stops h !! q = Some qc /\ p ∈ st_pickups qc /\
       h_pts h !! p = Some pc /\ pt_vehicle pc = v /\ pt_pickup pc = Some q /\ pt_delivery pc = Some s).

  (** route [r] of vehicle [v] has the stops [ids], standing for the visits [L] *)
  Record RouteW (h : heap) (r v : nat) (ids : list nat) (L : list visit) : Prop := {
    rw_cell : exists c, h_routes h !! r = Some c /\ rt_vehicle c = v /\ rt_stops c = ids;
    rw_path : Path h v (reverse ids) (reverse L);
    rw_rides : rides L;
    rw_links : Links h v ids
  }.
  Definition RouteOK (h : heap) (r v : nat) (ids : list nat) (L : list visit) : Prop :=
    RouteW h r v ids L /\ tour v L.

  (** the chain alone, without any claim about the trips *)
  Definition RouteP (h : heap) (r v : nat) (ids : list nat) (L : list visit) : Prop :=
    (exists c, h_routes h !! r = Some c /\ rt_vehicle c = v /\ rt_stops c = ids) /\
    Path h v (reverse ids) (reverse L).
  Lemma RouteW_P h r v ids L : RouteW h r v ids L -> RouteP h r v ids L.
  Proof. intros R. split; apply R. Qed.

  Lemma Links_frame h h' v ids :
    Links h v ids ->
    (forall s, s ∈ ids -> is_Some (h_stops h !! s)) ->
    (forall s c, s ∈ ids -> h_stops h !! s = Some c ->
       exists c', h_stops h' !! s = Some c' /\ st_pickups c' = st_pickups c /\ st_deliveries c' = st_deliveries c) ->
    (forall s c p pc, s ∈ ids -> h_stops h !! s = Some c -> p ∈ st_pickups c ++ st_deliveries c ->
       h_pts h !! p = Some pc -> exists pc', h_pts h' !! p = Some pc' /\ sk_pt pc' = sk_pt pc) ->
    Links h' v ids.
  Proof.
    intros HL Hall Hs Hp s c' Hin Hc'.
    destruct (Hall s Hin) as [c Hc]. destruct (Hs s c Hin Hc) as (c'' & Hc'' & E1 & E2).
    rewrite Hc' in Hc''. injection Hc'' as <-.
    destruct (HL s c Hin Hc) as [H1 H2]. split.
    - intros p Hpin. rewrite E1 in Hpin.
      destruct (H1 p Hpin) as (d & dc & pc & Hsub & Hd & Hpd & Hpc & V1 & V2 & V3).
      assert (Hdin : d ∈ ids) by (eapply elem_of_submseteq; [|by apply sublist_submseteq]; set_solver).
      destruct (Hs d dc Hdin Hd) as (dc' & Hd' & _ & E4).
      destruct (Hp s c p pc Hin Hc) as (pc' & Hpc' & E); [set_solver|done|].
      apply sk_pt_eq in E as (F1 & F2 & F3 & F4).
      exists d, dc', pc'. rewrite E4, F1, F3, F4. done.
    - intros p Hpin. rewrite E2 in Hpin.
      destruct (H2 p Hpin) as (d & dc & pc & Hsub & Hd & Hpd & Hpc & V1 & V2 & V3).
      assert (Hdin : d ∈ ids) by (eapply elem_of_submseteq; [|by apply sublist_submseteq]; set_solver).
      destruct (Hs d dc Hdin Hd) as (dc' & Hd' & E4 & _).
      destruct (Hp s c p pc Hin Hc) as (pc' & Hpc' & E); [set_solver|done|].
      apply sk_pt_eq in E as (F1 & F2 & F3 & F4).
      exists d, dc', pc'. rewrite E4, F1, F3, F4. done.
  Qed.

  Lemma RouteW_ids_alloc h r v ids L s : RouteW h r v ids L -> s ∈ ids -> is_Some (h_stops h !! s).
  Proof.
    intros R Hs. eapply Path_lookup; [apply (rw_path _ _ _ _ _ R)|]. by apply elem_of_reverse.
  Qed.
  Lemma RouteW_length h r v ids L : RouteW h r v ids L -> length ids = length L.
  Proof. intros R. pose proof (Path_length _ _ _ _ (rw_path _ _ _ _ _ R)) as H. by rewrite !reverse_length in H. Qed.
  Lemma RouteW_NoDup h r v ids L : RouteW h r v ids L -> NoDup ids.
  Proof.
    intros R. pose proof (Path_NoDup _ _ _ _ (rw_path _ _ _ _ _ R)) as H.
    eapply NoDup_perm; [|exact H]. symmetry. apply reverse_Permutation.
  Qed.

  Lemma Links_grow h h' v ids :
    grow h h' -> (forall s, s ∈ ids -> is_Some (h_stops h !! s)) -> Links h v ids -> Links h' v ids.
  Proof.
    intros G Ha HL. eapply Links_frame; [exact HL|done| |].
    - intros s c _ Hc. destruct (g_stops _ _ G _ _ Hc) as (c' & ? & E).
      apply sk_stop_eq in E. exists c'. tauto.
    - intros s c p pc _ _ _ Hpc. by apply (g_pts _ _ G).
  Qed.
  Lemma RouteW_grow h h' r v ids L : grow h h' -> RouteW h r v ids L -> RouteW h' r v ids L.
  Proof.
    intros G R. split.
    - destruct (rw_cell _ _ _ _ _ R) as (c & Hc & E1 & E2).
      destruct (g_routes _ _ G _ _ Hc) as (c' & Hc' & E). apply sk_route_eq in E as [F1 F2].
      exists c'. rewrite F1, F2. done.
    - apply (g_path _ _ G), R.
    - apply R.
    - eapply Links_grow; [done| |apply R]. intros s. by eapply RouteW_ids_alloc.
  Qed.
  Lemma RouteOK_grow h h' r v ids L : grow h h' -> RouteOK h r v ids L -> RouteOK h' r v ids L.
  Proof. intros G [R T]. split; [by eapply RouteW_grow|done]. Qed.
  Lemma RouteW_soft h h' r v ids L : soft h h' -> RouteW h r v ids L -> RouteW h' r v ids L.
  Proof. intros [G _]. by apply RouteW_grow. Qed.
  Lemma RouteOK_soft h h' r v ids L : soft h h' -> RouteOK h r v ids L -> RouteOK h' r v ids L.
  Proof. intros [G _]. by apply RouteOK_grow. Qed.

  Lemma RouteW_det h r v v' ids ids' L L' :
    RouteW h r v ids L -> RouteW h r v' ids' L' -> v = v' /\ ids = ids' /\ L = L'.
  Proof.
    intros R R'. destruct (rw_cell _ _ _ _ _ R) as (c & Hc & E1 & E2).
    destruct (rw_cell _ _ _ _ _ R') as (c' & Hc' & E1' & E2').
    rewrite Hc in Hc'. injection Hc' as <-. subst v v' ids ids'. split; [done|]. split; [done|].
    pose proof (rw_path _ _ _ _ _ R) as P. pose proof (rw_path _ _ _ _ _ R') as P'.
    apply (inj reverse). destruct (reverse (rt_stops c)) as [|s ids].
    - inversion P; inversion P'; congruence.
    - by destruct (Path_det _ _ _ _ _ _ _ _ P P') as (_ & _ & ->).
  Qed.

  (** ** The stop at position [i] *)
  Lemma RouteP_lookup h r v ids L i s :
    RouteP h r v ids L -> ids !! i = Some s ->
    exists c x, h_stops h !! s = Some c /\ L !! i = Some x /\ x = abs h c /\ known h c /\
      st_vehicle c = v /\ st_previous c = last (take i ids) /\
      Path h v (s :: reverse (take i ids)) (x :: reverse (take i L)).
  Proof.
    intros [_ P] Hs.
    rewrite <- (take_drop_middle ids i s Hs) in P at 1.
    rewrite reverse_app, reverse_cons, <- app_assoc in P. cbn [app] in P.
    apply Path_app_inv in P as (A1 & A2 & E & Hlen & P).
    apply Path_cons_inv' in P as (c & A & -> & Hc & V & Pr & K & C & P).
    pose proof (reverse_split_lookup _ _ _ _ E) as [Hx HA].
    assert (HlA : length A = i).
    { pose proof (Path_length _ _ _ _ P) as Hl. rewrite reverse_length, take_length in Hl.
      apply lookup_lt_Some in Hs. lia. }
    rewrite HlA in Hx, HA. subst A.
    exists c, (abs h c). split; [done|]. split; [done|]. split; [done|]. split; [done|].
    split; [done|]. split; [by rewrite Pr, head_reverse|].
    econstructor; eauto.
  Qed.
  Lemma RouteW_lookup h r v ids L i s :
    RouteW h r v ids L -> ids !! i = Some s ->
    exists c x, h_stops h !! s = Some c /\ L !! i = Some x /\ x = abs h c /\ known h c /\
      st_vehicle c = v /\ st_previous c = last (take i ids) /\
      Path h v (s :: reverse (take i ids)) (x :: reverse (take i L)).
  Proof. intros R. apply RouteP_lookup with (r := r). by apply RouteW_P. Qed.

  Lemma RouteP_soft h h' r v ids L : soft h h' -> RouteP h r v ids L -> RouteP h' r v ids L.
  Proof.
    intros [G _] [(c & Hc & E1 & E2) P]. split; [|by apply (g_path _ _ G)].
    destruct (g_routes _ _ G _ _ Hc) as (c' & Hc' & E). apply sk_route_eq in E as [F1 F2].
    exists c'. rewrite F1, F2. done.
  Qed.
  Lemma RouteP_length h r v ids L : RouteP h r v ids L -> length ids = length L.
  Proof. intros [_ P]. apply Path_length in P. by rewrite !reverse_length in P. Qed.
  Lemma RouteP_NoDup h r v ids L : RouteP h r v ids L -> NoDup ids.
  Proof.
    intros [_ P]. apply Path_NoDup in P.
    eapply NoDup_perm; [|exact P]. symmetry. apply reverse_Permutation.
  Qed.
  Lemma RouteP_alloc h r v ids L s : RouteP h r v ids L -> s ∈ ids -> is_Some (h_stops h !! s).
  Proof. intros [_ P] Hs. eapply Path_lookup; [exact P|]. by apply elem_of_reverse. Qed.
  Lemma back_place v A : leg_place (back v A) = default (v_origin_position v) (vi_place <$> head A).
  Proof. destruct A as [|x A]; [done|]. by rewrite back_cons. Qed.
  Lemma RouteP_times h r v ids L i s :
    RouteP h r v ids L -> ids !! i = Some s ->
    exists x T, L !! i = Some x /\ timetable v L !! i = Some T /\
      gives (arrival_time s) h (tm_arrival T) /\
      gives (starting_time s) h (tm_start T) /\
      gives (departure_time s) h (tm_departure T) /\
      gives (waiting_time s) h (tm_start T - tm_arrival T) /\
      gives (transit_time s) h (dist (default (v_origin_position v) (vi_place <$> last (take i L))) (vi_place x)).
  Proof.
    intros R Hs. destruct (RouteP_lookup _ _ _ _ _ _ _ R Hs) as (c & x & Hc & Hx & Ex & K & V & Pr & P).
    exists x, (tm v x (reverse (take i L))).
    split; [done|]. split; [by apply timetable_lookup|].
    split; [by eapply arrival_time_gives|]. split; [by eapply starting_time_gives|].
    split; [by eapply departure_time_gives|]. split; [by eapply waiting_time_gives|].
    rewrite <- head_reverse, <- back_place. by eapply transit_time_gives.
  Qed.

  Lemma loads_ok_tail v A B : loads_ok v (A ++ B) -> loads_ok v B.
  Proof. intros H C x D ->. apply (H (A ++ C)). by rewrite <- app_assoc. Qed.
  Lemma rides_loads_ok v L : sane_capacities -> rides L -> loads_ok v (reverse L).
  Proof.
    intros Hc T B x C E. apply reverse_split_lookup in E as [Hx ->].
    rewrite (rides_load v L _ x T Hx). by apply weight_nonneg.
  Qed.
  Lemma rides_loads_ok_at v L i x :
    sane_capacities -> rides L -> L !! i = Some x -> loads_ok v (x :: reverse (take i L)).
  Proof.
    intros Hc T Hx. pose proof (rides_loads_ok v L Hc T) as H.
    rewrite <- (take_drop_middle L i x Hx) in H.
    rewrite reverse_app, reverse_cons, <- app_assoc in H. cbn [app] in H.
    by apply loads_ok_tail in H.
  Qed.

  (** times of the [i]-th stop *)
  Lemma stop_times h r v ids L i s :
    RouteW h r v ids L -> ids !! i = Some s ->
    exists x T, L !! i = Some x /\ timetable v L !! i = Some T /\
      gives (arrival_time s) h (tm_arrival T) /\
      gives (starting_time s) h (tm_start T) /\
      gives (departure_time s) h (tm_departure T) /\
      gives (waiting_time s) h (tm_start T - tm_arrival T) /\
      (sane_capacities -> gives (capacity s) h (tm_load T)).
  Proof.
    intros R Hs. destruct (RouteW_lookup _ _ _ _ _ _ _ R Hs) as (c & x & Hc & Hx & Ex & K & V & Pr & P).
    exists x, (tm v x (reverse (take i L))).
    split; [done|]. split; [by apply timetable_lookup|].
    split; [by eapply arrival_time_gives|]. split; [by eapply starting_time_gives|].
    split; [by eapply departure_time_gives|]. split; [by eapply waiting_time_gives|].
    intros Hcap. eapply capacity_gives; [exact P|]. apply rides_loads_ok_at; [done|apply R|done].
  Qed.

  Lemma gives_det_runs {B} (m : M B) h b (Q : B -> heap -> Prop) :
    gives m h b -> (forall h', quiet h h' -> Q b h') -> runs m h Q.
  Proof. intros H HQ. eapply runs_mono; [exact H|]. intros ? ? [-> ?]. auto. Qed.

  Lemma runs_route_stops h r v ids L (Q : list nat -> heap -> Prop) :
    RouteW h r v ids L -> Q ids h -> runs (route_stops r) h Q.
  Proof.
    intros R HQ. destruct (rw_cell _ _ _ _ _ R) as (c & Hc & E1 & E2).
    unfold route_stops. step. eapply runs_route_get; [done|]. apply runs_ret. by rewrite E2.
  Qed.
  Lemma runs_first_stop h r v ids L s (Q : nat -> heap -> Prop) :
    RouteW h r v ids L -> ids !! 0%nat = Some s -> Q s h -> runs (first_stop r) h Q.
  Proof.
    intros R Hs HQ. unfold first_stop. step. eapply runs_route_stops; [exact R|].
    step. eapply runs_nth; [exact Hs|].
    destruct (RouteW_lookup _ _ _ _ _ _ _ R Hs) as (c & x & Hc & _ & _ & _ & _ & Pr & _).
    step. eapply runs_stop_get; [exact Hc|].
    step. apply runs_assert; [|by apply runs_ret].
    apply bool_decide_eq_true. rewrite Pr. by rewrite take_0.
  Qed.
  Lemma runs_last_stop h r v ids L s (Q : nat -> heap -> Prop) :
    RouteW h r v ids L -> last ids = Some s -> Q s h -> runs (last_stop r) h Q.
  Proof.
    intros R Hs HQ. unfold last_stop. step. eapply runs_route_stops; [exact R|].
    rewrite Hs. by apply runs_ret.
  Qed.

  (** all planned trips picked up along the stops *)
  Definition pts_of (h : heap) (ids : list nat) : list nat :=
    flat_map (fun s => match h_stops h !! s with Some c => st_pickups c | None => [] end) ids.
  Lemma runs_planned_trips h r v ids L (Q : list nat -> heap -> Prop) :
    RouteW h r v ids L -> Q (pts_of h ids) h -> runs (planned_trips r) h Q.
  Proof.
    intros R HQ. unfold planned_trips. step. eapply runs_route_stops; [exact R|].
    assert (Ha : forall s, s ∈ ids -> is_Some (h_stops h !! s)) by (intros; by eapply RouteW_ids_alloc).
    step.
    apply runs_mono with (Q := fun l h' => h' = h /\ concat l = pts_of h ids).
    - clear HQ R. induction ids as [|s ids IH]; [done|].
      destruct (Ha s) as [c Hc]; [left|].
      cbn [mapM]. step. step. eapply runs_stop_get; [exact Hc|]. apply runs_ret. step.
      eapply runs_mono; [apply IH; intros; apply Ha; by right|]. intros l h' [-> El].
      apply runs_ret. split; [done|]. cbn. by rewrite Hc, El.
    - intros l h' [-> ->]. by apply runs_ret.
  Qed.
  Lemma pts_of_known h r v ids L p :
    RouteW h r v ids L -> p ∈ pts_of h ids ->
    exists s c d dc pc, s ∈ ids /\ h_stops h !! s = Some c /\ p ∈ st_pickups c /\
      [s; d] `sublist_of` ids /\ h_stops h !! d = Some dc /\ p ∈ st_deliveries dc /\
      h_pts h !! p = Some pc /\ pt_vehicle pc = v /\ pt_pickup pc = Some s /\ pt_delivery pc = Some d.
  Proof.
    intros R Hp. apply elem_of_flat_map in Hp as (s & Hs & Hp).
    destruct (h_stops h !! s) as [c|] eqn:Hc; [|inversion Hp].
    destruct (rw_links _ _ _ _ _ R s c Hs Hc) as [H1 _].
    destruct (H1 p Hp) as (d & dc & pc & ?). exists s, c, d, dc, pc. tauto.
  Qed.
  (** the trips of a route are those boarding along its visits *)
  Lemma trips_pts_of h r v ids L : RouteW h r v ids L -> map (trip_of h) (pts_of h ids) = boards L.
  Proof.
    intros R. pose proof (rw_path _ _ _ _ _ R) as P.
    assert (E : forall ids A, Path h v ids A -> map (trip_of h) (pts_of h (reverse ids)) = boards (reverse A)).
    { clear. intros ids A P. induction P as [|s c ids A Hc V Pr K C P IH]; [done|].
      rewrite !reverse_cons, boards_app. unfold pts_of. rewrite flat_map_app, map_app.
      fold (pts_of h (reverse ids)). rewrite IH. f_equal. cbn. rewrite Hc, !app_nil_r. done. }
    specialize (E _ _ P). by rewrite !reverse_involutive in E.
  Qed.
  Lemma runs_route_trips h r v ids L (Q : list nat -> heap -> Prop) :
    RouteW h r v ids L -> Q (boards L) h -> runs (route_trips r) h Q.
  Proof.
    intros R HQ. unfold route_trips. step. eapply runs_planned_trips; [exact R|].
    apply runs_trips_of.
    - intros p Hp. destruct (pts_of_known _ _ _ _ _ _ R Hp) as (?&?&?&?&?&?&?&?&?&?&?&?&_). eauto.
    - by rewrite (trips_pts_of _ _ _ _ _ R).
  Qed.
  Lemma runs_route_loaded h r v ids L (Q : bool -> heap -> Prop) :
    RouteW h r v ids L -> Q (negb (bool_decide (boards L = []))) h -> runs (route_loaded r) h Q.
  Proof.
    intros R HQ. unfold route_loaded. step. eapply runs_planned_trips; [exact R|].
    apply runs_ret. replace (bool_decide (pts_of h ids = [])) with (bool_decide (boards L = [])); [done|].
    apply bool_decide_ext. rewrite <- (trips_pts_of _ _ _ _ _ R).
    destruct (pts_of h ids); done.
  Qed.
  Lemma pts_of_NoDup h r v ids L : RouteW h r v ids L -> NoDup (pts_of h ids).
  Proof.
    intros R. pose proof (rides_once _ (rw_rides _ _ _ _ _ R)) as H.
    rewrite <- (trips_pts_of _ _ _ _ _ R) in H. by eapply NoDup_fmap_1.
  Qed.

  (** ** Feasibility *)
  Definition visit_latest (x : visit) : lim :=
    py_min_lim (map (fun t => origin_latest (w_trip t)) (vi_board x) ++
                map (fun t => destination_latest (w_trip t)) (vi_alight x)).
  Definition stop_okb (v : nat) (x : visit) (T : timing) : bool :=
    (visit_earliest x <=? tm_start T + eb) && lim_ge (tm_start T) (lim_add (visit_latest x) eb) &&
    lim_ge (tm_load T) (lim_add (v_capacity v) eb).
  Definition ride_okb (v t : nat) (x y : visit) (Ti Tj : timing) : bool :=
    stop_okb v x Ti && stop_okb v y Tj &&
    lim_ge (tm_start Tj - tm_departure Ti) (lim_add (tr_timeout (w_trip t)) eb).

  Lemma lim_ge_add x l : lim_ge x (lim_add l eb) = true <-> at_most x l.
  Proof. destruct l; cbn; [rewrite Z.leb_le|]; tauto. Qed.

  Lemma lim_min_ge x a b : lim_ge x (lim_min a b) = true <-> lim_ge x a = true /\ lim_ge x b = true.
  Proof. destruct a, b; cbn; rewrite ?Z.leb_le; try tauto; lia. Qed.
  Lemma py_min_lim_ge x l : lim_ge x (py_min_lim l) = true <-> forall y, y ∈ l -> lim_ge x y = true.
  Proof.
    induction l as [|y l IH]; cbn; [split; [intros _ y H; inversion H|done]|]. rewrite lim_min_ge, IH. split.
    - intros [H1 H2] z [->|Hz]%elem_of_cons; auto.
    - intros H. split; [apply H; left|]. intros z Hz. apply H. by right.
  Qed.
  Lemma lim_ge_shift x l e : lim_ge x (lim_add l e) = lim_ge (x - e) l.
  Proof. destruct l; cbn; [|done]. apply Bool.eq_iff_eq_true. rewrite !Z.leb_le. lia. Qed.
  Lemma at_most_shift x l : at_most x l <-> lim_ge (x - eb) l = true.
  Proof. by rewrite <- lim_ge_shift, lim_ge_add. Qed.
  Lemma visit_earliest_le x z : 0 <= z \/ events x <> 0%nat ->
    visit_earliest x <= z <->
      (forall t, t ∈ vi_board x -> origin_earliest (w_trip t) <= z) /\
      (forall t, t ∈ vi_alight x -> destination_earliest (w_trip t) <= z).
  Proof.
    intros H0. unfold visit_earliest.
    set (l := map (fun t => origin_earliest (w_trip t)) (vi_board x) ++ map (fun t => destination_earliest (w_trip t)) (vi_alight x)).
    split.
    - intros H. split; intros t Ht; (etransitivity; [|exact H]); apply max_or_ge; unfold l; rewrite elem_of_app, !elem_of_list_fmap; eauto.
    - intros [H1 H2]. destruct l as [|y l'] eqn:E.
      + cbn. destruct H0 as [?|H0]; [done|]. exfalso. apply H0. unfold events.
        assert (length l = 0%nat) as El by (by rewrite E). unfold l in El. rewrite app_length, !map_length in El. lia.
      + pose proof (max_or_in 0 (y :: l')) as Hin. rewrite <- E in *. specialize (Hin ltac:(congruence)).
        unfold l in Hin at 2. rewrite elem_of_app, !elem_of_list_fmap in Hin. destruct Hin as [(t & -> & Ht)|(t & -> & Ht)]; auto.
  Qed.
  Lemma stop_okb_spec v x T : events x <> 0%nat -> stop_okb v x T = true <-> on_time v x T.
  Proof.
    intros He. unfold stop_okb, on_time. rewrite !andb_true_iff, Z.leb_le, (visit_earliest_le x (tm_start T + eb)) by auto.
    rewrite lim_ge_shift, lim_ge_add. unfold visit_latest. rewrite py_min_lim_ge. split.
    - intros [[[A1 A2] B] C]. split; [|split; [|done]].
      + intros t Ht. split; [auto|]. apply at_most_shift, B. rewrite elem_of_app, !elem_of_list_fmap. eauto.
      + intros t Ht. split; [auto|]. apply at_most_shift, B. rewrite elem_of_app, !elem_of_list_fmap. eauto.
    - intros (A & B & C). split; [split; [split|]|done].
      + intros t Ht. by apply A.
      + intros t Ht. by apply B.
      + intros y. rewrite elem_of_app, !elem_of_list_fmap. intros [(t & -> & Ht)|(t & -> & Ht)]; apply at_most_shift; [by apply A|by apply B].
  Qed.
  Lemma stop_okb_on_time v x T : stop_okb v x T = true -> on_time v x T.
  Proof.
    destruct (decide (events x = 0%nat)) as [E|E]; [|by apply stop_okb_spec].
    unfold events in E. unfold stop_okb. rewrite !andb_true_iff, !lim_ge_add. intros [_ H]. unfold on_time.
    destruct (vi_board x), (vi_alight x); cbn in E; try lia. split; [|split; [|done]]; intros t Ht; inversion Ht.
  Qed.

  (** ** Recording answers *)
  Lemma last_take_S {A} (l : list A) k q : last (take k l) = Some q -> (k <= length l)%nat -> exists k0, k = S k0 /\ l !! k0 = Some q.
  Proof.
    intros H Hk. rewrite last_lookup, take_length in H. destruct k as [|k0]; [done|]. exists k0. split; [done|].
    rewrite lookup_take in H by lia. by replace (pred (S k0 `min` length l)) with k0 in H by lia.
  Qed.
  Lemma chained_shared h v v' ids ids' i : forall k s, chained h v ids -> chained h v' ids' ->
    ids !! i = Some s -> ids' !! k = Some s -> v = v' /\ i = k /\ take (S i) ids = take (S k) ids'.
  Proof.
    induction i as [|i IH]; intros k s C C' Hi Hk;
      destruct (C _ _ Hi) as (c & Hc & V & P); destruct (C' _ _ Hk) as (c' & Hc' & V' & P');
      rewrite Hc in Hc'; injection Hc' as <-; rewrite P in P'; (split; [congruence|]).
    - symmetry in P'. apply last_None in P'. destruct k as [|k]; [|by destruct ids'].
      split; [done|]. by rewrite (take_S_r _ _ _ Hi), (take_S_r _ _ _ Hk).
    - destruct (lookup_lt_is_Some_2 ids i) as [q Hq]; [apply lookup_lt_Some in Hi; lia|].
      assert (last (take (S i) ids) = Some q) as E by (by rewrite (take_S_r _ _ _ Hq), last_snoc).
      rewrite E in P'. symmetry in P'.
      destruct (last_take_S _ _ _ P') as (k0 & -> & Hq'); [apply lookup_lt_Some in Hk; lia|].
      destruct (IH k0 q C C' Hq Hq') as (_ & -> & Et). split; [done|].
      by rewrite (take_S_r _ _ _ Hi), (take_S_r _ _ _ Hk), Et.
  Qed.
  Lemma RouteP_chained h r v ids L : RouteP h r v ids L -> chained h v ids.
  Proof. intros R k s Hk. destruct (RouteP_lookup _ _ _ _ _ _ _ R Hk) as (c & x & ? & _ & _ & _ & ? & ? & _). eauto. Qed.
  Lemma RouteP_visits h r v ids L : RouteP h r v ids L -> map (at_stop h) ids = L.
  Proof.
    intros R. apply list_eq. intros k. change (map (at_stop h) ids) with (at_stop h <$> ids). rewrite list_lookup_fmap.
    destruct (ids !! k) as [s|] eqn:Hk; cbn.
    - destruct (RouteP_lookup _ _ _ _ _ _ _ R Hk) as (c & x & Hc & -> & -> & _). unfold at_stop. by rewrite Hc.
    - symmetry. apply lookup_ge_None. rewrite <- (RouteP_length _ _ _ _ _ R). by apply lookup_ge_None.
  Qed.
  Lemma take_lookup_eq {A} (L L' : list A) k i : take (S k) L = take (S k) L' -> (i <= k)%nat -> L !! i = L' !! i.
  Proof. intros E Hi. rewrite <- (lookup_take L (S k)), <- (lookup_take L' (S k)) by lia. by rewrite E. Qed.
  Lemma take_less {A} (L L' : list A) k i : take (S k) L = take (S k) L' -> (i <= S k)%nat -> take i L = take i L'.
  Proof. intros E Hi. replace i with (i `min` S k)%nat by lia. by rewrite <- !take_take, E. Qed.
  Lemma timetable_take v L L' k : take (S k) L = take (S k) L' -> timetable v L !! k = timetable v L' !! k.
  Proof.
    intros E. pose proof (take_lookup_eq _ _ _ k E ltac:(lia)) as El. destruct (L !! k) as [x|] eqn:Hx.
    - rewrite (timetable_lookup v L k x) by done. rewrite (timetable_lookup v L' k x) by done.
      by rewrite (take_less _ _ _ k E) by lia.
    - symmetry in El. apply lookup_ge_None in Hx, El. transitivity (@None timing); [|symmetry]; apply lookup_ge_None; unfold timetable; by rewrite schedule_length.
  Qed.
  Lemma heeded_take v L L' k : take (S k) L = take (S k) L' -> heeded v L k -> heeded v L' k.
  Proof.
    intros E H x T Hx HT. rewrite <- (timetable_take v _ _ _ E) in HT. rewrite <- (take_lookup_eq _ _ _ k E) in Hx by lia.
    destruct (H x T Hx HT) as [H1 H2]. split; [done|]. intros C. apply H2. intros i y Hi Hy.
    apply (C i); [done|]. by rewrite <- (take_lookup_eq _ _ _ i E) by lia.
  Qed.
  Lemma ridden_take v t L L' i j : take (S i) L = take (S i) L' -> take (S j) L = take (S j) L' -> ridden v t L i j -> ridden v t L' i j.
  Proof.
    intros Ei Ej (H1 & H2 & H3). split; [by eapply heeded_take|]. split; [by eapply heeded_take|].
    rewrite <- (timetable_take v _ _ _ Ei), <- (timetable_take v _ _ _ Ej). done.
  Qed.

  Lemma late_take v L L' k : take (S k) L = take (S k) L' -> late v L k -> late v L' k.
  Proof.
    intros E H x T Hx HT. rewrite <- (timetable_take v _ _ _ E) in HT. rewrite <- (take_lookup_eq _ _ _ k E) in Hx by lia. by apply H.
  Qed.
  Lemma missed_take v t L L' i j : take (S i) L = take (S i) L' -> take (S j) L = take (S j) L' -> missed v t L i j -> missed v t L' i j.
  Proof.
    intros Ei Ej H x y Ti Tj Hx Hy. rewrite <- (timetable_take v _ _ _ Ei), <- (timetable_take v _ _ _ Ej).
    rewrite <- (take_lookup_eq _ _ _ i Ei) in Hx by lia. rewrite <- (take_lookup_eq _ _ _ j Ej) in Hy by lia. by apply H.
  Qed.
  Lemma stop_worth_take g v L L' k : take (S k) L = take (S k) L' -> stop_worth g v L k -> stop_worth g v L' k.
  Proof. destruct g; [apply heeded_take|apply late_take]. Qed.
  Lemma ride_worth_take g v t L L' i j : take (S i) L = take (S i) L' -> take (S j) L = take (S j) L' -> ride_worth g v t L i j -> ride_worth g v t L' i j.
  Proof. destruct g; [apply ridden_take|apply missed_take]. Qed.

  Lemma Worth_flag g h h' : same_sk h h' -> Worth g h ->
    (forall s c', h_stops h' !! s = Some c' -> st_feasible c' = Some g ->
       (exists c, h_stops h !! s = Some c /\ st_feasible c = Some g) \/
       exists r v ids L i, RouteP h r v ids L /\ ids !! i = Some s /\ stop_worth g v L i) ->
    (forall p c', h_pts h' !! p = Some c' -> pt_feasible c' = Some g ->
       (exists c, h_pts h !! p = Some c /\ pt_feasible c = Some g) \/
       exists r v ids L i j s d, RouteP h r v ids L /\ pt_pickup c' = Some s /\ pt_delivery c' = Some d /\
         ids !! i = Some s /\ ids !! j = Some d /\ ride_worth g v (pt_trip c') L i j) ->
    (forall r c', h_routes h' !! r = Some c' -> rt_feasible c' = Some g ->
       (exists c, h_routes h !! r = Some c /\ rt_feasible c = Some g) \/
       exists v ids L, RouteP h r v ids L /\ tour_worth g v L) ->
    Worth g h'.
  Proof.
    intros S [F1 F2 F3] N1 N2 N3. pose proof (same_sk_sym _ _ S) as S'. pose proof S as (E1 & E2 & E3).
    assert (Hr : forall r rc', h_routes h' !! r = Some rc' -> exists rc, h_routes h !! r = Some rc /\ rt_vehicle rc' = rt_vehicle rc /\ rt_stops rc' = rt_stops rc).
    { intros r rc' Hrc. destruct (fmap_back _ _ _ _ (E3 r) Hrc) as (rc & H & E). apply sk_route_eq in E as [? ?]. eauto. }
    assert (Hv : forall ids L n, map (at_stop h) ids = L -> take n L = map (at_stop h) (take n ids)).
    { intros ids L n <-. apply firstn_map. }
    split.
    - intros r rc' i s c' Hrc. destruct (Hr r rc' Hrc) as (rc & H & -> & ->). rewrite (same_sk_visits h h') by done.
      intros C Hi Hc Hf. apply (same_sk_chained _ _ _ _ S') in C. destruct (N1 s c' Hc Hf) as [(c & Hc0 & Hf0)|(r0 & v & ids & L & k & R & Hk & Hh)]; [by eapply F1|].
      destruct (chained_shared _ _ _ _ _ _ _ _ (RouteP_chained _ _ _ _ _ R) C Hk Hi) as (-> & -> & Et).
      eapply stop_worth_take; [|exact Hh]. rewrite (Hv ids L) by (by eapply RouteP_visits). rewrite Et. symmetry. by apply Hv.
    - intros r rc' i j s d c' p pc' Hrc. destruct (Hr r rc' Hrc) as (rc & H & -> & ->). rewrite (same_sk_visits h h') by done.
      intros C Hi Hj Hc Hp Hpc Hs Hd Hf. apply (same_sk_chained _ _ _ _ S') in C.
      destruct (N2 p pc' Hpc Hf) as [(pc & Hpc0 & Hf0)|(r0 & v & ids & L & i0 & j0 & s0 & d0 & R & Es & Ed & Hi0 & Hj0 & Hh)].
      + destruct (fmap_back _ _ _ _ (E2 p) Hpc) as (pc1 & Hpc1 & E). rewrite Hpc0 in Hpc1. injection Hpc1 as <-.
        apply sk_pt_eq in E as (_ & G2 & G3 & G4). rewrite G2.
        destruct (fmap_back _ _ _ _ (E1 s) Hc) as (c & Hc0 & E). apply sk_stop_eq in E as (_ & _ & G5 & _).
        eapply (F2 r rc i j s d c p pc); done || congruence.
      + rewrite Hs in Es. rewrite Hd in Ed. injection Es as <-. injection Ed as <-.
        destruct (chained_shared _ _ _ _ _ _ _ _ (RouteP_chained _ _ _ _ _ R) C Hi0 Hi) as (-> & -> & Et1).
        destruct (chained_shared _ _ _ _ _ _ _ _ (RouteP_chained _ _ _ _ _ R) C Hj0 Hj) as (_ & -> & Et2).
        eapply ride_worth_take; [| |exact Hh]; rewrite (Hv ids L) by (by eapply RouteP_visits); [rewrite Et1|rewrite Et2]; symmetry; by apply Hv.
    - intros r rc' Hrc C Hf. destruct (Hr r rc' Hrc) as (rc1 & H1 & E4 & E5). rewrite E4, E5 in *.
      rewrite (same_sk_visits h h') by done. apply (same_sk_chained _ _ _ _ S') in C.
      destruct (N3 r rc' Hrc Hf) as [(rc & H & Hf0)|(v & ids & L & R & Hn)].
      + rewrite H in H1. injection H1 as <-. by eapply F3.
      + pose proof R as [(rc & H & <- & <-) _]. rewrite H in H1. injection H1 as <-. by rewrite (RouteP_visits _ _ _ _ _ R).
  Qed.
  Lemma soft_flag_stop h0 h r v ids L i s b : soft h0 h -> RouteP h r v ids L -> ids !! i = Some s -> (forall g, Worth g h0 -> b = Some g -> stop_worth g v L i) ->
    soft h0 (with_stops (alter (cache_feasible b) s) h).
  Proof.
    intros (G & L1 & L2 & L3 & F0) R Hi Hb. split; [|split; [cbn; by rewrite alter_length|split; [done|split; [done|]]]].
    { eapply grow_trans; [exact G|]. apply grow_intro; [|cbn; eauto|cbn; eauto]. intros q c Hc. cbn. destruct (decide (q = s)) as [->|Hne].
      - rewrite list_lookup_alter, Hc. cbn. eexists. split; [done|]. split; [by destruct c|]. destruct c; unfold weaker; cbn; auto.
      - rewrite list_lookup_alter_ne by done. exists c. auto using weaker_refl. }
    intros g F. apply (Worth_flag g h); [apply cell_same_sk|by apply F0| |cbn; eauto|cbn; eauto].
    intros q c' Hc' Hf. cbn in Hc'. destruct (decide (q = s)) as [->|Hne].
    - rewrite list_lookup_alter in Hc'. destruct (h_stops h !! s) as [c|] eqn:Hc; [|done]. injection Hc' as <-.
      right. exists r, v, ids, L, i. split; [done|]. split; [done|]. apply Hb; [done|]. by destruct c.
    - rewrite list_lookup_alter_ne in Hc' by done. eauto.
  Qed.
  Lemma soft_flag_pt h0 h r v ids L i j s d p pc b : soft h0 h -> RouteP h r v ids L -> h_pts h !! p = Some pc ->
    pt_pickup pc = Some s -> pt_delivery pc = Some d -> ids !! i = Some s -> ids !! j = Some d ->
    (forall g, Worth g h0 -> b = Some g -> ride_worth g v (pt_trip pc) L i j) ->
    soft h0 (with_pts (alter (cache_pt_feasible b) p) h).
  Proof.
    intros (G & L1 & L2 & L3 & F0) R Hpc Hs Hd Hi Hj Hb. split; [eapply grow_trans; [exact G|]; apply soft_grow_pt; by intros []|split; [done|split; [cbn; by rewrite alter_length|split; [done|]]]].
    intros g F. apply (Worth_flag g h); [apply pt_same_sk|by apply F0|cbn; eauto| |cbn; eauto].
    intros q c' Hc' Hf. cbn in Hc'. destruct (decide (q = p)) as [->|Hne].
    - rewrite list_lookup_alter, Hpc in Hc'. injection Hc' as <-.
      right. exists r, v, ids, L, i, j, s, d. destruct pc; cbn in *. subst. by auto 10.
    - rewrite list_lookup_alter_ne in Hc' by done. eauto.
  Qed.
  Lemma soft_flag_route h0 h r v ids L b : soft h0 h -> RouteP h r v ids L -> (forall g, Worth g h0 -> b = Some g -> tour_worth g v L) ->
    soft h0 (with_routes (alter (cache_route_feasible b) r) h).
  Proof.
    intros (G & L1 & L2 & L3 & F0) R Hb. split; [eapply grow_trans; [exact G|]; apply grow_route; by intros []|split; [done|split; [done|split; [cbn; by rewrite alter_length|]]]].
    intros g F. apply (Worth_flag g h); [apply route_same_sk|by apply F0|cbn; eauto|cbn; eauto|].
    intros q c' Hc' Hf. cbn in Hc'. destruct (decide (q = r)) as [->|Hne].
    - right. exists v, ids, L. split; [done|]. apply Hb; [done|].
      rewrite list_lookup_alter in Hc'. destruct (h_routes h !! r) as [[]|]; [|done]. injection Hc' as <-. done.
    - rewrite list_lookup_alter_ne in Hc' by done. eauto.
  Qed.
  Lemma Worth_stop g h r v ids L i s c : Worth g h -> RouteP h r v ids L -> ids !! i = Some s -> h_stops h !! s = Some c ->
    st_feasible c = Some g -> stop_worth g v L i.
  Proof.
    intros F R Hi Hc Hf. pose proof R as [(rc & Hrc & E1 & E2) _]. rewrite <- (RouteP_visits _ _ _ _ _ R). subst v ids.
    eapply (fair_stops _ _ F); eauto. by eapply RouteP_chained.
  Qed.
  Lemma Worth_pt g h r v ids L i j s d c p pc : Worth g h -> RouteP h r v ids L -> ids !! i = Some s -> ids !! j = Some d ->
    h_stops h !! s = Some c -> p ∈ st_pickups c -> h_pts h !! p = Some pc -> pt_pickup pc = Some s -> pt_delivery pc = Some d ->
    pt_feasible pc = Some g -> ride_worth g v (pt_trip pc) L i j.
  Proof.
    intros F R. intros. pose proof R as [(rc & Hrc & E1 & E2) _]. rewrite <- (RouteP_visits _ _ _ _ _ R). subst v ids.
    eapply (fair_pts _ _ F); eauto. by eapply RouteP_chained.
  Qed.
  Lemma Worth_route g h r v ids L c : Worth g h -> RouteP h r v ids L -> h_routes h !! r = Some c ->
    rt_feasible c = Some g -> tour_worth g v L.
  Proof.
    intros F R Hc Hf. pose proof R as [(rc & Hrc & E1 & E2) _]. rewrite <- (RouteP_visits _ _ _ _ _ R). subst v ids.
    rewrite Hc in Hrc. injection Hrc as <-. eapply (fair_routes _ _ F); eauto. by eapply RouteP_chained.
  Qed.

  Lemma Fair_stop h r v ids L i s c : Fair h -> RouteP h r v ids L -> ids !! i = Some s -> h_stops h !! s = Some c ->
    st_feasible c = Some true -> heeded v L i.
  Proof. apply Worth_stop. Qed.
  Lemma Fair_pt h r v ids L i j s d c p pc : Fair h -> RouteP h r v ids L -> ids !! i = Some s -> ids !! j = Some d ->
    h_stops h !! s = Some c -> p ∈ st_pickups c -> h_pts h !! p = Some pc -> pt_pickup pc = Some s -> pt_delivery pc = Some d ->
    pt_feasible pc = Some true -> ridden v (pt_trip pc) L i j.
  Proof. apply Worth_pt. Qed.
  Lemma Fair_route h r v ids L c : Fair h -> RouteP h r v ids L -> h_routes h !! r = Some c ->
    rt_feasible c = Some true -> nearly v L.
  Proof. apply Worth_route. Qed.

  (** planned trip [p] is picked up at stop [s] *)
  Definition picks (h : heap) (s p : nat) : Prop := exists c, h_stops h !! s = Some c /\ p ∈ st_pickups c.
  Lemma picks_back h h' s p : length (h_stops h') = length (h_stops h) ->
    (forall c, h_stops h !! s = Some c -> exists c', h_stops h' !! s = Some c' /\ sk_stop c' = sk_stop c) ->
    picks h' s p -> picks h s p.
  Proof.
    intros Hl HS (c' & Hc' & Hp). destruct (lookup_lt_is_Some_2 (h_stops h) s) as [c Hc].
    { rewrite <- Hl. by eapply lookup_lt_Some. }
    destruct (HS c Hc) as (c2 & Hc2 & E). rewrite Hc' in Hc2. injection Hc2 as <-.
    apply sk_stop_eq in E as (_ & _ & E & _). exists c. split; [done|]. by rewrite <- E.
  Qed.

  (** the memoised feasibility answers are absent or right *)
  Record FlagsOK (v : nat) (ids : list nat) (L : list visit) (h : heap) : Prop := {
    fl_stops : forall i s x c T b, ids !! i = Some s -> L !! i = Some x -> timetable v L !! i = Some T ->
      h_stops h !! s = Some c -> st_feasible c = Some b -> b = stop_okb v x T;
    fl_pts : forall p pc i j s d x y Ti Tj b, h_pts h !! p = Some pc -> picks h s p ->
      pt_pickup pc = Some s -> pt_delivery pc = Some d -> ids !! i = Some s -> ids !! j = Some d ->
      L !! i = Some x -> L !! j = Some y -> timetable v L !! i = Some Ti -> timetable v L !! j = Some Tj ->
      pt_feasible pc = Some b -> b = ride_okb v (pt_trip pc) x y Ti Tj
  }.
  Lemma FlagsOK_quiet v ids L h h' : quiet h h' -> FlagsOK v ids L h -> FlagsOK v ids L h'.
  Proof.
    intros [[G (Ls & Lp & Lr)] (F1 & F2 & F3)] [H1 H2]. split.
    - intros i s x c T b Hi Hx HT Hc Hb.
      specialize (F1 s). rewrite Hc in F1. cbn in F1.
      destruct (h_stops h !! s) as [c0|] eqn:Hc0; [|done]. cbn in F1. injection F1 as F1.
      eapply H1; eauto. congruence.
    - intros p pc i j s d x y Ti Tj b Hpc Hpk Hs Hd Hi Hj Hx Hy HTi HTj Hb.
      apply (picks_back h) in Hpk; [|done|by apply (g_stops _ _ G)].
      specialize (F2 p). rewrite Hpc in F2. cbn in F2.
      destruct (h_pts h !! p) as [c0|] eqn:Hc0; [|done]. cbn in F2. injection F2 as F2.
      destruct (g_pts _ _ G _ _ Hc0) as (pc' & Hpc' & E). rewrite Hpc in Hpc'. injection Hpc' as <-.
      apply sk_pt_eq in E as (E1 & E2 & E3 & E4).
      rewrite E2. apply (H2 p c0 i j s d x y Ti Tj b); congruence || done.
  Qed.

  Lemma FlagsOK_stop v ids L h i s x T b :
    NoDup ids -> ids !! i = Some s -> L !! i = Some x -> timetable v L !! i = Some T ->
    b = stop_okb v x T ->
    FlagsOK v ids L h -> FlagsOK v ids L (with_stops (alter (cache_feasible (Some b)) s) h).
  Proof.
    intros Hnd Hi Hx HT Hb [H1 H2]. split.
    2:{ intros p pc i' j s' d x' y Ti Tj b' Hpc Hpk. apply (H2 p pc i' j s' d x' y Ti Tj b' Hpc).
        eapply (picks_back h); [| |exact Hpk]; [cbn; by rewrite alter_length|]. intros c Hc. cbn. destruct (decide (s' = s)) as [->|Hne].
        - rewrite list_lookup_alter, Hc. cbn. eauto.
        - rewrite list_lookup_alter_ne by done. eauto. }
    intros i' s' x' c' T' b' Hi' Hx' HT' Hc' Hb'. cbn in Hc'.
    destruct (decide (s' = s)) as [->|Hne].
    - rewrite list_lookup_alter in Hc'. destruct (h_stops h !! s) as [c|] eqn:Hc; [|done].
      injection Hc' as <-. cbn in Hb'. injection Hb' as <-.
      assert (i' = i) as -> by (eapply NoDup_lookup; eauto). congruence.
    - rewrite list_lookup_alter_ne in Hc' by done. eauto.
  Qed.

  Lemma timetable_start_earliest v L i x T : L !! i = Some x -> timetable v L !! i = Some T -> visit_earliest x <= tm_start T.
  Proof. intros Hx HT. rewrite (timetable_lookup v L i x Hx) in HT. injection HT as <-. rewrite tm_start_eq. lia. Qed.
  Lemma stop_okb_late v L i x T : L !! i = Some x -> timetable v L !! i = Some T -> stop_okb v x T = false -> late v L i.
  Proof.
    intros Hx HT Hf x' T' Hx' HT'. rewrite Hx in Hx'. rewrite HT in HT'. injection Hx' as <-. injection HT' as <-.
    intros O. assert (stop_okb v x T = true) as E; [|by rewrite Hf in E]. destruct (decide (events x = 0%nat)) as [He|He]; [|by apply stop_okb_spec].
    pose proof (timetable_start_earliest _ _ _ _ _ Hx HT) as Hs. unfold stop_okb. rewrite !andb_true_iff, Z.leb_le, (lim_ge_add _ (v_capacity v)).
    split; [split; [unfold eb; lia|]|apply O]. unfold visit_latest, events in *. by destruct (vi_board x), (vi_alight x).
  Qed.
  Lemma missed_okb v t L i j : (forall x y Ti Tj, L !! i = Some x -> L !! j = Some y -> timetable v L !! i = Some Ti -> timetable v L !! j = Some Tj ->
      ride_okb v t x y Ti Tj = true) -> is_Some (L !! i) -> is_Some (L !! j) -> missed v t L i j -> False.
  Proof.
    intros H [x Hx] [y Hy] Hm.
    eapply (Hm x y); [done|done|by apply (timetable_lookup v L i x Hx)|by apply (timetable_lookup v L j y Hy)|].
    specialize (H x y _ _ Hx Hy (timetable_lookup v L i x Hx) (timetable_lookup v L j y Hy)). unfold ride_okb in H.
    rewrite !andb_true_iff, lim_ge_add in H. destruct H as [[H1 H2] H3]. split; [by apply stop_okb_on_time|]. split; [by apply stop_okb_on_time|done].
  Qed.
  Lemma stop_feasible_runs h r v ids L i s :
    sane_capacities ->
    RouteW h r v ids L -> ids !! i = Some s ->
    exists x T, L !! i = Some x /\ timetable v L !! i = Some T /\
    runs (stop_feasible s) h (fun b h' => soft h h' /\
      (FlagsOK v ids L h -> FlagsOK v ids L h' /\ b = stop_okb v x T) /\
      (forall g, Worth g h -> b = g -> stop_worth g v L i)).
  Proof.
    intros Hcap R Hs.
    destruct (stop_times _ _ _ _ _ _ _ R Hs) as (x & T & Hx & HT & _).
    exists x, T. split; [done|]. split; [done|].
    destruct (RouteW_lookup _ _ _ _ _ _ _ R Hs) as (c & x' & Hc & Hx' & Ex & K & V & Pr & P).
    rewrite Hx in Hx'. injection Hx' as <-.
    unfold stop_feasible. step. eapply runs_stop_get; [exact Hc|].
    destruct (st_feasible c) as [b|] eqn:Hb.
    { apply runs_ret. split; [apply soft_refl|]. split; [intros F; split; [done|]|].
      { eapply (fl_stops _ _ _ _ F); eauto. }
      intros g F ->. eapply Worth_stop; [exact F|by eapply RouteW_P|exact Hs|exact Hc|done]. }
    assert (Hok : forall g, stop_okb v x T = g -> stop_worth g v L i).
    { intros [] Hok; [|by eapply stop_okb_late]. intros x' T' Hx' HT'. rewrite Hx in Hx'. rewrite HT in HT'. injection Hx' as <-. injection HT' as <-.
      apply stop_okb_on_time in Hok. split; [apply Hok|done]. }
    apply runs_seq with (P := fun b h' => quiet h h' /\ b = stop_okb v x T).
    - step. eapply runs_earliest; [exact Hc|exact K|]. rewrite <- Ex.
      destruct (stop_times _ _ _ _ _ _ _ R Hs) as (? & ? & E1 & E2 & Ga & Gs & Gd & Gw & Gc).
      rewrite Hx in E1. rewrite HT in E2. injection E1 as <-. injection E2 as <-.
      eapply gives_seq; [exact Gs|]. intros h1 Q1.
      destruct (visit_earliest x <=? tm_start T + eb) eqn:B1; cbn [negb].
      2:{ apply runs_ret. unfold stop_okb. rewrite B1. done. }
      pose proof (RouteW_soft _ _ _ _ _ _ (quiet_soft _ _ Q1) R) as R1.
      destruct (stop_times _ _ _ _ _ _ _ R1 Hs) as (? & ? & E1 & E2 & Ga1 & Gs1 & Gd1 & Gw1 & Gc1).
      rewrite Hx in E1. rewrite HT in E2. injection E1 as <-. injection E2 as <-.
      eapply gives_seq; [exact Gs1|]. intros h2 Q2.
      pose proof (RouteW_soft _ _ _ _ _ _ (quiet_soft _ _ Q2) R1) as R2.
      destruct (RouteW_lookup _ _ _ _ _ _ _ R2 Hs) as (c2 & x2 & Hc2 & Hx2 & Ex2 & K2 & _).
      rewrite Hx in Hx2. injection Hx2 as <-.
      step. eapply runs_latest; [exact Hc2|exact K2|]. rewrite <- Ex2. fold (visit_latest x).
      destruct (lim_ge (tm_start T) (lim_add (visit_latest x) eb)) eqn:B2; cbn [negb].
      2:{ apply runs_ret. unfold stop_okb. rewrite B1, B2. split; [eapply quiet_trans; eauto|done]. }
      destruct (stop_times _ _ _ _ _ _ _ R2 Hs) as (? & ? & E1 & E2 & Ga2 & Gs2 & Gd2 & Gw2 & Gc2).
      rewrite Hx in E1. rewrite HT in E2. injection E1 as <-. injection E2 as <-.
      eapply gives_seq; [by apply Gc2|]. intros h3 Q3. rewrite V.
      assert (Q : quiet h h3) by (eapply quiet_trans; [exact Q1|]; eapply quiet_trans; eauto).
      unfold stop_okb. rewrite B1, B2. cbn [andb].
      destruct (lim_ge (tm_load T) (lim_add (v_capacity v) eb)); by apply runs_ret.
    - intros b h1 [Q1 ->]. step. apply runs_stop_upd, runs_ret. split; [|split].
      + eapply soft_flag_stop; [apply Q1|exact (RouteW_P _ _ _ _ _ (RouteW_soft _ _ _ _ _ _ (quiet_soft _ _ Q1) R))|exact Hs|].
        intros g _ Hb'. apply Hok. congruence.
      + intros F. split; [|done]. eapply FlagsOK_stop; [by eapply RouteW_NoDup|exact Hs|exact Hx|exact HT|done|].
        by eapply FlagsOK_quiet.
      + auto.
  Qed.

  (** riding takes non-negative time *)
  Lemma timetable_ride_mono v L i j Ti Tj :
    sane_durations -> (i < j)%nat -> timetable v L !! i = Some Ti -> timetable v L !! j = Some Tj ->
    tm_departure Ti <= tm_arrival Tj.
  Proof.
    intros Hd Hij HTi HTj.
    assert (Hi : is_Some (L !! i)).
    { apply lookup_lt_is_Some. apply lookup_lt_Some in HTi. unfold timetable in HTi.
      by rewrite schedule_length in HTi. }
    assert (Hj : is_Some (L !! j)).
    { apply lookup_lt_is_Some. apply lookup_lt_Some in HTj. unfold timetable in HTj.
      by rewrite schedule_length in HTj. }
    destruct Hi as [x Hx]. destruct Hj as [y Hy].
    rewrite (timetable_lookup v L i x Hx) in HTi. rewrite (timetable_lookup v L j y Hy) in HTj.
    injection HTi as <-. injection HTj as <-.
    assert (Hpre : exists B, reverse (take j L) = B ++ x :: reverse (take i L)).
    { assert (Hxj : take j L !! i = Some x) by (by rewrite lookup_take).
      rewrite <- (take_drop_middle (take j L) i x Hxj).
      rewrite take_take, Nat.min_l by lia.
      rewrite reverse_app, reverse_cons, <- app_assoc. cbn. eauto. }
    destruct Hpre as [B EB]. rewrite EB.
    pose proof (back_mono v B (x :: reverse (take i L)) Hd) as H1.
    pose proof (back_le_arrival v y (B ++ x :: reverse (take i L))) as H2.
    rewrite back_cons in H1. unfold leg_time in *. cbn in H1. lia.
  Qed.
  Lemma timetable_arrival_start v L j Tj : timetable v L !! j = Some Tj -> tm_arrival Tj <= tm_start Tj.
  Proof.
    intros HTj.
    assert (Hj : is_Some (L !! j)).
    { apply lookup_lt_is_Some. apply lookup_lt_Some in HTj. unfold timetable in HTj.
      by rewrite schedule_length in HTj. }
    destruct Hj as [y Hy]. rewrite (timetable_lookup v L j y Hy) in HTj. injection HTj as <-.
    apply tm_arrival_le_start.
  Qed.

  (** a planned trip of a route, with the positions of its two stops *)
  Definition Ride (h : heap) (ids : list nat) (v p t i j s d : nat) : Prop :=
    exists pc, h_pts h !! p = Some pc /\ pt_vehicle pc = v /\ pt_trip pc = t /\
      pt_pickup pc = Some s /\ pt_delivery pc = Some d /\
      ids !! i = Some s /\ ids !! j = Some d /\ (i < j)%nat.
  Lemma Ride_soft h h' ids v p t i j s d : soft h h' -> Ride h ids v p t i j s d -> Ride h' ids v p t i j s d.
  Proof.
    intros [G _] (pc & Hpc & H). destruct (g_pts _ _ G _ _ Hpc) as (pc' & Hpc' & E).
    apply sk_pt_eq in E as (E1 & E2 & E3 & E4). exists pc'. rewrite E1, E2, E3, E4. done.
  Qed.
  Lemma pts_of_Ride h r v ids L p :
    RouteW h r v ids L -> p ∈ pts_of h ids ->
    exists t i j s d, Ride h ids v p t i j s d /\ ride L t i j.
  Proof.
    intros R Hp.
    destruct (pts_of_known _ _ _ _ _ _ R Hp) as (s & c & d & dc & pc & Hs & Hc & Hpc & Hsub & Hd & Hpd & Hpt & V & P1 & P2).
    apply sublist2 in Hsub as (i & j & Hij & Hi & Hj).
    exists (pt_trip pc), i, j, s, d. split.
    - exists pc. done.
    - destruct (RouteW_lookup _ _ _ _ _ _ _ R Hi) as (c1 & x & Hc1 & Hx & Ex & _).
      destruct (RouteW_lookup _ _ _ _ _ _ _ R Hj) as (c2 & y & Hc2 & Hy & Ey & _).
      rewrite Hc in Hc1. injection Hc1 as <-. rewrite Hd in Hc2. injection Hc2 as <-.
      exists x, y. split; [done|]. split; [done|]. subst x y. unfold abs. cbn.
      assert (Et : trip_of h p = pt_trip pc) by (unfold trip_of; by rewrite Hpt).
      rewrite <- Et. split; apply elem_of_list_fmap; eauto.
  Qed.

  Lemma pickup_time_gives h r v ids L p t i j s d T :
    RouteW h r v ids L -> Ride h ids v p t i j s d -> timetable v L !! i = Some T ->
    gives (pickup_time p) h (tm_departure T).
  Proof.
    intros R (pc & Hpc & _ & _ & P1 & P2 & Hi & Hj & Hij) HT.
    destruct (stop_times _ _ _ _ _ _ _ R Hi) as (x & T' & _ & HT' & _ & _ & Gd & _).
    rewrite HT in HT'. injection HT' as <-.
    unfold gives, pickup_time. step. eapply runs_pt_get; [exact Hpc|].
    step. rewrite P1. by apply runs_some.
  Qed.
  Lemma delivery_time_gives h r v ids L p t i j s d T :
    RouteW h r v ids L -> Ride h ids v p t i j s d -> timetable v L !! j = Some T ->
    gives (delivery_time p) h (tm_start T).
  Proof.
    intros R (pc & Hpc & _ & _ & P1 & P2 & Hi & Hj & Hij) HT.
    destruct (stop_times _ _ _ _ _ _ _ R Hj) as (x & T' & _ & HT' & _ & Gs & _).
    rewrite HT in HT'. injection HT' as <-.
    unfold gives, delivery_time. step. eapply runs_pt_get; [exact Hpc|].
    step. rewrite P2. by apply runs_some.
  Qed.
  Lemma pt_duration_gives h r v ids L p t i j s d Ti Tj :
    RouteW h r v ids L -> Ride h ids v p t i j s d ->
    timetable v L !! i = Some Ti -> timetable v L !! j = Some Tj ->
    gives (pt_duration p) h (tm_start Tj - tm_departure Ti).
  Proof.
    intros R Rd HTi HTj. unfold gives, pt_duration.
    eapply gives_seq; [by eapply delivery_time_gives|]. intros h1 Q1.
    eapply gives_seq; [eapply pickup_time_gives; [eapply RouteW_soft; [apply Q1|exact R]|eapply Ride_soft; [apply Q1|exact Rd]|exact HTi]|].
    intros h2 Q2. apply runs_ret. split; [done|]. eapply quiet_trans; eauto.
  Qed.

  Lemma runs_all_previous_at h r v ids L i s (Q : list nat -> heap -> Prop) :
    RouteW h r v ids L -> ids !! i = Some s -> Q (reverse (take i ids)) h -> runs (all_previous s) h Q.
  Proof.
    intros R Hs HQ. destruct (RouteW_lookup _ _ _ _ _ _ _ R Hs) as (c & x & _ & _ & _ & _ & _ & _ & P).
    eapply runs_mono; [by eapply all_previous_runs|]. by intros ? ? [-> ->].
  Qed.

  Lemma timetable_some v L i x : L !! i = Some x -> is_Some (timetable v L !! i).
  Proof. intros Hx. rewrite (timetable_lookup v L i x Hx). eauto. Qed.

  Lemma FlagsOK_pt v ids L h p pc i j s d x y Ti Tj b :
    NoDup ids -> h_pts h !! p = Some pc -> pt_pickup pc = Some s -> pt_delivery pc = Some d ->
    ids !! i = Some s -> ids !! j = Some d -> L !! i = Some x -> L !! j = Some y ->
    timetable v L !! i = Some Ti -> timetable v L !! j = Some Tj ->
    b = ride_okb v (pt_trip pc) x y Ti Tj ->
    FlagsOK v ids L h -> FlagsOK v ids L (with_pts (alter (cache_pt_feasible (Some b)) p) h).
  Proof.
    intros Hnd Hpc Hs Hd Hi Hj Hx Hy HTi HTj Hb [H1 H2]. split; [exact H1|].
    intros p' pc' i' j' s' d' x' y' Ti' Tj' b' Hpc' Hpk' Hs' Hd' Hi' Hj' Hx' Hy' HTi' HTj' Hb'.
    cbn in Hpc'. destruct (decide (p' = p)) as [->|Hne].
    - rewrite list_lookup_alter, Hpc in Hpc'. injection Hpc' as <-. cbn in *.
      rewrite Hs in Hs'. rewrite Hd in Hd'. injection Hs' as <-. injection Hd' as <-. injection Hb' as <-.
      assert (i' = i) as -> by (eapply NoDup_lookup; eauto).
      assert (j' = j) as -> by (eapply NoDup_lookup; eauto).
      congruence.
    - rewrite list_lookup_alter_ne in Hpc' by done. eauto.
  Qed.

  Lemma picks_soft h h' s p : soft h h' -> picks h s p -> picks h' s p.
  Proof.
    intros [G _] (c & Hc & Hp). destruct (g_stops _ _ G _ _ Hc) as (c' & Hc' & E).
    apply sk_stop_eq in E as (_ & _ & E & _). exists c'. split; [done|]. by rewrite E.
  Qed.
  Lemma pt_is_feasible_runs h r v ids L p t i j s d :
    sane_durations -> sane_capacities ->
    RouteW h r v ids L -> Ride h ids v p t i j s d -> picks h s p ->
    exists x y Ti Tj, L !! i = Some x /\ L !! j = Some y /\
      timetable v L !! i = Some Ti /\ timetable v L !! j = Some Tj /\
    runs (pt_is_feasible p) h (fun b h' => soft h h' /\
      (FlagsOK v ids L h -> FlagsOK v ids L h' /\ b = ride_okb v t x y Ti Tj) /\
      (forall g, Worth g h -> b = g -> ride_worth g v t L i j)).
  Proof.
    intros Hdur Hcap R Rd Hpk. pose proof Rd as (pc & Hpc & Vp & Tp & P1 & P2 & Hi & Hj & Hij).
    destruct (stop_feasible_runs _ _ _ _ _ _ _ Hcap R Hi) as (x & Ti & Hx & HTi & _).
    destruct (stop_feasible_runs _ _ _ _ _ _ _ Hcap R Hj) as (y & Tj & Hy & HTj & _).
    exists x, y, Ti, Tj. do 4 (split; [done|]).
    unfold pt_is_feasible. step. eapply runs_pt_get; [exact Hpc|].
    destruct (pt_feasible pc) as [b|] eqn:Hb.
    { apply runs_ret. split; [apply soft_refl|]. rewrite <- Tp. split; [intros F; split; [done|]|].
      { eapply (fl_pts _ _ _ _ F); eauto. }
      intros g F ->. destruct Hpk as (cs & Hcs & Hin).
      eapply Worth_pt; [exact F|by eapply RouteW_P|exact Hi|exact Hj|exact Hcs|exact Hin|exact Hpc|done..]. }
    rewrite P1, P2.
    apply runs_seq with (P := fun b h' => soft h h' /\
      (FlagsOK v ids L h -> FlagsOK v ids L h' /\ b = ride_okb v t x y Ti Tj) /\
      (forall g, Worth g h -> b = g -> ride_worth g v t L i j)).
    - step. apply runs_some. step. eapply runs_all_previous_at; [exact R|exact Hj|].
      step. apply runs_some. step. apply runs_assert.
      { apply bool_decide_eq_true, elem_of_reverse, elem_of_list_lookup.
        exists i. by rewrite lookup_take. }
      eapply gives_seq; [by eapply pickup_time_gives|]. intros h1 Q1.
      pose proof (RouteW_soft _ _ _ _ _ _ (quiet_soft _ _ Q1) R) as R1.
      pose proof (Ride_soft _ _ _ _ _ _ _ _ _ _ (quiet_soft _ _ Q1) Rd) as Rd1.
      eapply gives_seq; [by eapply delivery_time_gives|]. intros h2 Q2.
      pose proof (RouteW_soft _ _ _ _ _ _ (quiet_soft _ _ Q2) R1) as R2.
      pose proof (Ride_soft _ _ _ _ _ _ _ _ _ _ (quiet_soft _ _ Q2) Rd1) as Rd2.
      assert (Q02 : quiet h h2) by (eapply quiet_trans; eauto). clear Q1 Q2 h1 R1 Rd1.
      step. apply runs_assert.
      { apply Z.leb_le. pose proof (timetable_ride_mono _ _ _ _ _ _ Hdur Hij HTi HTj).
        pose proof (timetable_arrival_start _ _ _ _ HTj). lia. }
      destruct (stop_feasible_runs _ _ _ _ _ _ _ Hcap R2 Hi) as (? & ? & E1 & E2 & RS).
      rewrite Hx in E1. rewrite HTi in E2. injection E1 as <-. injection E2 as <-.
      eapply runs_seq; [exact RS|]. intros b3 h3 (S3 & F3 & N3). clear RS.
      pose proof (RouteW_soft _ _ _ _ _ _ S3 R2) as R3.
      pose proof (Ride_soft _ _ _ _ _ _ _ _ _ _ S3 Rd2) as Rd3.
      assert (S03 : soft h h3) by (eapply soft_trans; [apply Q02|done]).
      assert (F03 : FlagsOK v ids L h -> FlagsOK v ids L h3 /\ b3 = stop_okb v x Ti).
      { intros F. apply F3. by eapply FlagsOK_quiet. }
      assert (N03 : forall g, Worth g h -> b3 = g -> stop_worth g v L i) by (intros g F; apply N3; by apply Q02).
      clear F3 S3 N3. destruct b3; cbn [negb].
      2:{ apply runs_ret. split; [done|]. split.
          - intros F. destruct (F03 F) as [? Eb]. split; [done|]. unfold ride_okb. by rewrite <- Eb.
          - intros g F <-. intros x' y' Ti' Tj' Hx' _ HTi' _ (O & _). by apply (N03 false F eq_refl x' Ti'). }
      destruct (stop_feasible_runs _ _ _ _ _ _ _ Hcap R3 Hj) as (? & ? & E1 & E2 & RS).
      rewrite Hy in E1. rewrite HTj in E2. injection E1 as <-. injection E2 as <-.
      eapply runs_seq; [exact RS|]. intros b4 h4 (S4 & F4 & N4). clear RS.
      pose proof (RouteW_soft _ _ _ _ _ _ S4 R3) as R4.
      pose proof (Ride_soft _ _ _ _ _ _ _ _ _ _ S4 Rd3) as Rd4.
      assert (S04 : soft h h4) by (by eapply soft_trans).
      assert (F04 : FlagsOK v ids L h -> FlagsOK v ids L h4 /\ true = stop_okb v x Ti /\ b4 = stop_okb v y Tj).
      { intros F. destruct (F03 F) as [Fa Ea]. destruct (F4 Fa) as [Fb Eb]. done. }
      assert (N04 : forall g, Worth g h -> b4 = g -> stop_worth g v L j) by (intros g F; apply N4; by apply S03).
      clear F4 S4 N4. destruct b4; cbn [negb].
      2:{ apply runs_ret. split; [done|]. split.
          - intros F. destruct (F04 F) as [? [Eb Ec]]. split; [done|]. unfold ride_okb. by rewrite <- Eb, <- Ec.
          - intros g F <-. intros x' y' Ti' Tj' _ Hy' _ HTj' (_ & O & _). by apply (N04 false F eq_refl y' Tj'). }
      eapply gives_seq; [by eapply pt_duration_gives|]. intros h5 Q5.
      assert (S05 : soft h h5) by (eapply soft_trans; [exact S04|apply Q5]).
      rewrite Tp.
      destruct (lim_ge (tm_start Tj - tm_departure Ti) (lim_add (tr_timeout (w_trip t)) eb)) eqn:B5;
        cbn [negb]; apply runs_ret; (split; [done|]); (split;
        [intros F; destruct (F04 F) as [? [Eb Ec]];
        (split; [by eapply FlagsOK_quiet|]); unfold ride_okb; by rewrite <- Eb, <- Ec, B5|]); intros g F <-.
      { split; [by apply (N03 true)|]. split; [by apply (N04 true)|]. intros Ti' Tj' H1 H2. rewrite HTi in H1. rewrite HTj in H2.
        injection H1 as <-. injection H2 as <-. by apply lim_ge_add. }
      intros x' y' Ti' Tj' _ _ H1 H2 (_ & _ & O). rewrite HTi in H1. rewrite HTj in H2.
      injection H1 as <-. injection H2 as <-. apply lim_ge_add in O. by rewrite B5 in O.
    - intros b h1 (S1 & F1 & N1). step. apply runs_pt_upd, runs_ret. split; [|split; [|exact N1]].
      + destruct (Ride_soft _ _ _ _ _ _ _ _ _ _ S1 Rd) as (pc1 & Hpc1 & Vp1 & Tp1 & P11 & P21 & _).
        eapply soft_flag_pt; [exact S1|exact (RouteW_P _ _ _ _ _ (RouteW_soft _ _ _ _ _ _ S1 R))|exact Hpc1|exact P11|exact P21|exact Hi|exact Hj|].
        intros g F Hb'. rewrite Tp1. apply N1; [done|congruence].
      + intros F. destruct (F1 F) as [Fa ->]. split; [|done].
        destruct (Ride_soft _ _ _ _ _ _ _ _ _ _ S1 Rd) as (pc1 & Hpc1 & Vp1 & Tp1 & P11 & P21 & _).
        eapply FlagsOK_pt; [by eapply RouteW_NoDup|exact Hpc1|exact P11|exact P21|exact Hi|exact Hj|
          exact Hx|exact Hy|exact HTi|exact HTj| |exact Fa]. by rewrite Tp1.
  Qed.

  Lemma pts_of_ext h h' ids :
    (forall s c, s ∈ ids -> h_stops h !! s = Some c ->
       exists c', h_stops h' !! s = Some c' /\ st_pickups c' = st_pickups c) ->
    (forall s, s ∈ ids -> is_Some (h_stops h !! s)) ->
    pts_of h' ids = pts_of h ids.
  Proof.
    intros H Ha. induction ids as [|s ids IH]; [done|]. cbn.
    destruct (Ha s) as [c Hc]; [left|]. destruct (H s c) as (c' & Hc' & E); [left|done|].
    unfold pts_of in IH. rewrite Hc, Hc', E, IH; [done|intros; apply H; [by right|done]|intros; apply Ha; by right].
  Qed.
  Lemma pts_of_soft h h' r v ids L : RouteW h r v ids L -> soft h h' -> pts_of h' ids = pts_of h ids.
  Proof.
    intros R [G _]. apply pts_of_ext.
    - intros s c _ Hc. destruct (g_stops _ _ G _ _ Hc) as (c' & ? & E). apply sk_stop_eq in E.
      exists c'. tauto.
    - intros s. by eapply RouteW_ids_alloc.
  Qed.

  (** every ride of the route is fine *)
  Definition rides_okb (v : nat) (L : list visit) : Prop :=
    forall t i j x y Ti Tj, ride L t i j -> L !! i = Some x -> L !! j = Some y ->
      timetable v L !! i = Some Ti -> timetable v L !! j = Some Tj -> ride_okb v t x y Ti Tj = true.
  Lemma ride_unique L t i j i' j' : rides L -> ride L t i j -> ride L t i' j' -> i = i' /\ j = j'.
  Proof.
    intros Rd (x & y & Hx & Hy & Hb & Ha) (x' & y' & Hx' & Hy' & Hb' & Ha'). split.
    - eapply flat_map_NoDup_lookup; [apply (rides_once _ Rd)|..]; eauto.
    - eapply flat_map_NoDup_lookup; [by apply rides_alights_nodup|..]; eauto.
  Qed.
  Lemma ride_pts_of h r v ids L t i j :
    RouteW h r v ids L -> ride L t i j -> exists p s d, p ∈ pts_of h ids /\ Ride h ids v p t i j s d.
  Proof.
    intros R Hr. pose proof Hr as (x & y & Hx & Hy & Hb & Ha).
    assert (Ht : t ∈ boards L) by (apply elem_of_boards; exists x; split; [by eapply elem_of_list_lookup_2|done]).
    rewrite <- (trips_pts_of _ _ _ _ _ R) in Ht. apply elem_of_list_fmap in Ht as (p & Et & Hp).
    destruct (pts_of_Ride _ _ _ _ _ _ R Hp) as (t' & i' & j' & s & d & Rd & Hr').
    assert (t' = t) as ->.
    { destruct Rd as (pc & Hpc & _ & <- & _). unfold trip_of in Et. by rewrite Hpc in Et. }
    destruct (ride_unique _ _ _ _ _ _ (rw_rides _ _ _ _ _ R) Hr Hr') as [<- <-]. eauto.
  Qed.

  Lemma feasible_planned_trips_runs h r v ids L :
    sane_durations -> sane_capacities -> RouteW h r v ids L ->
    runs (feasible_planned_trips r) h (fun b h' => soft h h' /\
      (FlagsOK v ids L h -> FlagsOK v ids L h' /\ (b = true <-> rides_okb v L)) /\
      (Fair h -> b = true -> forall t i j, ride L t i j -> ridden v t L i j) /\
      (Worth false h -> b = false -> ~ rides_okb v L)).
  Proof.
    intros Hd Hc R. unfold feasible_planned_trips. step.
    eapply runs_planned_trips; [exact R|].
    assert (Hloop : forall ps b0 h1, soft h h1 -> (forall p, p ∈ ps -> p ∈ pts_of h ids) ->
      runs (foldM (fun acc p => let! b := pt_is_feasible p in ret (acc && b)) b0 ps) h1
        (fun b h' => soft h h' /\ (FlagsOK v ids L h1 -> FlagsOK v ids L h' /\
           (b = true <-> b0 = true /\ forall p t i j s d x y Ti Tj, p ∈ ps -> Ride h ids v p t i j s d ->
              L !! i = Some x -> L !! j = Some y ->
              timetable v L !! i = Some Ti -> timetable v L !! j = Some Tj ->
              ride_okb v t x y Ti Tj = true)) /\
           (Fair h -> b = true -> b0 = true /\ forall p t i j s d, p ∈ ps -> Ride h ids v p t i j s d -> ridden v t L i j) /\
           (Worth false h -> b = false -> b0 = false \/ ~ rides_okb v L))).
    { induction ps as [|p ps IH]; intros b0 h1 S1 Hin.
      - apply runs_ret. split; [done|]. split; [|split; [|by left]].
        + intros F. split; [done|]. split; [|tauto].
          intros ->. split; [done|]. intros p t i j s d x y Ti Tj Hp. inversion Hp.
        + intros F ->. split; [done|]. intros p t i j s d Hp. inversion Hp.
      - cbn [foldM]. step. step.
        destruct (pts_of_Ride _ _ _ _ _ p R) as (t & i & j & s & d & Rd & Hr); [apply Hin; left|].
        assert (Hpk : picks h s p).
        { destruct (pts_of_known _ _ _ _ _ p R) as (s1 & c1 & _ & _ & pc1 & _ & Hc1 & Hp1 & _ & _ & _ & Hpc1 & _ & E1 & _); [apply Hin; left|].
          destruct Rd as (pc & Hpc & _ & _ & E2 & _). rewrite Hpc in Hpc1. injection Hpc1 as <-. rewrite E1 in E2. injection E2 as <-. by exists c1. }
        destruct (pt_is_feasible_runs h1 r v ids L p t i j s d Hd Hc
                    (RouteW_soft _ _ _ _ _ _ S1 R) (Ride_soft _ _ _ _ _ _ _ _ _ _ S1 Rd) (picks_soft _ _ _ _ S1 Hpk))
          as (x & y & Ti & Tj & Hx & Hy & HTi & HTj & Hrun).
        eapply runs_mono; [exact Hrun|]. intros b h2 (S2 & F2 & N2). apply runs_ret.
        eapply runs_mono; [apply IH; [by eapply soft_trans|intros; apply Hin; by right]|].
        intros b' h3 (S3 & F3 & N3 & O3). split; [done|].
        assert (Hsame : forall t' i' j' s' d', Ride h ids v p t' i' j' s' d' -> t' = t /\ i' = i /\ j' = j).
        { intros t' i' j' s' d' Rd'. destruct Rd as (pc & Hpc & _ & <- & P1 & P2 & Hi & Hj & _).
          destruct Rd' as (pc' & Hpc' & _ & <- & P1' & P2' & Hi' & Hj' & _).
          rewrite Hpc in Hpc'. injection Hpc' as <-. rewrite P1 in P1'. rewrite P2 in P2'.
          injection P1' as <-. injection P2' as <-.
          pose proof (RouteW_NoDup _ _ _ _ _ R).
          split; [done|]. split; by eapply NoDup_lookup. }
        split; [|split].
        3:{ intros F Hb'. destruct (O3 F Hb') as [H1|H1]; [|by right]. apply andb_false_iff in H1 as [->| ->]; [by left|right].
            intros Hok. eapply (missed_okb v t L i j); [intros; by eapply Hok|by eexists|by eexists|apply (N2 false); [by apply S1|done]]. }
        2:{ intros F Hb'. destruct (N3 F Hb') as [H1 H2]. apply andb_true_iff in H1 as [-> ->]. split; [done|].
            intros p' t' i' j' s' d' Hp' Rd'. apply elem_of_cons in Hp' as [->|Hp']; [|by eapply H2].
            destruct (Hsame _ _ _ _ _ Rd') as (-> & -> & ->). apply (N2 true); [|done]. by apply S1. }
        intros F. destruct (F2 F) as [Fa Eb].
        destruct (F3 Fa) as [Fb Hiff]. split; [done|]. rewrite Hiff. split.
        + intros [H1 H2]. apply andb_true_iff in H1 as [-> H1]. split; [done|].
          intros p' t' i' j' s' d' x' y' Ti' Tj' Hp' Rd' Hx' Hy' HTi' HTj'.
          apply elem_of_cons in Hp' as [->|Hp']; [|by eapply H2].
          destruct (Hsame _ _ _ _ _ Rd') as (-> & -> & ->). congruence.
        + intros [-> H2]. split.
          * rewrite Eb. apply (H2 p t i j s d); [left|done..].
          * intros p' t' i' j' s' d' x' y' Ti' Tj' Hp'. apply H2. by right. }
    eapply runs_mono; [apply Hloop; [apply soft_refl|done]|].
    intros b h' (S & F & N & O). split; [done|]. split; [|split].
    3:{ intros F0 Hb. by destruct (O F0 Hb). }
    2:{ intros F0 Hb t i j Hr. destruct (ride_pts_of _ _ _ _ _ _ _ _ R Hr) as (p & s & d & Hp & Rd).
        destruct (N F0 Hb) as [_ H]. by eapply H. }
    intros F0. destruct (F F0) as [F1 Hiff]. split; [done|].
    rewrite Hiff. split.
    - intros [_ H] t i j x y Ti Tj Hr Hx Hy HTi HTj.
      destruct (ride_pts_of _ _ _ _ _ _ _ _ R Hr) as (p & s & d & Hp & Rd). eapply H; eauto.
    - intros H. split; [done|]. intros p t i j s d x y Ti Tj Hp Rd Hx Hy HTi HTj.
      destruct (pts_of_Ride _ _ _ _ _ p R Hp) as (t' & i' & j' & s' & d' & Rd' & Hr).
      assert (t' = t /\ i' = i /\ j' = j) as (-> & -> & ->).
      { destruct Rd as (pc & Hpc & _ & <- & P1 & P2 & Hi & Hj & _).
        destruct Rd' as (pc' & Hpc' & _ & <- & P1' & P2' & Hi' & Hj' & _).
        rewrite Hpc in Hpc'. injection Hpc' as <-. rewrite P1 in P1'. rewrite P2 in P2'.
        injection P1' as <-. injection P2' as <-.
        pose proof (RouteW_NoDup _ _ _ _ _ R).
        split; [done|]. split; by eapply NoDup_lookup. }
      eapply H; eauto.
  Qed.

  (** first and last stop *)
  Lemma RouteW_first h r v ids L : RouteW h r v ids L -> ids <> [] ->
    exists s x T, ids !! 0%nat = Some s /\ L !! 0%nat = Some x /\ timetable v L !! 0%nat = Some T.
  Proof.
    intros R Hne. destruct ids as [|s ids]; [done|].
    destruct (stop_times _ _ _ _ _ 0 s R eq_refl) as (x & T & ? & ? & _). by exists s, x, T.
  Qed.
  Lemma RouteW_last h r v ids L : RouteW h r v ids L -> ids <> [] ->
    exists n s x T, ids !! n = Some s /\ L !! n = Some x /\ timetable v L !! n = Some T /\
      last ids = Some s /\ last L = Some x /\ last (timetable v L) = Some T /\ length L = S n.
  Proof.
    intros R Hne. pose proof (RouteW_length _ _ _ _ _ R) as Hl.
    destruct ids as [|s0 ids0]; [done|]. set (ids := s0 :: ids0) in *.
    destruct (lookup_lt_is_Some_2 ids (length ids - 1)) as [s Hs]; [cbn; lia|].
    destruct (stop_times _ _ _ _ _ _ s R Hs) as (x & T & Hx & HT & _).
    exists (length ids - 1)%nat, s, x, T. split; [done|]. split; [done|]. split; [done|].
    rewrite !last_lookup. unfold timetable. rewrite schedule_length, <- Hl.
    replace (pred (length ids)) with (length ids - 1)%nat by lia. repeat split; [done|done|done|].
    cbn. lia.
  Qed.

  Definition route_okb (v : nat) (L : list visit) : Prop :=
    exists x0 xn T0 Tn, head L = Some x0 /\ last L = Some xn /\
      head (timetable v L) = Some T0 /\ last (timetable v L) = Some Tn /\
      vi_place x0 = v_origin_position v /\ vi_place xn = v_destination_position v /\
      at_most (tm_departure Tn) (v_destination_latest v) /\
      at_most (tm_departure Tn - tm_departure T0) (v_timeout v) /\ rides_okb v L.

  Lemma route_feasible_runs h r v ids L :
    sane_durations -> sane_capacities -> RouteW h r v ids L -> ids <> [] ->
    runs (route_feasible r) h (fun b h' => soft h h' /\
      (FlagsOK v ids L h -> (forall c, h_routes h !! r = Some c -> rt_feasible c = None) ->
        FlagsOK v ids L h' /\ (b = true <-> route_okb v L)) /\
      (Fair h -> b = true -> nearly v L /\
        ((forall c, h_routes h !! r = Some c -> rt_feasible c <> Some true) -> brief v L)) /\
      (forall c, h_routes h' !! r = Some c -> rt_feasible c = Some b) /\
      (Worth false h -> (forall c, h_routes h !! r = Some c -> rt_feasible c <> Some false) -> b = false -> ~ route_okb v L)).
  Proof.
    intros Hd Hcap R Hne. destruct (rw_cell _ _ _ _ _ R) as (c & Hc & E1 & E2).
    unfold route_feasible. step. eapply runs_route_get; [exact Hc|].
    destruct (rt_feasible c) as [b|] eqn:Hb.
    { apply runs_ret. split; [apply soft_refl|]. split; [intros F Hn; rewrite (Hn c Hc) in Hb; done|].
      split; [|split; [intros c' Hc'; congruence|intros F Hn ->; by destruct (Hn c Hc)]].
      intros F ->. split; [by eapply Fair_route; [exact F|eapply RouteW_P; exact R|..]|]. intros Hn. by destruct (Hn c Hc). }
    rewrite E1.
    apply runs_seq with (P := fun b h' => soft h h' /\
      (FlagsOK v ids L h -> FlagsOK v ids L h' /\ (b = true <-> route_okb v L)) /\
      (Fair h -> b = true -> nearly v L /\ brief v L) /\
      (Worth false h -> b = false -> ~ route_okb v L)).
    - destruct (RouteW_first _ _ _ _ _ R Hne) as (s0 & x0 & T0 & Hs0 & Hx0 & HT0).
      destruct (RouteW_last _ _ _ _ _ R Hne) as (n & sn & xn & Tn & Hsn & Hxn & HTn & Hls & HlL & HlT & Hlen).
      assert (Hiff : route_okb v L <-> vi_place x0 = v_origin_position v /\ vi_place xn = v_destination_position v /\
                at_most (tm_departure Tn) (v_destination_latest v) /\
                at_most (tm_departure Tn - tm_departure T0) (v_timeout v) /\ rides_okb v L).
      { unfold route_okb. rewrite HlL, HlT.
        rewrite !head_lookup, Hx0, HT0. split; [intros (?&?&?&?&[= <-]&[= <-]&[= <-]&[= <-]&?); done|].
        intros ?. exists x0, xn, T0, Tn. tauto. }
      step. eapply runs_first_stop; [exact R|exact Hs0|].
      destruct (RouteW_lookup _ _ _ _ _ _ _ R Hs0) as (c0 & x0' & Hc0 & Hx0' & Ex0 & _).
      rewrite Hx0 in Hx0'. injection Hx0' as <-.
      step. eapply runs_stop_get; [exact Hc0|].
      assert (Epos0 : st_position c0 = vi_place x0) by (by subst x0).
      rewrite Epos0.
      destruct (bool_decide (vi_place x0 = v_origin_position v)) eqn:B1; cbn [negb].
      2:{ apply runs_ret. split; [apply soft_refl|]. apply bool_decide_eq_false in B1. split; [|split; [done|rewrite Hiff; tauto]]. intros F. split; [done|].
          rewrite Hiff. split; [done|tauto]. }
      apply bool_decide_eq_true in B1.
      step. eapply runs_first_stop; [exact R|exact Hs0|].
      destruct (stop_times _ _ _ _ _ _ _ R Hs0) as (? & ? & E3 & E4 & Ga & _).
      rewrite Hx0 in E3. rewrite HT0 in E4. injection E3 as <-. injection E4 as <-.
      eapply gives_seq; [exact Ga|]. intros h1 Q1.
      assert (Harr : v_origin_earliest v <= tm_arrival T0).
      { rewrite (timetable_lookup v L 0 x0 Hx0) in HT0. injection HT0 as <-.
        apply (back_le_arrival v x0 []). }
      destruct (v_origin_earliest v - eb <=? tm_arrival T0) eqn:B2; cbn [negb].
      2:{ exfalso. apply Z.leb_gt in B2. unfold eb in B2. lia. }
      pose proof (RouteW_soft _ _ _ _ _ _ (quiet_soft _ _ Q1) R) as R1.
      step. eapply runs_last_stop; [exact R1|exact Hls|].
      destruct (RouteW_lookup _ _ _ _ _ _ _ R1 Hsn) as (cn & xn' & Hcn & Hxn' & Exn & _).
      rewrite Hxn in Hxn'. injection Hxn' as <-.
      step. eapply runs_stop_get; [exact Hcn|].
      assert (Eposn : st_position cn = vi_place xn) by (by subst xn).
      rewrite Eposn.
      destruct (bool_decide (vi_place xn = v_destination_position v)) eqn:B3; cbn [negb].
      2:{ apply runs_ret. split; [apply Q1|]. apply bool_decide_eq_false in B3. split; [|split; [done|rewrite Hiff; tauto]]. intros F. split; [by eapply FlagsOK_quiet|].
          rewrite Hiff. split; [done|tauto]. }
      apply bool_decide_eq_true in B3.
      step. unfold last_departure_time. step. eapply runs_last_stop; [exact R1|exact Hls|].
      destruct (stop_times _ _ _ _ _ _ _ R1 Hsn) as (? & ? & E3 & E4 & _ & _ & Gd & _).
      rewrite Hxn in E3. rewrite HTn in E4. injection E3 as <-. injection E4 as <-.
      eapply gives_det_runs; [exact Gd|]. intros h2 Q2.
      destruct (lim_ge (tm_departure Tn) (lim_add (v_destination_latest v) eb)) eqn:B4; cbn [negb].
      2:{ apply runs_ret. split; [eapply soft_trans; [apply Q1|apply Q2]|].
          split; [|split; [done|intros _ _; rewrite Hiff, <- lim_ge_add, B4; intros (_ & _ & ? & _); done]].
          intros F. split; [eapply FlagsOK_quiet; [|exact F]; eapply quiet_trans; eauto|].
          rewrite Hiff, <- lim_ge_add, B4. split; [done|tauto]. }
      pose proof (RouteW_soft _ _ _ _ _ _ (quiet_soft _ _ Q2) R1) as R2.
      assert (Q02 : quiet h h2) by (eapply quiet_trans; eauto).
      step. unfold route_duration, last_departure_time, first_departure_time.
      step. step. eapply runs_last_stop; [exact R2|exact Hls|].
      destruct (stop_times _ _ _ _ _ _ _ R2 Hsn) as (? & ? & E3 & E4 & _ & _ & Gd2 & _).
      rewrite Hxn in E3. rewrite HTn in E4. injection E3 as <-. injection E4 as <-.
      eapply gives_det_runs; [exact Gd2|]. intros h3 Q3.
      pose proof (RouteW_soft _ _ _ _ _ _ (quiet_soft _ _ Q3) R2) as R3.
      step. step. eapply runs_first_stop; [exact R3|exact Hs0|].
      destruct (stop_times _ _ _ _ _ _ _ R3 Hs0) as (? & ? & E3 & E4 & _ & _ & Gd3 & _).
      rewrite Hx0 in E3. rewrite HT0 in E4. injection E3 as <-. injection E4 as <-.
      eapply gives_det_runs; [exact Gd3|]. intros h4 Q4. apply runs_ret.
      assert (Q04 : quiet h h4) by (eapply quiet_trans; [exact Q02|]; eapply quiet_trans; eauto).
      destruct (lim_ge (tm_departure Tn - tm_departure T0) (lim_add (v_timeout v) eb)) eqn:B5; cbn [negb].
      2:{ apply runs_ret. split; [apply Q04|].
          split; [|split; [done|intros _ _; rewrite Hiff, <- !lim_ge_add, B5; intros (_ & _ & _ & ? & _); done]].
          intros F. split; [by eapply FlagsOK_quiet|].
          rewrite Hiff, <- !lim_ge_add, B5. split; [done|tauto]. }
      pose proof (RouteW_soft _ _ _ _ _ _ (quiet_soft _ _ Q04) R) as R4.
      step. eapply runs_mono; [apply (feasible_planned_trips_runs _ _ _ _ _ Hd Hcap R4)|].
      intros b h5 (S5 & F5 & N5 & O5).
      assert (S05 : soft h h5) by (eapply soft_trans; [apply Q04|done]).
      destruct b; cbn [negb]; apply runs_ret; (split; [done|]); (split; [intros F;
        destruct (F5 (FlagsOK_quiet _ _ _ _ _ Q04 F)) as [F6 Hr]; (split; [done|]);
        rewrite Hiff, <- !lim_ge_add, B4, B5, <- Hr; tauto|]); (split; [|try done]); [|done|].
      2:{ intros F _. rewrite Hiff. intros (_ & _ & _ & _ & Hr). eapply O5; [by apply Q04|done|exact Hr]. }
      intros F _. split; [split|].
      + intros T HT. rewrite HlT in HT. injection HT as <-. by apply lim_ge_add.
      + apply N5; [by apply Q04|done].
      + intros T T' HT HT'. rewrite head_lookup, HT0 in HT. rewrite HlT in HT'. injection HT as <-. injection HT' as <-.
        by apply lim_ge_add.
    - intros b h1 (S1 & F1 & N1 & O1). step. apply runs_route_upd, runs_ret. split; [|split; [|split; [|split]]].
      + eapply soft_flag_route; [exact S1|exact (RouteW_P _ _ _ _ _ (RouteW_soft _ _ _ _ _ _ S1 R))|].
        intros [] F Hb'; [|done]. apply N1; [done|congruence].
      + intros F _. destruct (F1 F) as [Fa ?]. split; [|done].
        destruct Fa as [Fa1 Fa2]. by split.
      + intros F Hb'. destruct (N1 F Hb'). done.
      + intros c' Hc'. cbn in Hc'. rewrite list_lookup_alter in Hc'. destruct (h_routes h1 !! r); [|done].
        by injection Hc' as <-.
      + auto.
  Qed.

End route_ok.
