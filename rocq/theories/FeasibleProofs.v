(** Feasibility of whole plannings: asking one route records answers only in
    its own stops and planned trips. *)
From Verif Require Export ScoreProofs RepresentsProofs.

Section spares.
  (** answers outside the stops [S] and planned trips [P] are as before *)
  Context (S P : nat -> Prop).
  Definition outside (h h' : heap) : Prop :=
    ((forall s, ~ S s -> st_feasible <$> h_stops h' !! s = st_feasible <$> h_stops h !! s) /\
     (forall p, ~ P p -> pt_feasible <$> h_pts h' !! p = pt_feasible <$> h_pts h !! p)) /\
    (forall s, st_pickups <$> h_stops h' !! s = st_pickups <$> h_stops h !! s) /\
    (forall p, (fun c => (pt_pickup c, pt_delivery c)) <$> h_pts h' !! p = (fun c => (pt_pickup c, pt_delivery c)) <$> h_pts h !! p) /\
    h_routes h' = h_routes h.
  Lemma outside_refl h : outside h h.
  Proof. done. Qed.
  Lemma outside_trans h1 h2 h3 : outside h1 h2 -> outside h2 h3 -> outside h1 h3.
  Proof.
    intros ([A1 A2] & A3 & A4 & A5) ([B1 B2] & B3 & B4 & B5). split; [split; intros x Hx; [by rewrite B1, A1|by rewrite B2, A2]|].
    split; [intros x; by rewrite B3|]. split; [intros x; by rewrite B4|]. congruence.
  Qed.
  Definition spares {A} (m : M A) : Prop := forall h, outside h (m h).2.
  Lemma spares_ret {A} (a : A) : spares (ret a).
  Proof. done. Qed.
  Lemma spares_raise {A} e : spares (raise e : M A).
  Proof. done. Qed.
  Lemma spares_bind {A B} (m : M A) (k : A -> M B) : spares m -> (forall a, spares (k a)) -> spares (bind m k).
  Proof.
    intros Hm Hk h. unfold bind. specialize (Hm h). destruct (m h) as [[a|e] h1]; cbn in *; [|done].
    eapply outside_trans; [exact Hm|apply Hk].
  Qed.
  Lemma spares_now {A B} (a : A) (k : A -> M B) : spares (k a) -> spares (bind (ret a) k).
  Proof. intros H h. apply H. Qed.
  Lemma spares_assert b : spares (py_assert b).
  Proof. by destruct b. Qed.
  Lemma spares_some {A} (o : option A) : spares (py_some o).
  Proof. by destruct o. Qed.
  Lemma spares_stop_get s : spares (stop_get s).
  Proof. intros h. unfold stop_get. by destruct (h_stops h !! s). Qed.
  Lemma spares_pt_get s : spares (pt_get s).
  Proof. intros h. unfold pt_get. by destruct (h_pts h !! s). Qed.
  Lemma spares_route_get s : spares (route_get s).
  Proof. intros h. unfold route_get. by destruct (h_routes h !! s). Qed.
  Lemma spares_time s f : (forall c, st_feasible (f c) = st_feasible c /\ st_pickups (f c) = st_pickups c) -> spares (stop_upd s f).
  Proof.
    intros Hf h. split; [split; [|done]|split; [|done]]; intros q; [intros _|]; cbn;
      (destruct (decide (q = s)) as [->|Hne]; [|by rewrite list_lookup_alter_ne]);
      rewrite list_lookup_alter; destruct (h_stops h !! s) as [c|]; cbn; [|done| |done]; destruct (Hf c) as [E1 E2]; congruence.
  Qed.
  Lemma spares_stop_upd s b : S s -> spares (stop_upd s (cache_feasible b)).
  Proof.
    intros Hs h. split; [split; [|done]|split; [|done]]; intros q; cbn.
    - intros Hq. rewrite list_lookup_alter_ne; [done|]. by intros ->.
    - destruct (decide (q = s)) as [->|Hne]; [|by rewrite list_lookup_alter_ne].
      rewrite list_lookup_alter. by destruct (h_stops h !! s).
  Qed.
  Lemma spares_pt_upd s b : P s -> spares (pt_upd s (cache_pt_feasible b)).
  Proof.
    intros Hs h. split; [split; [done|]|split; [done|split; [|done]]]; intros q; cbn.
    - intros Hq. rewrite list_lookup_alter_ne; [done|]. by intros ->.
    - destruct (decide (q = s)) as [->|Hne]; [|by rewrite list_lookup_alter_ne].
      rewrite list_lookup_alter. by destruct (h_pts h !! s).
  Qed.
  Lemma spares_mapM {A B} (f : A -> M B) l : (forall x, spares (f x)) -> spares (mapM f l).
  Proof.
    intros Hf. induction l; cbn; [apply spares_ret|]. apply spares_bind; [done|]. intros. apply spares_bind; [done|]. intros. apply spares_ret.
  Qed.
  Lemma spares_chain {A} (f : nat -> M A) : (forall n, spares (f n)) -> spares (chain_fuel f).
  Proof. intros Hf h. apply Hf. Qed.
End spares.

Ltac spares :=
  repeat lazymatch goal with
    | |- spares _ _ (ret _) => apply spares_ret
    | |- spares _ _ (raise _) => apply spares_raise
    | |- spares _ _ (py_assert _) => apply spares_assert
    | |- spares _ _ (py_some _) => apply spares_some
    | |- spares _ _ (stop_get _) => apply spares_stop_get
    | |- spares _ _ (pt_get _) => apply spares_pt_get
    | |- spares _ _ (route_get _) => apply spares_route_get
    | |- spares _ _ (bind (ret _) _) => apply spares_now; cbv beta
    | |- spares _ _ (bind _ _) => apply spares_bind; [|intros ?]
    | |- spares _ _ (mapM _ _) => apply spares_mapM; intros ?
    | |- spares _ _ (chain_fuel _) => apply spares_chain; intros ?
    | |- spares _ _ (match ?x with _ => _ end) => destruct x
    | |- spares _ _ (let x := _ in _) => cbv zeta
    end.

Section spares2.
  Context {W : World} (S P : nat -> Prop).
  Notation sp := (spares S P).
  Lemma sp_trips_of l : sp (trips_of l).
  Proof. unfold trips_of. spares. Qed.
  Hint Resolve sp_trips_of : core.
  Lemma sp_earliest s : sp (stop_earliest s).
  Proof. unfold stop_earliest. spares; auto. Qed.
  Lemma sp_latest s : sp (stop_latest s).
  Proof. unfold stop_latest. spares; auto. Qed.
  Lemma sp_load_time s : sp (stop_load_time s).
  Proof. unfold stop_load_time. spares; auto. Qed.
  Lemma sp_previous_position s : sp (previous_position s).
  Proof. unfold previous_position. spares. Qed.
  Lemma sp_previous_departure dep s : (forall q, sp (dep q)) -> sp (previous_departure_with dep s).
  Proof. intros H. unfold previous_departure_with. spares; auto. Qed.
  Lemma sp_transit dep s : (forall q, sp (dep q)) -> sp (transit_with dep s).
  Proof. intros H. unfold transit_with. spares; auto using sp_previous_position, sp_previous_departure. Qed.
  Lemma sp_arrival_with dep s : (forall q, sp (dep q)) -> sp (arrival_with dep s).
  Proof. intros H. unfold arrival_with. spares; auto using sp_previous_departure, sp_transit. apply spares_time; by intros []. Qed.
  Lemma sp_starting_with dep s : (forall q, sp (dep q)) -> sp (starting_with dep s).
  Proof. intros H. unfold starting_with. spares; auto using sp_arrival_with, sp_earliest. Qed.
  Lemma sp_departure_fuel n : forall s, sp (departure_fuel n s).
  Proof. induction n; intros s; cbn; spares; auto using sp_starting_with, sp_load_time. apply spares_time; by intros []. Qed.
  Lemma sp_departure s : sp (departure_time s).
  Proof. unfold departure_time. spares. apply sp_departure_fuel. Qed.
  Lemma sp_arrival s : sp (arrival_time s).
  Proof. unfold arrival_time. spares. apply sp_arrival_with, sp_departure_fuel. Qed.
  Lemma sp_starting s : sp (starting_time s).
  Proof. unfold starting_time. spares. apply sp_starting_with, sp_departure_fuel. Qed.
  Lemma sp_capacity_fuel n : forall s, sp (capacity_fuel n s).
  Proof. induction n; intros s; cbn; spares; auto. apply spares_time; by intros []. Qed.
  Lemma sp_capacity s : sp (capacity s).
  Proof. unfold capacity. spares. apply sp_capacity_fuel. Qed.
  Lemma sp_all_previous s : sp (all_previous s).
  Proof. unfold all_previous. spares. revert s. induction n; intros s; cbn; spares; auto. Qed.
  Lemma sp_stop_feasible s : S s -> sp (stop_feasible s).
  Proof. intros Hs. unfold stop_feasible. spares; auto using sp_earliest, sp_starting, sp_latest, sp_capacity, spares_stop_upd. Qed.
  Lemma sp_pickup_time p : sp (pickup_time p).
  Proof. unfold pickup_time. spares. apply sp_departure. Qed.
  Lemma sp_delivery_time p : sp (delivery_time p).
  Proof. unfold delivery_time. spares. apply sp_starting. Qed.
  Lemma sp_pt_duration p : sp (pt_duration p).
  Proof. unfold pt_duration. spares; [apply sp_delivery_time|apply sp_pickup_time]. Qed.
  (** [p] and its stops are inside *)
  Definition owned (h : heap) (p : nat) : Prop :=
    P p /\ forall pc q, h_pts h !! p = Some pc -> pt_pickup pc = Some q \/ pt_delivery pc = Some q -> S q.
  Lemma owned_outside h h' p : outside S P h h' -> owned h p -> owned h' p.
  Proof.
    intros (_ & _ & O & _) [Hp H]. split; [done|]. intros pc q Hpc Hq. specialize (O p). rewrite Hpc in O. cbn in O.
    destruct (h_pts h !! p) as [pc'|] eqn:Hpc'; [|done]. cbn in O. injection O as O1 O2. apply (H pc'); [done|]. by rewrite <- O1, <- O2.
  Qed.
  Lemma sp_pt_feasible p h : owned h p -> outside S P h (pt_is_feasible p h).2.
  Proof.
    intros [Hp H]. unfold pt_is_feasible, pt_get. unfold bind at 1. destruct (h_pts h !! p) as [pc|] eqn:Hpc; [|apply outside_refl].
    destruct (pt_delivery pc) as [d|] eqn:Ed; [|by destruct (pt_feasible pc)].
    assert (Hd : S d) by eauto.
    destruct (pt_pickup pc) as [s|] eqn:Es.
    - assert (Hs : S s) by eauto.
      match goal with |- outside _ _ _ (?m h).2 => enough (K : sp m) by apply K end.
      cbn [py_some]. spares; auto using sp_all_previous, sp_pickup_time, sp_delivery_time, sp_stop_feasible, sp_pt_duration, spares_pt_upd.
    - match goal with |- outside _ _ _ (?m h).2 => enough (K : sp m) by apply K end.
      cbn [py_some]. destruct (pt_feasible pc); [spares|]. apply spares_bind; [|intros; spares; by apply spares_pt_upd].
      apply spares_now. cbv beta. apply spares_bind; [apply sp_all_previous|]. intros l h1. apply outside_refl.
  Qed.
  Lemma sp_route_stops r : sp (route_stops r).
  Proof. unfold route_stops. spares. Qed.
  Lemma sp_planned_trips r : sp (planned_trips r).
  Proof. unfold planned_trips. spares. apply sp_route_stops. Qed.
  Lemma sp_first_stop r : sp (first_stop r).
  Proof. unfold first_stop. spares; [apply sp_route_stops|]. unfold py_nth. by destruct (_ !! _). Qed.
  Lemma sp_last_stop r : sp (last_stop r).
  Proof. unfold last_stop. spares. apply sp_route_stops. Qed.
  Lemma sp_last_departure r : sp (last_departure_time r).
  Proof. unfold last_departure_time. spares; [apply sp_last_stop|apply sp_departure]. Qed.
  Lemma sp_route_duration r : sp (route_duration r).
  Proof. unfold route_duration, first_departure_time. spares; auto using sp_last_departure, sp_first_stop, sp_departure. Qed.
  Lemma planned_trips_reads r h : match planned_trips r h with
    | (Ok ps, h') => h' = h /\ forall p, p ∈ ps -> exists c s sc, h_routes h !! r = Some c /\ s ∈ rt_stops c /\
                       h_stops h !! s = Some sc /\ p ∈ st_pickups sc
    | (Raise _, h') => h' = h
    end.
  Proof.
    unfold planned_trips, route_stops, route_get, bind, ret. destruct (h_routes h !! r) as [c|] eqn:Hc; [|done]. cbn.
    assert (H : forall l, match mapM (fun s => let! c := stop_get s in ret (st_pickups c)) l h with
      | (Ok ls, h') => h' = h /\ forall p, p ∈ concat ls -> exists s sc, s ∈ l /\ h_stops h !! s = Some sc /\ p ∈ st_pickups sc
      | (Raise _, h') => h' = h end).
    { induction l as [|s l IH]; cbn [mapM].
      - split; [done|]. intros p Hp. inversion Hp.
      - unfold bind at 1 2, stop_get at 1. destruct (h_stops h !! s) as [sc|] eqn:Hs; [|done]. cbn [ret]. unfold bind at 1, ret at 1.
        destruct (mapM _ l h) as [[ls|e] h'] eqn:E; [|done]. destruct IH as [-> IH]. unfold ret. split; [done|].
        intros p Hp. cbn in Hp. apply elem_of_app in Hp as [Hp|Hp].
        + exists s, sc. split; [left|done].
        + destruct (IH p Hp) as (s' & sc' & ? & ? & ?). exists s', sc'. split; [by right|done]. }
    specialize (H (rt_stops c)). unfold bind, ret in H.
    destruct (mapM _ (rt_stops c) h) as [[ls|e] h'] eqn:E; [|done]. destruct H as [-> H]. split; [done|].
    intros p Hp. destruct (H p Hp) as (s & sc & ? & ? & ?). exists c, s, sc. done.
  Qed.
  (** everything that route [r] refers to is inside *)
  Definition own (r : nat) (h : heap) : Prop := forall c s sc p, h_routes h !! r = Some c -> s ∈ rt_stops c ->
    h_stops h !! s = Some sc -> p ∈ st_pickups sc -> owned h p.
  Lemma own_outside r h h' : outside S P h h' -> own r h -> own r h'.
  Proof.
    intros O H c s sc p Hc Hs Hsc Hp. eapply owned_outside; [exact O|]. destruct O as (_ & O & _ & Er).
    specialize (O s). rewrite Hsc in O. cbn in O. destruct (h_stops h !! s) as [sc'|] eqn:Hsc'; [|done]. cbn in O. injection O as O.
    apply (H c s sc'); [by rewrite <- Er|done|done|]. by rewrite <- O.
  Qed.
  Lemma sp_feasible_trips r h : own r h -> outside S P h (feasible_planned_trips r h).2.
  Proof.
    intros H. unfold feasible_planned_trips. unfold bind at 1. pose proof (planned_trips_reads r h) as X.
    destruct (planned_trips r h) as [[ps|e] h1]; [|by subst]. destruct X as [-> X].
    assert (Hps : forall p, p ∈ ps -> owned h p). { intros p Hp. destruct (X p Hp) as (c & s & sc & ? & ? & ? & ?). by eapply H. }
    clear -Hps. generalize true as b. revert h Hps. induction ps as [|p ps IH]; intros h Hps b; cbn [foldM]; [apply outside_refl|].
    unfold bind at 1 2. pose proof (sp_pt_feasible p h (Hps p ltac:(left))) as O. destruct (pt_is_feasible p h) as [[b1|e] h1]; [|exact O].
    cbn [ret]. eapply outside_trans; [exact O|]. apply IH. intros q Hq. eapply owned_outside; [exact O|]. apply Hps. by right.
  Qed.
End spares2.

Section asking.
  Context {W : World}.
  (** what asking route [r] leaves alone *)
  Definition beyond (S P : nat -> Prop) (h h' : heap) : Prop :=
    (forall s, ~ S s -> st_feasible <$> h_stops h' !! s = st_feasible <$> h_stops h !! s) /\
    (forall p, ~ P p -> pt_feasible <$> h_pts h' !! p = pt_feasible <$> h_pts h !! p).
  Lemma beyond_trans S P h1 h2 h3 : beyond S P h1 h2 -> beyond S P h2 h3 -> beyond S P h1 h3.
  Proof. intros [A1 A2] [B1 B2]. split; intros x Hx; [by rewrite B1, A1|by rewrite B2, A2]. Qed.
  (** like [spares], for code that asks the planned trips of [r] *)
  Definition asks (S P : nat -> Prop) (r : nat) {A} (m : M A) : Prop := forall h, own S P r h -> outside S P h (m h).2.
  Lemma asks_bind S P r {A B} (m : M A) (k : A -> M B) : asks S P r m -> (forall a, asks S P r (k a)) -> asks S P r (bind m k).
  Proof.
    intros Hm Hk h Ho. unfold bind. specialize (Hm h Ho). destruct (m h) as [[a|e] h1]; cbn in *; [|done].
    eapply outside_trans; [exact Hm|]. apply Hk. by eapply own_outside.
  Qed.
  Lemma asks_spares S P r {A} (m : M A) : spares S P m -> asks S P r m.
  Proof. intros H h _. apply H. Qed.
  Lemma asks_if S P r {A} (b : bool) (m m' : M A) : asks S P r m -> asks S P r m' -> asks S P r (if b then m else m').
  Proof. by destruct b. Qed.
  Lemma sp_route_feasible S P r h : own S P r h -> beyond S P h (route_feasible r h).2.
  Proof.
    intros Ho. unfold route_feasible, route_get. unfold bind at 1. destruct (h_routes h !! r) as [c|] eqn:Hc; [|done].
    destruct (rt_feasible c); [done|]. unfold bind at 1.
    match goal with |- context [ (match ?m h with _ => _ end) ] => set (m0 := m) end.
    assert (K : asks S P r m0).
    { unfold m0.
      repeat lazymatch goal with
        | |- asks _ _ _ (feasible_planned_trips _) => intros h1 H1; by apply sp_feasible_trips
        | |- asks _ _ _ (bind _ _) => apply asks_bind; [|intros ?]
        | |- asks _ _ _ (if _ then _ else _) => apply asks_if
        | |- asks _ _ _ _ => apply asks_spares; spares; auto using sp_first_stop, sp_arrival, sp_last_stop, sp_last_departure, sp_route_duration
        end. }
    specialize (K h Ho). destruct (m0 h) as [[b|e] h1]; [|apply K]. apply K.
  Qed.
End asking.
