(** What a limit on nested calls does to the readings of Depth.v. *)
From Verif Require Export Depth RouteProofs RepresentsProofs.

Section tamer.
  Context {W : World}.

  (** [m1] does what [m2] does, or gives up *)
  Definition tamer {A} (m1 m2 : M A) : Prop :=
    forall h, fst (m1 h) = Raise RecursionError \/ m1 h = m2 h.

  Lemma tamer_refl {A} (m : M A) : tamer m m.
  Proof. intros h. by right. Qed.
  Lemma tamer_bind {A B} (m1 m2 : M A) (k1 k2 : A -> M B) :
    tamer m1 m2 -> (forall x, tamer (k1 x) (k2 x)) -> tamer (bind m1 k1) (bind m2 k2).
  Proof.
    intros Hm Hk h. unfold bind. destruct (Hm h) as [E|E].
    - left. destruct (m1 h) as [[x|e] h1]; cbn in E; [done|]. cbn. congruence.
    - rewrite E. destruct (m2 h) as [[x|e] h1]; [apply Hk|by right].
  Qed.
  Lemma tamer_foldM {A B} (f g : B -> A -> M B) l :
    (forall b x, tamer (f b x) (g b x)) -> forall b, tamer (foldM f b l) (foldM g b l).
  Proof.
    intros H. induction l as [|x l IH]; intros b; cbn [foldM]; [apply tamer_refl|].
    apply tamer_bind; auto.
  Qed.
End tamer.

Ltac tame1 := match goal with
  | |- tamer ?a ?b => constr_eq a b; apply tamer_refl
  | |- tamer (bind _ _) (bind _ _) => apply tamer_bind; [|intros]
  | |- tamer (foldM _ _ _) (foldM _ _ _) => apply tamer_foldM; intros
  | |- tamer (match ?x with _ => _ end) (match ?x with _ => _ end) => destruct x
  | H : forall s, tamer (?d1 s) (?d2 s) |- tamer (?d1 _) (?d2 _) => apply H
  | |- _ => solve [auto 2 with tame nocore]
  end.
Ltac tame := cbv zeta; repeat (tame1; cbv zeta).
Create HintDb tame.

Section tame_readings.
  Context {W : World}.
  Section dep.
    Context (d1 d2 : nat -> M Z) (Hd : forall s, tamer (d1 s) (d2 s)).
    Lemma tamer_previous_departure s : tamer (previous_departure_with d1 s) (previous_departure_with d2 s).
    Proof. unfold previous_departure_with. tame. Qed.
    Hint Resolve tamer_previous_departure : tame.
    Lemma tamer_transit s : tamer (transit_with d1 s) (transit_with d2 s).
    Proof. unfold transit_with. tame. Qed.
    Hint Resolve tamer_transit : tame.
    Lemma tamer_arrival s : tamer (arrival_with d1 s) (arrival_with d2 s).
    Proof. unfold arrival_with. tame. Qed.
    Hint Resolve tamer_arrival : tame.
    Lemma tamer_starting s : tamer (starting_with d1 s) (starting_with d2 s).
    Proof. unfold starting_with. tame. Qed.
  End dep.
  Lemma tamer_raise {A} (m : M A) : tamer (raise RecursionError) m.
  Proof. intros h. by left. Qed.
  Lemma tamer_departure n m : (n <= m)%nat -> forall s, tamer (departure_fuel n s) (departure_fuel m s).
  Proof.
    revert m. induction n as [|n IH]; intros m Hm s; [apply tamer_raise|]. destruct m as [|m]; [lia|].
    cbn [departure_fuel]. tame. apply tamer_starting. intros. apply IH. lia.
  Qed.
  Lemma tamer_capacity n m : (n <= m)%nat -> forall s, tamer (capacity_fuel n s) (capacity_fuel m s).
  Proof.
    revert m. induction n as [|n IH]; intros m Hm s; [apply tamer_raise|]. destruct m as [|m]; [lia|].
    cbn [capacity_fuel]. tame. apply IH. lia.
  Qed.
  Lemma tamer_all_previous n m : (n <= m)%nat -> forall s, tamer (all_previous_fuel n s) (all_previous_fuel m s).
  Proof.
    revert m. induction n as [|n IH]; intros m Hm s; [apply tamer_raise|]. destruct m as [|m]; [lia|].
    cbn [all_previous_fuel]. tame. apply IH. lia.
  Qed.

  Section two.
    Context (n m : nat) (Hnm : (n <= m)%nat).
    Lemma tamer_dep s : tamer (departure_within n s) (departure_within m s).
    Proof. by apply tamer_departure. Qed.
    Lemma tamer_arr s : tamer (arrival_within n s) (arrival_within m s).
    Proof. apply tamer_arrival. by apply tamer_departure. Qed.
    Lemma tamer_start s : tamer (starting_within n s) (starting_within m s).
    Proof. apply tamer_starting. by apply tamer_departure. Qed.
    Lemma tamer_cap s : tamer (capacity_within n s) (capacity_within m s).
    Proof. by apply tamer_capacity. Qed.
    Lemma tamer_prev s : tamer (all_previous_within n s) (all_previous_within m s).
    Proof. by apply tamer_all_previous. Qed.
    Hint Resolve tamer_dep tamer_arr tamer_start tamer_cap tamer_prev : tame.
    Lemma tamer_stop_feasible s : tamer (stop_feasible_within n s) (stop_feasible_within m s).
    Proof. unfold stop_feasible_within. tame. Qed.
    Lemma tamer_pickup p : tamer (pickup_within n p) (pickup_within m p).
    Proof. unfold pickup_within. tame. Qed.
    Lemma tamer_delivery p : tamer (delivery_within n p) (delivery_within m p).
    Proof. unfold delivery_within. tame. Qed.
    Hint Resolve tamer_stop_feasible tamer_pickup tamer_delivery : tame.
    Lemma tamer_pt_duration p : tamer (pt_duration_within n p) (pt_duration_within m p).
    Proof. unfold pt_duration_within. tame. Qed.
    Hint Resolve tamer_pt_duration : tame.
    Lemma tamer_pt p : tamer (pt_feasible_within n p) (pt_feasible_within m p).
    Proof. unfold pt_feasible_within. tame. Qed.
    Hint Resolve tamer_pt : tame.
    Lemma tamer_trips r : tamer (trips_feasible_within n r) (trips_feasible_within m r).
    Proof. unfold trips_feasible_within. tame. Qed.
    Lemma tamer_last r : tamer (last_departure_within n r) (last_departure_within m r).
    Proof. unfold last_departure_within. tame. Qed.
    Lemma tamer_first r : tamer (first_departure_within n r) (first_departure_within m r).
    Proof. unfold first_departure_within. tame. Qed.
    Hint Resolve tamer_trips tamer_last tamer_first : tame.
    Lemma tamer_duration r : tamer (duration_within n r) (duration_within m r).
    Proof. unfold duration_within. tame. Qed.
    Hint Resolve tamer_duration : tame.
    Lemma tamer_feasible r : tamer (feasible_within n r) (feasible_within m r).
    Proof. unfold feasible_within. tame. Qed.
  End two.
End tame_readings.

(** ** Enough room: the readings are those without a limit *)
Section agree.
  Context {W : World} (h0 : heap).
  (** only memoised values have changed since [h0] *)
  Definition Ours (h : heap) : Prop := grow h0 h.
  Definition agree {A} (m1 m2 : M A) (Q : A -> Prop) : Prop :=
    forall h, Ours h -> m1 h = m2 h /\ Ours (snd (m2 h)) /\ forall x, fst (m2 h) = Ok x -> Q x.

  Lemma Ours_grow h h' : grow h h' -> Ours h -> Ours h'.
  Proof. intros G O. by eapply grow_trans. Qed.
  Lemma agree_bind {A B} (m1 m2 : M A) (k1 k2 : A -> M B) P Q :
    agree m1 m2 P -> (forall x, P x -> agree (k1 x) (k2 x) Q) -> agree (bind m1 k1) (bind m2 k2) Q.
  Proof.
    intros Hm Hk h O. destruct (Hm h O) as (E & O1 & HP). unfold bind. rewrite E.
    destruct (m2 h) as [[x|e] h1]; cbn in *; [|done]. by apply Hk; [apply HP|].
  Qed.
  (** [m] only looks at the heap *)
  Lemma agree_look {A} (m : M A) (Q : A -> Prop) :
    (forall h, snd (m h) = h) -> (forall h x, Ours h -> fst (m h) = Ok x -> Q x) -> agree m m Q.
  Proof. intros E HQ h O. split; [done|]. rewrite E. split; [done|]. intros x. by apply HQ. Qed.
  Lemma agree_ret {A} (x : A) (Q : A -> Prop) : Q x -> agree (ret x) (ret x) Q.
  Proof. intros HQ h O. split; [done|]. split; [done|]. intros y Hy. cbn in Hy. by injection Hy as <-. Qed.
  Lemma agree_weaken {A} (m1 m2 : M A) (P Q : A -> Prop) : agree m1 m2 P -> (forall x, P x -> Q x) -> agree m1 m2 Q.
  Proof. intros H HQ h O. destruct (H h O) as (? & ? & ?). auto. Qed.
  Lemma agree_gives {A} (m1 m2 : M A) :
    (forall h, (fst (m1 h) = Raise RecursionError \/ m1 h = m2 h) \/ (fst (m2 h) = Raise RecursionError \/ m2 h = m1 h)) ->
    (forall h, Ours h -> exists a, gives m1 h a) ->
    (forall h, Ours h -> exists a, gives m2 h a) -> agree m1 m2 (fun _ => True).
  Proof.
    intros T H1 H2 h O. destruct (H1 h O) as [a G1]. destruct (H2 h O) as [b G2].
    apply runs_eq in G1 as (a' & h1 & E1 & _). apply runs_eq in G2 as (b' & h2 & E2 & _ & Q).
    split.
    - destruct (T h) as [[E|E]|[E|E]]; try done.
      + by rewrite E1 in E.
      + by rewrite E2 in E.
    - rewrite E2. cbn. split; [|done]. eapply Ours_grow; [|done]. by apply quiet_soft.
  Qed.
  Lemma agree_upd {A} (m : M A) : (forall h, grow h (snd (m h))) -> agree m m (fun _ => True).
  Proof. intros G h O. split; [done|]. split; [|done]. by eapply Ours_grow. Qed.
  Lemma agree_foldM {A B} (f g : B -> A -> M B) l :
    (forall b x, x ∈ l -> agree (f b x) (g b x) (fun _ => True)) -> forall b, agree (foldM f b l) (foldM g b l) (fun _ => True).
  Proof.
    induction l as [|x l IH]; intros H b; cbn [foldM]; [by apply agree_ret|].
    eapply agree_bind; [apply H; left|]. intros b' _. apply IH. intros. apply H. by right.
  Qed.

End agree.

(** *** Readings that leave the heap alone *)
Section looks.
  Context {W : World}.
  Definition looks {A} (m : M A) : Prop := forall h, snd (m h) = h.
  Lemma looks_ret {A} (x : A) : looks (ret x).
  Proof. done. Qed.
  Lemma looks_raise {A} e : looks (raise e : M A).
  Proof. done. Qed.
  Lemma looks_bind {A B} (m : M A) (k : A -> M B) : looks m -> (forall x, looks (k x)) -> looks (bind m k).
  Proof.
    intros Hm Hk h. unfold bind. specialize (Hm h). destruct (m h) as [[x|e] h1]; cbn in Hm; subst h1; [apply Hk|done].
  Qed.
  Lemma looks_mapM {A B} (f : A -> M B) l : (forall x, looks (f x)) -> looks (mapM f l).
  Proof. intros Hf. induction l; cbn [mapM]; [done|]. apply looks_bind; [done|]. intros. apply looks_bind; [done|]. intros. done. Qed.
  Lemma looks_stop_get s : looks (stop_get s).
  Proof. intros h. unfold stop_get. by destruct (h_stops h !! s). Qed.
  Lemma looks_pt_get s : looks (pt_get s).
  Proof. intros h. unfold pt_get. by destruct (h_pts h !! s). Qed.
  Lemma looks_route_get s : looks (route_get s).
  Proof. intros h. unfold route_get. by destruct (h_routes h !! s). Qed.
  Lemma looks_some {A} (o : option A) : looks (py_some o).
  Proof. by destruct o. Qed.
  Lemma looks_assert b : looks (py_assert b).
  Proof. by destruct b. Qed.
  Lemma looks_nth {A} (l : list A) i : looks (py_nth l i).
  Proof. intros h. unfold py_nth. by destruct (l !! i). Qed.
End looks.
Create HintDb looks.
Global Hint Resolve looks_ret looks_raise looks_stop_get looks_pt_get looks_route_get looks_some looks_assert looks_nth : looks.
Ltac look := repeat first
  [ solve [auto 2 with looks nocore]
  | match goal with
    | |- looks (bind _ _) => apply looks_bind; [|intros]
    | |- looks (mapM _ _) => apply looks_mapM; intros
    | |- looks (match ?x with _ => _ end) => destruct x
    end ].
Section looks_readings.
  Context {W : World}.
  Lemma looks_trips_of l : looks (trips_of l).
  Proof. unfold trips_of. look. Qed.
  Hint Resolve looks_trips_of : looks.
  Lemma looks_earliest s : looks (stop_earliest s).
  Proof. unfold stop_earliest. look. Qed.
  Lemma looks_latest s : looks (stop_latest s).
  Proof. unfold stop_latest. look. Qed.
  Lemma looks_previous s : looks (previous_position s).
  Proof. unfold previous_position. look. Qed.
  Lemma looks_route_stops r : looks (route_stops r).
  Proof. unfold route_stops. look. Qed.
  Hint Resolve looks_route_stops : looks.
  Lemma looks_first_stop r : looks (first_stop r).
  Proof. unfold first_stop. look. Qed.
  Lemma looks_last_stop r : looks (last_stop r).
  Proof. unfold last_stop. look. Qed.
  Lemma looks_planned_trips r : looks (planned_trips r).
  Proof. unfold planned_trips. look. Qed.
  Lemma looks_all_previous n : forall s, looks (all_previous_fuel n s).
  Proof. induction n as [|n IH]; intros s; cbn [all_previous_fuel]; look. Qed.
End looks_readings.
Global Hint Resolve looks_trips_of looks_earliest looks_latest looks_route_stops looks_first_stop looks_last_stop
  looks_planned_trips looks_all_previous : looks.

Section enough.
  Context {W : World} (SC : sane_capacities) (h0 : heap) (r v : nat) (ids : list nat) (L : list visit) (R0 : RouteW h0 r v ids L).
  Notation Ours := (Ours h0).
  Notation agree := (agree h0).
  Notation top := (fun _ => True).

  Lemma agree_see {A} (m : M A) : looks m -> agree m m top.
  Proof. intros H. by apply agree_look. Qed.
  Lemma agree_rett {A} (x : A) : agree (ret x) (ret x) top.
  Proof. by apply agree_ret. Qed.
  Lemma agree_cache_stop s b : agree (stop_upd s (cache_feasible b)) (stop_upd s (cache_feasible b)) top.
  Proof.
    apply agree_upd. intros h. apply grow_intro; [|cbn; eauto|cbn; eauto]. intros q c Hc. cbn. destruct (decide (q = s)) as [->|Hne].
    - rewrite list_lookup_alter, Hc. cbn. eexists. split; [done|]. split; [by destruct c|]. destruct c; unfold weaker; cbn; auto.
    - rewrite list_lookup_alter_ne by done. exists c. auto using weaker_refl.
  Qed.
  Lemma agree_cache_pt p b : agree (pt_upd p (cache_pt_feasible b)) (pt_upd p (cache_pt_feasible b)) top.
  Proof. apply agree_upd. intros h. apply soft_grow_pt. by intros []. Qed.
  Lemma agree_cache_route p b : agree (route_upd p (cache_route_feasible b)) (route_upd p (cache_route_feasible b)) top.
  Proof. apply agree_upd. intros h. apply grow_route. by intros []. Qed.

  Section at_stop.
    Context (n i s : nat) (Hs : ids !! i = Some s).
    Lemma chain_room h : Ours h -> exists x, Path h v (s :: reverse (take i ids)) (x :: reverse (take i L)) /\ rides L /\ L !! i = Some x.
    Proof. intros G. pose proof (RouteW_grow _ _ _ _ _ _ G R0) as R. destruct (RouteW_lookup _ _ _ _ _ _ _ R Hs) as (c & x & Hc & Hx & _ & _ & _ & _ & P). exists x. split; [done|]. split; [apply R|done]. Qed.
    Lemma chain_length : length (reverse (take i ids)) = i.
    Proof. rewrite reverse_length, take_length_le; [done|]. apply lookup_lt_Some in Hs. lia. Qed.
    Lemma room_dep_ok h : Ours h -> (i <= n)%nat -> dep_ok (departure_fuel n) v (reverse (take i ids)) (reverse (take i L)).
    Proof.
      intros O Hn hh q ids' E HP. pose proof chain_length as Hl. rewrite E in *. cbn in Hl.
      destruct (reverse (take i L)) as [|y A]; [inversion HP|]. eapply departure_fuel_gives; [exact HP|lia].
    Qed.
    Lemma agree_departure : (i < n)%nat -> agree (departure_within n s) (departure_time s) top.
    Proof.
      intros Hn. apply agree_gives.
      - intros h. unfold departure_time, chain_fuel, departure_within. destruct (Nat.le_ge_cases n (S (length (h_stops h)))).
        + left. by apply tamer_departure.
        + right. by apply tamer_departure.
      - intros h O. destruct (chain_room h O) as (x & P & _). eexists. eapply departure_fuel_gives; [exact P|]. rewrite chain_length. lia.
      - intros h O. destruct (chain_room h O) as (x & P & _). eexists. by eapply departure_time_gives.
    Qed.
    Lemma agree_arrival : (i <= n)%nat -> agree (arrival_within n s) (arrival_time s) top.
    Proof.
      intros Hn. apply agree_gives.
      - intros h. unfold arrival_time, chain_fuel, arrival_within. destruct (Nat.le_ge_cases n (S (length (h_stops h)))).
        + left. apply tamer_arrival. by apply tamer_departure.
        + right. apply tamer_arrival. by apply tamer_departure.
      - intros h O. destruct (chain_room h O) as (x & P & _). eexists. eapply arrival_gives; [exact P|]. by eapply room_dep_ok.
      - intros h O. destruct (chain_room h O) as (x & P & _). eexists. by eapply arrival_time_gives.
    Qed.
    Lemma agree_starting : (i <= n)%nat -> agree (starting_within n s) (starting_time s) top.
    Proof.
      intros Hn. apply agree_gives.
      - intros h. unfold starting_time, chain_fuel, starting_within. destruct (Nat.le_ge_cases n (S (length (h_stops h)))).
        + left. apply tamer_starting. by apply tamer_departure.
        + right. apply tamer_starting. by apply tamer_departure.
      - intros h O. destruct (chain_room h O) as (x & P & _). eexists. eapply starting_gives; [exact P|]. by eapply room_dep_ok.
      - intros h O. destruct (chain_room h O) as (x & P & _). eexists. by eapply starting_time_gives.
    Qed.
    Lemma agree_capacity : (i < n)%nat -> agree (capacity_within n s) (capacity s) top.
    Proof.
      intros Hn. apply agree_gives.
      - intros h. unfold capacity, chain_fuel, capacity_within. destruct (Nat.le_ge_cases n (S (length (h_stops h)))).
        + left. by apply tamer_capacity.
        + right. by apply tamer_capacity.
      - intros h O. destruct (chain_room h O) as (x & P & HR & Hx). eexists. eapply capacity_fuel_gives; [exact P|by apply rides_loads_ok_at|]. rewrite chain_length. lia.
      - intros h O. destruct (chain_room h O) as (x & P & HR & Hx). eexists. eapply capacity_gives; [exact P|]. by apply rides_loads_ok_at.
    Qed.
    Lemma agree_previous : (i < n)%nat -> agree (all_previous_within n s) (all_previous s) top.
    Proof.
      intros Hn h O. destruct (chain_room h O) as (x & P & _). unfold all_previous_within.
      pose proof (all_previous_fuel_runs n _ _ _ _ _ _ P) as G. rewrite chain_length in G. specialize (G Hn). apply runs_eq in G as (l & h1 & E1 & -> & ->).
      pose proof (all_previous_runs _ _ _ _ _ _ P) as G. apply runs_eq in G as (l & h1 & E2 & -> & ->). by rewrite E1, E2.
    Qed.
    Lemma agree_stop_feasible : (i < n)%nat -> agree (stop_feasible_within n s) (stop_feasible s) top.
    Proof.
      intros Hn. unfold stop_feasible_within, stop_feasible. eapply agree_bind; [apply agree_see; look|]. intros c _.
      destruct (st_feasible c); [apply agree_rett|].
      eapply agree_bind; [|intros; eapply agree_bind; [apply agree_cache_stop|intros; apply agree_rett]].
      eapply agree_bind; [apply agree_see; look|]. intros e _.
      eapply agree_bind; [apply agree_starting; lia|]. intros st _. destruct (negb _); [apply agree_rett|].
      eapply agree_bind; [apply agree_starting; lia|]. intros st2 _.
      eapply agree_bind; [apply agree_see; look|]. intros l _. destruct (negb _); [apply agree_rett|].
      eapply agree_bind; [apply agree_capacity; lia|]. intros k _. destruct (negb _); apply agree_rett.
    Qed.
  End at_stop.

  Section at_trip.
    Context (n i j s d p : nat) (Hi : ids !! i = Some s) (Hj : ids !! j = Some d) (Hij : (i < j)%nat) (Hn : (j < n)%nat).
    Context (Hp : forall h pc, Ours h -> h_pts h !! p = Some pc -> pt_pickup pc = Some s /\ pt_delivery pc = Some d).
    Lemma agree_pt_get : agree (pt_get p) (pt_get p) (fun pc => pt_pickup pc = Some s /\ pt_delivery pc = Some d).
    Proof.
      apply agree_look; [apply looks_pt_get|]. intros h pc O. unfold pt_get. destruct (h_pts h !! p) as [pc'|] eqn:E; [|done].
      cbn. intros [= <-]. by eapply Hp.
    Qed.
    Lemma agree_pickup : agree (pickup_within n p) (pickup_time p) top.
    Proof.
      eapply agree_bind; [apply agree_pt_get|]. intros pc [-> _]. unfold bind, py_some, ret. cbn.
      apply (agree_departure n i s Hi). lia.
    Qed.
    Lemma agree_delivery : agree (delivery_within n p) (delivery_time p) top.
    Proof.
      eapply agree_bind; [apply agree_pt_get|]. intros pc [_ ->]. unfold bind, py_some, ret. cbn.
      apply (agree_starting n j d Hj). lia.
    Qed.
    Lemma agree_pt_duration : agree (pt_duration_within n p) (pt_duration p) top.
    Proof.
      eapply agree_bind; [apply agree_delivery|]. intros x _. eapply agree_bind; [apply agree_pickup|]. intros y _. apply agree_rett.
    Qed.
    Lemma agree_pt : agree (pt_feasible_within n p) (pt_is_feasible p) top.
    Proof.
      unfold pt_feasible_within, pt_is_feasible. eapply agree_bind; [apply agree_pt_get|]. intros pc [E1 E2].
      destruct (pt_feasible pc); [apply agree_rett|].
      eapply agree_bind; [|intros; eapply agree_bind; [apply agree_cache_pt|intros; apply agree_rett]].
      rewrite E1, E2. eapply agree_bind; [by apply (agree_ret h0 d (eq d))|]. intros d' <-.
      eapply agree_bind; [by apply (agree_previous n j d Hj)|]. intros prevs _.
      eapply agree_bind; [by apply (agree_ret h0 s (eq s))|]. intros s' <-.
      eapply agree_bind; [apply agree_see; look|]. intros _ _.
      eapply agree_bind; [apply agree_pickup|]. intros tp _.
      eapply agree_bind; [apply agree_delivery|]. intros td _.
      eapply agree_bind; [apply agree_see; look|]. intros _ _.
      eapply agree_bind; [apply (agree_stop_feasible n i s Hi); lia|]. intros fp _. destruct (negb _); [apply agree_rett|].
      eapply agree_bind; [by apply (agree_stop_feasible n j d Hj)|]. intros fd _. destruct (negb _); [apply agree_rett|].
      eapply agree_bind; [apply agree_pt_duration|]. intros du _. destruct (negb _); apply agree_rett.
    Qed.
  End at_trip.
  Lemma agree_trip n p : p ∈ pts_of h0 ids -> (length ids <= n)%nat -> agree (pt_feasible_within n p) (pt_is_feasible p) top.
  Proof.
    intros Hp Hn.
    destruct (pts_of_Ride _ _ _ _ _ _ R0 Hp) as (t & i & j & s & d & (pc & Hpc & _ & _ & P1 & P2 & Hi & Hj & Hij) & _).
    apply (agree_pt n i j s d p Hi Hj Hij); [apply lookup_lt_Some in Hj; lia|].
    intros h pc' G Hpc'. destruct (g_pts _ _ G _ _ Hpc) as (pc2 & Hpc2 & E). rewrite Hpc' in Hpc2. injection Hpc2 as <-.
    apply sk_pt_eq in E as (_ & _ & -> & ->). done.
  Qed.
  Lemma agree_planned_trips : agree (planned_trips r) (planned_trips r) (fun l => l = pts_of h0 ids).
  Proof.
    apply agree_look; [apply looks_planned_trips|]. intros h l G Hl. pose proof (RouteW_grow _ _ _ _ _ _ G R0) as R.
    assert (runs (planned_trips r) h (fun l _ => l = pts_of h ids)) as E by (eapply runs_planned_trips; done).
    apply runs_eq in E as (l' & h' & E & ->). rewrite E in Hl. cbn in Hl. injection Hl as <-. apply pts_of_ext.
    - intros s c _ Hc. destruct (g_stops _ _ G _ _ Hc) as (c' & ? & E'). apply sk_stop_eq in E'. exists c'. tauto.
    - intros s. by eapply RouteW_ids_alloc.
  Qed.
  Lemma agree_first_stop : agree (first_stop r) (first_stop r) (fun s => ids !! 0%nat = Some s).
  Proof.
    apply agree_look; [apply looks_first_stop|]. intros h l G Hl. pose proof (RouteW_grow _ _ _ _ _ _ G R0) as R.
    destruct (rw_cell _ _ _ _ _ R) as (c & Hc & _ & E2). unfold first_stop, route_stops, route_get in Hl. unfold bind, ret, py_nth in Hl.
    rewrite Hc, E2 in Hl. destruct (ids !! 0%nat) as [s|]; [|done]. cbn in Hl. destruct (stop_get s h) as [[k|]?]; [|done].
    destruct (py_assert _ _) as [[]?]; [|done]. exact (f_equal (fun o => match o with Ok z => Some z | Raise _ => None end) Hl).
  Qed.
  Lemma agree_last_stop : agree (last_stop r) (last_stop r) (fun s => last ids = Some s).
  Proof.
    apply agree_look; [apply looks_last_stop|]. intros h l G Hl. pose proof (RouteW_grow _ _ _ _ _ _ G R0) as R.
    destruct (rw_cell _ _ _ _ _ R) as (c & Hc & _ & E2). unfold last_stop, route_stops, route_get in Hl. unfold bind, ret in Hl.
    rewrite Hc, E2 in Hl. destruct (last ids) as [s|]; [|done]. cbn in Hl. by injection Hl as <-.
  Qed.
  Section at_route.
    Context (n : nat) (Hn : (length ids <= n)%nat).
    Lemma agree_trips : agree (trips_feasible_within n r) (feasible_planned_trips r) top.
    Proof.
      unfold trips_feasible_within, feasible_planned_trips. eapply agree_bind; [apply agree_planned_trips|]. intros ps ->.
      apply agree_foldM. intros b p Hp. eapply agree_bind; [by apply agree_trip|]. intros ? _. apply agree_rett.
    Qed.
    Lemma agree_first_departure : agree (first_departure_within n r) (first_departure_time r) top.
    Proof.
      eapply agree_bind; [apply agree_first_stop|]. intros s Hs. apply (agree_departure n 0 s Hs). apply lookup_lt_Some in Hs. lia.
    Qed.
    Lemma agree_last_departure : agree (last_departure_within n r) (last_departure_time r) top.
    Proof.
      eapply agree_bind; [apply agree_last_stop|]. intros s Hs. rewrite last_lookup in Hs. apply (agree_departure n _ s Hs). apply lookup_lt_Some in Hs. lia.
    Qed.
    Lemma agree_duration : agree (duration_within n r) (route_duration r) top.
    Proof.
      eapply agree_bind; [apply agree_last_departure|]. intros x _. eapply agree_bind; [apply agree_first_departure|]. intros y _. apply agree_rett.
    Qed.
    Lemma agree_feasible : agree (feasible_within n r) (route_feasible r) top.
    Proof.
      unfold feasible_within, route_feasible. eapply agree_bind; [apply agree_see; look|]. intros c _.
      destruct (rt_feasible c); [apply agree_rett|]. cbv zeta.
      eapply agree_bind; [|intros; eapply agree_bind; [apply agree_cache_route|intros; apply agree_rett]].
      eapply agree_bind; [apply agree_first_stop|]. intros f Hf.
      eapply agree_bind; [apply agree_see; look|]. intros fc _. destruct (negb _); [apply agree_rett|].
      eapply agree_bind; [apply agree_first_stop|]. intros f2 Hf2.
      eapply agree_bind; [apply (agree_arrival n 0 f2 Hf2); lia|]. intros a _. destruct (negb _); [apply agree_rett|].
      eapply agree_bind; [apply agree_see; look|]. intros l _.
      eapply agree_bind; [apply agree_see; look|]. intros lc _. destruct (negb _); [apply agree_rett|].
      eapply agree_bind; [apply agree_last_departure|]. intros ld _. destruct (negb _); [apply agree_rett|].
      eapply agree_bind; [apply agree_duration|]. intros du _. destruct (negb _); [apply agree_rett|].
      eapply agree_bind; [apply agree_trips|]. intros fp _. destruct (negb _); apply agree_rett.
    Qed.
  End at_route.
End enough.
