(** One-shift: the chain of stops, whatever has been memoised. *)
From Verif Require Export SpecShift ShiftTheorems FrameRuns TwoOptTheorems.

Create HintDb mm.

Section memo.
  Context {W : World}.

  (** nothing but memoised values differs *)
  Record memo (h h' : heap) : Prop := {
    me_stops : forall s c, h_stops h !! s = Some c -> exists c', h_stops h' !! s = Some c' /\ same_stop c c';
    me_pts : forall p c, h_pts h !! p = Some c -> exists c', h_pts h' !! p = Some c' /\ sk_pt c' = sk_pt c;
    me_routes : forall r c, h_routes h !! r = Some c -> exists c', h_routes h' !! r = Some c' /\
      rt_vehicle c' = rt_vehicle c /\ rt_stops c' = rt_stops c
  }.
  Definition mm {A} (m : M A) : Prop := forall h, memo h (m h).2.

  Lemma memo_refl h : memo h h.
  Proof. split; eauto using same_stop_refl. Qed.
  Lemma memo_trans h1 h2 h3 : memo h1 h2 -> memo h2 h3 -> memo h1 h3.
  Proof.
    intros A B. split.
    - intros s c H. destruct (me_stops _ _ A s c H) as (c1 & H1 & E1). destruct (me_stops _ _ B s c1 H1) as (c2 & H2 & E2).
      exists c2. split; [done|by eapply same_stop_trans].
    - intros s c H. destruct (me_pts _ _ A s c H) as (c1 & H1 & E1). destruct (me_pts _ _ B s c1 H1) as (c2 & H2 & E2).
      exists c2. split; [done|congruence].
    - intros s c H. destruct (me_routes _ _ A s c H) as (c1 & H1 & E1 & F1). destruct (me_routes _ _ B s c1 H1) as (c2 & H2 & E2 & F2).
      exists c2. split; [done|]. split; congruence.
  Qed.
  Lemma mm_ret {A} (x : A) : mm (ret x).
  Proof. intros h. apply memo_refl. Qed.
  Lemma mm_raise {A} e : mm (raise e : M A).
  Proof. intros h. apply memo_refl. Qed.
  Lemma mm_bind {A B} (m : M A) (k : A -> M B) : mm m -> (forall x, mm (k x)) -> mm (bind m k).
  Proof.
    intros H1 H2 h. unfold bind. specialize (H1 h). destruct (m h) as [[x|e] h1]; cbn in *; [|done].
    by eapply memo_trans; [|apply H2].
  Qed.
  Lemma mm_assert x : mm (py_assert x).
  Proof. unfold py_assert. destruct x; [apply mm_ret|apply mm_raise]. Qed.
  Lemma mm_nth {A} (l : list A) i : mm (py_nth l i).
  Proof. unfold py_nth. destruct (l !! i); [apply mm_ret|apply mm_raise]. Qed.
  Lemma mm_some {A} (o : option A) : mm (py_some o).
  Proof. destruct o; [apply mm_ret|apply mm_raise]. Qed.
  Lemma mm_mapM {A B} (f : A -> M B) l : (forall x, mm (f x)) -> mm (mapM f l).
  Proof. intros H. induction l; cbn; [apply mm_ret|]. apply mm_bind; [done|]. intros. apply mm_bind; [done|]. intros. apply mm_ret. Qed.
  Lemma mm_iterM {A} (f : A -> M unit) l : (forall x, mm (f x)) -> mm (iterM f l).
  Proof. intros H. induction l; cbn; [apply mm_ret|]. apply mm_bind; [done|]. done. Qed.
  Lemma mm_foldM {A B} (f : B -> A -> M B) l z : (forall z x, mm (f z x)) -> mm (foldM f z l).
  Proof. intros H. revert z. induction l; intros z; cbn; [apply mm_ret|]. apply mm_bind; [done|]. done. Qed.
  Lemma mm_allM {A} (f : A -> M bool) l : (forall x, mm (f x)) -> mm (allM f l).
  Proof. intros H. induction l; cbn; [apply mm_ret|]. apply mm_bind; [done|]. intros []; [done|apply mm_ret]. Qed.
  Lemma mm_anyM {A} (f : A -> M bool) l : (forall x, mm (f x)) -> mm (anyM f l).
  Proof. intros H. induction l; cbn; [apply mm_ret|]. apply mm_bind; [done|]. intros []; [apply mm_ret|done]. Qed.
  Lemma mm_chain_fuel {A} (f : nat -> M A) : (forall n, mm (f n)) -> mm (chain_fuel f).
  Proof. intros H h. apply H. Qed.
  Lemma mm_stop_get s : mm (stop_get s).
  Proof. intros h. unfold stop_get. destruct (h_stops h !! s); apply memo_refl. Qed.
  Lemma mm_pt_get s : mm (pt_get s).
  Proof. intros h. unfold pt_get. destruct (h_pts h !! s); apply memo_refl. Qed.
  Lemma mm_route_get s : mm (route_get s).
  Proof. intros h. unfold route_get. destruct (h_routes h !! s); apply memo_refl. Qed.
  Lemma mm_tick : mm tick.
  Proof. intros h. cbn. split; cbn; eauto using same_stop_refl. Qed.
  Lemma mm_set_order l : mm (set_order l).
  Proof. unfold set_order. apply mm_bind; [apply mm_tick|]. intros. apply mm_ret. Qed.
  Lemma mm_stop_upd s f : (forall c, same_stop c (f c)) -> mm (stop_upd s f).
  Proof.
    intros H h. cbn. split; cbn; [|eauto..]. intros q c Hq. destruct (decide (q = s)) as [->|Hne].
    - rewrite list_lookup_alter, Hq. by eexists.
    - rewrite list_lookup_alter_ne by done. exists c. split; [done|apply same_stop_refl].
  Qed.
  Lemma mm_pt_upd s f : (forall c, sk_pt (f c) = sk_pt c) -> mm (pt_upd s f).
  Proof.
    intros H h. cbn. split; cbn; [eauto using same_stop_refl| |eauto]. intros q c Hq. destruct (decide (q = s)) as [->|Hne].
    - rewrite list_lookup_alter, Hq. by eexists.
    - rewrite list_lookup_alter_ne by done. by exists c.
  Qed.
  Lemma mm_route_upd s f : (forall c, rt_vehicle (f c) = rt_vehicle c) -> (forall c, rt_stops (f c) = rt_stops c) -> mm (route_upd s f).
  Proof.
    intros H H' h. cbn. split; cbn; [eauto using same_stop_refl|eauto|]. intros q c Hq. destruct (decide (q = s)) as [->|Hne].
    - rewrite list_lookup_alter, Hq. by eexists.
    - rewrite list_lookup_alter_ne by done. by exists c.
  Qed.
End memo.

Ltac mstep :=
  lazymatch goal with
  | |- forall _, _ => intro
  | |- mm (bind _ _) => apply mm_bind
  | |- mm (ret _) => apply mm_ret
  | |- mm (raise _) => apply mm_raise
  | |- mm (if ?x then _ else _) => destruct x
  | |- mm (match ?x with _ => _ end) => destruct x
  | |- mm (mapM _ _) => apply mm_mapM
  | |- mm (iterM _ _) => apply mm_iterM
  | |- mm (foldM _ _ _) => apply mm_foldM
  | |- mm (allM _ _) => apply mm_allM
  | |- mm (anyM _ _) => apply mm_anyM
  | |- mm (chain_fuel _) => apply mm_chain_fuel
  | |- mm (stop_upd _ _) => apply mm_stop_upd; intros; done
  | |- mm (pt_upd _ _) => apply mm_pt_upd; intros; done
  | |- mm (route_upd _ _) => apply mm_route_upd; intros; done
  | |- mm _ => solve [eauto with mm]
  end.
Ltac mgo := repeat mstep.

Section getters.
  Context {W : World}.
  Hint Resolve mm_assert mm_nth mm_some mm_stop_get mm_pt_get mm_route_get mm_tick mm_set_order : mm.

  Lemma mm_trips_of l : mm (trips_of l).
  Proof. unfold trips_of. mgo. Qed.
  Hint Resolve mm_trips_of : mm.
  Lemma mm_stop_earliest s : mm (stop_earliest s).
  Proof. unfold stop_earliest. mgo. Qed.
  Lemma mm_stop_latest s : mm (stop_latest s).
  Proof. unfold stop_latest. mgo. Qed.
  Lemma mm_stop_load_time s : mm (stop_load_time s).
  Proof. unfold stop_load_time. mgo. Qed.
  Lemma mm_previous_position s : mm (previous_position s).
  Proof. unfold previous_position. mgo. Qed.
  Hint Resolve mm_stop_earliest mm_stop_latest mm_stop_load_time mm_previous_position : mm.
  Lemma mm_stop_distance s : mm (stop_distance s).
  Proof. unfold stop_distance. mgo. Qed.
  Definition mm_dep (dep : nat -> M Z) : Prop := forall s, mm (dep s).
  Lemma mm_previous_departure_with dep s : mm_dep dep -> mm (previous_departure_with dep s).
  Proof. intros D. unfold previous_departure_with. mgo. Qed.
  Hint Resolve mm_stop_distance mm_previous_departure_with : mm.
  Lemma mm_transit_with dep s : mm_dep dep -> mm (transit_with dep s).
  Proof. intros D. unfold transit_with. mgo. Qed.
  Hint Resolve mm_transit_with : mm.
  Lemma mm_arrival_with dep s : mm_dep dep -> mm (arrival_with dep s).
  Proof. intros D. unfold arrival_with. mgo. Qed.
  Hint Resolve mm_arrival_with : mm.
  Lemma mm_starting_with dep s : mm_dep dep -> mm (starting_with dep s).
  Proof. intros D. unfold starting_with. mgo. Qed.
  Hint Resolve mm_starting_with : mm.
  Lemma mm_departure_fuel n : mm_dep (departure_fuel n).
  Proof. induction n as [|n IH]; intros s; cbn [departure_fuel]; mgo. Qed.
  Hint Resolve mm_departure_fuel : mm.
  Lemma mm_departure_time s : mm (departure_time s).
  Proof. apply mm_chain_fuel. intros n. apply mm_departure_fuel. Qed.
  Lemma mm_arrival_time s : mm (arrival_time s).
  Proof. apply mm_chain_fuel. intros n. eauto with mm. Qed.
  Lemma mm_starting_time s : mm (starting_time s).
  Proof. apply mm_chain_fuel. intros n. eauto with mm. Qed.
  Lemma mm_transit_time s : mm (transit_time s).
  Proof. apply mm_chain_fuel. intros n. eauto with mm. Qed.
  Hint Resolve mm_departure_time mm_arrival_time mm_starting_time mm_transit_time : mm.
  Lemma mm_waiting_time s : mm (waiting_time s).
  Proof. unfold waiting_time. mgo. Qed.
  Lemma mm_capacity_fuel n : mm_dep (capacity_fuel n).
  Proof. induction n as [|n IH]; intros s; cbn [capacity_fuel]; mgo. Qed.
  Lemma mm_capacity s : mm (capacity s).
  Proof. apply mm_chain_fuel. intros n. apply mm_capacity_fuel. Qed.
  Hint Resolve mm_waiting_time mm_capacity : mm.
  Lemma mm_stop_feasible s : mm (stop_feasible s).
  Proof. unfold stop_feasible. mgo. Qed.
  Lemma mm_all_previous_fuel n s : mm (all_previous_fuel n s).
  Proof. revert s. induction n as [|n IH]; intros s; cbn [all_previous_fuel]; mgo. Qed.
  Hint Resolve mm_all_previous_fuel : mm.
  Lemma mm_all_previous s : mm (all_previous s).
  Proof. apply mm_chain_fuel. intros n. apply mm_all_previous_fuel. Qed.
  Hint Resolve mm_stop_feasible mm_all_previous : mm.
  Lemma mm_pickup_time p : mm (pickup_time p).
  Proof. unfold pickup_time. mgo. Qed.
  Lemma mm_delivery_time p : mm (delivery_time p).
  Proof. unfold delivery_time. mgo. Qed.
  Hint Resolve mm_pickup_time mm_delivery_time : mm.
  Lemma mm_pt_duration p : mm (pt_duration p).
  Proof. unfold pt_duration. mgo. Qed.
  Hint Resolve mm_pt_duration : mm.
  Lemma mm_pt_is_feasible p : mm (pt_is_feasible p).
  Proof. unfold pt_is_feasible. mgo. Qed.
  Hint Resolve mm_pt_is_feasible : mm.
  Lemma mm_route_stops r : mm (route_stops r).
  Proof. unfold route_stops. mgo. Qed.
  Hint Resolve mm_route_stops : mm.
  Lemma mm_planned_trips r : mm (planned_trips r).
  Proof. unfold planned_trips. mgo. Qed.
  Hint Resolve mm_planned_trips : mm.
  Lemma mm_route_trips r : mm (route_trips r).
  Proof. unfold route_trips. mgo. Qed.
  Lemma mm_route_loaded r : mm (route_loaded r).
  Proof. unfold route_loaded. mgo. Qed.
  Lemma mm_first_stop r : mm (first_stop r).
  Proof. unfold first_stop. mgo. Qed.
  Lemma mm_last_stop r : mm (last_stop r).
  Proof. unfold last_stop. mgo. Qed.
  Hint Resolve mm_route_trips mm_route_loaded mm_first_stop mm_last_stop : mm.
  Lemma mm_first_departure_time r : mm (first_departure_time r).
  Proof. unfold first_departure_time. mgo. Qed.
  Lemma mm_last_departure_time r : mm (last_departure_time r).
  Proof. unfold last_departure_time. mgo. Qed.
  Hint Resolve mm_first_departure_time mm_last_departure_time : mm.
  Lemma mm_route_duration r : mm (route_duration r).
  Proof. unfold route_duration. mgo. Qed.
  Lemma mm_route_distance r : mm (route_distance r).
  Proof. unfold route_distance. mgo. Qed.
  Hint Resolve mm_route_duration mm_route_distance : mm.
  Lemma mm_feasible_planned_trips r : mm (feasible_planned_trips r).
  Proof. unfold feasible_planned_trips. mgo. Qed.
  Hint Resolve mm_feasible_planned_trips : mm.
  Lemma mm_route_feasible r : mm (route_feasible r).
  Proof. unfold route_feasible. mgo. Qed.
  Lemma mm_ride_distance_fuel n pk cur acc : mm (ride_distance_fuel n pk cur acc).
  Proof. revert cur acc. induction n as [|n IH]; intros cur acc; cbn [ride_distance_fuel]; mgo. Qed.
  Hint Resolve mm_ride_distance_fuel : mm.
  Lemma mm_planned_trip_value o p : mm (planned_trip_value o p).
  Proof. unfold planned_trip_value. mgo. Qed.
  Hint Resolve mm_planned_trip_value : mm.
  Lemma mm_stop_value o s : mm (stop_value o s).
  Proof. unfold stop_value. mgo. Qed.
  Hint Resolve mm_stop_value : mm.
  Lemma mm_route_value o r : mm (route_value o r).
  Proof. unfold route_value. destruct o; mgo. Qed.
  Lemma mm_assert_linked r : mm (assert_linked r).
  Proof. unfold assert_linked. mgo. Qed.
  Lemma mm_assert_monotone r : mm (assert_monotone r).
  Proof. unfold assert_monotone. mgo. Qed.
  Hint Resolve mm_assert_linked mm_assert_monotone : mm.
  Lemma mm_check_routes l : mm (check_routes l).
  Proof. unfold check_routes. mgo. Qed.
End getters.

Section chain.
  Context {W : World}.
  Context (h0 : heap) (rs : list nat) (ids0 : nat -> list nat).

  (** two neighbouring stops change places *)
  Definition hop (ids ids' : list nat) : Prop := exists X a b Y ca cb, X <> [] /\ ids = X ++ a :: b :: Y /\ ids' = X ++ b :: a :: Y /\
    h_stops h0 !! a = Some ca /\ h_stops h0 !! b = Some cb /\ (forall p, p ∈ st_pickups ca -> p ∉ st_deliveries cb).
  Inductive hops : list nat -> list nat -> Prop :=
  | hops_nil ids : hops ids ids
  | hops_snoc ids ids1 ids2 : hops ids ids1 -> hop ids1 ids2 -> hops ids ids2.
  Lemma hop_perm ids ids' : hop ids ids' -> ids' ≡ₚ ids.
  Proof. intros (X & a & b & Y & _ & _ & _ & -> & -> & _). apply Permutation_app_head. constructor. Qed.
  Lemma hops_perm ids ids' : hops ids ids' -> ids' ≡ₚ ids.
  Proof. induction 1 as [|ids i1 i2 _ IH H]; [done|]. apply hop_perm in H. by rewrite H. Qed.

  Record Kept (h : heap) : Prop := {
    kp_stops : forall s c, h_stops h0 !! s = Some c -> exists c', h_stops h !! s = Some c' /\ same_stop (set_previous (st_previous c') c) c';
    kp_pts : forall p c, h_pts h0 !! p = Some c -> exists c', h_pts h !! p = Some c' /\ sk_pt c' = sk_pt c;
    kp_routes : forall r c, h_routes h0 !! r = Some c -> exists c', h_routes h !! r = Some c' /\ rt_vehicle c' = rt_vehicle c
  }.
  Lemma same_relink c1 c2 c3 : same_stop (set_previous (st_previous c2) c1) c2 -> same_stop c2 c3 -> same_stop (set_previous (st_previous c3) c1) c3.
  Proof. unfold same_stop. cbn. intuition congruence. Qed.
  Lemma same_relinks c1 c2 c3 : same_stop (set_previous (st_previous c2) c1) c2 -> same_stop (set_previous (st_previous c3) c2) c3 ->
    same_stop (set_previous (st_previous c3) c1) c3.
  Proof. unfold same_stop. cbn. intuition congruence. Qed.
  Lemma Kept_memo h h' : Kept h -> memo h h' -> Kept h'.
  Proof.
    intros K M. split.
    - intros s c H. destruct (kp_stops _ K s c H) as (c1 & H1 & E1). destruct (me_stops _ _ M s c1 H1) as (c2 & H2 & E2).
      exists c2. split; [done|by eapply same_relink].
    - intros s c H. destruct (kp_pts _ K s c H) as (c1 & H1 & E1). destruct (me_pts _ _ M s c1 H1) as (c2 & H2 & E2).
      exists c2. split; [done|congruence].
    - intros s c H. destruct (kp_routes _ K s c H) as (c1 & H1 & E1). destruct (me_routes _ _ M s c1 H1) as (c2 & H2 & E2 & _).
      exists c2. split; [done|congruence].
  Qed.
  Lemma Kept_changes h h' r l : Kept h -> changes_only h h' r l -> Kept h'.
  Proof.
    intros K M. split.
    - intros s c H. destruct (kp_stops _ K s c H) as (c1 & H1 & E1). destruct (co_stops _ _ _ _ M s c1 H1) as (c2 & H2 & E2).
      exists c2. split; [done|]. destruct (decide (s ∈ l)); [by eapply same_relinks|by eapply same_relink].
    - intros s c H. destruct (kp_pts _ K s c H) as (c1 & H1 & E1). destruct (co_pts _ _ _ _ M s c1 H1) as (c2 & H2 & E2 & E3 & E4 & E5).
      exists c2. split; [done|]. rewrite <- E1. unfold sk_pt, cache_pt_feasible. by rewrite E2, E3, E4, E5.
    - intros s c H. destruct (kp_routes _ K s c H) as (c1 & H1 & E1). destruct (co_routes _ _ _ _ M s c1 H1) as (c2 & H2 & E2 & _).
      exists c2. split; [done|congruence].
  Qed.
  Lemma in_order_memo h h' r ids : memo h h' -> in_order h r ids -> in_order h' r ids.
  Proof. intros M (c & H & <-). destruct (me_routes _ _ M r c H) as (c' & H' & _ & E). exists c'. by split. Qed.
  Lemma linked_up_memo h h' ids : memo h h' -> linked_up h ids -> linked_up h' ids.
  Proof.
    intros M L i s Hi. destruct (L i s Hi) as (c & H & E). destruct (me_stops _ _ M s c H) as (c' & H' & S). exists c'.
    split; [done|]. rewrite <- E. apply S.
  Qed.

  (** route [r] has the stops [ids] at the moment *)
  Definition Chain (h : heap) (r : nat) (ids : list nat) : Prop := in_order h r ids /\ linked_up h ids.
  Definition Inv (h : heap) : Prop := Kept h /\ forall r, r ∈ rs -> exists ids, Chain h r ids /\ hops (ids0 r) ids.
  Definition At (h : heap) (r : nat) (ids : list nat) : Prop := Kept h /\ Chain h r ids /\ ids ≡ₚ ids0 r /\
    forall q, q ∈ rs -> q <> r -> exists ids', Chain h q ids' /\ hops (ids0 q) ids'.
  Lemma Chain_memo h h' r ids : memo h h' -> Chain h r ids -> Chain h' r ids.
  Proof. intros M [A B]. split; [by eapply in_order_memo|by eapply linked_up_memo]. Qed.
  Lemma Inv_memo h h' : memo h h' -> Inv h -> Inv h'.
  Proof.
    intros M [K C]. split; [by eapply Kept_memo|]. intros r Hr. destruct (C r Hr) as (ids & A & B). exists ids.
    split; [by eapply Chain_memo|done].
  Qed.
  Lemma At_memo h h' r ids : memo h h' -> At h r ids -> At h' r ids.
  Proof.
    intros M (K & C & P & O). split; [by eapply Kept_memo|]. split; [by eapply Chain_memo|]. split; [done|].
    intros q Hq Hne. destruct (O q Hq Hne) as (ids' & A & B). exists ids'. split; [by eapply Chain_memo|done].
  Qed.
  Lemma At_Inv h r ids : At h r ids -> hops (ids0 r) ids -> Inv h.
  Proof.
    intros (K & C & P & O) H. split; [done|]. intros q Hq. destruct (decide (q = r)) as [->|Hne]; [by exists ids|by apply O].
  Qed.
  Lemma Inv_At h r : Inv h -> r ∈ rs -> exists ids, At h r ids /\ hops (ids0 r) ids.
  Proof.
    intros [K C] Hr. destruct (C r Hr) as (ids & A & B). exists ids. split; [|done]. split; [done|]. split; [done|].
    split; [by apply hops_perm|]. intros q Hq _. by apply C.
  Qed.

  Context (Hnd : forall r, r ∈ rs -> NoDup (ids0 r)).
  Context (Hdj : forall r q s, r ∈ rs -> q ∈ rs -> r <> q -> s ∈ ids0 r -> s ∉ ids0 q).
  Context (Hex : forall r s, r ∈ rs -> s ∈ ids0 r -> is_Some (h_stops h0 !! s)).

  Lemma At_flip h r X a b Y : r ∈ rs -> At h r (X ++ a :: b :: Y) ->
    exists h', LocalSearch.flip r a b (head Y) h = (Ok tt, h') /\ At h' r (X ++ b :: a :: Y).
  Proof.
    intros Hr (K & [C1 C2] & P & O).
    assert (N : NoDup (X ++ a :: b :: Y)) by (rewrite P; by apply Hnd).
    destruct (flip_effect h r X a b Y N C1 C2) as (h' & E & D1 & D2 & D3).
    exists h'. split; [done|]. split; [by eapply Kept_changes|]. split; [done|]. split.
    { rewrite <- P. apply Permutation_app_head. constructor. }
    intros q Hq Hne. destruct (O q Hq Hne) as (ids' & [B1 B2] & B3). exists ids'. split; [|done]. split.
    - destruct B1 as (c & Hc & <-). destruct (co_routes _ _ _ _ D3 q c Hc) as (c' & Hc' & _ & Es). exists c'. split; [done|by apply Es].
    - intros i s Hi. destruct (B2 i s Hi) as (c & Hc & Ep). destruct (co_stops _ _ _ _ D3 s c Hc) as (c' & Hc' & Es). exists c'. split; [done|].
      rewrite decide_False in Es; [rewrite <- Ep; apply Es|]. intros Hs.
      apply elem_of_list_lookup_2 in Hi. rewrite (hops_perm _ _ B3) in Hi. apply (Hdj q r s); try done.
      rewrite <- P. destruct Y; cbn in Hs; set_solver.
  Qed.

  (** whatever the outcome of [m] *)
  Definition holds_after {A} (m : M A) (h : heap) : Prop := Inv (m h).2.
  Lemma after_bind {A B} (m : M A) (k : A -> M B) h : holds_after m h ->
    (forall x h', m h = (Ok x, h') -> holds_after (k x) h') -> holds_after (bind m k) h.
  Proof. unfold holds_after, bind. intros H1 H2. destruct (m h) as [[x|e] h']; [by apply H2|done]. Qed.
  Lemma after_mm {A} (m : M A) h : mm m -> Inv h -> holds_after m h.
  Proof. intros H I. by eapply Inv_memo. Qed.
  Lemma after_fold {A B} (f : B -> A -> M B) l : (forall z x h, x ∈ l -> Inv h -> holds_after (f z x) h) ->
    forall z h, Inv h -> holds_after (foldM f z l) h.
  Proof.
    intros H. induction l as [|x l IH]; intros z h I; [done|]. cbn. apply after_bind; [apply H; [left|done]|].
    intros z' h' E. apply IH; [intros; apply H; [by right|done]|].
    assert (I' : Inv h') by (pose proof (H z x h (elem_of_list_here _ _) I) as G; unfold holds_after in G; by rewrite E in G). done.
  Qed.
  Lemma after_iter {A} (f : A -> M unit) l : (forall x h, x ∈ l -> Inv h -> holds_after (f x) h) ->
    forall h, Inv h -> holds_after (iterM f l) h.
  Proof.
    intros H. induction l as [|x l IH]; intros h I; [done|]. cbn. apply after_bind; [apply H; [left|done]|].
    intros z' h' E. apply IH; [intros; apply H; [by right|done]|].
    assert (I' : Inv h') by (pose proof (H x h (elem_of_list_here _ _) I) as G; unfold holds_after in G; by rewrite E in G). done.
  Qed.
  Lemma memo_of {A} (m : M A) h x h' : mm m -> m h = (x, h') -> memo h h'.
  Proof. intros H E. pose proof (H h) as G. by rewrite E in G. Qed.

  Lemma set_diff_disjoint (l m : list nat) : set_diff l m = l -> forall x, x ∈ l -> x ∉ m.
  Proof.
    unfold set_diff. intros E x Hx. rewrite <- E in Hx. by apply elem_of_list_filter in Hx as [Hx _].
  Qed.
  Lemma split_at (ids : list nat) i a b : ids !! i = Some a -> ids !! S i = Some b ->
    ids = take i ids ++ a :: b :: drop (S (S i)) ids.
  Proof.
    intros Ha Hb. rewrite <- (take_drop i ids) at 1. f_equal. rewrite (drop_S _ _ _ Ha). f_equal. by rewrite (drop_S _ _ _ Hb).
  Qed.
  Lemma after_step o r cost i h : r ∈ rs -> (1 <= i)%nat -> Inv h -> holds_after (one_shift_step o r cost i) h.
  Proof.
    intros Hr Hi I. destruct (Inv_At h r I Hr) as (ids & A & B). pose proof A as (K & [(rc & Hrc & Eids) C2] & P & O).
    unfold one_shift_step. apply after_bind; [by apply after_mm; [apply mm_route_stops|]|]. intros ss h1 E.
    unfold route_stops, bind, route_get, ret in E. rewrite Hrc in E. injection E as <- <-. rewrite Eids.
    apply after_bind; [by apply after_mm; [apply mm_nth|]|]. intros a h1 E.
    unfold py_nth in E. destruct (ids !! i) as [a'|] eqn:Ha; [|discriminate E]. injection E as -> <-.
    apply after_bind; [by apply after_mm; [apply mm_nth|]|]. intros b h1 E.
    unfold py_nth in E. destruct (ids !! S i) as [b'|] eqn:Hb; [|discriminate E]. injection E as -> <-.
    apply after_bind; [by apply after_mm; [apply mm_stop_get|]|]. intros ca h1 E.
    unfold stop_get in E. destruct (h_stops h !! a) as [ca'|] eqn:Hca; [|discriminate E]. injection E as -> <-.
    apply after_bind; [by apply after_mm; [apply mm_stop_get|]|]. intros cb h1 E.
    unfold stop_get in E. destruct (h_stops h !! b) as [cb'|] eqn:Hcb; [|discriminate E]. injection E as -> <-.
    destruct (bool_decide _) eqn:Ed; cbn [negb]; [|done]. apply bool_decide_eq_true in Ed.
    pose proof (split_at ids i a b Ha Hb) as Es. set (X := take i ids) in *. set (Y := drop (S (S i)) ids) in *.
    assert (Eh : ids !! S (S i) = head Y) by (unfold Y; by rewrite head_lookup, lookup_drop, Nat.add_0_r).
    rewrite Eh. rewrite Es in A. destruct (At_flip h r X a b Y Hr A) as (h1 & E1 & A1).
    assert (HX : X <> []).
    { unfold X. intros EX. apply (f_equal length) in EX. apply lookup_lt_Some in Ha. rewrite take_length in EX. cbn in EX. lia. }
    assert (B1 : hops (ids0 r) (X ++ b :: a :: Y)).
    { eapply hops_snoc; [exact B|].
      destruct (Hex r a Hr) as [da Hda]; [rewrite <- P; by eapply elem_of_list_lookup_2|].
      destruct (Hex r b Hr) as [db Hdb]; [rewrite <- P; by eapply elem_of_list_lookup_2|].
      exists X, a, b, Y, da, db. repeat (split; [done|]).
      destruct (kp_stops _ K a da Hda) as (ca2 & Hca2 & Sa). destruct (kp_stops _ K b db Hdb) as (cb2 & Hcb2 & Sb).
      rewrite Hca in Hca2. injection Hca2 as <-. rewrite Hcb in Hcb2. injection Hcb2 as <-.
      destruct Sa as (_ & _ & Ep & _). destruct Sb as (_ & _ & _ & Eq & _). cbn in Ep, Eq. rewrite <- Ep, <- Eq.
      by apply set_diff_disjoint. }
    assert (I1 : Inv h1) by by eapply At_Inv.
    apply after_bind; [unfold holds_after; by rewrite E1|]. intros ? h2 E. rewrite E1 in E. injection E as <- <-.
    apply after_bind; [by apply after_mm; [apply mm_route_feasible|]|]. intros ok h2 E.
    pose proof (memo_of _ _ _ _ (mm_route_feasible r) E) as M2.
    pose proof (At_memo _ _ _ _ M2 A1) as A2.
    assert (Mu : mm (if negb ok then ret true else let! v := route_value o r in ret (negb (tuple_ltb cost v)))).
    { destruct ok; cbn; [|apply mm_ret]. apply mm_bind; [apply mm_route_value|]. intros. apply mm_ret. }
    apply after_bind; [apply after_mm; [done|by eapply Inv_memo]|]. intros undo h3 E3. clear E.
    pose proof (memo_of _ _ _ _ Mu E3) as M3. pose proof (At_memo _ _ _ _ M3 A2) as A3.
    destruct undo; [|apply after_mm; [apply mm_route_value|by eapply At_Inv]].
    destruct (At_flip h3 r X b a Y Hr A3) as (h4 & E4 & A4).
    assert (I4 : Inv h4) by (eapply At_Inv; [exact A4|by rewrite <- Es]).
    apply after_bind; [unfold holds_after; by rewrite E4|]. intros ? h5 E5. rewrite E4 in E5. injection E5 as <- <-. done.
  Qed.

  Lemma after_route o r h : r ∈ rs -> Inv h -> holds_after (one_shift_route o r) h.
  Proof.
    intros Hr I. unfold one_shift_route.
    assert (M1 : mm (route_value o r)) by apply mm_route_value. assert (M2 : mm (route_stops r)) by apply mm_route_stops.
    apply after_bind; [by apply after_mm|]. intros cost h1 E1. assert (I1 : Inv h1) by (eapply Inv_memo; [by eapply (memo_of _ _ _ _ M1)|done]).
    apply after_bind; [by apply after_mm|]. intros ss h2 E2. assert (I2 : Inv h2) by (eapply Inv_memo; [by eapply (memo_of _ _ _ _ M2)|done]).
    apply after_bind.
    - apply after_fold; [|done]. intros z i h' Hi I'. apply elem_of_seq in Hi. apply after_step; [done|lia|done].
    - intros z h3 E3. unfold holds_after. cbn.
      assert (holds_after (foldM (one_shift_step o r) cost (seq 1 (length ss - 2))) h2) as G.
      { apply after_fold; [|done]. intros z' i h' Hi I'. apply elem_of_seq in Hi. apply after_step; [done|lia|done]. }
      unfold holds_after in G. by rewrite E3 in G.
  Qed.
  Lemma after_improve o h : Inv h -> holds_after (one_shift_improve o rs) h /\
    forall pl, (one_shift_improve o rs h).1 = Ok pl -> pl = rs.
  Proof.
    intros I. assert (H : holds_after (one_shift_improve o rs) h).
    { unfold one_shift_improve. assert (M : mm (set_order rs)) by apply mm_set_order.
      apply after_bind; [by apply after_mm|]. intros order h1 E1.
      assert (I1 : Inv h1) by (eapply Inv_memo; [by eapply (memo_of _ _ _ _ M)|done]).
      assert (Hp : forall r, r ∈ order -> r ∈ rs).
      { assert (R : runs (set_order rs) h (fun l _ => l ≡ₚ rs)) by (by apply runs_set_order). unfold runs in R. rewrite E1 in R. intros r Hr.
        by rewrite <- R. }
      assert (G : holds_after (iterM (one_shift_route o) order) h1).
      { apply after_iter; [|done]. intros r h' Hr I'. apply after_route; [by apply Hp|done]. }
      apply after_bind; [done|]. intros u h2 E2. unfold holds_after in *. rewrite E2 in G. done. }
    split; [done|]. intros pl. unfold one_shift_improve, bind. destruct (set_order rs h) as [[order|e] h1]; [|done].
    destruct (iterM _ order h1) as [[u|e] h2]; [|done]. by intros [= <-].
  Qed.
End chain.
