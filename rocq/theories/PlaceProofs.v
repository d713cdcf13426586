(** Proofs about the same instance elsewhere. *)
From Verif Require Export SpecPlaces Meta.

Section places.
  Context (W W' : World) (g : position -> position) (E : elsewhere g W W').

  Definition alike {A} (R : A -> A -> Prop) (m m' : M A) : Prop := forall h, inside W h ->
    (match fst (m h), fst (m' (put_state g h)) with
     | Ok a, Ok a' => R a a' | Raise e, Raise e' => e = e' | _, _ => False end) /\
    snd (m' (put_state g h)) = put_state g (snd (m h)) /\ inside W (snd (m h)).
  Definition same {A} (m m' : M A) : Prop := alike eq m m'.

  Lemma same_same_run {A} (m m' : M A) : same m m' -> same_run W g m m'.
  Proof.
    intros H h Hh. destruct (H h Hh) as (H1 & H2 & H3). split; [|done].
    destruct (m h) as [[a|e] h1], (m' (put_state g h)) as [[a'|e'] h1']; cbn in *; by subst.
  Qed.
  Lemma same_run_same {A} (m m' : M A) : same_run W g m m' -> same m m'.
  Proof. intros H h Hh. destruct (H h Hh) as [-> H3]. cbn. destruct (fst (m h)); done. Qed.

  Lemma alike_bind {A B} (R : A -> A -> Prop) (Q : B -> B -> Prop) m m' k k' : alike R m m' ->
    (forall a a', R a a' -> alike Q (k a) (k' a')) -> alike Q (bind m k) (bind m' k').
  Proof.
    intros H K h Hh. destruct (H h Hh) as (H1 & H2 & H3). unfold bind.
    destruct (m h) as [[a|e] h1], (m' (put_state g h)) as [[a'|e'] h1']; cbn in *; try done; subst h1'.
    by apply K.
  Qed.
  Lemma same_bind {A B} (m m' : M A) (k k' : A -> M B) : same m m' -> (forall a, same (k a) (k' a)) -> same (bind m k) (bind m' k').
  Proof. intros H K. eapply alike_bind; [exact H|]. intros a a' <-. apply K. Qed.
  Lemma same_ret {A} (a a' : A) : a' = a -> same (ret a) (ret a').
  Proof. intros -> h Hh. done. Qed.
  Lemma same_raise {A} e : same (raise e : M A) (raise e).
  Proof. intros h Hh. done. Qed.
  Lemma same_mapM {A B} (f f' : A -> M B) l : (forall x, same (f x) (f' x)) -> same (mapM f l) (mapM f' l).
  Proof. intros H. induction l as [|x l IH]; cbn [mapM]; [by apply same_ret|]. apply same_bind; [done|]. intros y. apply same_bind; [done|]. intros ys. by apply same_ret. Qed.
  Lemma same_iterM {A} (f f' : A -> M unit) l : (forall x, same (f x) (f' x)) -> same (iterM f l) (iterM f' l).
  Proof. intros H. induction l as [|x l IH]; cbn [iterM]; [by apply same_ret|]. by apply same_bind. Qed.
  Lemma same_foldM {A B} (f f' : B -> A -> M B) l : (forall b x, same (f b x) (f' b x)) -> forall b, same (foldM f b l) (foldM f' b l).
  Proof. intros H. induction l as [|x l IH]; intros b; cbn [foldM]; [by apply same_ret|]. by apply same_bind. Qed.
  Lemma same_filterM {A} (f f' : A -> M bool) l : (forall x, same (f x) (f' x)) -> same (filterM f l) (filterM f' l).
  Proof. intros H. induction l as [|x l IH]; cbn [filterM]; [by apply same_ret|]. apply same_bind; [done|]. intros y. apply same_bind; [done|]. intros ys. by apply same_ret. Qed.
  Lemma same_allM {A} (f f' : A -> M bool) l : (forall x, same (f x) (f' x)) -> same (allM f l) (allM f' l).
  Proof. intros H. induction l as [|x l IH]; cbn [allM]; [by apply same_ret|]. apply same_bind; [done|]. intros []; [done|by apply same_ret]. Qed.
  Lemma same_anyM {A} (f f' : A -> M bool) l : (forall x, same (f x) (f' x)) -> same (anyM f l) (anyM f' l).
  Proof. intros H. induction l as [|x l IH]; cbn [anyM]; [by apply same_ret|]. apply same_bind; [done|]. intros []; [by apply same_ret|done]. Qed.
  Lemma same_assert b b' : b' = b -> same (py_assert b) (py_assert b').
  Proof. intros ->. destruct b; [by apply same_ret|apply same_raise]. Qed.
  Lemma same_nth {A} (l : list A) i : same (py_nth l i) (py_nth l i).
  Proof. unfold py_nth. destruct (l !! i); [by apply same_ret|apply same_raise]. Qed.
  Lemma same_some {A} (o : option A) : same (py_some o) (py_some o).
  Proof. destruct o; [by apply same_ret|apply same_raise]. Qed.

  (** ** The heap *)
  Lemma put_stops_lookup h s : h_stops (put_state g h) !! s = put_stop g <$> h_stops h !! s.
  Proof. cbn. by rewrite <- list_lookup_fmap. Qed.
  Lemma alike_stop_get s : alike (fun c c' => c' = put_stop g c /\ place_of W (st_position c)) (stop_get s) (stop_get s).
  Proof.
    intros h Hh. unfold stop_get. rewrite put_stops_lookup. destruct (h_stops h !! s) as [c|] eqn:Hc; cbn; [|done].
    repeat split; try done. apply Hh. by eapply elem_of_list_lookup_2.
  Qed.
  Lemma same_stop_get {B} s (k k' : stop -> M B) : (forall c, place_of W (st_position c) -> same (k c) (k' (put_stop g c))) ->
    same (bind (stop_get s) k) (bind (stop_get s) k').
  Proof. intros H. eapply alike_bind; [apply alike_stop_get|]. intros c c' [-> Hc]. by apply H. Qed.
  Lemma same_pt_get p : same (pt_get p) (pt_get p).
  Proof. intros h Hh. unfold pt_get. cbn [put_state h_pts]. destruct (h_pts h !! p); cbn; done. Qed.
  Lemma same_route_get r : same (route_get r) (route_get r).
  Proof. intros h Hh. unfold route_get. cbn [put_state h_routes]. destruct (h_routes h !! r); cbn; done. Qed.
  Lemma same_pt_upd p f : same (pt_upd p f) (pt_upd p f).
  Proof. intros h Hh. done. Qed.
  Lemma same_route_upd p f : same (route_upd p f) (route_upd p f).
  Proof. intros h Hh. done. Qed.
  Lemma same_alloc_pt c : same (alloc_pt c) (alloc_pt c).
  Proof. intros h Hh. done. Qed.
  Lemma same_alloc_route c : same (alloc_route c) (alloc_route c).
  Proof. intros h Hh. done. Qed.
  Lemma same_tick : same tick tick.
  Proof. intros h Hh. done. Qed.
  Lemma same_stop_upd s (f f' : stop -> stop) : (forall c, f' (put_stop g c) = put_stop g (f c)) -> (forall c, st_position (f c) = st_position c) ->
    same (stop_upd s f) (stop_upd s f').
  Proof.
    intros Hf Hp h Hh. split; [done|]. split.
    - unfold stop_upd, with_stops, put_state. cbn. f_equal. apply list_eq. intros i.
      change (alter f' s (put_stop g <$> h_stops h) !! i = (put_stop g <$> alter f s (h_stops h)) !! i). rewrite list_lookup_fmap. destruct (decide (i = s)) as [->|N].
      + rewrite !list_lookup_alter, list_lookup_fmap. destruct (h_stops h !! s); cbn; [by rewrite Hf|done].
      + by rewrite !list_lookup_alter_ne, list_lookup_fmap.
    - intros c Hc. cbn in Hc. apply elem_of_list_lookup in Hc as [i Hi]. destruct (decide (i = s)) as [->|N].
      + rewrite list_lookup_alter in Hi. apply fmap_Some in Hi as (c0 & H0 & ->). rewrite Hp. apply Hh. by eapply elem_of_list_lookup_2.
      + rewrite list_lookup_alter_ne in Hi by done. apply Hh. by eapply elem_of_list_lookup_2.
  Qed.
  Lemma same_alloc_stop c c' : c' = put_stop g c -> place_of W (st_position c) -> same (alloc_stop c) (alloc_stop c').
  Proof.
    intros -> Hc h Hh. split; [cbn; by rewrite map_length|]. split.
    - unfold alloc_stop, with_stops, put_state. cbn. by rewrite map_app.
    - intros d Hd. cbn in Hd. apply elem_of_app in Hd as [Hd|Hd%elem_of_list_singleton]; [by apply Hh|by subst].
  Qed.
  Lemma same_new_stop v p p' prev start : p' = g p -> place_of W p -> same (new_stop v p prev start) (new_stop v p' prev start).
  Proof. intros -> Hp. by apply same_alloc_stop. Qed.
  Lemma same_chain {A} (f f' : nat -> M A) : (forall n, same (f n) (f' n)) -> same (chain_fuel f) (chain_fuel f').
  Proof. intros H h Hh. unfold chain_fuel. cbn [put_state h_stops]. rewrite map_length. by apply H. Qed.

  (** ** The world *)
  Lemma place_origin t : place_of W (origin_position (@w_trip W t)).
  Proof. left. exists t. by left. Qed.
  Lemma place_destination t : place_of W (destination_position (@w_trip W t)).
  Proof. left. exists t. by right. Qed.
  Lemma place_v_origin v : place_of W (@v_origin_position W v).
  Proof. right. exists v. by left. Qed.
  Lemma vh_ends v : vh_destination v = ends_at v.
  Proof. unfold vh_destination, ends_at. by destruct (vh_destination_opt v). Qed.
  Lemma place_v_destination v : place_of W (@v_destination_position W v).
  Proof. right. exists v. right. unfold v_destination_position. by rewrite vh_ends. Qed.
  Lemma eb_same : @eb W' = @eb W.
  Proof. unfold eb. by rewrite (ew_bound _ _ _ E). Qed.
  Lemma dist_same p q : place_of W p -> place_of W q -> @dist W' (g p) (g q) = @dist W p q.
  Proof. apply (ew_distance _ _ _ E). Qed.
  Lemma origin_position_same t : origin_position (@w_trip W' t) = g (origin_position (@w_trip W t)).
  Proof. unfold origin_position. by destruct (ew_trip _ _ _ E t) as (-> & _). Qed.
  Lemma destination_position_same t : destination_position (@w_trip W' t) = g (destination_position (@w_trip W t)).
  Proof. unfold destination_position. by destruct (ew_trip _ _ _ E t) as (_ & -> & _). Qed.
  Lemma v_origin_position_same v : @v_origin_position W' v = g (@v_origin_position W v).
  Proof. by destruct (ew_vehicle _ _ _ E v) as (? & _). Qed.
  Lemma v_destination_position_same v : @v_destination_position W' v = g (@v_destination_position W v).
  Proof. unfold v_destination_position. rewrite !vh_ends. by destruct (ew_vehicle _ _ _ E v) as (_ & _ & ? & _). Qed.
  Lemma v_origin_earliest_same v : @v_origin_earliest W' v = @v_origin_earliest W v.
  Proof. by destruct (ew_vehicle _ _ _ E v) as (_ & ? & _). Qed.
  Lemma v_destination_latest_same v : @v_destination_latest W' v = @v_destination_latest W v.
  Proof. unfold v_destination_latest. rewrite !vh_ends. by destruct (ew_vehicle _ _ _ E v) as (_ & _ & _ & ? & _). Qed.
  Lemma v_capacity_same v : @v_capacity W' v = @v_capacity W v.
  Proof. by destruct (ew_vehicle _ _ _ E v) as (_ & _ & _ & _ & ? & _). Qed.
  Lemma v_timeout_same v : @v_timeout W' v = @v_timeout W v.
  Proof. by destruct (ew_vehicle _ _ _ E v) as (_ & _ & _ & _ & _ & ?). Qed.
  Lemma svc_dist_same t : @svc_dist W' (tr_origin (@w_trip W' t)) (tr_destination (@w_trip W' t)) = @svc_dist W (tr_origin (@w_trip W t)) (tr_destination (@w_trip W t)).
  Proof. unfold svc_dist. destruct (ew_trip _ _ _ E t) as (-> & -> & _). apply dist_same; [apply place_origin|apply place_destination]. Qed.
  Lemma trip_distance_same t : @trip_distance W' (@w_trip W' t) = @trip_distance W (@w_trip W t).
  Proof. apply svc_dist_same. Qed.
  Lemma origin_earliest_same t : origin_earliest (@w_trip W' t) = origin_earliest (@w_trip W t).
  Proof. unfold origin_earliest. by destruct (ew_trip _ _ _ E t) as (-> & -> & _ & _ & ->). Qed.
  Lemma origin_latest_same t : @origin_latest W' (@w_trip W' t) = @origin_latest W (@w_trip W t).
  Proof. unfold origin_latest. rewrite svc_dist_same. by destruct (ew_trip _ _ _ E t) as (-> & -> & _ & _ & _). Qed.
  Lemma destination_earliest_same t : @destination_earliest W' (@w_trip W' t) = @destination_earliest W (@w_trip W t).
  Proof. unfold destination_earliest. rewrite svc_dist_same. by destruct (ew_trip _ _ _ E t) as (-> & -> & _ & _ & _). Qed.
  Lemma destination_latest_same t : destination_latest (@w_trip W' t) = destination_latest (@w_trip W t).
  Proof. unfold destination_latest. by destruct (ew_trip _ _ _ E t) as (-> & -> & _ & _ & ->). Qed.
  Lemma origin_duration_same t : origin_duration (@w_trip W' t) = origin_duration (@w_trip W t).
  Proof. unfold origin_duration. by destruct (ew_trip _ _ _ E t) as (-> & _). Qed.
  Lemma destination_duration_same t : destination_duration (@w_trip W' t) = destination_duration (@w_trip W t).
  Proof. unfold destination_duration. by destruct (ew_trip _ _ _ E t) as (_ & -> & _). Qed.
  Lemma tr_capacity_same t : tr_capacity (@w_trip W' t) = tr_capacity (@w_trip W t).
  Proof. by destruct (ew_trip _ _ _ E t) as (_ & _ & -> & _). Qed.
  Lemma tr_bonus_same t : tr_bonus (@w_trip W' t) = tr_bonus (@w_trip W t).
  Proof. by destruct (ew_trip _ _ _ E t) as (_ & _ & _ & -> & _). Qed.
  Lemma tr_timeout_same t : tr_timeout (@w_trip W' t) = tr_timeout (@w_trip W t).
  Proof. by destruct (ew_trip _ _ _ E t) as (_ & _ & _ & _ & ->). Qed.
  Lemma position_same p q : place_of W p -> place_of W q -> bool_decide (g p = g q) = bool_decide (p = q).
  Proof.
    intros Hp Hq. apply bool_decide_ext. split; [by apply (ew_apart _ _ _ E)|by intros ->].
  Qed.

  (** ** Every function of the model *)
  Create HintDb same.
  #[local] Hint Resolve same_nth same_some same_pt_get same_route_get same_pt_upd same_route_upd same_alloc_pt
    same_alloc_route same_tick place_origin place_destination place_v_origin place_v_destination : same.
  Ltac norm := cbn [put_stop st_vehicle st_position st_pickups st_deliveries st_previous st_starting st_arrival st_departure
      st_capacity st_feasible];
    rewrite ?eb_same, ?origin_position_same, ?destination_position_same, ?v_origin_position_same, ?v_destination_position_same,
      ?v_origin_earliest_same, ?v_destination_latest_same, ?v_capacity_same, ?v_timeout_same, ?trip_distance_same,
      ?origin_earliest_same, ?origin_latest_same, ?destination_earliest_same, ?destination_latest_same, ?origin_duration_same,
      ?destination_duration_same, ?tr_capacity_same, ?tr_bonus_same, ?tr_timeout_same,
      ?(ew_shuffle _ _ _ E), ?(ew_choice _ _ _ E), ?(ew_sample _ _ _ E);
    rewrite ?position_same by (assumption || auto 2 with same nocore).
  Ltac go :=
    intros; norm;
    lazymatch goal with
    | |- same (ret _) (ret _) => apply same_ret; try reflexivity
    | |- same (raise _) (raise _) => apply same_raise
    | |- same (py_assert _) (py_assert _) => apply same_assert; try reflexivity
    | |- same (bind (stop_get _) _) (bind (stop_get _) _) => apply same_stop_get; intros; go
    | |- same (bind _ _) (bind _ _) => apply same_bind; [go|intros; go]
    | |- same (mapM _ _) (mapM _ _) => apply same_mapM; intros; go
    | |- same (iterM _ _) (iterM _ _) => apply same_iterM; intros; go
    | |- same (foldM _ _ _) (foldM _ _ _) => apply same_foldM; intros; go
    | |- same (filterM _ _) (filterM _ _) => apply same_filterM; intros; go
    | |- same (allM _ _) (allM _ _) => apply same_allM; intros; go
    | |- same (anyM _ _) (anyM _ _) => apply same_anyM; intros; go
    | |- same (chain_fuel _) (chain_fuel _) => apply same_chain; intros; go
    | |- same (stop_upd _ _) (stop_upd _ _) => apply same_stop_upd; intros; reflexivity
    | |- same (new_stop _ _ _ _) (new_stop _ _ _ _) => apply same_new_stop; [try reflexivity|try assumption; auto 2 with same nocore]
    | |- same (match ?x with _ => _ end) _ => destruct x eqn:?; go
    | |- _ => auto 3 with same nocore
    end.

  Lemma s_trips_of l : same (trips_of l) (trips_of l).
  Proof. unfold trips_of. go. Qed.
  #[local] Hint Resolve s_trips_of : same.
  Lemma maps_same {A} (f f' : nat -> A) l : (forall t, f' t = f t) -> map f' l = map f l.
  Proof. intros H. apply map_ext. exact H. Qed.
  Lemma s_stop_earliest s : same (@stop_earliest W s) (@stop_earliest W' s).
  Proof. unfold stop_earliest. go. rewrite (maps_same _ _ _ origin_earliest_same), (maps_same _ _ _ destination_earliest_same). done. Qed.
  Lemma s_stop_latest s : same (@stop_latest W s) (@stop_latest W' s).
  Proof. unfold stop_latest. go. rewrite (maps_same _ _ _ origin_latest_same), (maps_same _ _ _ destination_latest_same). done. Qed.
  Lemma s_stop_load_time s : same (@stop_load_time W s) (@stop_load_time W' s).
  Proof. unfold stop_load_time. go. rewrite (maps_same _ _ _ origin_duration_same), (maps_same _ _ _ destination_duration_same). done. Qed.
  #[local] Hint Resolve s_stop_earliest s_stop_latest s_stop_load_time : same.
  Lemma alike_previous_position s : alike (fun p p' => p' = g p /\ place_of W p) (@previous_position W s) (@previous_position W' s).
  Proof.
    unfold previous_position. eapply alike_bind; [apply alike_stop_get|]. intros c c' [-> Hc]. norm. destruct (st_previous c) as [q|].
    - eapply alike_bind; [apply alike_stop_get|]. intros d d' [-> Hd]. intros h Hh. done.
    - intros h Hh. cbn. repeat split; try done. apply place_v_origin.
  Qed.
  Lemma same_previous_position {B} s (k k' : position -> M B) : (forall p, place_of W p -> same (k p) (k' (g p))) ->
    same (bind (@previous_position W s) k) (bind (@previous_position W' s) k').
  Proof. intros H. eapply alike_bind; [apply alike_previous_position|]. intros c c' [-> Hc]. by apply H. Qed.
  Lemma s_stop_distance s : same (@stop_distance W s) (@stop_distance W' s).
  Proof. unfold stop_distance. apply same_stop_get. intros c Hc. apply same_previous_position. intros p Hp. apply same_ret. by apply dist_same. Qed.
  Lemma s_previous_departure dep dep' s : (forall q, same (dep q) (dep' q)) -> same (@previous_departure_with W dep s) (@previous_departure_with W' dep' s).
  Proof. intros H. unfold previous_departure_with. go. Qed.
  Lemma s_transit dep dep' s : (forall q, same (dep q) (dep' q)) -> same (@transit_with W dep s) (@transit_with W' dep' s).
  Proof.
    intros H. unfold transit_with. apply same_stop_get. intros c Hc. apply same_previous_position. intros p Hp.
    apply same_bind; [by apply s_previous_departure|]. intros _. apply same_ret. by apply dist_same.
  Qed.
  Lemma s_arrival dep dep' s : (forall q, same (dep q) (dep' q)) -> same (@arrival_with W dep s) (@arrival_with W' dep' s).
  Proof.
    intros H. unfold arrival_with. apply same_stop_get. intros c Hc. norm. destruct (st_arrival c); [by apply same_ret|].
    apply same_bind; [by apply s_previous_departure|]. intros pd. apply same_bind; [by apply s_transit|]. intros tr. go.
  Qed.
  Lemma s_starting dep dep' s : (forall q, same (dep q) (dep' q)) -> same (@starting_with W dep s) (@starting_with W' dep' s).
  Proof.
    intros H. unfold starting_with. apply same_stop_get. intros c Hc. norm.
    apply same_bind; [destruct (st_starting c); [by apply same_ret|by apply s_arrival]|]. intros value. apply same_bind; [apply s_stop_earliest|].
    intros e. apply same_bind; [by apply s_arrival|]. go.
  Qed.
  Lemma s_departure_fuel n : forall s, same (@departure_fuel W n s) (@departure_fuel W' n s).
  Proof.
    induction n as [|n IH]; intros s; cbn [departure_fuel]; [apply same_raise|]. apply same_stop_get. intros c Hc. norm.
    destruct (st_departure c); [by apply same_ret|]. apply same_bind; [by apply s_starting|]. go.
  Qed.
  Lemma s_departure_time s : same (@departure_time W s) (@departure_time W' s).
  Proof. apply same_chain. intros n. apply s_departure_fuel. Qed.
  Lemma s_arrival_time s : same (@arrival_time W s) (@arrival_time W' s).
  Proof. apply same_chain. intros n. apply s_arrival. apply s_departure_fuel. Qed.
  Lemma s_starting_time s : same (@starting_time W s) (@starting_time W' s).
  Proof. apply same_chain. intros n. apply s_starting. apply s_departure_fuel. Qed.
  Lemma s_transit_time s : same (@transit_time W s) (@transit_time W' s).
  Proof. apply same_chain. intros n. apply s_transit. apply s_departure_fuel. Qed.
  #[local] Hint Resolve s_stop_distance s_departure_time s_arrival_time s_starting_time s_transit_time : same.
  Lemma s_waiting_time s : same (@waiting_time W s) (@waiting_time W' s).
  Proof. unfold waiting_time. go. Qed.
  Lemma s_capacity_fuel n : forall s, same (@capacity_fuel W n s) (@capacity_fuel W' n s).
  Proof.
    induction n as [|n IH]; intros s; cbn [capacity_fuel]; [apply same_raise|]. apply same_stop_get. intros c Hc. norm.
    destruct (st_capacity c); [by apply same_ret|]. apply same_bind; [destruct (st_previous c); [done|by apply same_ret]|]. intros prev.
    apply same_bind; [apply s_trips_of|]. intros ps. apply same_bind; [apply s_trips_of|]. intros ds.
    rewrite !(maps_same _ _ _ tr_capacity_same). go.
  Qed.
  Lemma s_capacity s : same (@capacity W s) (@capacity W' s).
  Proof. apply same_chain. intros n. apply s_capacity_fuel. Qed.
  #[local] Hint Resolve s_waiting_time s_capacity : same.
  Lemma s_stop_feasible s : same (@stop_feasible W s) (@stop_feasible W' s).
  Proof. unfold stop_feasible. go. Qed.
  Lemma s_all_previous_fuel n : forall s, same (all_previous_fuel n s) (all_previous_fuel n s).
  Proof. induction n as [|n IH]; intros s; cbn [all_previous_fuel]; go. Qed.
  Lemma s_all_previous s : same (all_previous s) (all_previous s).
  Proof. apply same_chain. intros n. apply s_all_previous_fuel. Qed.
  Lemma s_pt_flush p : same (pt_flush p) (pt_flush p).
  Proof. unfold pt_flush. go. Qed.
  #[local] Hint Resolve s_stop_feasible s_all_previous s_pt_flush : same.
  Lemma s_stop_flush s : same (stop_flush s) (stop_flush s).
  Proof. unfold stop_flush. go. Qed.
  #[local] Hint Resolve s_stop_flush : same.
  Lemma s_set_starting_time s x : same (set_starting_time s x) (set_starting_time s x).
  Proof. unfold set_starting_time. go. Qed.
  Lemma s_append_pickup s p : same (@append_pickup W s p) (@append_pickup W' s p).
  Proof. unfold append_pickup. go. Qed.
  Lemma s_append_delivery s p : same (@append_delivery W s p) (@append_delivery W' s p).
  Proof. unfold append_delivery. go. Qed.
  #[local] Hint Resolve s_set_starting_time s_append_pickup s_append_delivery : same.
  Lemma s_new_planned_trip v t a b : same (@new_planned_trip W v t a b) (@new_planned_trip W' v t a b).
  Proof. unfold new_planned_trip. go. Qed.
  Lemma s_pickup_time p : same (@pickup_time W p) (@pickup_time W' p).
  Proof. unfold pickup_time. go. Qed.
  Lemma s_delivery_time p : same (@delivery_time W p) (@delivery_time W' p).
  Proof. unfold delivery_time. go. Qed.
  #[local] Hint Resolve s_new_planned_trip s_pickup_time s_delivery_time : same.
  Lemma s_pt_duration p : same (@pt_duration W p) (@pt_duration W' p).
  Proof. unfold pt_duration. go. Qed.
  #[local] Hint Resolve s_pt_duration : same.
  Lemma s_pt_is_feasible p : same (@pt_is_feasible W p) (@pt_is_feasible W' p).
  Proof. unfold pt_is_feasible. go. Qed.
  #[local] Hint Resolve s_pt_is_feasible : same.

  (** routes *)
  Lemma s_route_stops r : same (route_stops r) (route_stops r).
  Proof. unfold route_stops. go. Qed.
  #[local] Hint Resolve s_route_stops : same.
  Lemma s_new_route v : same (@new_route W v) (@new_route W' v).
  Proof. unfold new_route. go. Qed.
  #[local] Hint Resolve s_new_route : same.
  Lemma s_planned_trips r : same (planned_trips r) (planned_trips r).
  Proof. unfold planned_trips. go. Qed.
  #[local] Hint Resolve s_planned_trips : same.
  Lemma s_route_trips r : same (route_trips r) (route_trips r).
  Proof. unfold route_trips. go. Qed.
  #[local] Hint Resolve s_route_trips : same.
  Lemma s_route_loaded r : same (route_loaded r) (route_loaded r).
  Proof. unfold route_loaded. go. Qed.
  #[local] Hint Resolve s_route_loaded : same.
  Lemma filters_same l : List.filter (fun t => negb (trip_empty (@w_trip W' t))) l = List.filter (fun t => negb (trip_empty (@w_trip W t))) l.
  Proof. induction l as [|t l IH]; [done|]. cbn. unfold trip_empty in *. rewrite IH. norm. done. Qed.
  Lemma s_route_loaded_trips r : same (@route_loaded_trips W r) (@route_loaded_trips W' r).
  Proof. unfold route_loaded_trips. go. apply filters_same. Qed.
  #[local] Hint Resolve s_route_loaded_trips : same.
  Lemma s_first_stop r : same (first_stop r) (first_stop r).
  Proof. unfold first_stop. go. Qed.
  #[local] Hint Resolve s_first_stop : same.
  Lemma s_last_stop r : same (last_stop r) (last_stop r).
  Proof. unfold last_stop. go. Qed.
  #[local] Hint Resolve s_last_stop : same.
  Lemma s_first_departure_time r : same (@first_departure_time W r) (@first_departure_time W' r).
  Proof. unfold first_departure_time. go. Qed.
  #[local] Hint Resolve s_first_departure_time : same.
  Lemma s_last_departure_time r : same (@last_departure_time W r) (@last_departure_time W' r).
  Proof. unfold last_departure_time. go. Qed.
  #[local] Hint Resolve s_last_departure_time : same.
  Lemma s_route_duration r : same (@route_duration W r) (@route_duration W' r).
  Proof. unfold route_duration. go. Qed.
  #[local] Hint Resolve s_route_duration : same.
  Lemma s_route_distance r : same (@route_distance W r) (@route_distance W' r).
  Proof. unfold route_distance. go. Qed.
  #[local] Hint Resolve s_route_distance : same.
  Lemma s_current_stop r : same (current_stop r) (current_stop r).
  Proof. unfold current_stop. go. Qed.
  #[local] Hint Resolve s_current_stop : same.
  Lemma s_feasible_planned_trips r : same (@feasible_planned_trips W r) (@feasible_planned_trips W' r).
  Proof. unfold feasible_planned_trips. go. Qed.
  #[local] Hint Resolve s_feasible_planned_trips : same.
  Lemma s_route_feasible r : same (@route_feasible W r) (@route_feasible W' r).
  Proof. unfold route_feasible. go. Qed.
  #[local] Hint Resolve s_route_feasible : same.
  Lemma s_route_flush r : same (route_flush r) (route_flush r).
  Proof. unfold route_flush. go. Qed.
  #[local] Hint Resolve s_route_flush : same.
  Lemma s_insert_stop_at r i s : same (insert_stop_at r i s) (insert_stop_at r i s).
  Proof. unfold insert_stop_at. go. Qed.
  #[local] Hint Resolve s_insert_stop_at : same.
  Lemma s_remove_stop_at r i : same (remove_stop_at r i) (remove_stop_at r i).
  Proof. unfold remove_stop_at. go. Qed.
  #[local] Hint Resolve s_remove_stop_at : same.
  Lemma s_insert_stop r s : same (insert_stop r s) (insert_stop r s).
  Proof. unfold insert_stop. go. Qed.
  #[local] Hint Resolve s_insert_stop : same.
  Lemma s_assert_linked r : same (assert_linked r) (assert_linked r).
  Proof. unfold assert_linked. go. Qed.
  #[local] Hint Resolve s_assert_linked : same.
  Lemma s_assert_monotone r : same (@assert_monotone W r) (@assert_monotone W' r).
  Proof. unfold assert_monotone. go. Qed.
  #[local] Hint Resolve s_assert_monotone : same.
  Lemma s_append_planned_trip r p : same (@append_planned_trip W r p) (@append_planned_trip W' r p).
  Proof. unfold append_planned_trip. go. Qed.
  #[local] Hint Resolve s_append_planned_trip : same.
  Lemma s_stop_has_trip t s : same (stop_has_trip t s) (stop_has_trip t s).
  Proof. unfold stop_has_trip. go. Qed.
  #[local] Hint Resolve s_stop_has_trip : same.
  Lemma s_remove_trip_loop r t n : same (remove_trip_loop r t n) (remove_trip_loop r t n).
  Proof. induction n as [|n IH]; cbn [remove_trip_loop]; go. Qed.
  #[local] Hint Resolve s_remove_trip_loop : same.
  Lemma s_remove_trip r t : same (@remove_trip W r t) (@remove_trip W' r t).
  Proof. unfold remove_trip. go. Qed.
  #[local] Hint Resolve s_remove_trip : same.
  Lemma s_cloner_loop ss d n : forall m mi, same (@cloner_loop W ss d n m mi) (@cloner_loop W' ss d n m mi).
  Proof. induction n as [|n IH]; intros m mi; cbn [cloner_loop]; go. Qed.
  #[local] Hint Resolve s_cloner_loop : same.
  Lemma s_cloner_init ss d : same (@cloner_init W ss d) (@cloner_init W' ss d).
  Proof. unfold cloner_init. go. Qed.
  #[local] Hint Resolve s_cloner_init : same.
  Lemma s_map_planned m f p : same (map_planned m f p) (map_planned m f p).
  Proof. unfold map_planned. go. Qed.
  #[local] Hint Resolve s_map_planned : same.
  Lemma s_clone_stop m l s : same (clone_stop m l s) (clone_stop m l s).
  Proof. unfold clone_stop. go. Qed.
  #[local] Hint Resolve s_clone_stop : same.
  Lemma s_cloner_clone r d : same (@cloner_clone W r d) (@cloner_clone W' r d).
  Proof. unfold cloner_clone. go. Qed.
  #[local] Hint Resolve s_cloner_clone : same.
  Lemma s_route_clone r i : same (@route_clone W r i) (@route_clone W' r i).
  Proof. unfold route_clone. go. Qed.
  #[local] Hint Resolve s_route_clone : same.
  Lemma s_copy_objects : same copy_objects copy_objects.
  Proof.
    intros h Hh. unfold copy_objects. cbn. rewrite map_length. split; [done|]. split.
    - unfold put_state. cbn. f_equal. rewrite map_app, !map_map. f_equal.
    - intros c Hc. apply elem_of_app in Hc as [Hc|Hc]; [by apply Hh|]. apply elem_of_list_fmap in Hc as (d & -> & Hd). cbn. by apply Hh.
  Qed.
  #[local] Hint Resolve s_copy_objects : same.
  Lemma s_deepcopy_routes rs : same (deepcopy_routes rs) (deepcopy_routes rs).
  Proof. unfold deepcopy_routes. go. Qed.
  #[local] Hint Resolve s_deepcopy_routes : same.
  Lemma s_set_order l : same (@set_order W l) (@set_order W' l).
  Proof. unfold set_order. go. Qed.
  #[local] Hint Resolve s_set_order : same.

  (** objectives and criteria *)
  Lemma s_ride_distance_fuel n : forall a b acc, same (@ride_distance_fuel W n a b acc) (@ride_distance_fuel W' n a b acc).
  Proof. induction n as [|n IH]; intros a b acc; cbn [ride_distance_fuel]; go. Qed.
  #[local] Hint Resolve s_ride_distance_fuel : same.
  Lemma s_planned_trip_value o p : same (@planned_trip_value W o p) (@planned_trip_value W' o p).
  Proof. unfold planned_trip_value. go. Qed.
  #[local] Hint Resolve s_planned_trip_value : same.
  Lemma s_stop_value o s : same (@stop_value W o s) (@stop_value W' o s).
  Proof. unfold stop_value. go. Qed.
  #[local] Hint Resolve s_stop_value : same.
  Lemma s_route_value o r : same (@route_value W o r) (@route_value W' o r).
  Proof. unfold route_value. go. Qed.
  #[local] Hint Resolve s_route_value : same.
  Lemma s_planning_value o pl : same (@planning_value W o pl) (@planning_value W' o pl).
  Proof. unfold planning_value. go. Qed.
  #[local] Hint Resolve s_planning_value : same.
  Lemma s_objective_best o l : same (@objective_best W o l) (@objective_best W' o l).
  Proof. unfold objective_best. go. Qed.
  #[local] Hint Resolve s_objective_best : same.
  Lemma s_planning_feasible pl : same (@planning_feasible W pl) (@planning_feasible W' pl).
  Proof. unfold planning_feasible. go. Qed.
  #[local] Hint Resolve s_planning_feasible : same.
  Lemma s_completed_trips pl : same (@completed_trips W pl) (@completed_trips W' pl).
  Proof. unfold completed_trips. go. Qed.
  #[local] Hint Resolve s_completed_trips : same.
  Lemma s_coverage_rate pl job : same (@coverage_rate W pl job) (@coverage_rate W' pl job).
  Proof. unfold coverage_rate. go. Qed.
  #[local] Hint Resolve s_coverage_rate : same.
  Lemma s_score_feasible k r : same (@score_feasible W k r) (@score_feasible W' k r).
  Proof. unfold score_feasible. go. by rewrite (maps_same _ _ _ trip_distance_same). Qed.
  #[local] Hint Resolve s_score_feasible : same.
  Lemma s_scoring k r : same (@scoring W k r) (@scoring W' k r).
  Proof. unfold scoring. go. Qed.
  #[local] Hint Resolve s_scoring : same.
  Lemma s_criterion_best k l : same (@criterion_best W k l) (@criterion_best W' k l).
  Proof. unfold criterion_best. go. Qed.
  #[local] Hint Resolve s_criterion_best : same.
  Lemma s_criterion_sorted k l : same (@criterion_sorted W k l) (@criterion_sorted W' k l).
  Proof. unfold criterion_sorted. go. Qed.
  #[local] Hint Resolve s_criterion_sorted : same.

  (** insertion *)
  Lemma s_build_pickup r t i : same (@build_pickup W r t i) (@build_pickup W' r t i).
  Proof. unfold build_pickup. go. Qed.
  #[local] Hint Resolve s_build_pickup : same.
  Lemma s_build_delivery r t i j s : same (@build_delivery W r t i j s) (@build_delivery W' r t i j s).
  Proof. unfold build_delivery. go. Qed.
  #[local] Hint Resolve s_build_delivery : same.
  Lemma s_longest_ride ps : same (@longest_ride W ps) (@longest_ride W' ps).
  Proof. unfold longest_ride. go. Qed.
  #[local] Hint Resolve s_longest_ride : same.
  Lemma s_delay_stop r i : same (@delay_stop W r i) (@delay_stop W' r i).
  Proof. unfold delay_stop. go. Qed.
  #[local] Hint Resolve s_delay_stop : same.
  Lemma s_delay_loop r lo n : same (@delay_loop W r lo n) (@delay_loop W' r lo n).
  Proof. induction n as [|n IH]; cbn [delay_loop]; go. Qed.
  #[local] Hint Resolve s_delay_loop : same.
  Lemma s_shift_departure r : same (@shift_departure W r) (@shift_departure W' r).
  Proof. unfold shift_departure. go. Qed.
  #[local] Hint Resolve s_shift_departure : same.
  Lemma s_improve_ride_times r i : same (@improve_ride_times W r i) (@improve_ride_times W' r i).
  Proof. unfold improve_ride_times. go. Qed.
  #[local] Hint Resolve s_improve_ride_times : same.
  Lemma s_compute_one r t i j : same (@compute_one W r t i j) (@compute_one W' r t i j).
  Proof. unfold compute_one. go. Qed.
  #[local] Hint Resolve s_compute_one : same.
  Lemma s_compute b r ts i j : same (@compute W b r ts i j) (@compute W' b r ts i j).
  Proof. unfold compute. go. Qed.
  #[local] Hint Resolve s_compute : same.
  Lemma s_sample_pairs n c : same (@sample_pairs W n c) (@sample_pairs W' n c).
  Proof. unfold sample_pairs. go. Qed.
  #[local] Hint Resolve s_sample_pairs : same.
  Lemma s_strategy_pairs st r : same (@strategy_pairs W st r) (@strategy_pairs W' st r).
  Proof. unfold strategy_pairs. go. Qed.
  #[local] Hint Resolve s_strategy_pairs : same.
  Lemma s_strategy_compute st b r ts : same (@strategy_compute W st b r ts) (@strategy_compute W' st b r ts).
  Proof. unfold strategy_compute. go. Qed.
  #[local] Hint Resolve s_strategy_compute : same.
  Lemma s_routes_dict rs : same (routes_dict rs) (routes_dict rs).
  Proof. unfold routes_dict. go. Qed.
  #[local] Hint Resolve s_routes_dict : same.
  Lemma s_iterator_init st b k fleet job i : same (@iterator_init W st b k fleet job i) (@iterator_init W' st b k fleet job i).
  Proof. unfold iterator_init. go. Qed.
  #[local] Hint Resolve s_iterator_init : same.
  Lemma s_find_empty rs : same (find_empty rs) (find_empty rs).
  Proof. induction rs as [|r rs IH]; cbn [find_empty]; go. Qed.
  #[local] Hint Resolve s_find_empty : same.
  Lemma s_attractive_routes i : same (@attractive_routes W i) (@attractive_routes W' i).
  Proof. unfold attractive_routes. go. Qed.
  #[local] Hint Resolve s_attractive_routes : same.
  Lemma s_mark_trip_as_done i t : same (mark_trip_as_done i t) (mark_trip_as_done i t).
  Proof. unfold mark_trip_as_done. go. Qed.
  #[local] Hint Resolve s_mark_trip_as_done : same.
  Lemma s_create_sub_ranking k r : same (@create_sub_ranking W k r) (@create_sub_ranking W' k r).
  Proof. unfold create_sub_ranking. go. Qed.
  #[local] Hint Resolve s_create_sub_ranking : same.
  Lemma s_initialize_ranking k : same (@initialize_ranking W k) (@initialize_ranking W' k).
  Proof. unfold initialize_ranking. go. Qed.
  #[local] Hint Resolve s_initialize_ranking : same.
  Lemma s_ranking_init st b k fleet job i s n : same (@ranking_init W st b k fleet job i s n) (@ranking_init W' st b k fleet job i s n).
  Proof. unfold ranking_init. go. Qed.
  #[local] Hint Resolve s_ranking_init : same.
  Lemma s_update_vehicle_ranking k p v : same (@update_vehicle_ranking W k p v) (@update_vehicle_ranking W' k p v).
  Proof. unfold update_vehicle_ranking. go. Qed.
  #[local] Hint Resolve s_update_vehicle_ranking : same.
  Lemma s_update_ranking k p : same (@update_ranking W k p) (@update_ranking W' k p).
  Proof. unfold update_ranking. go. Qed.
  #[local] Hint Resolve s_update_ranking : same.
  Lemma s_ranking_mark k p : same (@ranking_mark W k p) (@ranking_mark W' k p).
  Proof. unfold ranking_mark. go. Qed.
  #[local] Hint Resolve s_ranking_mark : same.
  Lemma s_ranking_set_route k r : same (@ranking_set_route W k r) (@ranking_set_route W' k r).
  Proof. unfold ranking_set_route. go. Qed.
  #[local] Hint Resolve s_ranking_set_route : same.
  Lemma s_candidates_loop k n sub : forall cs, same (@candidates_loop W k n cs sub) (@candidates_loop W' k n cs sub).
  Proof. induction sub as [|c sub IH]; intros cs; cbn [candidates_loop]; go. Qed.
  #[local] Hint Resolve s_candidates_loop : same.
  Lemma s_ranking_next k : same (@ranking_next W k) (@ranking_next W' k).
  Proof. unfold ranking_next. go. Qed.
  #[local] Hint Resolve s_ranking_next : same.
  Lemma s_ranking_loop n : forall k, same (@ranking_loop W n k) (@ranking_loop W' n k).
  Proof. induction n as [|n IH]; intros k; cbn [ranking_loop]; go. Qed.
  #[local] Hint Resolve s_ranking_loop : same.
  Lemma s_insertion_optimize cfg fleet job i : same (@insertion_optimize W cfg fleet job i) (@insertion_optimize W' cfg fleet job i).
  Proof. unfold insertion_optimize. go. Qed.
  #[local] Hint Resolve s_insertion_optimize : same.

  (** local search *)
  Lemma s_check_routes rs : same (@check_routes W rs) (@check_routes W' rs).
  Proof. unfold check_routes. go. Qed.
  #[local] Hint Resolve s_check_routes : same.
  Lemma s_update_routes rs l : same (update_routes rs l) (update_routes rs l).
  Proof. unfold update_routes. go. Qed.
  #[local] Hint Resolve s_update_routes : same.
  Lemma s_last_component l : same (last_component l) (last_component l).
  Proof. unfold last_component. go. Qed.
  #[local] Hint Resolve s_last_component : same.
  Lemma s_realloc_insert o r d t c st p : same (@realloc_insert W o r d t c st p) (@realloc_insert W' o r d t c st p).
  Proof. unfold realloc_insert. go. Qed.
  #[local] Hint Resolve s_realloc_insert : same.
  Lemma s_realloc_trip o r d x st t : same (@realloc_trip W o r d x st t) (@realloc_trip W' o r d x st t).
  Proof. unfold realloc_trip. go. Qed.
  #[local] Hint Resolve s_realloc_trip : same.
  Lemma s_realloc_pair o x st p : same (@realloc_pair W o x st p) (@realloc_pair W' o x st p).
  Proof. unfold realloc_pair. go. Qed.
  #[local] Hint Resolve s_realloc_pair : same.
  Lemma s_reallocation_improve o rs : same (@reallocation_improve W o rs) (@reallocation_improve W' o rs).
  Proof. unfold reallocation_improve. go. Qed.
  #[local] Hint Resolve s_reallocation_improve : same.
  Lemma s_flip r a b c : same (flip r a b c) (flip r a b c).
  Proof. unfold flip. go. Qed.
  #[local] Hint Resolve s_flip : same.
  Lemma s_one_shift_step o r c i : same (@one_shift_step W o r c i) (@one_shift_step W' o r c i).
  Proof. unfold one_shift_step. go. Qed.
  #[local] Hint Resolve s_one_shift_step : same.
  Lemma s_one_shift_route o r : same (@one_shift_route W o r) (@one_shift_route W' o r).
  Proof. unfold one_shift_route. go. Qed.
  #[local] Hint Resolve s_one_shift_route : same.
  Lemma s_one_shift_improve o rs : same (@one_shift_improve W o rs) (@one_shift_improve W' o rs).
  Proof. unfold one_shift_improve. go. Qed.
  #[local] Hint Resolve s_one_shift_improve : same.
  Lemma s_segment_conflict l : same (segment_conflict l) (segment_conflict l).
  Proof. unfold segment_conflict. go. Qed.
  #[local] Hint Resolve s_segment_conflict : same.
  Lemma s_reinsert r s : same (reinsert r s) (reinsert r s).
  Proof. unfold reinsert. go. Qed.
  #[local] Hint Resolve s_reinsert : same.
  Lemma s_two_opt_step o r st p : same (@two_opt_step W o r st p) (@two_opt_step W' o r st p).
  Proof. unfold two_opt_step. go. Qed.
  #[local] Hint Resolve s_two_opt_step : same.
  Lemma s_two_opt_route o l r : same (@two_opt_route W o l r) (@two_opt_route W' o l r).
  Proof. unfold two_opt_route. go. Qed.
  #[local] Hint Resolve s_two_opt_route : same.
  Lemma s_two_opt_improve o rs : same (@two_opt_improve W o rs) (@two_opt_improve W' o rs).
  Proof. unfold two_opt_improve. go. Qed.
  #[local] Hint Resolve s_two_opt_improve : same.
  Lemma s_ls_improve_raw s o rs : same (@ls_improve_raw W s o rs) (@ls_improve_raw W' s o rs).
  Proof. unfold ls_improve_raw. destruct s; auto 3 with same nocore. Qed.
  #[local] Hint Resolve s_ls_improve_raw : same.
  Lemma s_ls_improve s o rs : same (@ls_improve W s o rs) (@ls_improve W' s o rs).
  Proof. unfold ls_improve. go. Qed.
  #[local] Hint Resolve s_ls_improve : same.
  Lemma s_ls_loop n : forall s o t c best, same (@ls_loop W n s o t c best) (@ls_loop W' n s o t c best).
  Proof. induction n as [|n IH]; intros s o t c best; cbn [ls_loop]; go. Qed.
  #[local] Hint Resolve s_ls_loop : same.
  Lemma s_local_search_optimize n s o t rs : same (@local_search_optimize W n s o t rs) (@local_search_optimize W' n s o t rs).
  Proof. unfold local_search_optimize. go. Qed.
  #[local] Hint Resolve s_local_search_optimize : same.

  (** algorithms *)
  Lemma s_optimize o m m' : same m m' -> same (@optimize W o m) (@optimize W' o m').
  Proof. intros H. unfold optimize. go. Qed.
  Lemma s_iterative_loop o (alg alg' : algorithm) b i n : (forall j, same (alg j) (alg' j)) ->
    forall best, same (@iterative_loop W o alg b i n best) (@iterative_loop W' o alg' b i n best).
  Proof.
    intros H. induction n as [|n IH]; intros best; cbn [iterative_loop]; [go|]. apply same_bind; [by apply s_optimize|]. go.
  Qed.
  Lemma s_iterative_optimize o (alg alg' : algorithm) b n i : (forall j, same (alg j) (alg' j)) ->
    same (@iterative_optimize W o alg b n i) (@iterative_optimize W' o alg' b n i).
  Proof. intros H. unfold iterative_optimize. apply same_bind; [by apply s_iterative_loop|]. go. Qed.
  Lemma s_sequential_loop o (l l' : list algorithm) : Forall2 (fun a a' => forall j, same (a j) (a' j)) l l' ->
    forall c, same (@sequential_loop W o l c) (@sequential_loop W' o l' c).
  Proof. induction 1 as [|a a' l l' H F IH]; intros c; cbn [sequential_loop]; [go|]. apply same_bind; [by apply s_optimize|]. go. Qed.
  Lemma s_sequential_optimize o (l l' : list algorithm) i : Forall2 (fun a a' => forall j, same (a j) (a' j)) l l' ->
    same (@sequential_optimize W o l i) (@sequential_optimize W' o l' i).
  Proof. intros H. unfold sequential_optimize. apply same_bind; [by apply s_sequential_loop|]. go. Qed.
  Lemma s_local_search_algorithm n s o t i : same (@local_search_algorithm W n s o t i) (@local_search_algorithm W' n s o t i).
  Proof. unfold local_search_algorithm. go. Qed.
  #[local] Hint Resolve s_local_search_algorithm : same.
  Lemma s_insertion_algorithm cfg fleet job i : same (@insertion_algorithm W cfg fleet job i) (@insertion_algorithm W' cfg fleet job i).
  Proof. apply s_insertion_optimize. Qed.
  Lemma s_default_sequential n o cfg fleet job i : same (@default_sequential W n o cfg fleet job i) (@default_sequential W' n o cfg fleet job i).
  Proof. apply s_sequential_optimize. constructor; [intros; apply s_local_search_algorithm|]. constructor; [intros; apply s_insertion_algorithm|constructor]. Qed.
  Lemma s_grasp_optimize n o cfg fleet job e f : same (@grasp_optimize W n o cfg fleet job e f) (@grasp_optimize W' n o cfg fleet job e f).
  Proof.
    apply s_optimize, s_iterative_optimize. intros _. apply s_sequential_optimize.
    constructor; [intros; apply s_iterative_optimize; intros; apply s_insertion_algorithm|].
    constructor; [intros; apply s_iterative_optimize; intros; apply s_default_sequential|constructor].
  Qed.

  (** the stateless iterator *)
  Lemma s_gen_next st b pairs buf : same (@gen_next W st b pairs buf) (@gen_next W' st b pairs buf).
  Proof. unfold gen_next. destruct buf; [|go]. induction pairs as [|[r t] pairs IH]; go. Qed.
  #[local] Hint Resolve s_gen_next : same.
  Lemma s_stateless_next k : same (@stateless_next W k) (@stateless_next W' k).
  Proof. unfold stateless_next. go. Qed.
  Lemma s_stateless_set_route k r : same (stateless_set_route k r) (stateless_set_route k r).
  Proof. unfold stateless_set_route. go. Qed.
  #[local] Hint Resolve s_stateless_next s_stateless_set_route : same.
  Lemma s_stateless_loop n : forall k, same (@stateless_loop W n k) (@stateless_loop W' n k).
  Proof. induction n as [|n IH]; intros k; cbn [stateless_loop]; go. Qed.
  #[local] Hint Resolve s_stateless_loop : same.
  Lemma s_stateless_optimize cfg fleet job i : same (@stateless_optimize W cfg fleet job i) (@stateless_optimize W' cfg fleet job i).
  Proof. unfold stateless_optimize. go. Qed.
End places.
