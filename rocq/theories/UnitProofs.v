(** Proofs about the same instance in another unit. *)
From Verif Require Export SpecUnits Meta.

Section units.
  Context (u : Z) (W W' : World) (g : position -> position) (E : other_unit u g W W').

  Definition alike {A} (R : A -> A -> Prop) (m m' : M A) : Prop := forall h, inside W h ->
    (match fst (m h), fst (m' (state_in_unit u g h)) with
     | Ok a, Ok a' => R a a' | Raise e, Raise e' => e = e' | _, _ => False end) /\
    snd (m' (state_in_unit u g h)) = state_in_unit u g (snd (m h)) /\ inside W (snd (m h)).
  Definition same {A} (m m' : M A) : Prop := alike eq m m'.
  Definition via {A} (f : A -> A) (m m' : M A) : Prop := alike (fun a a' => a' = f a) m m'.

  Lemma via_unit_run {A} (f : A -> A) (m m' : M A) : via f m m' -> unit_run u g W f m m'.
  Proof.
    intros H h Hh. destruct (H h Hh) as (H1 & H2 & H3). split; [done|]. split; [done|].
    destruct (m h) as [[a|e] h1], (m' (state_in_unit u g h)) as [[a'|e'] h1']; cbn in *; by subst.
  Qed.
  Lemma same_unit_run {A} (m m' : M A) : same m m' -> unit_run u g W id m m'.
  Proof.
    intros H h Hh. destruct (H h Hh) as (H1 & H2 & H3). split; [done|]. split; [done|].
    destruct (m h) as [[a|e] h1], (m' (state_in_unit u g h)) as [[a'|e'] h1']; cbn in *; by subst.
  Qed.
  Lemma unit_run_same {A} (m m' : M A) : unit_run u g W id m m' -> same m m'.
  Proof. intros H h Hh. destruct (H h Hh) as (H1 & H2 & ->). destruct (fst (m h)); done. Qed.

  Lemma alike_bind {A B} (R : A -> A -> Prop) (Q : B -> B -> Prop) m m' k k' : alike R m m' ->
    (forall a a', R a a' -> alike Q (k a) (k' a')) -> alike Q (bind m k) (bind m' k').
  Proof.
    intros H K h Hh. destruct (H h Hh) as (H1 & H2 & H3). unfold bind.
    destruct (m h) as [[a|e] h1], (m' (state_in_unit u g h)) as [[a'|e'] h1']; cbn in *; try done; subst h1'.
    by apply K.
  Qed.
  Lemma same_bind {A B} (m m' : M A) (k k' : A -> M B) : same m m' -> (forall a, same (k a) (k' a)) -> same (bind m k) (bind m' k').
  Proof. intros H K. eapply alike_bind; [exact H|]. intros a a' <-. apply K. Qed.
  Lemma same_ret {A} (a a' : A) : a' = a -> same (ret a) (ret a').
  Proof. intros -> h Hh. done. Qed.
  Lemma same_raise {A} e : same (raise e : M A) (raise e).
  Proof. intros h Hh. done. Qed.
  Lemma same_mapM {A B} (f f' : A -> M B) l : (forall x, same (f x) (f' x)) -> same (mapM f l) (mapM f' l).
  Proof. intros H. induction l as [|x l IH]; cbn [mapM]; [by apply same_ret|]. apply same_bind; [done|]. intros y. apply same_bind; [done|]. intros ys. by apply same_ret. Qed.
  Lemma same_iterM {A} (f f' : A -> M unit) l : (forall x, same (f x) (f' x)) -> same (iterM f l) (iterM f' l).
  Proof. intros H. induction l as [|x l IH]; cbn [iterM]; [by apply same_ret|]. by apply same_bind. Qed.
  Lemma same_foldM {A B} (f f' : B -> A -> M B) l : (forall b x, same (f b x) (f' b x)) -> forall b, same (foldM f b l) (foldM f' b l).
  Proof. intros H. induction l as [|x l IH]; intros b; cbn [foldM]; [by apply same_ret|]. by apply same_bind. Qed.
  Lemma same_filterM {A} (f f' : A -> M bool) l : (forall x, same (f x) (f' x)) -> same (filterM f l) (filterM f' l).
  Proof. intros H. induction l as [|x l IH]; cbn [filterM]; [by apply same_ret|]. apply same_bind; [done|]. intros y. apply same_bind; [done|]. intros ys. by apply same_ret. Qed.
  Lemma same_allM {A} (f f' : A -> M bool) l : (forall x, same (f x) (f' x)) -> same (allM f l) (allM f' l).
  Proof. intros H. induction l as [|x l IH]; cbn [allM]; [by apply same_ret|]. apply same_bind; [done|]. intros []; [done|by apply same_ret]. Qed.
  Lemma same_anyM {A} (f f' : A -> M bool) l : (forall x, same (f x) (f' x)) -> same (anyM f l) (anyM f' l).
  Proof. intros H. induction l as [|x l IH]; cbn [anyM]; [by apply same_ret|]. apply same_bind; [done|]. intros []; [by apply same_ret|done]. Qed.
  Lemma same_assert b b' : b' = b -> same (py_assert b) (py_assert b').
  Proof. intros ->. destruct b; [by apply same_ret|apply same_raise]. Qed.
  Lemma same_nth {A} (l : list A) i : same (py_nth l i) (py_nth l i).
  Proof. unfold py_nth. destruct (l !! i); [by apply same_ret|apply same_raise]. Qed.
  Lemma same_some {A} (o : option A) : same (py_some o) (py_some o).
  Proof. destruct o; [by apply same_ret|apply same_raise]. Qed.

  (** ** The heap *)
  Lemma unit_stops_lookup h s : h_stops (state_in_unit u g h) !! s = stop_in_unit u g <$> h_stops h !! s.
  Proof. cbn. by rewrite <- list_lookup_fmap. Qed.
  Lemma alike_stop_get s : alike (fun c c' => c' = stop_in_unit u g c /\ place_of W (st_position c)) (stop_get s) (stop_get s).
  Proof.
    intros h Hh. unfold stop_get. rewrite unit_stops_lookup. destruct (h_stops h !! s) as [c|] eqn:Hc; cbn; [|done].
    repeat split; try done. apply Hh. by eapply elem_of_list_lookup_2.
  Qed.
  Lemma same_stop_get {B} s (k k' : stop -> M B) : (forall c, place_of W (st_position c) -> same (k c) (k' (stop_in_unit u g c))) ->
    same (bind (stop_get s) k) (bind (stop_get s) k').
  Proof. intros H. eapply alike_bind; [apply alike_stop_get|]. intros c c' [-> Hc]. by apply H. Qed.
  Lemma same_pt_get p : same (pt_get p) (pt_get p).
  Proof. intros h Hh. unfold pt_get. cbn [state_in_unit h_pts]. destruct (h_pts h !! p); cbn; done. Qed.
  Lemma same_route_get r : same (route_get r) (route_get r).
  Proof. intros h Hh. unfold route_get. cbn [state_in_unit h_routes]. destruct (h_routes h !! r); cbn; done. Qed.
  Lemma same_pt_upd p f : same (pt_upd p f) (pt_upd p f).
  Proof. intros h Hh. done. Qed.
  Lemma same_route_upd p f : same (route_upd p f) (route_upd p f).
  Proof. intros h Hh. done. Qed.
  Lemma same_alloc_pt c : same (alloc_pt c) (alloc_pt c).
  Proof. intros h Hh. done. Qed.
  Lemma same_alloc_route c : same (alloc_route c) (alloc_route c).
  Proof. intros h Hh. done. Qed.
  Lemma same_tick : same tick tick.
  Proof. intros h Hh. done. Qed.
  Lemma same_stop_upd s (f f' : stop -> stop) : (forall c, f' (stop_in_unit u g c) = stop_in_unit u g (f c)) -> (forall c, st_position (f c) = st_position c) ->
    same (stop_upd s f) (stop_upd s f').
  Proof.
    intros Hf Hp h Hh. split; [done|]. split.
    - unfold stop_upd, with_stops, state_in_unit. cbn. f_equal. apply list_eq. intros i.
      change (alter f' s (stop_in_unit u g <$> h_stops h) !! i = (stop_in_unit u g <$> alter f s (h_stops h)) !! i). rewrite list_lookup_fmap. destruct (decide (i = s)) as [->|N].
      + rewrite !list_lookup_alter, list_lookup_fmap. destruct (h_stops h !! s); cbn; [by rewrite Hf|done].
      + by rewrite !list_lookup_alter_ne, list_lookup_fmap.
    - intros c Hc. cbn in Hc. apply elem_of_list_lookup in Hc as [i Hi]. destruct (decide (i = s)) as [->|N].
      + rewrite list_lookup_alter in Hi. apply fmap_Some in Hi as (c0 & H0 & ->). rewrite Hp. apply Hh. by eapply elem_of_list_lookup_2.
      + rewrite list_lookup_alter_ne in Hi by done. apply Hh. by eapply elem_of_list_lookup_2.
  Qed.
  Lemma same_alloc_stop c c' : c' = stop_in_unit u g c -> place_of W (st_position c) -> same (alloc_stop c) (alloc_stop c').
  Proof.
    intros -> Hc h Hh. split; [cbn; by rewrite map_length|]. split.
    - unfold alloc_stop, with_stops, state_in_unit. cbn. by rewrite map_app.
    - intros d Hd. cbn in Hd. apply elem_of_app in Hd as [Hd|Hd%elem_of_list_singleton]; [by apply Hh|by subst].
  Qed.
  Lemma same_new_stop v p p' prev start start' : p' = g p -> start' = in_unit u <$> start -> place_of W p -> same (new_stop v p prev start) (new_stop v p' prev start').
  Proof. intros -> -> Hp. by apply same_alloc_stop. Qed.
  Lemma same_chain {A} (f f' : nat -> M A) : (forall n, same (f n) (f' n)) -> same (chain_fuel f) (chain_fuel f').
  Proof. intros H h Hh. unfold chain_fuel. cbn [state_in_unit h_stops]. rewrite map_length. by apply H. Qed.

  (** ** Results in the unit *)
  Notation unit := (in_unit u).
  Lemma via_bind {A B} (f : A -> A) (m m' : M A) (k k' : A -> M B) : via f m m' -> (forall a, same (k a) (k' (f a))) -> same (bind m k) (bind m' k').
  Proof. intros H K. eapply alike_bind; [exact H|]. intros a a' ->. apply K. Qed.
  Lemma same_via_bind {A B} (f : B -> B) (m m' : M A) (k k' : A -> M B) : same m m' -> (forall a, via f (k a) (k' a)) -> via f (bind m k) (bind m' k').
  Proof. intros H K. eapply alike_bind; [exact H|]. intros a a' <-. apply K. Qed.
  Lemma via_via_bind {A B} (f : A -> A) (f' : B -> B) (m m' : M A) (k k' : A -> M B) : via f m m' -> (forall a, via f' (k a) (k' (f a))) -> via f' (bind m k) (bind m' k').
  Proof. intros H K. eapply alike_bind; [exact H|]. intros a a' ->. apply K. Qed.
  Lemma via_ret {A} (f : A -> A) a a' : a' = f a -> via f (ret a) (ret a').
  Proof. intros -> h Hh. done. Qed.
  Lemma via_raise {A} (f : A -> A) e : via f (raise e : M A) (raise e).
  Proof. intros h Hh. done. Qed.
  Lemma via_stop_get {B} (f : B -> B) s (k k' : stop -> M B) : (forall c, place_of W (st_position c) -> via f (k c) (k' (stop_in_unit u g c))) ->
    via f (bind (stop_get s) k) (bind (stop_get s) k').
  Proof. intros H. eapply alike_bind; [apply alike_stop_get|]. intros c c' [-> Hc]. by apply H. Qed.
  Lemma via_chain {A} (p : A -> A) (f f' : nat -> M A) : (forall n, via p (f n) (f' n)) -> via p (chain_fuel f) (chain_fuel f').
  Proof. intros H h Hh. unfold chain_fuel. cbn [state_in_unit h_stops]. rewrite map_length. by apply H. Qed.
  Lemma via_mapM {A B} (p : B -> B) (f f' : A -> M B) l : (forall x, via p (f x) (f' x)) -> via (map p) (mapM f l) (mapM f' l).
  Proof.
    intros H. induction l as [|x l IH]; cbn [mapM]; [by apply via_ret|]. eapply via_via_bind; [apply H|]. intros y.
    eapply via_via_bind; [exact IH|]. intros ys. by apply via_ret.
  Qed.
  Lemma via_foldM {A B} (p : B -> B) (f f' : B -> A -> M B) l : (forall b x, via p (f b x) (f' (p b) x)) -> forall b, via p (foldM f b l) (foldM f' (p b) l).
  Proof. intros H. induction l as [|x l IH]; intros b; cbn [foldM]; [by apply via_ret|]. eapply via_via_bind; [apply H|]. apply IH. Qed.
  Lemma via_some {A} (p : A -> A) o : via p (py_some o) (py_some (p <$> o)).
  Proof. destruct o; [by apply via_ret|apply via_raise]. Qed.


  (** ** The world *)
  Lemma u_pos : 0 < u.
  Proof. apply (ou_pos _ _ _ _ E). Qed.
  Lemma place_origin t : place_of W (origin_position (@w_trip W t)).
  Proof. left. exists t. by left. Qed.
  Lemma place_destination t : place_of W (destination_position (@w_trip W t)).
  Proof. left. exists t. by right. Qed.
  Lemma place_v_origin v : place_of W (@v_origin_position W v).
  Proof. right. exists v. by left. Qed.
  Lemma vh_ends v : vh_destination v = ends_at v.
  Proof. unfold vh_destination, ends_at. by destruct (vh_destination_opt v). Qed.
  Lemma place_v_destination v : place_of W (@v_destination_position W v).
  Proof. right. exists v. right. unfold v_destination_position. by rewrite vh_ends. Qed.
  Lemma eb_unit : @eb W' = unit (@eb W).
  Proof. apply (ou_bound _ _ _ _ E). Qed.
  Lemma dist_unit p q : place_of W p -> place_of W q -> @dist W' (g p) (g q) = unit (@dist W p q).
  Proof. apply (ou_distance _ _ _ _ E). Qed.
  Lemma origin_position_same t : origin_position (@w_trip W' t) = g (origin_position (@w_trip W t)).
  Proof. unfold origin_position. by destruct (ou_trip _ _ _ _ E t) as (-> & _). Qed.
  Lemma destination_position_same t : destination_position (@w_trip W' t) = g (destination_position (@w_trip W t)).
  Proof. unfold destination_position. by destruct (ou_trip _ _ _ _ E t) as (_ & -> & _). Qed.
  Lemma v_origin_position_same v : @v_origin_position W' v = g (@v_origin_position W v).
  Proof. by destruct (ou_vehicle _ _ _ _ E v) as (? & _). Qed.
  Lemma v_destination_position_same v : @v_destination_position W' v = g (@v_destination_position W v).
  Proof. unfold v_destination_position. rewrite !vh_ends. by destruct (ou_vehicle _ _ _ _ E v) as (_ & _ & ? & _). Qed.
  Lemma v_origin_earliest_unit v : @v_origin_earliest W' v = unit (@v_origin_earliest W v).
  Proof. by destruct (ou_vehicle _ _ _ _ E v) as (_ & ? & _). Qed.
  Lemma v_destination_latest_unit v : @v_destination_latest W' v = lim_in_unit u (@v_destination_latest W v).
  Proof. unfold v_destination_latest. rewrite !vh_ends. by destruct (ou_vehicle _ _ _ _ E v) as (_ & _ & _ & ? & _). Qed.
  Lemma v_capacity_unit v : @v_capacity W' v = lim_in_unit u (@v_capacity W v).
  Proof. by destruct (ou_vehicle _ _ _ _ E v) as (_ & _ & _ & _ & ? & _). Qed.
  Lemma v_timeout_unit v : @v_timeout W' v = lim_in_unit u (@v_timeout W v).
  Proof. by destruct (ou_vehicle _ _ _ _ E v) as (_ & _ & _ & _ & _ & ?). Qed.
  Lemma svc_dist_unit t : @svc_dist W' (tr_origin (@w_trip W' t)) (tr_destination (@w_trip W' t)) = unit (@svc_dist W (tr_origin (@w_trip W t)) (tr_destination (@w_trip W t))).
  Proof. unfold svc_dist. destruct (ou_trip _ _ _ _ E t) as (-> & -> & _). apply dist_unit; [apply place_origin|apply place_destination]. Qed.
  Lemma trip_distance_unit t : @trip_distance W' (@w_trip W' t) = unit (@trip_distance W (@w_trip W t)).
  Proof. apply svc_dist_unit. Qed.

  (** numbers *)
  Lemma unit_max a b : Z.max (unit a) (unit b) = unit (Z.max a b).
  Proof. unfold in_unit. apply Z.mul_max_distr_nonneg_l. pose proof u_pos as Hu. lia. Qed.
  Lemma unit_min a b : Z.min (unit a) (unit b) = unit (Z.min a b).
  Proof. unfold in_unit. apply Z.mul_min_distr_nonneg_l. pose proof u_pos as Hu. lia. Qed.
  Lemma unit_leb a b : (unit a <=? unit b) = (a <=? b).
  Proof. unfold in_unit. pose proof u_pos as Hu. destruct (Z.leb_spec (u * a) (u * b)) as [H|H], (Z.leb_spec a b) as [H'|H']; try done; exfalso; nia. Qed.
  Lemma unit_ltb a b : (unit a <? unit b) = (a <? b).
  Proof. unfold in_unit. pose proof u_pos as Hu. destruct (Z.ltb_spec (u * a) (u * b)) as [H|H], (Z.ltb_spec a b) as [H'|H']; try done; exfalso; nia. Qed.
  Lemma unit_eqb a b : (unit a =? unit b) = (a =? b).
  Proof. unfold in_unit. pose proof u_pos as Hu. destruct (Z.eqb_spec (u * a) (u * b)) as [H|H], (Z.eqb_spec a b) as [H'|H']; try done; exfalso; nia. Qed.
  Lemma unit_add a b : unit a + unit b = unit (a + b).
  Proof. unfold in_unit. lia. Qed.
  Lemma unit_sub a b : unit a - unit b = unit (a - b).
  Proof. unfold in_unit. lia. Qed.
  Lemma unit_opp a : - unit a = unit (- a).
  Proof. unfold in_unit. lia. Qed.
  Lemma unit_0 : 0 = unit 0.
  Proof. unfold in_unit. lia. Qed.
  Lemma unit_zero_leb a : (0 <=? unit a) = (0 <=? a).
  Proof. transitivity (unit 0 <=? unit a); [by rewrite <- unit_0|apply unit_leb]. Qed.
  Lemma unit_eqb_zero a : (unit a =? 0) = (a =? 0).
  Proof. transitivity (unit a =? unit 0); [by rewrite <- unit_0|apply unit_eqb]. Qed.
  Lemma lim_unit_add l x : lim_add (lim_in_unit u l) (unit x) = lim_in_unit u (lim_add l x).
  Proof. destruct l; cbn; [|done]. unfold in_unit. f_equal. lia. Qed.
  Lemma lim_unit_min a b : lim_min (lim_in_unit u a) (lim_in_unit u b) = lim_in_unit u (lim_min a b).
  Proof. destruct a, b; cbn; try done. f_equal. apply unit_min. Qed.
  Lemma lim_unit_ge x l : lim_ge (unit x) (lim_in_unit u l) = lim_ge x l.
  Proof. destruct l; [apply unit_leb|done]. Qed.
  Lemma max_sub_unit x l y : max_sub_lim (unit x) (lim_in_unit u l) (unit y) = unit (max_sub_lim x l y).
  Proof. destruct l as [z|]; cbn; [|done]. change (u * z) with (unit z). by rewrite unit_sub, unit_max. Qed.
  Lemma max_sub_unit_0 x l : max_sub_lim (unit x) (lim_in_unit u l) 0 = unit (max_sub_lim x l 0).
  Proof. rewrite <- max_sub_unit. by rewrite <- unit_0. Qed.
  Lemma foldl_max_unit l : forall x, foldl Z.max (unit x) (map unit l) = unit (foldl Z.max x l).
  Proof. induction l as [|y l IH]; intros x; [done|]. cbn. by rewrite unit_max, IH. Qed.
  Lemma py_max_unit l : py_max 0 (map unit l) = unit (py_max 0 l).
  Proof. destruct l as [|x l]; cbn; [apply unit_0|apply foldl_max_unit]. Qed.
  Lemma py_min_lim_unit l : py_min_lim (map (lim_in_unit u) l) = lim_in_unit u (py_min_lim l).
  Proof. unfold py_min_lim. induction l as [|x l IH]; [done|]. cbn. by rewrite IH, lim_unit_min. Qed.
  Lemma zsum_unit l : zsum (map unit l) = unit (zsum l).
  Proof. unfold zsum. induction l as [|x l IH]; [apply unit_0|]. cbn. by rewrite IH, unit_add. Qed.

  Lemma origin_earliest_unit t : origin_earliest (@w_trip W' t) = unit (origin_earliest (@w_trip W t)).
  Proof.
    unfold origin_earliest. destruct (ou_trip _ _ _ _ E t) as (-> & -> & _ & _ & ->). cbn.
    rewrite <- max_sub_unit. f_equal. unfold in_unit. lia.
  Qed.
  Lemma origin_latest_unit t : @origin_latest W' (@w_trip W' t) = lim_in_unit u (@origin_latest W (@w_trip W t)).
  Proof.
    unfold origin_latest. rewrite svc_dist_unit. destruct (ou_trip _ _ _ _ E t) as (-> & -> & _ & _ & _). cbn.
    rewrite <- lim_unit_min, <- lim_unit_add. f_equal. f_equal. unfold in_unit. lia.
  Qed.
  Lemma destination_earliest_unit t : @destination_earliest W' (@w_trip W' t) = unit (@destination_earliest W (@w_trip W t)).
  Proof.
    unfold destination_earliest. rewrite svc_dist_unit. destruct (ou_trip _ _ _ _ E t) as (-> & -> & _ & _ & _). cbn.
    rewrite <- unit_max. f_equal. unfold in_unit. lia.
  Qed.
  Lemma destination_latest_unit t : destination_latest (@w_trip W' t) = lim_in_unit u (destination_latest (@w_trip W t)).
  Proof.
    unfold destination_latest. destruct (ou_trip _ _ _ _ E t) as (-> & -> & _ & _ & ->). cbn.
    rewrite <- lim_unit_min. f_equal. destruct (tr_timeout (w_trip t)) as [z|]; cbn; [|done]. rewrite <- lim_unit_add. f_equal. unfold in_unit. lia.
  Qed.
  Lemma origin_duration_unit t : origin_duration (@w_trip W' t) = unit (origin_duration (@w_trip W t)).
  Proof. unfold origin_duration. by destruct (ou_trip _ _ _ _ E t) as (-> & _). Qed.
  Lemma destination_duration_unit t : destination_duration (@w_trip W' t) = unit (destination_duration (@w_trip W t)).
  Proof. unfold destination_duration. by destruct (ou_trip _ _ _ _ E t) as (_ & -> & _). Qed.
  Lemma tr_capacity_unit t : tr_capacity (@w_trip W' t) = unit (tr_capacity (@w_trip W t)).
  Proof. by destruct (ou_trip _ _ _ _ E t) as (_ & _ & -> & _). Qed.
  Lemma tr_bonus_unit t : tr_bonus (@w_trip W' t) = unit (tr_bonus (@w_trip W t)).
  Proof. by destruct (ou_trip _ _ _ _ E t) as (_ & _ & _ & -> & _). Qed.
  Lemma tr_timeout_unit t : tr_timeout (@w_trip W' t) = lim_in_unit u (tr_timeout (@w_trip W t)).
  Proof. by destruct (ou_trip _ _ _ _ E t) as (_ & _ & _ & _ & ->). Qed.
  Lemma position_same p q : place_of W p -> place_of W q -> bool_decide (g p = g q) = bool_decide (p = q).
  Proof. intros Hp Hq. apply bool_decide_ext. split; [by apply (ou_apart _ _ _ _ E)|by intros ->]. Qed.
  Lemma maps_via {A} (p : A -> A) (f f' : nat -> A) l : (forall t, f' t = p (f t)) -> map f' l = map p (map f l).
  Proof. intros H. rewrite map_map. by apply map_ext. Qed.

  (** ** Every function of the model *)
  Create HintDb same.
  Create HintDb via.
  #[local] Hint Resolve same_nth same_some same_pt_get same_route_get same_pt_upd same_route_upd same_alloc_pt
    same_alloc_route same_tick place_origin place_destination place_v_origin place_v_destination : same.
  Ltac norm := cbn [stop_in_unit st_vehicle st_position st_pickups st_deliveries st_previous st_starting st_arrival st_departure
      st_capacity st_feasible];
    rewrite ?eb_unit, ?origin_position_same, ?destination_position_same, ?v_origin_position_same, ?v_destination_position_same,
      ?v_origin_earliest_unit, ?v_destination_latest_unit, ?v_capacity_unit, ?v_timeout_unit, ?trip_distance_unit,
      ?origin_earliest_unit, ?origin_latest_unit, ?destination_earliest_unit, ?destination_latest_unit, ?origin_duration_unit,
      ?destination_duration_unit, ?tr_capacity_unit, ?tr_bonus_unit, ?tr_timeout_unit,
      ?(ou_shuffle _ _ _ _ E), ?(ou_choice _ _ _ _ E), ?(ou_sample _ _ _ _ E);
    rewrite ?position_same by (assumption || auto 2 with same nocore);
    repeat first [rewrite unit_add | rewrite unit_sub | rewrite unit_max | rewrite lim_unit_add];
    rewrite ?unit_leb, ?unit_ltb, ?unit_eqb, ?lim_unit_ge, ?unit_eqb_zero, ?unit_zero_leb.
  Ltac go :=
    intros; norm;
    lazymatch goal with
    | |- same (ret _) (ret _) => apply same_ret; try reflexivity
    | |- via _ (ret _) (ret _) => apply via_ret; try reflexivity
    | |- same (raise _) (raise _) => apply same_raise
    | |- via _ (raise _) (raise _) => apply via_raise
    | |- same (py_assert _) (py_assert _) => apply same_assert; try reflexivity
    | |- same (bind (stop_get _) _) (bind (stop_get _) _) => apply same_stop_get; intros; go
    | |- via _ (bind (stop_get _) _) (bind (stop_get _) _) => apply via_stop_get; intros; go
    | |- same (bind _ _) (bind _ _) =>
        tryif (eapply via_bind; [solve [eauto 2 with via nocore]|]) then (intros; go) else (apply same_bind; [go|intros; go])
    | |- via _ (bind _ _) (bind _ _) =>
        tryif (eapply via_via_bind; [solve [eauto 2 with via nocore]|]) then (intros; go) else (apply same_via_bind; [go|intros; go])
    | |- same (mapM _ _) (mapM _ _) => apply same_mapM; intros; go
    | |- via (map _) (mapM _ _) (mapM _ _) => apply via_mapM; intros; go
    | |- same (iterM _ _) (iterM _ _) => apply same_iterM; intros; go
    | |- same (foldM _ _ _) (foldM _ _ _) => apply same_foldM; intros; go
    | |- same (filterM _ _) (filterM _ _) => apply same_filterM; intros; go
    | |- same (allM _ _) (allM _ _) => apply same_allM; intros; go
    | |- same (anyM _ _) (anyM _ _) => apply same_anyM; intros; go
    | |- same (chain_fuel _) (chain_fuel _) => apply same_chain; intros; go
    | |- via _ (chain_fuel _) (chain_fuel _) => apply via_chain; intros; go
    | |- same (stop_upd _ _) (stop_upd _ _) => apply same_stop_upd; intros; reflexivity
    | |- same (new_stop _ _ _ _) (new_stop _ _ _ _) => apply same_new_stop; [try reflexivity|try reflexivity|try assumption; auto 2 with same nocore]
    | |- same (match ?x with _ => _ end) _ => destruct x eqn:?; go
    | |- via _ (match ?x with _ => _ end) _ => destruct x eqn:?; go
    | |- via _ _ _ => eauto 3 with via nocore
    | |- _ => auto 3 with same nocore
    end.

  Lemma s_trips_of l : same (trips_of l) (trips_of l).
  Proof. unfold trips_of. go. Qed.
  #[local] Hint Resolve s_trips_of : same.
  Lemma v_stop_earliest s : via unit (@stop_earliest W s) (@stop_earliest W' s).
  Proof. unfold stop_earliest. go. rewrite (maps_via unit _ _ _ origin_earliest_unit), (maps_via unit _ _ _ destination_earliest_unit), <- map_app. apply py_max_unit. Qed.
  Lemma v_stop_latest s : via (lim_in_unit u) (@stop_latest W s) (@stop_latest W' s).
  Proof. unfold stop_latest. go. rewrite (maps_via (lim_in_unit u) _ _ _ origin_latest_unit), (maps_via (lim_in_unit u) _ _ _ destination_latest_unit), <- map_app. apply py_min_lim_unit. Qed.
  Lemma v_stop_load_time s : via unit (@stop_load_time W s) (@stop_load_time W' s).
  Proof. unfold stop_load_time. go. rewrite (maps_via unit _ _ _ origin_duration_unit), (maps_via unit _ _ _ destination_duration_unit), <- map_app. apply py_max_unit. Qed.
  #[local] Hint Resolve v_stop_earliest v_stop_latest v_stop_load_time : via.
  Lemma alike_previous_position s : alike (fun p p' => p' = g p /\ place_of W p) (@previous_position W s) (@previous_position W' s).
  Proof.
    unfold previous_position. eapply alike_bind; [apply alike_stop_get|]. intros c c' [-> Hc]. norm. destruct (st_previous c) as [q|].
    - eapply alike_bind; [apply alike_stop_get|]. intros d d' [-> Hd]. intros h Hh. done.
    - intros h Hh. cbn. repeat split; try done. apply place_v_origin.
  Qed.
  Lemma via_previous_position {B} (f : B -> B) s (k k' : position -> M B) : (forall p, place_of W p -> via f (k p) (k' (g p))) ->
    via f (bind (@previous_position W s) k) (bind (@previous_position W' s) k').
  Proof. intros H. eapply alike_bind; [apply alike_previous_position|]. intros c c' [-> Hc]. by apply H. Qed.
  Lemma v_stop_distance s : via unit (@stop_distance W s) (@stop_distance W' s).
  Proof. unfold stop_distance. apply via_stop_get. intros c Hc. apply via_previous_position. intros p Hp. apply via_ret. by apply dist_unit. Qed.
  Lemma v_previous_departure dep dep' s : (forall q, via unit (dep q) (dep' q)) -> via unit (@previous_departure_with W dep s) (@previous_departure_with W' dep' s).
  Proof. intros H. unfold previous_departure_with. go. Qed.
  Lemma v_transit dep dep' s : (forall q, via unit (dep q) (dep' q)) -> via unit (@transit_with W dep s) (@transit_with W' dep' s).
  Proof.
    intros H. unfold transit_with. apply via_stop_get. intros c Hc. apply via_previous_position. intros p Hp.
    eapply via_via_bind; [by apply v_previous_departure|]. intros _. apply via_ret. by apply dist_unit.
  Qed.
  Lemma v_arrival dep dep' s : (forall q, via unit (dep q) (dep' q)) -> via unit (@arrival_with W dep s) (@arrival_with W' dep' s).
  Proof.
    intros H. unfold arrival_with. apply via_stop_get. intros c Hc. norm. destruct (st_arrival c); cbn [fmap option_fmap option_map]; [by apply via_ret|].
    eapply via_via_bind; [by apply v_previous_departure|]. intros pd. eapply via_via_bind; [by apply v_transit|]. intros tr. go.
  Qed.
  Lemma v_starting dep dep' s : (forall q, via unit (dep q) (dep' q)) -> via unit (@starting_with W dep s) (@starting_with W' dep' s).
  Proof.
    intros H. unfold starting_with. apply via_stop_get. intros c Hc. norm.
    apply (via_via_bind unit); [destruct (st_starting c); [by apply via_ret|by apply v_arrival]|]. intros value. eapply via_via_bind; [apply v_stop_earliest|].
    intros e. eapply via_via_bind; [by apply v_arrival|]. go.
  Qed.
  Lemma v_departure_fuel n : forall s, via unit (@departure_fuel W n s) (@departure_fuel W' n s).
  Proof.
    induction n as [|n IH]; intros s; cbn [departure_fuel]; [apply via_raise|]. apply via_stop_get. intros c Hc. norm.
    destruct (st_departure c); [by apply via_ret|]. eapply via_via_bind; [by apply v_starting|]. go.
  Qed.
  Lemma v_departure_time s : via unit (@departure_time W s) (@departure_time W' s).
  Proof. apply via_chain. intros n. apply v_departure_fuel. Qed.
  Lemma v_arrival_time s : via unit (@arrival_time W s) (@arrival_time W' s).
  Proof. apply via_chain. intros n. apply v_arrival. apply v_departure_fuel. Qed.
  Lemma v_starting_time s : via unit (@starting_time W s) (@starting_time W' s).
  Proof. apply via_chain. intros n. apply v_starting. apply v_departure_fuel. Qed.
  Lemma v_transit_time s : via unit (@transit_time W s) (@transit_time W' s).
  Proof. apply via_chain. intros n. apply v_transit. apply v_departure_fuel. Qed.
  #[local] Hint Resolve v_stop_distance v_departure_time v_arrival_time v_starting_time v_transit_time : via.
  Lemma v_waiting_time s : via unit (@waiting_time W s) (@waiting_time W' s).
  Proof.
    unfold waiting_time. eapply via_via_bind; [apply v_starting_time|]. intros x. eapply via_via_bind; [apply v_arrival_time|]. intros y.
    apply same_via_bind; [|go]. apply same_assert. rewrite eb_unit, unit_sub. rewrite (unit_0 : 0 = unit 0) at 1. by rewrite unit_sub, unit_leb.
  Qed.
  Lemma v_capacity_fuel n : forall s, via unit (@capacity_fuel W n s) (@capacity_fuel W' n s).
  Proof.
    induction n as [|n IH]; intros s; cbn [capacity_fuel]; [apply via_raise|]. apply via_stop_get. intros c Hc. norm.
    destruct (st_capacity c); [by apply via_ret|]. eapply via_via_bind; [destruct (st_previous c); [apply IH|apply via_ret, unit_0]|]. intros prev.
    apply same_via_bind; [apply s_trips_of|]. intros ps. apply same_via_bind; [apply s_trips_of|]. intros ds.
    rewrite !(maps_via unit _ _ _ tr_capacity_unit), !zsum_unit. go.
  Qed.
  Lemma v_stop_capacity s : via unit (@capacity W s) (@capacity W' s).
  Proof. apply via_chain. intros n. apply v_capacity_fuel. Qed.
  #[local] Hint Resolve v_waiting_time v_stop_capacity : via.
  Lemma s_stop_feasible s : same (@stop_feasible W s) (@stop_feasible W' s).
  Proof. unfold stop_feasible. go. Qed.
  Lemma s_all_previous_fuel n : forall s, same (all_previous_fuel n s) (all_previous_fuel n s).
  Proof. induction n as [|n IH]; intros s; cbn [all_previous_fuel]; go. Qed.
  Lemma s_all_previous s : same (all_previous s) (all_previous s).
  Proof. apply same_chain. intros n. apply s_all_previous_fuel. Qed.
  Lemma s_pt_flush p : same (pt_flush p) (pt_flush p).
  Proof. unfold pt_flush. go. Qed.
  #[local] Hint Resolve s_stop_feasible s_all_previous s_pt_flush : same.
  Lemma s_stop_flush s : same (stop_flush s) (stop_flush s).
  Proof. unfold stop_flush. go. Qed.
  #[local] Hint Resolve s_stop_flush : same.

  Lemma s_set_starting_time s x : same (set_starting_time s x) (set_starting_time s (unit x)).
  Proof. unfold set_starting_time. go. Qed.
  Lemma s_append_pickup s p : same (@append_pickup W s p) (@append_pickup W' s p).
  Proof. unfold append_pickup. go. Qed.
  Lemma s_append_delivery s p : same (@append_delivery W s p) (@append_delivery W' s p).
  Proof. unfold append_delivery. go. Qed.
  #[local] Hint Resolve s_set_starting_time s_append_pickup s_append_delivery : same.
  Lemma s_new_planned_trip v t a b : same (@new_planned_trip W v t a b) (@new_planned_trip W' v t a b).
  Proof. unfold new_planned_trip. go. Qed.
  #[local] Hint Resolve s_new_planned_trip : same.
  Lemma v_pickup_time p : via unit (@pickup_time W p) (@pickup_time W' p).
  Proof. unfold pickup_time. go. Qed.
  Lemma v_delivery_time p : via unit (@delivery_time W p) (@delivery_time W' p).
  Proof. unfold delivery_time. go. Qed.
  #[local] Hint Resolve v_pickup_time v_delivery_time : via.
  Lemma v_pt_duration p : via unit (@pt_duration W p) (@pt_duration W' p).
  Proof. unfold pt_duration. go. Qed.
  #[local] Hint Resolve v_pt_duration : via.
  Lemma s_pt_is_feasible p : same (@pt_is_feasible W p) (@pt_is_feasible W' p).
  Proof. unfold pt_is_feasible. go. Qed.
  #[local] Hint Resolve s_pt_is_feasible : same.

  (** routes *)
  Lemma s_route_stops r : same (route_stops r) (route_stops r).
  Proof. unfold route_stops. go. Qed.
  #[local] Hint Resolve s_route_stops : same.
  Lemma s_new_route v : same (@new_route W v) (@new_route W' v).
  Proof. unfold new_route. go. Qed.
  #[local] Hint Resolve s_new_route : same.
  Lemma s_planned_trips r : same (planned_trips r) (planned_trips r).
  Proof. unfold planned_trips. go. Qed.
  #[local] Hint Resolve s_planned_trips : same.
  Lemma s_route_trips r : same (route_trips r) (route_trips r).
  Proof. unfold route_trips. go. Qed.
  #[local] Hint Resolve s_route_trips : same.
  Lemma s_route_loaded r : same (route_loaded r) (route_loaded r).
  Proof. unfold route_loaded. go. Qed.
  #[local] Hint Resolve s_route_loaded : same.
  Lemma filters_same l : List.filter (fun t => negb (trip_empty (@w_trip W' t))) l = List.filter (fun t => negb (trip_empty (@w_trip W t))) l.
  Proof. induction l as [|t l IH]; [done|]. cbn. unfold trip_empty in *. rewrite IH. norm. done. Qed.
  Lemma s_route_loaded_trips r : same (@route_loaded_trips W r) (@route_loaded_trips W' r).
  Proof. unfold route_loaded_trips. go. apply filters_same. Qed.
  #[local] Hint Resolve s_route_loaded_trips : same.
  Lemma s_first_stop r : same (first_stop r) (first_stop r).
  Proof. unfold first_stop. go. Qed.
  #[local] Hint Resolve s_first_stop : same.
  Lemma s_last_stop r : same (last_stop r) (last_stop r).
  Proof. unfold last_stop. go. Qed.
  #[local] Hint Resolve s_last_stop : same.
  Lemma v_first_departure_time r : via unit (@first_departure_time W r) (@first_departure_time W' r).
  Proof. unfold first_departure_time. go. Qed.
  #[local] Hint Resolve v_first_departure_time : via.
  Lemma v_last_departure_time r : via unit (@last_departure_time W r) (@last_departure_time W' r).
  Proof. unfold last_departure_time. go. Qed.
  #[local] Hint Resolve v_last_departure_time : via.
  Lemma v_route_duration r : via unit (@route_duration W r) (@route_duration W' r).
  Proof. unfold route_duration. go. Qed.
  #[local] Hint Resolve v_route_duration : via.
  Lemma v_route_distance r : via unit (@route_distance W r) (@route_distance W' r).
  Proof.
    unfold route_distance. apply same_via_bind; [apply s_route_stops|]. intros ss.
    eapply via_via_bind; [apply via_mapM; intros; apply v_stop_distance|]. intros l. apply via_ret, zsum_unit.
  Qed.
  #[local] Hint Resolve v_route_distance : via.
  Lemma s_current_stop r : same (current_stop r) (current_stop r).
  Proof. unfold current_stop. go. Qed.
  #[local] Hint Resolve s_current_stop : same.
  Lemma s_feasible_planned_trips r : same (@feasible_planned_trips W r) (@feasible_planned_trips W' r).
  Proof. unfold feasible_planned_trips. go. Qed.
  #[local] Hint Resolve s_feasible_planned_trips : same.
  Lemma s_route_feasible r : same (@route_feasible W r) (@route_feasible W' r).
  Proof. unfold route_feasible. go. Qed.
  #[local] Hint Resolve s_route_feasible : same.
  Lemma s_route_flush r : same (route_flush r) (route_flush r).
  Proof. unfold route_flush. go. Qed.
  #[local] Hint Resolve s_route_flush : same.
  Lemma s_insert_stop_at r i s : same (insert_stop_at r i s) (insert_stop_at r i s).
  Proof. unfold insert_stop_at. go. Qed.
  #[local] Hint Resolve s_insert_stop_at : same.
  Lemma s_remove_stop_at r i : same (remove_stop_at r i) (remove_stop_at r i).
  Proof. unfold remove_stop_at. go. Qed.
  #[local] Hint Resolve s_remove_stop_at : same.
  Lemma s_insert_stop r s : same (insert_stop r s) (insert_stop r s).
  Proof. unfold insert_stop. go. Qed.
  #[local] Hint Resolve s_insert_stop : same.
  Lemma s_assert_linked r : same (assert_linked r) (assert_linked r).
  Proof. unfold assert_linked. go. Qed.
  #[local] Hint Resolve s_assert_linked : same.
  Lemma s_assert_monotone r : same (@assert_monotone W r) (@assert_monotone W' r).
  Proof. unfold assert_monotone. go. Qed.
  #[local] Hint Resolve s_assert_monotone : same.
  Lemma s_append_planned_trip r p : same (@append_planned_trip W r p) (@append_planned_trip W' r p).
  Proof. unfold append_planned_trip. go. Qed.
  #[local] Hint Resolve s_append_planned_trip : same.
  Lemma s_stop_has_trip t s : same (stop_has_trip t s) (stop_has_trip t s).
  Proof. unfold stop_has_trip. go. Qed.
  #[local] Hint Resolve s_stop_has_trip : same.
  Lemma s_remove_trip_loop r t n : same (remove_trip_loop r t n) (remove_trip_loop r t n).
  Proof. induction n as [|n IH]; cbn [remove_trip_loop]; go. Qed.
  #[local] Hint Resolve s_remove_trip_loop : same.
  Lemma s_remove_trip r t : same (@remove_trip W r t) (@remove_trip W' r t).
  Proof. unfold remove_trip. go. Qed.
  #[local] Hint Resolve s_remove_trip : same.
  Lemma s_cloner_loop ss d n : forall m mi, same (@cloner_loop W ss d n m mi) (@cloner_loop W' ss d n m mi).
  Proof. induction n as [|n IH]; intros m mi; cbn [cloner_loop]; go. Qed.
  #[local] Hint Resolve s_cloner_loop : same.
  Lemma s_cloner_init ss d : same (@cloner_init W ss d) (@cloner_init W' ss d).
  Proof. unfold cloner_init. go. Qed.
  #[local] Hint Resolve s_cloner_init : same.
  Lemma s_map_planned m f p : same (map_planned m f p) (map_planned m f p).
  Proof. unfold map_planned. go. Qed.
  #[local] Hint Resolve s_map_planned : same.
  Lemma s_clone_stop m l s : same (clone_stop m l s) (clone_stop m l s).
  Proof. unfold clone_stop. go. Qed.
  #[local] Hint Resolve s_clone_stop : same.
  Lemma s_cloner_clone r d : same (@cloner_clone W r d) (@cloner_clone W' r d).
  Proof. unfold cloner_clone. go. Qed.
  #[local] Hint Resolve s_cloner_clone : same.
  Lemma s_route_clone r i : same (@route_clone W r i) (@route_clone W' r i).
  Proof. unfold route_clone. go. Qed.
  #[local] Hint Resolve s_route_clone : same.
  Lemma s_copy_objects : same copy_objects copy_objects.
  Proof.
    intros h Hh. unfold copy_objects. cbn. rewrite map_length. split; [done|]. split.
    - unfold state_in_unit. cbn. f_equal. rewrite map_app, !map_map. f_equal.
    - intros c Hc. apply elem_of_app in Hc as [Hc|Hc]; [by apply Hh|]. apply elem_of_list_fmap in Hc as (d & -> & Hd). cbn. by apply Hh.
  Qed.
  #[local] Hint Resolve s_copy_objects : same.
  Lemma s_deepcopy_routes rs : same (deepcopy_routes rs) (deepcopy_routes rs).
  Proof. unfold deepcopy_routes. go. Qed.
  #[local] Hint Resolve s_deepcopy_routes : same.
  Lemma s_set_order l : same (@set_order W l) (@set_order W' l).
  Proof. unfold set_order. go. Qed.
  #[local] Hint Resolve s_set_order : same.


  (** ** Objectives and criteria *)
  Definition worth (o : objective) (x x' : list Z) : Prop := x' = value_in_unit u o x /\ length x = dimension o.
  Lemma alike_ret {A} (R : A -> A -> Prop) a a' : R a a' -> alike R (ret a) (ret a').
  Proof. intros H h Hh. done. Qed.
  Lemma alike_foldM {A B} (R : B -> B -> Prop) (f f' : B -> A -> M B) l : (forall b b' x, R b b' -> alike R (f b x) (f' b' x)) ->
    forall b b', R b b' -> alike R (foldM f b l) (foldM f' b' l).
  Proof. intros H. induction l as [|x l IH]; intros b b' Hb; cbn [foldM]; [by apply alike_ret|]. eapply alike_bind; [by apply H|]. apply IH. Qed.
  Lemma alike_weaken {A} (R R' : A -> A -> Prop) (m m' : M A) : (forall a a', R a a' -> R' a a') -> alike R m m' -> alike R' m m'.
  Proof. intros I H h Hh. destruct (H h Hh) as (H1 & H2). split; [|done]. destruct (fst (m h)), (fst (m' (state_in_unit u g h))); try done. by apply I. Qed.
  Lemma tuple_ltb_map a : forall b, tuple_ltb (map unit a) (map unit b) = tuple_ltb a b.
  Proof. induction a as [|x a IH]; intros [|y b]; try done. cbn. by rewrite unit_ltb, unit_eqb, IH. Qed.
  Lemma tuple_ltb_value o a b : tuple_ltb (value_in_unit u o a) (value_in_unit u o b) = tuple_ltb a b.
  Proof. destruct o, a as [|x a], b as [|y b]; try done; cbn -[tuple_ltb map]; [|apply tuple_ltb_map..]. cbn. by rewrite tuple_ltb_map. Qed.
  Lemma tuple_add_map a : forall b, tuple_add (map unit a) (map unit b) = map unit (tuple_add a b).
  Proof. induction a as [|x a IH]; intros [|y b]; try done. cbn. unfold tuple_add in IH. by rewrite unit_add, IH. Qed.
  Lemma tuple_add_value o a b : tuple_add (value_in_unit u o a) (value_in_unit u o b) = value_in_unit u o (tuple_add a b).
  Proof. destruct o, a as [|x a], b as [|y b]; try done; cbn -[tuple_add map]; [|apply tuple_add_map..]. cbn. f_equal. apply tuple_add_map. Qed.
  Lemma worth_zero o : worth o (tuple_zero o) (tuple_zero o).
  Proof. destruct o; (split; [|done]); cbn; rewrite <- unit_0; done. Qed.
  Lemma worth_add o a a' b b' : worth o a a' -> worth o b b' -> worth o (tuple_add a b) (tuple_add a' b').
  Proof. intros [-> Ha] [-> Hb]. split; [apply tuple_add_value|]. unfold tuple_add. rewrite zip_with_length, Ha, Hb. lia. Qed.
  Lemma v_last_component o a a' : worth o a a' -> via unit (last_component a) (last_component a').
  Proof.
    intros [-> Ha]. unfold last_component. destruct o; cbn in Ha.
    - destruct a as [|x [|y [|? ?]]]; try discriminate. by apply via_ret.
    - destruct a as [|x [|? ?]]; try discriminate. by apply via_ret.
    - destruct a as [|x [|? ?]]; try discriminate. by apply via_ret.
  Qed.
  Lemma v_ride_distance_fuel n : forall a b acc, via unit (@ride_distance_fuel W n a b acc) (@ride_distance_fuel W' n a b (unit acc)).
  Proof.
    induction n as [|n IH]; intros a b acc; cbn [ride_distance_fuel]; [apply via_raise|]. destruct (decide (b = a)); [by apply via_ret|].
    apply same_via_bind; [apply same_some|]. intros s. apply via_stop_get. intros c Hc. norm. destruct (st_previous c); [|by apply via_ret].
    eapply via_via_bind; [apply v_stop_distance|]. intros d. rewrite unit_sub. apply IH.
  Qed.
  Lemma w_planned_trip_value o p : alike (worth o) (@planned_trip_value W o p) (@planned_trip_value W' o p).
  Proof.
    unfold planned_trip_value. eapply alike_bind; [apply same_pt_get|]. intros c ? <-. destruct o.
    - eapply alike_bind; [apply (via_chain unit); intros n; rewrite unit_0; rewrite <- unit_0 at 1; apply v_ride_distance_fuel|].
      intros d ? ->. by apply alike_ret.
    - norm. destruct (tr_capacity (w_trip (pt_trip c)) =? 0); [apply alike_ret; split; [cbn; by rewrite <- unit_0|done]|].
      eapply alike_bind; [apply v_pt_duration|]. intros d ? ->. by apply alike_ret.
    - norm. destruct (tr_capacity (w_trip (pt_trip c)) =? 0); [apply alike_ret; split; [cbn; by rewrite <- unit_0|done]|].
      eapply alike_bind; [apply v_pickup_time|]. intros d ? ->. norm. apply alike_ret. split; [|done]. cbn. f_equal.
      destruct (origin_earliest (w_trip (pt_trip c)) =? d); [apply unit_add|]. rewrite (unit_0 : 0 = unit 0) at 1. apply unit_add.
  Qed.
  Lemma w_stop_value o s : alike (worth o) (@stop_value W o s) (@stop_value W' o s).
  Proof.
    unfold stop_value. eapply alike_bind; [apply alike_stop_get|]. intros c c' [-> Hc]. norm.
    apply alike_foldM; [|apply worth_zero]. intros b b' x Hb. eapply alike_bind; [apply w_planned_trip_value|]. intros y y' Hy.
    apply alike_ret. by apply worth_add.
  Qed.
  Lemma w_route_value o r : alike (worth o) (@route_value W o r) (@route_value W' o r).
  Proof.
    unfold route_value. destruct o.
    - eapply alike_bind; [apply s_route_trips|]. intros ts ? <-. eapply alike_bind; [apply v_route_distance|]. intros d ? ->.
      apply alike_ret. split; [|done]. cbn. by rewrite unit_opp.
    - eapply alike_bind; [apply s_route_stops|]. intros ss ? <-. apply alike_foldM; [|apply worth_zero]. intros b b' x Hb.
      eapply alike_bind; [apply w_stop_value|]. intros y y' Hy. apply alike_ret. by apply worth_add.
    - eapply alike_bind; [apply s_route_stops|]. intros ss ? <-. apply alike_foldM; [|apply worth_zero]. intros b b' x Hb.
      eapply alike_bind; [apply w_stop_value|]. intros y y' Hy. apply alike_ret. by apply worth_add.
  Qed.
  Lemma w_planning_value o pl : alike (worth o) (@planning_value W o pl) (@planning_value W' o pl).
  Proof.
    unfold planning_value. eapply alike_bind; [apply s_set_order|]. intros rs ? <-. apply alike_foldM; [|apply worth_zero]. intros b b' x Hb.
    eapply alike_bind; [apply w_route_value|]. intros y y' Hy. apply alike_ret. by apply worth_add.
  Qed.
  Lemma v_route_value o r : via (value_in_unit u o) (@route_value W o r) (@route_value W' o r).
  Proof. eapply alike_weaken; [|apply w_route_value]. by intros a a' [-> _]. Qed.
  Lemma v_planning_value o pl : via (value_in_unit u o) (@planning_value W o pl) (@planning_value W' o pl).
  Proof. eapply alike_weaken; [|apply w_planning_value]. by intros a a' [-> _]. Qed.

  (** keys *)
  Section keys.
    Context {A K : Type} (lt : K -> K -> bool) (s : K -> K) (Hs : forall x y, lt (s x) (s y) = lt x y).
    Let on (x : K * A) : K * A := (s x.1, x.2).
    Lemma max_from_on l : forall b, max_from lt (on b) (map on l) = on (max_from lt b l).
    Proof. induction l as [|x l IH]; intros b; [done|]. cbn. rewrite Hs. destruct (lt b.1 x.1); apply IH. Qed.
    Lemma min_from_on l : forall b, min_from lt (on b) (map on l) = on (min_from lt b l).
    Proof. induction l as [|x l IH]; intros b; [done|]. cbn. rewrite Hs. destruct (lt x.1 b.1); apply IH. Qed.
    Lemma insert_on rev x l : insert_keyed lt rev (on x) (map on l) = map on (insert_keyed lt rev x l).
    Proof.
      induction l as [|y l IH]; [done|]. cbn. assert (before lt rev (s y.1) (s x.1) = before lt rev y.1 x.1) as -> by (unfold before; destruct rev; apply Hs).
      destruct (before lt rev y.1 x.1); cbn; [|done]. by rewrite IH.
    Qed.
    Lemma sort_on rev l : sort_keyed lt rev (map on l) = map on (sort_keyed lt rev l).
    Proof. unfold sort_keyed. induction l as [|x l IH]; [done|]. cbn. by rewrite IH, insert_on. Qed.
    Lemma zip_on ks (l : list A) : zip (map s ks) l = map on (zip ks l).
    Proof. revert l. induction ks as [|k ks IH]; intros [|x l]; try done. cbn. by rewrite IH. Qed.
    Lemma max_keyed_on ks (l : list A) : max_keyed lt (zip (map s ks) l) = max_keyed lt (zip ks l).
    Proof. rewrite zip_on. destruct (zip ks l) as [|x m]; [done|]. cbn. by rewrite max_from_on. Qed.
    Lemma dir_best_on d ks (l : list A) : dir_best lt d (zip (map s ks) l) = dir_best lt d (zip ks l).
    Proof. destruct d; cbn; [apply max_keyed_on|]. rewrite zip_on. destruct (zip ks l) as [|x m]; [done|]. cbn. by rewrite min_from_on. Qed.
    Lemma dir_sorted_on d ks (l : list A) : dir_sorted lt d (zip (map s ks) l) = dir_sorted lt d (zip ks l).
    Proof. unfold dir_sorted. rewrite zip_on, sort_on, map_map. done. Qed.
  End keys.
  Lemma s_objective_best o l : same (@objective_best W o l) (@objective_best W' o l).
  Proof.
    unfold objective_best. eapply via_bind; [apply via_mapM; intros; apply v_planning_value|]. intros ks. apply same_ret.
    apply max_keyed_on. apply tuple_ltb_value.
  Qed.
  #[local] Hint Resolve s_objective_best : same.
  Lemma s_planning_feasible pl : same (@planning_feasible W pl) (@planning_feasible W' pl).
  Proof. unfold planning_feasible. go. Qed.
  #[local] Hint Resolve s_planning_feasible : same.
  Lemma s_completed_trips pl : same (@completed_trips W pl) (@completed_trips W' pl).
  Proof. unfold completed_trips. go. Qed.
  #[local] Hint Resolve s_completed_trips : same.
  Lemma s_coverage_rate pl job : same (@coverage_rate W pl job) (@coverage_rate W' pl job).
  Proof. unfold coverage_rate. go. Qed.
  #[local] Hint Resolve s_coverage_rate : same.

  Definition score_in_unit (x : score) : score :=
    match x with SFin q => SFin (u * Qnum q # Qden q) | _ => x end.
  Lemma score_ltb_unit x y : score_ltb (score_in_unit x) (score_in_unit y) = score_ltb x y.
  Proof.
    destruct x as [|a|], y as [|b|]; try done. cbn. unfold Qle_bool. cbn. f_equal. rewrite <- !Z.mul_assoc. apply unit_leb.
  Qed.
  Lemma v_score_feasible k r : via score_in_unit (@score_feasible W k r) (@score_feasible W' k r).
  Proof.
    unfold score_feasible. destruct k.
    - go.
    - apply same_via_bind; [apply s_planned_trips|]. intros ps. destruct ps as [|q ps]; [apply via_ret; cbn; unfold sfin, inject_Z; f_equal; f_equal; lia|].
      eapply via_via_bind; [apply via_mapM; intros; apply v_pt_duration|]. intros ds. apply via_ret. by rewrite zsum_unit.
    - go.
    - go.
    - apply same_via_bind; [apply s_route_trips|]. intros ts. apply via_ret. by rewrite (maps_via unit _ _ _ trip_distance_unit), zsum_unit.
    - apply same_via_bind; [apply s_planned_trips|]. intros ps. eapply via_via_bind; [apply (via_mapM unit)|].
      + intros x. apply same_via_bind; [apply same_pt_get|]. intros c. eapply via_via_bind; [apply v_pickup_time|]. intros d. norm. apply via_ret.
        destruct (d =? origin_earliest (w_trip (pt_trip c))); [apply unit_add|]. rewrite (unit_0 : 0 = unit 0) at 1. apply unit_add.
      + intros ds. apply via_ret. by rewrite zsum_unit.
  Qed.
  #[local] Hint Resolve v_score_feasible : via.
  Lemma v_scoring k r : via score_in_unit (@scoring W k r) (@scoring W' k r).
  Proof.
    unfold scoring. apply same_via_bind; [apply s_route_feasible|]. intros b. destruct b; cbn; [apply v_score_feasible|].
    apply via_ret. by destruct (criterion_direction k).
  Qed.
  Lemma s_criterion_best k l : same (@criterion_best W k l) (@criterion_best W' k l).
  Proof.
    unfold criterion_best. eapply via_bind; [apply via_mapM; intros; apply v_scoring|]. intros ks. apply same_ret.
    apply dir_best_on. apply score_ltb_unit.
  Qed.
  Lemma s_criterion_sorted k l : same (@criterion_sorted W k l) (@criterion_sorted W' k l).
  Proof.
    unfold criterion_sorted. eapply via_bind; [apply via_mapM; intros; apply v_scoring|]. intros ks. apply same_ret.
    apply dir_sorted_on. apply score_ltb_unit.
  Qed.
  #[local] Hint Resolve s_criterion_best s_criterion_sorted : same.

  (** insertion *)
  Lemma s_build_pickup r t i : same (@build_pickup W r t i) (@build_pickup W' r t i).
  Proof. unfold build_pickup. go. Qed.
  #[local] Hint Resolve s_build_pickup : same.
  Lemma s_build_delivery r t i j s : same (@build_delivery W r t i j s) (@build_delivery W' r t i j s).
  Proof. unfold build_delivery. go. Qed.
  #[local] Hint Resolve s_build_delivery : same.
  Lemma s_longest_ride ps : same (@longest_ride W ps) (@longest_ride W' ps).
  Proof.
    unfold longest_ride. apply same_bind; [apply s_set_order|]. intros l. eapply via_bind; [apply via_mapM; intros; apply v_pt_duration|].
    intros ks. apply same_ret. apply max_keyed_on. apply unit_ltb.
  Qed.
  #[local] Hint Resolve s_longest_ride : same.
  Lemma s_delay_stop r i : same (@delay_stop W r i) (@delay_stop W' r i).
  Proof.
    unfold delay_stop. go. rewrite max_sub_unit_0, unit_add. apply s_set_starting_time.
  Qed.
  #[local] Hint Resolve s_delay_stop : same.
  Lemma s_delay_loop r lo n : same (@delay_loop W r lo n) (@delay_loop W' r lo n).
  Proof. induction n as [|n IH]; cbn [delay_loop]; go. Qed.
  #[local] Hint Resolve s_delay_loop : same.
  Lemma s_shift_departure r : same (@shift_departure W r) (@shift_departure W' r).
  Proof. unfold shift_departure. go. Qed.
  #[local] Hint Resolve s_shift_departure : same.
  Lemma s_improve_ride_times r i : same (@improve_ride_times W r i) (@improve_ride_times W' r i).
  Proof. unfold improve_ride_times. go. Qed.
  #[local] Hint Resolve s_improve_ride_times : same.
  Lemma s_compute_one r t i j : same (@compute_one W r t i j) (@compute_one W' r t i j).
  Proof. unfold compute_one. go. Qed.
  #[local] Hint Resolve s_compute_one : same.
  Lemma s_compute b r ts i j : same (@compute W b r ts i j) (@compute W' b r ts i j).
  Proof. unfold compute. go. Qed.
  #[local] Hint Resolve s_compute : same.
  Lemma s_sample_pairs n c : same (@sample_pairs W n c) (@sample_pairs W' n c).
  Proof. unfold sample_pairs. go. Qed.
  #[local] Hint Resolve s_sample_pairs : same.
  Lemma s_strategy_pairs st r : same (@strategy_pairs W st r) (@strategy_pairs W' st r).
  Proof. unfold strategy_pairs. go. Qed.
  #[local] Hint Resolve s_strategy_pairs : same.
  Lemma s_strategy_compute st b r ts : same (@strategy_compute W st b r ts) (@strategy_compute W' st b r ts).
  Proof. unfold strategy_compute. go. Qed.
  #[local] Hint Resolve s_strategy_compute : same.
  Lemma s_routes_dict rs : same (routes_dict rs) (routes_dict rs).
  Proof. unfold routes_dict. go. Qed.
  #[local] Hint Resolve s_routes_dict : same.
  Lemma s_iterator_init st b k fleet job i : same (@iterator_init W st b k fleet job i) (@iterator_init W' st b k fleet job i).
  Proof. unfold iterator_init. go. Qed.
  #[local] Hint Resolve s_iterator_init : same.
  Lemma s_find_empty rs : same (find_empty rs) (find_empty rs).
  Proof. induction rs as [|r rs IH]; cbn [find_empty]; go. Qed.
  #[local] Hint Resolve s_find_empty : same.
  Lemma s_attractive_routes i : same (@attractive_routes W i) (@attractive_routes W' i).
  Proof. unfold attractive_routes. go. Qed.
  #[local] Hint Resolve s_attractive_routes : same.
  Lemma s_mark_trip_as_done i t : same (mark_trip_as_done i t) (mark_trip_as_done i t).
  Proof. unfold mark_trip_as_done. go. Qed.
  #[local] Hint Resolve s_mark_trip_as_done : same.
  Lemma s_create_sub_ranking k r : same (@create_sub_ranking W k r) (@create_sub_ranking W' k r).
  Proof. unfold create_sub_ranking. go. Qed.
  #[local] Hint Resolve s_create_sub_ranking : same.
  Lemma s_initialize_ranking k : same (@initialize_ranking W k) (@initialize_ranking W' k).
  Proof. unfold initialize_ranking. go. Qed.
  #[local] Hint Resolve s_initialize_ranking : same.
  Lemma s_ranking_init st b k fleet job i s n : same (@ranking_init W st b k fleet job i s n) (@ranking_init W' st b k fleet job i s n).
  Proof. unfold ranking_init. go. Qed.
  #[local] Hint Resolve s_ranking_init : same.
  Lemma s_update_vehicle_ranking k p v : same (@update_vehicle_ranking W k p v) (@update_vehicle_ranking W' k p v).
  Proof. unfold update_vehicle_ranking. go. Qed.
  #[local] Hint Resolve s_update_vehicle_ranking : same.
  Lemma s_update_ranking k p : same (@update_ranking W k p) (@update_ranking W' k p).
  Proof. unfold update_ranking. go. Qed.
  #[local] Hint Resolve s_update_ranking : same.
  Lemma s_ranking_mark k p : same (@ranking_mark W k p) (@ranking_mark W' k p).
  Proof. unfold ranking_mark. go. Qed.
  #[local] Hint Resolve s_ranking_mark : same.
  Lemma s_ranking_set_route k r : same (@ranking_set_route W k r) (@ranking_set_route W' k r).
  Proof. unfold ranking_set_route. go. Qed.
  #[local] Hint Resolve s_ranking_set_route : same.
  Lemma s_candidates_loop k n sub : forall cs, same (@candidates_loop W k n cs sub) (@candidates_loop W' k n cs sub).
  Proof. induction sub as [|c sub IH]; intros cs; cbn [candidates_loop]; go. Qed.
  #[local] Hint Resolve s_candidates_loop : same.
  Lemma s_ranking_next k : same (@ranking_next W k) (@ranking_next W' k).
  Proof. unfold ranking_next. go. Qed.
  #[local] Hint Resolve s_ranking_next : same.
  Lemma s_ranking_loop n : forall k, same (@ranking_loop W n k) (@ranking_loop W' n k).
  Proof. induction n as [|n IH]; intros k; cbn [ranking_loop]; go. Qed.
  #[local] Hint Resolve s_ranking_loop : same.
  Lemma s_insertion_optimize cfg fleet job i : same (@insertion_optimize W cfg fleet job i) (@insertion_optimize W' cfg fleet job i).
  Proof. unfold insertion_optimize. go. Qed.
  #[local] Hint Resolve s_insertion_optimize : same.

  (** local search *)
  Lemma s_check_routes rs : same (@check_routes W rs) (@check_routes W' rs).
  Proof. unfold check_routes. go. Qed.
  #[local] Hint Resolve s_check_routes : same.
  Lemma s_update_routes rs l : same (update_routes rs l) (update_routes rs l).
  Proof. unfold update_routes. go. Qed.
  #[local] Hint Resolve s_update_routes : same.
  Definition realloc_in_unit (st : realloc_state) : realloc_state := MkRealloc (unit (ra_best st)) (ra_routes st).
  Lemma v_realloc_insert o r d t c st p : via realloc_in_unit (@realloc_insert W o r d t c st p) (@realloc_insert W' o r d t (unit c) (realloc_in_unit st) p).
  Proof.
    unfold realloc_insert. apply same_via_bind; [apply s_compute|]. intros [|x ds]; [by apply via_ret|].
    eapply alike_bind; [apply w_route_value|]. intros v v' Hv. eapply via_via_bind; [by eapply v_last_component|]. intros y.
    cbn [realloc_in_unit ra_best]. norm. destruct (ra_best st <? c + y); by apply via_ret.
  Qed.
  Lemma v_realloc_trip o r d x st t : via realloc_in_unit (@realloc_trip W o r d x st t) (@realloc_trip W' o r d (unit x) (realloc_in_unit st) t).
  Proof.
    unfold realloc_trip. apply same_via_bind; [apply s_route_clone|]. intros n. apply same_via_bind; [apply s_remove_trip|]. intros _.
    apply same_via_bind; [apply s_route_flush|]. intros _. apply same_via_bind; [apply s_route_feasible|]. intros b. destruct b; cbn [negb]; [|by apply via_ret].
    eapply alike_bind; [apply w_route_value|]. intros v v' Hv. eapply via_via_bind; [by eapply v_last_component|]. intros y.
    apply same_via_bind; [apply s_route_stops|]. intros ss. apply same_via_bind; [apply s_sample_pairs|]. intros ps. rewrite unit_add.
    apply (via_foldM realloc_in_unit). intros. apply v_realloc_insert.
  Qed.
  Lemma v_realloc_pair o x st p : via realloc_in_unit (@realloc_pair W o x st p) (@realloc_pair W' o (unit x) (realloc_in_unit st) p).
  Proof.
    unfold realloc_pair. eapply alike_bind; [apply w_route_value|]. intros v v' Hv. eapply via_via_bind; [by eapply v_last_component|]. intros y.
    eapply alike_bind; [apply w_route_value|]. intros v2 v2' Hv2. eapply via_via_bind; [by eapply v_last_component|]. intros y2.
    apply same_via_bind; [apply s_route_trips|]. intros ts. rewrite !unit_sub. apply (via_foldM realloc_in_unit). intros. apply v_realloc_trip.
  Qed.
  Lemma s_reallocation_improve o rs : same (@reallocation_improve W o rs) (@reallocation_improve W' o rs).
  Proof.
    unfold reallocation_improve. eapply alike_bind; [apply w_planning_value|]. intros v v' Hv. eapply via_bind; [by eapply v_last_component|]. intros y.
    apply same_bind; [apply s_set_order|]. intros order.
    pose proof (via_foldM realloc_in_unit (@realloc_pair W o y) (@realloc_pair W' o (unit y)) (permutations2 order) (fun st p => v_realloc_pair o y st p) (MkRealloc y [])) as K.
    eapply via_bind; [exact K|]. intros st. apply s_update_routes.
  Qed.
  #[local] Hint Resolve s_reallocation_improve : same.
  Lemma s_flip r a b c : same (flip r a b c) (flip r a b c).
  Proof. unfold flip. go. Qed.
  #[local] Hint Resolve s_flip : same.
  Lemma v_one_shift_step o r c i : via (value_in_unit u o) (@one_shift_step W o r c i) (@one_shift_step W' o r (value_in_unit u o c) i).
  Proof.
    unfold one_shift_step. apply same_via_bind; [apply s_route_stops|]. intros ss. apply same_via_bind; [apply same_nth|]. intros a.
    apply same_via_bind; [apply same_nth|]. intros b. apply via_stop_get. intros fc Hf. apply via_stop_get. intros sc Hc. norm.
    destruct (negb _); [by apply via_ret|]. apply same_via_bind; [apply s_flip|]. intros _. apply same_via_bind; [apply s_route_feasible|]. intros f.
    apply same_via_bind.
    - destruct (negb f); [by apply same_ret|]. eapply via_bind; [apply v_route_value|]. intros v. apply same_ret. by rewrite tuple_ltb_value.
    - intros [|]; [|apply v_route_value]. apply same_via_bind; [apply s_flip|]. intros _. by apply via_ret.
  Qed.
  Lemma s_one_shift_route o r : same (@one_shift_route W o r) (@one_shift_route W' o r).
  Proof.
    unfold one_shift_route. eapply via_bind; [apply v_route_value|]. intros v. apply same_bind; [apply s_route_stops|]. intros ss.
    eapply via_bind; [apply (via_foldM (value_in_unit u o)); intros; apply v_one_shift_step|]. go.
  Qed.
  #[local] Hint Resolve s_one_shift_route : same.
  Lemma s_one_shift_improve o rs : same (@one_shift_improve W o rs) (@one_shift_improve W' o rs).
  Proof. unfold one_shift_improve. go. Qed.
  #[local] Hint Resolve s_one_shift_improve : same.
  Lemma s_segment_conflict l : same (segment_conflict l) (segment_conflict l).
  Proof. unfold segment_conflict. go. Qed.
  #[local] Hint Resolve s_segment_conflict : same.
  Lemma s_reinsert r s : same (reinsert r s) (reinsert r s).
  Proof. unfold reinsert. go. Qed.
  #[local] Hint Resolve s_reinsert : same.
  Lemma v_two_opt_step o r st p : via (fun st => (value_in_unit u o st.1, st.2)) (@two_opt_step W o r st p) (@two_opt_step W' o r (value_in_unit u o st.1, st.2) p).
  Proof.
    unfold two_opt_step. apply same_via_bind; [apply s_route_stops|]. intros ss. apply same_via_bind; [apply s_segment_conflict|]. intros [|]; [by apply via_ret|].
    apply same_via_bind; [apply s_route_clone|]. intros r'. apply same_via_bind; [apply s_route_stops|]. intros ss'.
    apply same_via_bind; [go|]. intros old. apply same_via_bind; [go|]. intros _. apply same_via_bind; [go|]. intros _.
    apply same_via_bind; [apply s_route_feasible|]. intros b. destruct (negb b); [by apply via_ret|].
    eapply via_via_bind; [apply v_route_value|]. intros v. cbn [fst snd]. rewrite tuple_ltb_value. destruct (negb _); by apply via_ret.
  Qed.
  Lemma s_two_opt_route o l r : same (@two_opt_route W o l r) (@two_opt_route W' o l r).
  Proof.
    unfold two_opt_route. eapply via_bind; [apply v_route_value|]. intros v. apply same_bind; [apply s_route_stops|]. intros ss.
    pose proof (via_foldM _ (@two_opt_step W o r) (@two_opt_step W' o r) (combinations2 (seq 1 (length ss - 2))) (fun st p => v_two_opt_step o r st p) (v, l)) as K.
    eapply via_bind; [exact K|]. go.
  Qed.
  #[local] Hint Resolve s_two_opt_route : same.
  Lemma s_two_opt_improve o rs : same (@two_opt_improve W o rs) (@two_opt_improve W' o rs).
  Proof. unfold two_opt_improve. go. Qed.
  #[local] Hint Resolve s_two_opt_improve : same.
  Lemma s_ls_improve_raw s o rs : same (@ls_improve_raw W s o rs) (@ls_improve_raw W' s o rs).
  Proof. unfold ls_improve_raw. destruct s; auto 3 with same nocore. Qed.
  #[local] Hint Resolve s_ls_improve_raw : same.
  Lemma s_ls_improve s o rs : same (@ls_improve W s o rs) (@ls_improve W' s o rs).
  Proof. unfold ls_improve. go. Qed.
  #[local] Hint Resolve s_ls_improve : same.
  Lemma s_ls_loop n : forall s o t c best, same (@ls_loop W n s o t c best) (@ls_loop W' n s o t c best).
  Proof. induction n as [|n IH]; intros s o t c best; cbn [ls_loop]; go. Qed.
  #[local] Hint Resolve s_ls_loop : same.
  Lemma s_local_search_optimize n s o t rs : same (@local_search_optimize W n s o t rs) (@local_search_optimize W' n s o t rs).
  Proof. unfold local_search_optimize. go. Qed.
  #[local] Hint Resolve s_local_search_optimize : same.

  (** algorithms *)
  #[local] Hint Resolve v_planning_value v_route_value : via.
  Lemma s_optimize o m m' : same m m' -> same (@optimize W o m) (@optimize W' o m').
  Proof. intros H. unfold optimize. go. Qed.
  Lemma s_iterative_loop o (alg alg' : algorithm) b i n : (forall j, same (alg j) (alg' j)) ->
    forall best, same (@iterative_loop W o alg b i n best) (@iterative_loop W' o alg' b i n best).
  Proof.
    intros H. induction n as [|n IH]; intros best; cbn [iterative_loop]; [go|]. apply same_bind; [by apply s_optimize|]. go.
  Qed.
  Lemma s_iterative_optimize o (alg alg' : algorithm) b n i : (forall j, same (alg j) (alg' j)) ->
    same (@iterative_optimize W o alg b n i) (@iterative_optimize W' o alg' b n i).
  Proof. intros H. unfold iterative_optimize. apply same_bind; [by apply s_iterative_loop|]. go. Qed.
  Lemma s_sequential_loop o (l l' : list algorithm) : Forall2 (fun a a' => forall j, same (a j) (a' j)) l l' ->
    forall c, same (@sequential_loop W o l c) (@sequential_loop W' o l' c).
  Proof. induction 1 as [|a a' l l' H F IH]; intros c; cbn [sequential_loop]; [go|]. apply same_bind; [by apply s_optimize|]. go. Qed.
  Lemma s_sequential_optimize o (l l' : list algorithm) i : Forall2 (fun a a' => forall j, same (a j) (a' j)) l l' ->
    same (@sequential_optimize W o l i) (@sequential_optimize W' o l' i).
  Proof. intros H. unfold sequential_optimize. apply same_bind; [by apply s_sequential_loop|]. go. Qed.
  Lemma s_local_search_algorithm n s o t i : same (@local_search_algorithm W n s o t i) (@local_search_algorithm W' n s o t i).
  Proof. unfold local_search_algorithm. go. Qed.
  #[local] Hint Resolve s_local_search_algorithm : same.
  Lemma s_insertion_algorithm cfg fleet job i : same (@insertion_algorithm W cfg fleet job i) (@insertion_algorithm W' cfg fleet job i).
  Proof. apply s_insertion_optimize. Qed.
  Lemma s_default_sequential n o cfg fleet job i : same (@default_sequential W n o cfg fleet job i) (@default_sequential W' n o cfg fleet job i).
  Proof. apply s_sequential_optimize. constructor; [intros; apply s_local_search_algorithm|]. constructor; [intros; apply s_insertion_algorithm|constructor]. Qed.
  Lemma s_grasp_optimize n o cfg fleet job e f : same (@grasp_optimize W n o cfg fleet job e f) (@grasp_optimize W' n o cfg fleet job e f).
  Proof.
    apply s_optimize, s_iterative_optimize. intros _. apply s_sequential_optimize.
    constructor; [intros; apply s_iterative_optimize; intros; apply s_insertion_algorithm|].
    constructor; [intros; apply s_iterative_optimize; intros; apply s_default_sequential|constructor].
  Qed.

  (** the stateless iterator *)
  Lemma s_gen_next st b pairs buf : same (@gen_next W st b pairs buf) (@gen_next W' st b pairs buf).
  Proof. unfold gen_next. destruct buf; [|go]. induction pairs as [|[r t] pairs IH]; go. Qed.
  #[local] Hint Resolve s_gen_next : same.
  Lemma s_stateless_next k : same (@stateless_next W k) (@stateless_next W' k).
  Proof. unfold stateless_next. go. Qed.
  Lemma s_stateless_set_route k r : same (stateless_set_route k r) (stateless_set_route k r).
  Proof. unfold stateless_set_route. go. Qed.
  #[local] Hint Resolve s_stateless_next s_stateless_set_route : same.
  Lemma s_stateless_loop n : forall k, same (@stateless_loop W n k) (@stateless_loop W' n k).
  Proof. induction n as [|n IH]; intros k; cbn [stateless_loop]; go. Qed.
  #[local] Hint Resolve s_stateless_loop : same.
  Lemma s_stateless_optimize cfg fleet job i : same (@stateless_optimize W cfg fleet job i) (@stateless_optimize W' cfg fleet job i).
  Proof. unfold stateless_optimize. go. Qed.
End units.
