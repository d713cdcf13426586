(** The functions of the model, run inside a closed part of the heap. *)
From Verif Require Export FrameProofs CopyProofs ScoreProofs Plannings.

Create HintDb fr.

Ltac fcall := solve [eauto 8 with fr].
Ltac fstep :=
  lazymatch goal with
  | |- fr _ _ _ (bind _ _) _ =>
      first [ eapply fr_bind; [fcall | let x := fresh "x" in let H := fresh "H" in intros x H; cbn beta in H]
            | eapply (fr_bind _ _ _ _ _ (fun _ => True)); [|let x := fresh "x" in intros x _] ]
  | |- fr _ _ _ (ret _) _ => apply fr_ret; try done
  | |- fr _ _ _ (raise _) _ => apply fr_raise
  | |- fr _ _ _ (if ?x then _ else _) _ => destruct x
  | |- fr _ _ _ (match ?x with _ => _ end) _ => destruct x eqn:?
  end.
Ltac fgo := repeat fstep; try fcall; try (eapply fr_any; fcall).

Section frame_runs.
  Context {W : World}.
  Context (a b c : nat -> Prop).
  Notation fr := (fr a b c).
  Notation sok := a (only parsing).
  Notation pok := b (only parsing).
  Notation rok := c (only parsing).

  Lemma stop_in_prev x : stop_in a b x -> some_in a (st_previous x).
  Proof. by intros (? & ? & ?). Qed.
  Lemma stop_in_pick x : stop_in a b x -> Forall b (st_pickups x).
  Proof. by intros (? & ? & ?). Qed.
  Lemma stop_in_deli x : stop_in a b x -> Forall b (st_deliveries x).
  Proof. by intros (? & ? & ?). Qed.
  Lemma pt_in_pick x : pt_in a x -> some_in a (pt_pickup x).
  Proof. by intros (? & ?). Qed.
  Lemma pt_in_deli x : pt_in a x -> some_in a (pt_delivery x).
  Proof. by intros (? & ?). Qed.
  Lemma some_in_use (n : nat -> Prop) o q : some_in n o -> o = Some q -> n q.
  Proof. intros H E. by apply H. Qed.
  Lemma some_in_Some (n : nat -> Prop) q : n q -> some_in n (Some q).
  Proof. by intros H ? [= <-]. Qed.
  Lemma some_in_None n : some_in n None.
  Proof. by intros ?. Qed.
  Lemma Forall_app2 {A} (P : A -> Prop) l l' : Forall P l -> Forall P l' -> Forall P (l ++ l').
  Proof. rewrite Forall_app. done. Qed.
  Lemma Forall_drop' {A} (P : A -> Prop) n l : Forall P l -> Forall P (drop n l).
  Proof. apply Forall_drop. Qed.
  Lemma Forall_concat' {A} (P : A -> Prop) l : Forall (Forall P) l -> Forall P (concat l).
  Proof. induction 1; cbn; [done|]. by apply Forall_app. Qed.
  Hint Resolve stop_in_prev stop_in_pick stop_in_deli pt_in_pick pt_in_deli some_in_Some some_in_None
    Forall_app2 Forall_drop' Forall_concat' : fr.
  Hint Extern 2 (a _) => eapply some_in_use; [|eassumption] : fr.
  Hint Extern 2 (b _) => eapply some_in_use; [|eassumption] : fr.
  Hint Extern 2 (c _) => eapply some_in_use; [|eassumption] : fr.
  Hint Resolve fr_assert fr_some fr_nth fr_stop_get fr_pt_get fr_route_get fr_tick : fr.
  Hint Resolve fr_set_order | 2 : fr.

  Lemma fr_trips_of l : Forall pok l -> fr (trips_of l) (fun _ => True).
  Proof. intros H. unfold trips_of. eapply fr_any, (fr_mapM _ _ _ b _ (fun _ => True)); [done|]. intros. fgo. Qed.
  Hint Resolve fr_trips_of : fr.
  Lemma fr_stop_earliest s : sok s -> fr (stop_earliest s) (fun _ => True).
  Proof. intros. unfold stop_earliest. fgo. Qed.
  Lemma fr_stop_latest s : sok s -> fr (stop_latest s) (fun _ => True).
  Proof. intros. unfold stop_latest. fgo. Qed.
  Lemma fr_stop_load_time s : sok s -> fr (stop_load_time s) (fun _ => True).
  Proof. intros. unfold stop_load_time. fgo. Qed.
  Lemma fr_previous_position s : sok s -> fr (previous_position s) (fun _ => True).
  Proof. intros. unfold previous_position. fgo. Qed.
  Hint Resolve fr_stop_earliest fr_stop_latest fr_stop_load_time fr_previous_position : fr.
  Lemma fr_stop_distance s : sok s -> fr (stop_distance s) (fun _ => True).
  Proof. intros. unfold stop_distance. fgo. Qed.

  Definition fr_dep (dep : nat -> M Z) : Prop := forall s, sok s -> fr (dep s) (fun _ => True).
  Lemma fr_previous_departure_with dep s : fr_dep dep -> sok s -> fr (previous_departure_with dep s) (fun _ => True).
  Proof. intros D H. unfold previous_departure_with. fgo. Qed.
  Hint Resolve fr_stop_distance fr_previous_departure_with : fr.
  Lemma fr_transit_with dep s : fr_dep dep -> sok s -> fr (transit_with dep s) (fun _ => True).
  Proof. intros D H. unfold transit_with. fgo. Qed.
  Hint Resolve fr_transit_with : fr.
  Lemma fr_cache s f : sok s ->
    (forall x, st_previous (f x) = st_previous x) -> (forall x, st_pickups (f x) = st_pickups x) ->
    (forall x, st_deliveries (f x) = st_deliveries x) -> fr (stop_upd s f) (fun _ => True).
  Proof. intros H E1 E2 E3. apply fr_stop_upd; [done|]. intros x. unfold stop_in. by rewrite E1, E2, E3. Qed.
  Hint Resolve fr_cache : fr.
  Lemma fr_arrival_with dep s : fr_dep dep -> sok s -> fr (arrival_with dep s) (fun _ => True).
  Proof. intros D H. unfold arrival_with. fgo. Qed.
  Hint Resolve fr_arrival_with : fr.
  Lemma fr_starting_with dep s : fr_dep dep -> sok s -> fr (starting_with dep s) (fun _ => True).
  Proof. intros D H. unfold starting_with. fgo. Qed.
  Hint Resolve fr_starting_with : fr.
  Lemma fr_departure_fuel n : fr_dep (departure_fuel n).
  Proof. induction n as [|n IH]; intros s H; cbn [departure_fuel]; fgo. Qed.
  Hint Resolve fr_departure_fuel : fr.
  Lemma fr_departure_time s : sok s -> fr (departure_time s) (fun _ => True).
  Proof. intros H. apply fr_chain_fuel. intros n. by apply fr_departure_fuel. Qed.
  Lemma fr_arrival_time s : sok s -> fr (arrival_time s) (fun _ => True).
  Proof. intros H. apply fr_chain_fuel. intros n. eauto with fr. Qed.
  Lemma fr_starting_time s : sok s -> fr (starting_time s) (fun _ => True).
  Proof. intros H. apply fr_chain_fuel. intros n. eauto with fr. Qed.
  Lemma fr_transit_time s : sok s -> fr (transit_time s) (fun _ => True).
  Proof. intros H. apply fr_chain_fuel. intros n. eauto with fr. Qed.
  Hint Resolve fr_departure_time fr_arrival_time fr_starting_time fr_transit_time : fr.
  Lemma fr_waiting_time s : sok s -> fr (waiting_time s) (fun _ => True).
  Proof. intros H. unfold waiting_time. fgo. Qed.
  Lemma fr_capacity_fuel n : fr_dep (capacity_fuel n).
  Proof. induction n as [|n IH]; intros s H; cbn [capacity_fuel]; fgo. Qed.
  Lemma fr_capacity s : sok s -> fr (capacity s) (fun _ => True).
  Proof. intros H. apply fr_chain_fuel. intros n. by apply fr_capacity_fuel. Qed.
  Hint Resolve fr_waiting_time fr_capacity : fr.
  Lemma fr_stop_feasible s : sok s -> fr (stop_feasible s) (fun _ => True).
  Proof. intros H. unfold stop_feasible. fgo. Qed.
  Lemma fr_all_previous_fuel n s : sok s -> fr (all_previous_fuel n s) (Forall a).
  Proof.
    revert s. induction n as [|n IH]; intros s H; cbn [all_previous_fuel]; [apply fr_raise|].
    fstep. fstep; [|by apply fr_ret]. eapply fr_bind; [apply IH; eauto with fr|]. intros l Hl. apply fr_ret.
    constructor; eauto with fr.
  Qed.
  Lemma fr_all_previous s : sok s -> fr (all_previous s) (Forall a).
  Proof. intros H. apply fr_chain_fuel. intros n. by apply fr_all_previous_fuel. Qed.
  Hint Resolve fr_stop_feasible fr_all_previous : fr.

  Lemma fr_pt_flush p : pok p -> fr (pt_flush p) (fun _ => True).
  Proof. intros H. apply fr_pt_upd; [done|]. done. Qed.
  Hint Resolve fr_pt_flush : fr.
  Lemma fr_stop_flush s : sok s -> fr (stop_flush s) (fun _ => True).
  Proof.
    intros H. unfold stop_flush. fgo. eapply fr_iterM; [|intros; by apply fr_pt_flush]. eauto with fr.
  Qed.
  Hint Resolve fr_stop_flush : fr.
  Lemma fr_flush_all l : Forall sok l -> fr (iterM stop_flush l) (fun _ => True).
  Proof. intros H. eapply fr_iterM; [done|]. intros. by apply fr_stop_flush. Qed.
  Hint Resolve fr_flush_all : fr.
  Lemma fr_set_starting_time s x : sok s -> fr (set_starting_time s x) (fun _ => True).
  Proof. intros H. unfold set_starting_time. fgo. Qed.
  Lemma set_add_in (n : nat -> Prop) x l : n x -> Forall n l -> Forall n (set_add x l).
  Proof. intros. unfold set_add. destruct (memb x l); [done|]. apply Forall_app2; [done|by constructor]. Qed.
  Lemma fr_append_pickup s p : sok s -> pok p -> fr (append_pickup s p) (fun _ => True).
  Proof.
    intros H1 H2. unfold append_pickup. fgo. apply fr_stop_upd; [done|]. intros y (? & ? & ?).
    split; [done|]. split; [|done]. by apply set_add_in.
  Qed.
  Lemma fr_append_delivery s p : sok s -> pok p -> fr (append_delivery s p) (fun _ => True).
  Proof.
    intros H1 H2. unfold append_delivery. fgo. apply fr_stop_upd; [done|]. intros y (? & ? & ?).
    split; [done|]. split; [done|]. by apply set_add_in.
  Qed.
  Hint Resolve fr_set_starting_time fr_append_pickup fr_append_delivery : fr.
  Lemma fr_new_planned_trip v t o1 o2 : some_in a o1 -> some_in a o2 -> fr (new_planned_trip v t o1 o2) b.
  Proof.
    intros H1 H2. unfold new_planned_trip. eapply fr_bind; [by apply fr_alloc_pt|]. intros p Hp. cbn beta in Hp.
    fgo.
  Qed.
  Lemma fr_new_stop v p o st : some_in a o -> fr (new_stop v p o st) a.
  Proof. intros H. apply fr_alloc_stop. split; [done|]. split; constructor. Qed.
  Hint Resolve fr_new_planned_trip fr_new_stop : fr.
  Lemma fr_pickup_time p : pok p -> fr (pickup_time p) (fun _ => True).
  Proof. intros H. unfold pickup_time. fgo. Qed.
  Lemma fr_delivery_time p : pok p -> fr (delivery_time p) (fun _ => True).
  Proof. intros H. unfold delivery_time. fgo. Qed.
  Hint Resolve fr_pickup_time fr_delivery_time : fr.
  Lemma fr_pt_duration p : pok p -> fr (pt_duration p) (fun _ => True).
  Proof. intros H. unfold pt_duration. fgo. Qed.
  Hint Resolve fr_pt_duration : fr.
  Lemma fr_pt_is_feasible p : pok p -> fr (pt_is_feasible p) (fun _ => True).
  Proof. intros H. unfold pt_is_feasible. fgo. apply fr_pt_upd; done. Qed.
  Hint Resolve fr_pt_is_feasible : fr.
  (** routes *)
  Lemma fr_route_stops r : rok r -> fr (route_stops r) (Forall a).
  Proof. intros H. unfold route_stops. fgo. Qed.
  Hint Resolve fr_route_stops : fr.
  Lemma fr_new_route v : fr (new_route v) c.
  Proof.
    unfold new_route. fstep. fstep. apply fr_alloc_route. by repeat constructor.
  Qed.
  Lemma fr_pickups_of l : Forall sok l ->
    fr (mapM (fun s => let! x := stop_get s in ret (st_pickups x)) l) (Forall (Forall b)).
  Proof. intros H. eapply fr_mapM; [done|]. intros s Hs. fgo. all: eauto with fr. Qed.
  Lemma fr_deliveries_of l : Forall sok l ->
    fr (mapM (fun s => let! x := stop_get s in ret (st_deliveries x)) l) (Forall (Forall b)).
  Proof. intros H. eapply fr_mapM; [done|]. intros s Hs. fgo. all: eauto with fr. Qed.
  Hint Resolve fr_pickups_of fr_deliveries_of : fr.
  Lemma fr_planned_trips r : rok r -> fr (planned_trips r) (Forall b).
  Proof. intros H. unfold planned_trips. fgo. all: eauto with fr. Qed.
  Hint Resolve fr_planned_trips : fr.
  Lemma fr_route_trips r : rok r -> fr (route_trips r) (fun _ => True).
  Proof. intros H. unfold route_trips. fgo. Qed.
  Lemma fr_route_loaded r : rok r -> fr (route_loaded r) (fun _ => True).
  Proof. intros H. unfold route_loaded. fgo. Qed.
  Hint Resolve fr_route_trips fr_route_loaded : fr.
  Lemma fr_first_stop r : rok r -> fr (first_stop r) a.
  Proof. intros H. unfold first_stop. fgo. Qed.
  Lemma Forall_last {A} (P : A -> Prop) l x : Forall P l -> last l = Some x -> P x.
  Proof. intros H E. rewrite Forall_forall in H. apply H. by apply last_Some_elem_of. Qed.
  Lemma fr_last_stop r : rok r -> fr (last_stop r) a.
  Proof. intros H. unfold last_stop. fgo. by eapply Forall_last. Qed.
  Hint Resolve fr_first_stop fr_last_stop : fr.
  Lemma fr_first_departure_time r : rok r -> fr (first_departure_time r) (fun _ => True).
  Proof. intros H. unfold first_departure_time. fgo. Qed.
  Lemma fr_last_departure_time r : rok r -> fr (last_departure_time r) (fun _ => True).
  Proof. intros H. unfold last_departure_time. fgo. Qed.
  Hint Resolve fr_first_departure_time fr_last_departure_time : fr.
  Lemma fr_route_duration r : rok r -> fr (route_duration r) (fun _ => True).
  Proof. intros H. unfold route_duration. fgo. Qed.
  Lemma fr_route_distance r : rok r -> fr (route_distance r) (fun _ => True).
  Proof.
    intros H. unfold route_distance. fstep. eapply fr_bind; [eapply fr_mapM; [eassumption|]|intros; by apply fr_ret].
    intros. fcall.
  Qed.
  Lemma fr_current_stop r : rok r -> fr (current_stop r) a.
  Proof. intros H. unfold current_stop. fgo. Qed.
  Hint Resolve fr_route_duration fr_route_distance fr_current_stop : fr.
  Lemma fr_feasible_planned_trips r : rok r -> fr (feasible_planned_trips r) (fun _ => True).
  Proof.
    intros H. unfold feasible_planned_trips. fstep. eapply (fr_foldM _ _ _ b); [done|done|]. intros. fgo.
  Qed.
  Hint Resolve fr_feasible_planned_trips : fr.
  Lemma fr_route_feasible r : rok r -> fr (route_feasible r) (fun _ => True).
  Proof. intros H. unfold route_feasible. fgo. by apply fr_route_upd. Qed.
  Lemma fr_route_flush r : rok r -> fr (route_flush r) (fun _ => True).
  Proof.
    intros H. unfold route_flush. eapply fr_bind; [by apply fr_route_upd|]. intros _ _. fgo.
    eapply fr_iterM; [eassumption|]. intros. fcall.
  Qed.
  Hint Resolve fr_route_feasible fr_route_flush : fr.

  Lemma Forall_insert_at {A} (P : A -> Prop) i x l : P x -> Forall P l -> Forall P (list_insert_at i x l).
  Proof. intros. unfold list_insert_at. apply Forall_app2; [by apply Forall_take|]. constructor; [done|by apply Forall_drop]. Qed.
  Lemma Forall_remove_at {A} (P : A -> Prop) i l : Forall P l -> Forall P (list_remove_at i l).
  Proof. intros. unfold list_remove_at. apply Forall_app2; [by apply Forall_take|by apply Forall_drop]. Qed.
  Lemma fr_set_previous s q : sok s -> sok q -> fr (stop_upd s (set_previous (Some q))) (fun _ => True).
  Proof. intros. apply fr_stop_upd; [done|]. intros x (? & ? & ?). split; [by apply some_in_Some|done]. Qed.
  Lemma fr_set_route_stops r l : rok r -> Forall sok l -> fr (route_upd r (set_route_stops l)) (fun _ => True).
  Proof. intros. apply fr_route_upd; done. Qed.
  Hint Resolve Forall_insert_at Forall_remove_at fr_set_previous fr_set_route_stops : fr.
  Lemma fr_insert_stop_at r i s : rok r -> sok s -> fr (insert_stop_at r i s) a.
  Proof.
    intros H1 H2. unfold insert_stop_at. fgo.
    destruct (last _) eqn:E; [|done]. cbn. eapply Forall_last; [|exact E]. eauto with fr.
  Qed.
  Lemma fr_remove_stop_at r i : rok r -> fr (remove_stop_at r i) a.
  Proof.
    intros H1. unfold remove_stop_at. fstep. eapply (fr_bind _ _ _ _ _ a).
    { fgo. by eapply Forall_last. }
    intros q Hq. fgo.
  Qed.
  Hint Resolve fr_insert_stop_at fr_remove_stop_at : fr.
  Lemma fr_insert_stop r s : rok r -> sok s -> fr (insert_stop r s) a.
  Proof. intros H1 H2. unfold insert_stop. fgo. Qed.
  Hint Resolve fr_insert_stop : fr.
  Lemma consecutive_in l : Forall sok l -> Forall (fun p : nat * nat => sok p.1 /\ sok p.2) (consecutive l).
  Proof.
    intros H. unfold consecutive. apply Forall_lookup. intros i [x y] E. cbn.
    apply lookup_zip_with_Some in E as (x' & y' & [= <- <-] & E1 & E2).
    rewrite Forall_lookup in H. split; [by eapply H|]. rewrite lookup_tail in E2. by eapply H.
  Qed.
  Lemma fr_assert_linked r : rok r -> fr (assert_linked r) (fun _ => True).
  Proof.
    intros H. unfold assert_linked. fstep. eapply fr_bind; [|intros; apply fr_assert].
    eapply fr_allM; [by apply consecutive_in|]. intros [s1 s2] [? ?]. cbn in *. fgo.
  Qed.
  Lemma fr_assert_monotone r : rok r -> fr (assert_monotone r) (fun _ => True).
  Proof.
    intros H. unfold assert_monotone. fstep. eapply fr_bind; [|intros; apply fr_assert].
    eapply fr_allM; [by apply consecutive_in|]. intros [s1 s2] [? ?]. cbn in *. fgo.
  Qed.
  Hint Resolve fr_assert_linked fr_assert_monotone : fr.
  Lemma fr_append_planned_trip r p : rok r -> pok p -> fr (append_planned_trip r p) (fun _ => True).
  Proof. intros H1 H2. unfold append_planned_trip. fgo. Qed.
  Lemma fr_stop_has_trip t s : sok s -> fr (stop_has_trip t s) (fun _ => True).
  Proof. intros H. unfold stop_has_trip. fgo. Qed.
  Hint Resolve fr_append_planned_trip fr_stop_has_trip : fr.
  Lemma fr_remove_trip_loop r t n : rok r -> fr (remove_trip_loop r t n) (fun _ => True).
  Proof. intros H. induction n as [|n IH]; cbn [remove_trip_loop]; fgo. Qed.
  Hint Resolve fr_remove_trip_loop : fr.
  Lemma fr_remove_trip r t : rok r -> fr (remove_trip r t) (fun _ => True).
  Proof. intros H. unfold remove_trip. fgo. Qed.
  Hint Resolve fr_remove_trip : fr.

  (** cloning *)
  Notation mapper_in := (Forall (fun kv : nat * nat => b kv.2)).
  Lemma dict_set_in {V} (P : V -> Prop) k x d :
    P x -> Forall (fun kv : nat * V => P kv.2) d -> Forall (fun kv : nat * V => P kv.2) (dict_set k x d).
  Proof.
    intros Hx. induction 1 as [|[k' v'] d H Hd IH]; cbn; [by repeat constructor|].
    destruct (decide _); constructor; done.
  Qed.
  Lemma dict_get_in {V} (P : V -> Prop) k x d :
    Forall (fun kv : nat * V => P kv.2) d -> dict_get k d = Some x -> P x.
  Proof. induction 1 as [|[k' v'] d H Hd IH]; cbn; [done|]. destruct (decide _); [by intros [= <-]|done]. Qed.
  Lemma fr_cloner_loop ss desired idx mapper mism :
    Forall sok ss -> mapper_in mapper ->
    fr (cloner_loop ss desired idx mapper mism) (fun o => mapper_in o.1.2).
  Proof.
    intros H. revert mapper mism. induction idx as [|i IH]; intros mapper mism Hm; cbn [cloner_loop]; [by apply fr_ret|].
    fstep; [|by apply fr_ret]. fstep. fstep. eapply (fr_bind _ _ _ _ _ mapper_in).
    - eapply (fr_foldM _ _ _ b); [eauto with fr|done|]. intros z p Hz Hp. fgo. by apply (dict_set_in b).
    - intros z Hz. by apply IH.
  Qed.
  Lemma fr_cloner_init ss desired : Forall sok ss -> fr (cloner_init ss desired) (fun o => mapper_in o.2).
  Proof.
    intros H. unfold cloner_init. eapply fr_bind; [apply fr_cloner_loop; [done|constructor]|].
    intros [[i m] mism] Hm. cbn in Hm. fgo.
  Qed.
  Lemma fr_map_planned mapper f l :
    mapper_in mapper -> (forall x, pt_in a x -> pt_in a (f x)) -> fr (mapM (map_planned mapper f) l) (Forall b).
  Proof.
    intros H Hf. eapply fr_mapM; [apply Forall_any|]. intros p _. unfold map_planned.
    destruct (dict_get p mapper) as [p'|] eqn:E; [|apply fr_raise].
    assert (b p') by (by eapply (dict_get_in b)).
    eapply fr_bind; [by apply fr_pt_upd|]. intros _ _. by apply fr_ret.
  Qed.
  Lemma fr_clone_stop mapper cloned s :
    mapper_in mapper -> Forall sok cloned -> sok s -> fr (clone_stop mapper cloned s) (Forall a).
  Proof.
    intros H1 H2 H3. unfold clone_stop. fstep.
    assert (some_in a (last cloned)) by (intros q E; by eapply Forall_last). fstep. 
    eapply fr_bind; [apply fr_map_planned; [done|]|].
    { intros y (? & ?). split; [by apply some_in_Some|done]. }
    intros ps Hps. eapply fr_bind; [apply fr_stop_upd; [done|]|].
    { intros y (? & ? & ?). split; [done|]. split; done. }
    intros _ _. eapply fr_bind; [apply fr_map_planned; [done|]|].
    { intros y (? & ?). split; [done|by apply some_in_Some]. }
    intros ds Hds. eapply fr_bind; [apply fr_stop_upd; [done|]|].
    { intros y (? & ? & ?). split; [done|]. split; done. }
    intros _ _. apply fr_ret. apply Forall_app2; [done|by constructor].
  Qed.
  Lemma fr_cloner_clone r desired : rok r -> fr (cloner_clone r desired) (fun o => c o.1).
  Proof.
    intros H. unfold cloner_clone. fstep. eapply fr_bind; [by apply fr_cloner_init|]. intros [th mp] Hm. cbn in Hm.
    eapply (fr_bind _ _ _ _ _ (Forall a)).
    - eapply (fr_foldM _ _ _ a); [by apply Forall_drop|by apply Forall_take|]. intros. by apply fr_clone_stop.
    - intros cl Hcl. eapply fr_bind; [by apply fr_alloc_route|]. intros r' Hr'. by apply fr_ret.
  Qed.
  Lemma fr_route_clone r i : rok r -> fr (route_clone r i) c.
  Proof. intros H. unfold route_clone. eapply fr_bind; [by apply fr_cloner_clone|]. intros [r' th] Hr. by apply fr_ret. Qed.
  Hint Resolve fr_new_route fr_route_clone : fr.

  (** objectives *)
  Lemma fr_ride_distance_fuel n pk cur acc : some_in a cur -> fr (ride_distance_fuel n pk cur acc) (fun _ => True).
  Proof.
    revert cur acc. induction n as [|n IH]; intros cur acc H; cbn [ride_distance_fuel]; [apply fr_raise|].
    fgo.
  Qed.
  Lemma fr_planned_trip_value o p : pok p -> fr (planned_trip_value o p) (fun _ => True).
  Proof.
    intros H. unfold planned_trip_value. fgo.
    eapply fr_chain_fuel. intros n. apply fr_ride_distance_fuel. eauto with fr.
  Qed.
  Lemma fr_stop_value o s : sok s -> fr (stop_value o s) (fun _ => True).
  Proof.
    intros H. unfold stop_value. fstep. eapply (fr_foldM _ _ _ b); [eauto with fr|done|]. intros z p _ Hp.
    eapply fr_bind; [by apply fr_planned_trip_value|]. intros. by apply fr_ret.
  Qed.
  Hint Resolve fr_stop_value : fr.
  Lemma fr_route_value o r : rok r -> fr (route_value o r) (fun _ => True).
  Proof.
    intros H. unfold route_value. destruct o; fgo; (eapply (fr_foldM _ _ _ a); [eassumption|done|]); intros; fgo.
  Qed.
  Hint Resolve fr_route_value : fr.
  Lemma fr_planning_value o pl : Forall rok pl -> fr (planning_value o pl) (fun _ => True).
  Proof.
    intros H. unfold planning_value. fstep.
    eapply (fr_foldM _ _ _ c); [eassumption|done|]. intros. fgo.
  Qed.
  Lemma fr_score_feasible k r : rok r -> fr (score_feasible k r) (fun _ => True).
  Proof.
    intros H. unfold score_feasible. destruct k; fgo.
    - eapply fr_any, (fr_mapM _ _ _ b _ (fun _ => True)); [eassumption|]. intros. fcall.
    - eapply fr_any, (fr_mapM _ _ _ b _ (fun _ => True)); [eassumption|]. intros. fgo.
  Qed.
  Hint Resolve fr_planning_value fr_score_feasible : fr.
  Lemma fr_scoring k r : rok r -> fr (scoring k r) (fun _ => True).
  Proof. intros H. unfold scoring. fgo. Qed.
  Hint Resolve fr_scoring : fr.
  Lemma fr_scorings k l : Forall rok l -> fr (mapM (scoring k) l) (fun _ => True).
  Proof. intros H. eapply fr_any, (fr_mapM _ _ _ c _ (fun _ => True)); [done|]. intros. fcall. Qed.
  Hint Resolve fr_scorings : fr.
  Lemma fr_criterion_best k l : Forall rok l -> fr (criterion_best k l) (fun _ => True).
  Proof. intros H. unfold criterion_best. fgo. Qed.
  Lemma sort_keyed_in {A K} (lt : K -> K -> bool) rv (P : A -> Prop) (l : list (K * A)) :
    Forall (fun x => P x.2) l -> Forall (fun x => P x.2) (sort_keyed lt rv l).
  Proof.
    unfold sort_keyed. induction 1 as [|x l Hx Hl IH]; cbn [foldr]; [done|].
    induction IH as [|y m Hy Hm IH2]; cbn [insert_keyed]; [by repeat constructor|].
    destruct (before _ _ _ _); [by constructor|]. repeat constructor; done.
  Qed.
  Lemma fr_criterion_sorted k l : Forall rok l -> fr (criterion_sorted k l) (Forall c).
  Proof.
    intros H. unfold criterion_sorted. fgo. unfold dir_sorted.
    assert (Hz : Forall (fun p : score * nat => c p.2) (zip x l)).
    { apply Forall_lookup. intros i [u v] E. apply lookup_zip_with_Some in E as (u' & v' & [= <- <-] & _ & E2).
      rewrite Forall_lookup in H. by eapply H. }
    apply (sort_keyed_in score_ltb (match criterion_direction k with Maximization => true | Minimization => false end) c) in Hz.
    induction Hz; cbn; by constructor.
  Qed.
  Hint Resolve fr_criterion_best fr_criterion_sorted : fr.

  (** insertion strategies *)
  Lemma fr_build_pickup r t i : rok r -> fr (build_pickup r t i) a.
  Proof. intros H. unfold build_pickup. fgo. Qed.
  Lemma fr_build_delivery r t i j p : rok r -> sok p -> fr (build_delivery r t i j p) a.
  Proof.
    intros H1 H2. unfold build_delivery. fstep. eapply (fr_bind _ _ _ _ _ a); [fgo|]. intros q Hq. fgo.
  Qed.
  Hint Resolve fr_build_pickup fr_build_delivery : fr.
  Lemma max_keyed_in {A K} (lt : K -> K -> bool) (P : A -> Prop) (l : list (K * A)) x :
    Forall (fun x => P x.2) l -> max_keyed lt l = Some x -> P x.
  Proof.
    destruct l as [|y l]; [done|]. intros H. apply Forall_cons in H as [Hy Hl]. cbn. intros [= <-].
    revert y Hy. induction Hl as [|z l Hz Hl IH]; intros y Hy; cbn; [done|]. apply IH. by destruct (lt _ _).
  Qed.
  Lemma fr_longest_ride ps : Forall pok ps -> fr (longest_ride ps) (some_in b).
  Proof.
    intros H. unfold longest_ride. fstep. eapply fr_bind; [eapply (fr_mapM _ _ _ b _ (fun _ => True)); [eassumption|intros; fcall]|].
    intros ks _. apply fr_ret. intros q E. eapply (max_keyed_in _ b); [|exact E].
    apply Forall_lookup. intros i [u v] E'. apply lookup_zip_with_Some in E' as (u' & v' & [= <- <-] & _ & E2).
    rewrite Forall_lookup in *. eauto.
  Qed.
  Hint Resolve fr_longest_ride : fr.
  Lemma fr_delay_stop r i : rok r -> fr (delay_stop r i) (fun _ => True).
  Proof. intros H. unfold delay_stop. fgo. Qed.
  Hint Resolve fr_delay_stop : fr.
  Lemma fr_delay_loop r lo n : rok r -> fr (delay_loop r lo n) (fun _ => True).
  Proof. intros H. induction n as [|n IH]; cbn [delay_loop]; fgo. Qed.
  Lemma fr_shift_departure r : rok r -> fr (shift_departure r) (fun _ => True).
  Proof. intros H. unfold shift_departure. fgo. Qed.
  Hint Resolve fr_delay_loop fr_shift_departure : fr.
  Lemma fr_improve_ride_times r i : rok r -> fr (improve_ride_times r i) (fun _ => True).
  Proof. intros H. unfold improve_ride_times. fgo. Qed.
  Hint Resolve fr_improve_ride_times : fr.
  Lemma fr_compute_one r t i j : rok r -> fr (compute_one r t i j) c.
  Proof.
    intros H. unfold compute_one. eapply fr_bind; [by apply fr_cloner_clone|]. intros [r' th] Hr. cbn in Hr. fgo.
  Qed.
  Hint Resolve fr_compute_one : fr.
  Lemma fr_compute of r ts i j : rok r -> fr (compute of r ts i j) (Forall c).
  Proof.
    intros H. unfold compute. fstep. eapply (fr_bind _ _ _ _ _ (Forall (Forall c))).
    - eapply fr_mapM; [apply Forall_any|]. intros t _. fstep. fstep; [fgo|]. apply fr_ret. destruct x1; by repeat constructor.
    - intros l Hl. apply fr_ret. by apply Forall_concat'.
  Qed.
  Hint Resolve fr_compute : fr.
  Lemma fr_sample_pairs n k : fr (sample_pairs n k) (fun _ => True).
  Proof. unfold sample_pairs. fgo. Qed.
  Hint Resolve fr_sample_pairs : fr.
  Lemma fr_strategy_pairs st r : rok r -> fr (strategy_pairs st r) (fun _ => True).
  Proof. intros H. unfold strategy_pairs. fgo. Qed.
  Hint Resolve fr_strategy_pairs : fr.
  Lemma fr_strategy_compute st of r ts : rok r -> fr (strategy_compute st of r ts) (Forall c).
  Proof.
    intros H. unfold strategy_compute. fstep. eapply (fr_bind _ _ _ _ _ (Forall (Forall c))).
    - eapply fr_mapM; [apply Forall_any|]. intros p _. fcall.
    - intros l Hl. apply fr_ret. by apply Forall_concat'.
  Qed.
  Hint Resolve fr_strategy_compute : fr.

  (** iterators *)
  Definition it_in (i : iterator) : Prop :=
    Forall (fun kv : nat * nat => c kv.2) (it_routes i) /\
    forall l, it_attractive i = Some l -> Forall c l.
  Definition rk_in (k : ranking) : Prop :=
    it_in (rk_it k) /\ Forall (fun kv : nat * list nat => Forall c kv.2) (rk_table k).
  Lemma it_in_set i : it_in i -> Forall c (it_route_set i).
  Proof. intros [H _]. unfold it_route_set. induction H; cbn; by constructor. Qed.
  Hint Resolve it_in_set : fr.
  Lemma fr_routes_dict l : Forall rok l -> fr (routes_dict l) (Forall (fun kv : nat * nat => c kv.2)).
  Proof.
    intros H. unfold routes_dict. eapply (fr_foldM _ _ _ c); [done|constructor|]. intros z r Hz Hr. fgo.
    by apply (dict_set_in c).
  Qed.
  Hint Resolve fr_routes_dict : fr.
  Lemma fr_find_empty l : Forall rok l -> fr (find_empty l) (some_in c).
  Proof.
    induction 1 as [|r l Hr Hl IH]; cbn [find_empty]; [by apply fr_ret|]. fgo.
  Qed.
  Hint Resolve fr_find_empty : fr.
  Lemma fr_loaded l : Forall rok l -> fr (filterM route_loaded l) (Forall c).
  Proof. intros H. eapply fr_filterM; [done|]. intros. fcall. Qed.
  Lemma fr_any_loaded l : Forall rok l -> fr (anyM route_loaded l) (fun _ => True).
  Proof. intros H. eapply fr_anyM; [done|]. intros. fcall. Qed.
  Hint Resolve fr_loaded fr_any_loaded : fr.
  Lemma it_in_attractive i l : it_in i -> Forall c l -> it_in (set_attractive (Some l) i).
  Proof. intros [? ?] ?. split; [done|]. by intros ? [= <-]. Qed.
  Lemma fr_attractive_routes i : it_in i -> fr (attractive_routes i) (fun o => Forall c o.1 /\ it_in o.2).
  Proof.
    intros H. unfold attractive_routes. eapply (fr_bind _ _ _ _ _ (Forall c)).
    { destruct (it_attractive i) eqn:E; [|fgo]. apply fr_ret. by apply H. }
    intros base Hb. fstep. fstep. fstep; [apply fr_ret; split; [done|by apply it_in_attractive]|]. fstep. fstep. apply fr_ret. cbn.
    match goal with |- Forall _ ?l /\ _ => assert (Hl : Forall c l) end.
    { match goal with H : some_in c ?o |- _ => destruct o as [r|]; [apply set_add_in; [by apply H|done]|done] end. }
    split; [done|]. by apply it_in_attractive.
  Qed.
  Lemma fr_mark_trip_as_done i t : it_in i -> fr (mark_trip_as_done i t) it_in.
  Proof. intros H. unfold mark_trip_as_done. fgo. Qed.
  Hint Resolve fr_mark_trip_as_done : fr.
  Lemma fr_create_sub_ranking k r : rok r -> fr (create_sub_ranking k r) (Forall c).
  Proof. intros H. unfold create_sub_ranking. eapply fr_bind; [apply fr_set_order_any|]. intros l _. fgo. Qed.
  Hint Resolve fr_create_sub_ranking : fr.
  Lemma fr_initialize_ranking k : rk_in k -> fr (initialize_ranking k) rk_in.
  Proof.
    intros [Hi Ht]. unfold initialize_ranking. eapply fr_bind; [by apply fr_attractive_routes|].
    intros [attr i'] [Ha Hi']. cbn in Ha, Hi'. fstep.
    eapply (fr_bind _ _ _ _ _ (Forall (fun kv : nat * list nat => Forall c kv.2))).
    - eapply (fr_foldM _ _ _ c); [eassumption|done|]. intros z r Hz Hr. fgo. by apply (dict_set_in (Forall c)).
    - intros tb Htb. apply fr_ret. by split.
  Qed.
  Lemma fr_update_vehicle_ranking k p v : rk_in k -> pok p -> fr (update_vehicle_ranking k p v) rk_in.
  Proof.
    intros [Hi Ht] Hp. unfold update_vehicle_ranking. fstep.
    assert (Hcre : fr match dict_get v (it_routes (rk_it k)) with
      | None => raise KeyError
      | Some r => let! sub' := create_sub_ranking k r in
                  ret (set_rk_table (dict_set v sub' (rk_table k)) k) end rk_in).
    { destruct (dict_get v (it_routes (rk_it k))) as [r|] eqn:E; [|apply fr_raise].
      assert (c r) by (eapply (dict_get_in c); [apply Hi|exact E]).
      fstep. apply fr_ret. split; [done|]. by apply (dict_set_in (Forall c)). }
    destruct (dict_get v (rk_table k)) as [sub|] eqn:E; [|exact Hcre].
    destruct (v =? pt_vehicle x)%nat; [exact Hcre|].
    assert (Forall c sub) by (by eapply (dict_get_in (Forall c))).
    eapply fr_bind; [eapply fr_filterM; [eassumption|]|].
    - intros r Hr. fgo.
    - intros sub' Hs. apply fr_ret. split; [done|]. by apply (dict_set_in (Forall c)).
  Qed.
  Lemma fr_update_ranking k p : rk_in k -> pok p -> fr (update_ranking k p) rk_in.
  Proof.
    intros [Hi Ht] Hp. unfold update_ranking. eapply fr_bind; [by apply fr_attractive_routes|].
    intros [attr i'] [Ha Hi']. cbn in Ha, Hi'. fstep. eapply (fr_foldM _ _ _ c); [eassumption|by split|].
    intros z r Hz Hr. fstep. by apply fr_update_vehicle_ranking.
  Qed.
  Lemma fr_ranking_mark k p : rk_in k -> pok p -> fr (ranking_mark k p) rk_in.
  Proof.
    intros [Hi Ht] Hp. unfold ranking_mark. fstep. fstep. apply fr_update_ranking; [|done]. by split.
  Qed.
  Lemma fr_ranking_set_route k r : rk_in k -> rok r -> fr (ranking_set_route k r) rk_in.
  Proof.
    intros [Hi Ht] Hr. unfold ranking_set_route. fstep.
    destruct (dict_get (rt_vehicle x) (it_routes (rk_it k))) as [old|] eqn:E; [|apply fr_raise].
    assert (c old) by (eapply (dict_get_in c); [apply Hi|exact E]).
    fstep. fstep. eapply (fr_foldM _ _ _ b); [eassumption| |].
    - split; [|done]. split; [|apply Hi]. apply (dict_set_in c); [done|apply Hi].
    - intros z p Hz Hp. fstep. fstep; [by apply fr_ret|]. by apply fr_ranking_mark.
  Qed.
  Lemma fr_candidates_loop k n cs sub : Forall rok cs -> Forall rok sub ->
    fr (candidates_loop k n cs sub) (Forall c).
  Proof.
    intros Hc Hs. revert cs Hc. induction Hs as [|r sub Hr Hs IH]; intros cs Hc; cbn [candidates_loop]; [by apply fr_ret|].
    eapply (fr_bind _ _ _ _ _ (fun _ => True)).
    { fstep; [|by apply fr_ret]. destruct (last cs) as [l|] eqn:E; [|apply fr_raise].
      assert (c l) by (by eapply Forall_last). eapply fr_bind; [apply fr_criterion_best; by repeat constructor|].
      intros. by apply fr_ret. }
    intros [] _; [by apply fr_ret|]. apply IH. apply Forall_app2; [|by constructor].
    destruct (n <=? length cs)%nat; [|done]. clear -Hc. induction cs as [|y cs IH]; [done|].
    apply Forall_cons in Hc as [? ?]. cbn. destruct cs; [constructor|]. constructor; [done|by apply IH].
  Qed.
  Lemma table_in k : rk_in k -> Forall (Forall c) (map snd (rk_table k)).
  Proof. intros [_ H]. induction H; cbn; by constructor. Qed.
  Lemma fr_ranking_next k : rk_in k -> fr (ranking_next k) (some_in c).
  Proof.
    intros H. unfold ranking_next. destruct (rk_table k) as [|row tb] eqn:E; [by apply fr_ret|]. rewrite <- E.
    eapply (fr_bind _ _ _ _ _ (Forall c)).
    - eapply (fr_foldM _ _ _ (Forall c)); [by apply table_in|constructor|].
      intros z sub Hz Hsub. destruct sub; [by apply fr_ret|].
      eapply fr_bind; [by apply fr_candidates_loop|]. intros cs Hcs. by apply fr_criterion_sorted.
    - intros cs Hcs. destruct cs; [by apply fr_ret|]. fstep. fstep. apply fr_ret. by apply some_in_Some.
  Qed.
  Lemma fr_ranking_loop n k : rk_in k -> fr (ranking_loop n k) rk_in.
  Proof.
    revert k. induction n as [|n IH]; intros k H; cbn [ranking_loop]; [apply fr_raise|].
    eapply fr_bind; [by apply fr_ranking_next|]. intros [r|] Hr; [|by apply fr_ret].
    assert (c r) by (by apply Hr). fstep. fstep; [by apply fr_ret|].
    eapply fr_bind; [by apply fr_ranking_set_route|]. intros k' Hk. by apply IH.
  Qed.

  (** local search *)
  Lemma set_diff_in (n : nat -> Prop) l m : Forall n l -> Forall n (set_diff l m).
  Proof. rewrite !Forall_forall. intros H x Hx. apply H. by apply elem_of_list_filter in Hx as [_ ?]. Qed.
  Lemma set_union_in (n : nat -> Prop) l m : Forall n l -> Forall n m -> Forall n (set_union l m).
  Proof. intros. unfold set_union. apply Forall_app2; [done|by apply set_diff_in]. Qed.
  Hint Resolve set_union_in set_diff_in : fr.
  Lemma fr_check_routes l : Forall rok l -> fr (check_routes l) (fun _ => True).
  Proof. intros H. unfold check_routes. fstep. eapply fr_iterM; [eassumption|]. intros. fgo. Qed.
  Lemma fr_update_routes l m : Forall rok l -> Forall rok m -> fr (update_routes l m) (Forall c).
  Proof.
    intros H1 H2. unfold update_routes. destruct m as [|r m]; [by apply fr_ret|]. set (l' := r :: m) in *. clearbody l'.
    eapply fr_bind; [eapply (fr_mapM _ _ _ c _ (fun _ => True)); [exact H2|]|]. { intros. fgo. }
    intros vs _. eapply fr_bind; [eapply fr_filterM; [exact H1|]|]. { intros. fgo. }
    intros keep Hk. apply fr_ret. eauto with fr.
  Qed.
  Lemma fr_last_component l : fr (last_component l) (fun _ => True).
  Proof. unfold last_component. destruct (last l); [by apply fr_ret|apply fr_raise]. Qed.
  Hint Resolve fr_last_component fr_check_routes fr_update_routes : fr.
  Definition ra_in (st : realloc_state) : Prop := Forall c (ra_routes st).
  Lemma fr_realloc_insert o r d t cost st p : rok r -> rok d -> ra_in st -> fr (realloc_insert o r d t cost st p) ra_in.
  Proof.
    intros H1 H2 H3. unfold realloc_insert. fstep. destruct x as [|r' l]; [by apply fr_ret|].
    apply Forall_cons in H as [? ?]. fgo. by repeat constructor.
  Qed.
  Lemma fr_realloc_trip o og d pa st t : rok og -> rok d -> ra_in st -> fr (realloc_trip o og d pa st t) ra_in.
  Proof.
    intros H1 H2 H3. unfold realloc_trip. do 5 fstep; [by apply fr_ret|]. do 4 fstep.
    eapply (fr_foldM _ _ _ (fun _ => True)); [apply Forall_any|done|]. intros. by apply fr_realloc_insert.
  Qed.
  Lemma fr_realloc_pair o base st p : rok p.1 -> rok p.2 -> ra_in st -> fr (realloc_pair o base st p) ra_in.
  Proof.
    intros H1 H2 H3. unfold realloc_pair. do 5 fstep.
    eapply (fr_foldM _ _ _ (fun _ => True)); [apply Forall_any|done|]. intros. by apply fr_realloc_trip.
  Qed.
  Lemma permutations2_in l : Forall rok l -> Forall (fun p : nat * nat => rok p.1 /\ rok p.2) (permutations2 l).
  Proof.
    intros H. rewrite Forall_forall in H. apply Forall_forall. intros [x y] Hp. unfold permutations2 in Hp.
    apply elem_of_list_In, in_flat_map in Hp as (i & _ & Hp). apply in_flat_map in Hp as (j & _ & Hp).
    destruct (decide (i = j)); [done|]. destruct (l !! i) as [u|] eqn:E1; [|done]. destruct (l !! j) as [v|] eqn:E2; [|done].
    destruct Hp as [[= <- <-]|[]]. split; apply H; by eapply elem_of_list_lookup_2.
  Qed.
  Lemma fr_reallocation_improve o l : Forall rok l -> fr (reallocation_improve o l) (Forall c).
  Proof.
    intros H. unfold reallocation_improve. do 3 fstep. eapply (fr_bind _ _ _ _ _ ra_in).
    - eapply (fr_foldM _ _ _ (fun p : nat * nat => rok p.1 /\ rok p.2)); [by apply permutations2_in|constructor|].
      intros st p Hst [? ?]. by apply fr_realloc_pair.
    - intros st Hst. by apply fr_update_routes.
  Qed.
  Lemma list_swap_in {A} (P : A -> Prop) i j l : Forall P l -> Forall P (list_swap i j l).
  Proof.
    intros H. unfold list_swap. destruct (l !! i) eqn:E1; [|done]. destruct (l !! j) eqn:E2; [|done].
    rewrite Forall_lookup in H. apply Forall_insert; [apply Forall_insert|]; eauto. by apply Forall_lookup.
  Qed.
  Hint Resolve list_swap_in : fr.
  Lemma fr_flip r p o f : rok r -> sok p -> sok o -> some_in a f -> fr (LocalSearch.flip r p o f) (fun _ => True).
  Proof.
    intros H1 H2 H3 H4. unfold LocalSearch.flip. eapply (fr_bind _ _ _ _ _ (fun _ => True)).
    { destruct f as [f|]; [|by apply fr_ret]. assert (a f) by (by apply H4). fgo. }
    intros _ _. fstep. fstep. fstep. destruct (index_of o x1) as [i|]; [|apply fr_raise].
    destruct (index_of p x1) as [j|]; [|apply fr_raise]. fstep. eapply (fr_bind _ _ _ _ _ (fun _ => True)).
    { destruct f as [f|]; [|by apply fr_ret]. assert (a f) by (by apply H4). fgo. }
    intros _ _. fstep. eapply (fr_bind _ _ _ _ _ (fun _ => True)).
    { apply fr_stop_upd; [done|]. intros y (? & ? & ?). split; [|done]. cbn. by eapply stop_in_prev. }
    intros _ _. fgo.
  Qed.
  Hint Resolve fr_flip : fr.
  Lemma fr_one_shift_step o r cost i : rok r -> fr (one_shift_step o r cost i) (fun _ => True).
  Proof.
    intros H. unfold one_shift_step. fstep. fstep. fstep.
    assert (some_in a (x !! S (S i))). { intros q E. rewrite Forall_lookup in H0. eauto. }
    fgo.
  Qed.
  Lemma fr_one_shift_route o r : rok r -> fr (one_shift_route o r) (fun _ => True).
  Proof.
    intros H. unfold one_shift_route. fstep. fstep. eapply fr_bind; [|intros; by apply fr_ret].
    eapply (fr_foldM _ _ _ (fun _ => True) (fun _ => True)); [apply Forall_any|done|]. intros. by apply fr_one_shift_step.
  Qed.
  Lemma fr_one_shift_improve o l : Forall rok l -> fr (one_shift_improve o l) (Forall c).
  Proof.
    intros H. unfold one_shift_improve. fstep. eapply fr_bind; [eapply fr_iterM; [eassumption|]|intros; by apply fr_ret].
    intros. by apply fr_one_shift_route.
  Qed.
  Lemma fr_segment_conflict l : Forall sok l -> fr (segment_conflict l) (fun _ => True).
  Proof. intros H. unfold segment_conflict. fgo. Qed.
  Lemma fr_reinsert r s : rok r -> sok s -> fr (reinsert r s) (fun _ => True).
  Proof. intros. unfold reinsert. fgo. Qed.
  Lemma fr_two_opt_step o r st ik : rok r -> Forall rok st.2 -> fr (two_opt_step o r st ik) (fun st => Forall c st.2).
  Proof.
    intros H1 H2. unfold two_opt_step. fstep.
    eapply fr_bind; [apply fr_segment_conflict; by apply Forall_take, Forall_drop|].
    intros [] _; [by apply fr_ret|]. fstep. fstep.
    eapply fr_bind; [eapply (fr_mapM _ _ _ (fun _ => True) _ a); [apply Forall_any|]|]. { intros. fcall. }
    intros old Hold. eapply fr_bind; [eapply (fr_iterM _ _ _ a); [|intros; by apply fr_reinsert]|].
    { rewrite Forall_reverse. by apply Forall_take. }
    intros _ _. eapply fr_bind; [eapply (fr_iterM _ _ _ a); [|intros; by apply fr_reinsert]|].
    { by apply Forall_drop. }
    intros _ _. fgo. cbn. by apply set_add_in.
  Qed.
  Lemma fr_two_opt_improve o l : Forall rok l -> fr (two_opt_improve o l) (Forall c).
  Proof.
    intros H. unfold two_opt_improve. fstep. eapply (fr_bind _ _ _ _ _ (Forall c)).
    - eapply (fr_foldM _ _ _ c); [eassumption|constructor|]. intros z r Hz Hr. unfold two_opt_route. fstep. fstep.
      eapply fr_bind; [eapply (fr_foldM _ _ _ (fun _ => True) (fun st => Forall c st.2)); [apply Forall_any|done|]|].
      { intros. by apply fr_two_opt_step. }
      intros st Hst. by apply fr_ret.
    - intros z Hz. fcall.
  Qed.
  Lemma fr_ls_improve_raw s o l : Forall rok l -> fr (ls_improve_raw s o l) (Forall c).
  Proof.
    intros H. destruct s; cbn; [by apply fr_reallocation_improve|by apply fr_one_shift_improve|by apply fr_two_opt_improve].
  Qed.
End frame_runs.

(** ** Deep copies *)
Section copies.
  Context {W : World}.

  Lemma copies_framed h rs : let a := length (h_stops h) in let b := length (h_pts h) in let c := length (h_routes h) in
    Inside (le a) (le b) (le c) (deepcopy_routes rs h).2 /\ same (le a) (le b) (le c) h (deepcopy_routes rs h).2 /\
    forall l, (deepcopy_routes rs h).1 = Ok l -> Forall (le c) l.
  Proof.
    intros a b c. unfold deepcopy_routes. unfold bind at 1. cbn [copy_objects]. fold a b.
    set (h1 := MkHeap _ _ _ _).
    assert (I1 : Inside (le a) (le b) (le c) h1).
    { split; cbn; [intros q; rewrite app_length; lia|intros q; rewrite app_length; lia|done| | |].
      - intros s x Hs E. rewrite lookup_app_r in E by lia. apply list_lookup_fmap_Some in E as (y & Hy & ->).
        split; cbn; [|split].
        + intros q. destruct (st_previous y); cbn; [|done]. intros [= <-]. lia.
        + apply Forall_fmap, Forall_forall. intros; cbn; lia.
        + apply Forall_fmap, Forall_forall. intros; cbn; lia.
      - intros s x Hs E. rewrite lookup_app_r in E by lia. apply list_lookup_fmap_Some in E as (y & Hy & ->). split; cbn.
        + intros q. destruct (pt_pickup y); cbn; [|done]. intros [= <-]. lia.
        + intros q. destruct (pt_delivery y); cbn; [|done]. intros [= <-]. lia.
      - intros r x Hr E. apply lookup_lt_Some in E. unfold c in Hr. lia. }
    assert (S1 : same (le a) (le b) (le c) h h1).
    { split; cbn; intros i Hi; [by rewrite lookup_app_l by lia|by rewrite lookup_app_l by lia|done]. }
    pose proof (fr_mapM (le a) (le b) (le c) (fun _ => True) (fun r => let! x := route_get r in
      alloc_route (MkRoute (rt_vehicle x) (map (fun s => a + s)%nat (rt_stops x)) None)) (le c) rs (Forall_any _)) as F.
    destruct (F) with (h := h1) as (I2 & S2 & P2); [|done|].
    - intros r _. eapply (fr_bind _ _ _ _ _ (fun _ => True)).
      + intros h' I'. unfold route_get. destruct (h_routes h' !! r); cbn; by (split; [done|]).
      + intros x _. apply fr_alloc_route. unfold route_in. cbn. apply Forall_fmap, Forall_forall. intros; cbn; lia.
    - split; [done|]. split; [|done]. by eapply same_trans.
  Qed.

  Lemma same_untouched h h' :
    same (le (length (h_stops h))) (le (length (h_pts h))) (le (length (h_routes h))) h h' -> untouched h h'.
  Proof. intros [A B C]. split; [|split]; intros i Hi; [apply A|apply B|apply C]; lia. Qed.

  (** what runs on deep copies only leaves the originals alone *)
  Lemma after_copies {A} rs (k : list nat -> M A) h :
    (forall a b c l, Forall c l -> exists P, fr a b c (k l) P) ->
    untouched h (snd (bind (deepcopy_routes rs) k h)).
  Proof.
    intros Hk. destruct (copies_framed h rs) as (I & S & P). unfold bind.
    destruct (deepcopy_routes rs h) as [[l|e] h1] eqn:E; cbn [fst snd] in *.
    - destruct (Hk (le (length (h_stops h))) (le (length (h_pts h))) (le (length (h_routes h))) l (P l eq_refl)) as (Q & F).
      destruct (F h1 I) as (_ & S2 & _). apply same_untouched. by eapply same_trans.
    - by apply same_untouched.
  Qed.

  Lemma insertion_framed cfg fleet job rs h :
    untouched h (snd (insertion_optimize cfg fleet job (Some rs) h)).
  Proof.
    unfold insertion_optimize, ranking_init, iterator_init.
    match goal with |- untouched _ (snd (bind (bind (bind (deepcopy_routes rs) ?k1) ?k2) ?k3 h)) =>
      replace (bind (bind (bind (deepcopy_routes rs) k1) k2) k3 h)
        with (bind (deepcopy_routes rs) (fun x => bind (bind (k1 x) k2) k3) h) end.
    2:{ unfold bind. by destruct (deepcopy_routes rs h) as [[l|e] h1]. }
    apply after_copies. intros a b c l Hl. exists (fun _ => True).
    eapply (fr_bind _ _ _ _ _ (rk_in c)).
    - eapply (fr_bind _ _ _ _ _ (it_in c)).
      + eapply fr_bind; [by apply fr_set_order|]. intros l1 Hl1. eapply (fr_bind _ _ _ _ _ (fun _ => True)).
        { eapply (fr_foldM _ _ _ c); [done|done|]. intros z r _ Hr.
          eapply fr_bind; [by apply fr_route_trips|]. intros. by apply fr_ret. }
        intros pend _. eapply fr_bind; [by apply fr_set_order|]. intros l2 Hl2.
        eapply fr_bind; [by apply fr_routes_dict|]. intros d Hd. apply fr_ret. split; [done|]. by intros ?.
      + intros i Hi. apply fr_initialize_ranking. split; [done|constructor].
    - intros k Hk. eapply fr_bind; [by apply fr_ranking_loop|]. intros k' Hk'. by apply fr_ret.
  Qed.
  Lemma insertion_cold_framed cfg fleet job h :
    untouched h (snd (insertion_optimize cfg fleet job None h)).
  Proof.
    set (a := le (length (h_stops h))). set (b := le (length (h_pts h))). set (c := le (length (h_routes h))).
    assert (I : Inside a b c h).
    { split; [done|done|done| | |]; intros i x Hi E; apply lookup_lt_Some in E; unfold a, b, c in Hi; lia. }
    assert (F : fr a b c (insertion_optimize cfg fleet job None) (fun _ => True)).
    { unfold insertion_optimize, ranking_init, iterator_init.
      eapply (fr_bind _ _ _ _ _ (rk_in c)).
      - eapply (fr_bind _ _ _ _ _ (it_in c)).
        + eapply fr_bind; [apply (fr_set_order _ _ _ (fun _ => True)), Forall_any|]. intros vs _.
          eapply fr_bind; [eapply (fr_mapM _ _ _ (fun _ => True)); [apply Forall_any|intros; apply fr_new_route]|]. intros l Hl.
          eapply fr_bind; [by apply fr_set_order|]. intros l2 Hl2.
          eapply fr_bind; [by apply fr_routes_dict|]. intros d Hd. apply fr_ret. split; [done|]. by intros ?.
        + intros i Hi. apply fr_initialize_ranking. split; [done|constructor].
      - intros k Hk. eapply fr_bind; [by apply fr_ranking_loop|]. intros k' Hk'. by apply fr_ret. }
    destruct (F h I) as (_ & S & _). by apply same_untouched.
  Qed.
  Lemma ls_improve_framed s o rs h : untouched h (snd (ls_improve s o rs h)).
  Proof.
    unfold ls_improve. apply after_copies. intros a b c l Hl. exists (fun _ => True).
    eapply fr_bind; [by apply fr_check_routes|]. intros _ _.
    eapply fr_bind; [by apply fr_ls_improve_raw|]. intros l' Hl'.
    eapply fr_bind; [by apply fr_check_routes|]. intros _ _. by apply fr_ret.
  Qed.
End copies.
