(** Operations that record no new feasibility answer: everything but
    the feasibility getters themselves. *)
From Verif Require Export RemoveProofs Insertion.

Section hush.
  Context {W : World}.

  Definition hush {A} (m : M A) : Prop := forall h, hushes h (snd (m h)).

  Lemma hushes_refl h : hushes h h.
  Proof. split; [|split]; eauto. Qed.
  Lemma hushes_trans h1 h2 h3 : hushes h1 h2 -> hushes h2 h3 -> hushes h1 h3.
  Proof.
    intros (A1 & A2 & A3) (B1 & B2 & B3). split; [|split].
    - intros s c g Hc Hf. destruct (B1 s c g Hc Hf) as (c1 & H1 & F1). eauto.
    - intros s c g Hc Hf. destruct (B2 s c g Hc Hf) as (c1 & H1 & F1). eauto.
    - intros s c g Hc Hf. destruct (B3 s c g Hc Hf) as (c1 & H1 & F1). eauto.
  Qed.

  Lemma hush_ret {A} (x : A) : hush (ret x).
  Proof. intros h. apply hushes_refl. Qed.
  Lemma hush_raise {A} e : hush (raise e : M A).
  Proof. intros h. apply hushes_refl. Qed.
  Lemma hush_bind {A B} (m : M A) (k : A -> M B) : hush m -> (forall x, hush (k x)) -> hush (bind m k).
  Proof.
    intros Hm Hk h. unfold bind. specialize (Hm h). destruct (m h) as [[x|e] h1]; cbn in *; [|done].
    eapply hushes_trans; [exact Hm|]. apply Hk.
  Qed.
  Lemma hush_assert b : hush (py_assert b).
  Proof. destruct b; [apply hush_ret|apply hush_raise]. Qed.
  Lemma hush_nth {A} (l : list A) i : hush (py_nth l i).
  Proof. unfold py_nth. destruct (l !! i); [apply hush_ret|apply hush_raise]. Qed.
  Lemma hush_some {A} (o : option A) : hush (py_some o).
  Proof. unfold py_some. destruct o; [apply hush_ret|apply hush_raise]. Qed.
  Lemma hush_mapM {A B} (f : A -> M B) l : (forall x, hush (f x)) -> hush (mapM f l).
  Proof. intros Hf. induction l; cbn; [apply hush_ret|]. apply hush_bind; [done|]. intros. apply hush_bind; [done|]. intros. apply hush_ret. Qed.
  Lemma hush_iterM {A} (f : A -> M unit) l : (forall x, hush (f x)) -> hush (iterM f l).
  Proof. intros Hf. induction l; cbn; [apply hush_ret|]. apply hush_bind; [done|]. intros. done. Qed.
  Lemma hush_foldM {A B} (f : B -> A -> M B) l : (forall x y, hush (f x y)) -> forall z, hush (foldM f z l).
  Proof. intros Hf. induction l; intros z; cbn; [apply hush_ret|]. apply hush_bind; [done|]. intros. done. Qed.
  Lemma hush_allM {A} (f : A -> M bool) l : (forall x, hush (f x)) -> hush (allM f l).
  Proof. intros Hf. induction l; cbn; [apply hush_ret|]. apply hush_bind; [done|]. intros []; [done|apply hush_ret]. Qed.
  Lemma hush_tick : hush tick.
  Proof. intros h. split; [|split]; cbn; eauto. Qed.
  Lemma hush_stop_get s : hush (stop_get s).
  Proof. intros h. unfold stop_get. destruct (h_stops h !! s); apply hushes_refl. Qed.
  Lemma hush_pt_get s : hush (pt_get s).
  Proof. intros h. unfold pt_get. destruct (h_pts h !! s); apply hushes_refl. Qed.
  Lemma hush_route_get s : hush (route_get s).
  Proof. intros h. unfold route_get. destruct (h_routes h !! s); apply hushes_refl. Qed.
  Lemma hush_stop_upd s f : (forall c g, st_feasible (f c) = Some g -> st_feasible c = Some g) -> hush (stop_upd s f).
  Proof. intros Hf h. apply hushes_stops. auto. Qed.
  Lemma hush_pt_upd s f : (forall c g, pt_feasible (f c) = Some g -> pt_feasible c = Some g) -> hush (pt_upd s f).
  Proof. intros Hf h. apply hushes_pts. auto. Qed.
  Lemma hush_route_upd s f : (forall c g, rt_feasible (f c) = Some g -> rt_feasible c = Some g) -> hush (route_upd s f).
  Proof. intros Hf h. apply hushes_routes. auto. Qed.
  Lemma snoc_flag {A} (P : A -> Prop) (l : list A) x i c : ~ P x -> (l ++ [x]) !! i = Some c -> P c -> exists c0, l !! i = Some c0 /\ P c0.
  Proof.
    intros Hx Hc HP. apply lookup_app_Some in Hc as [Hc|[_ Hc]]; [eauto|].
    apply list_lookup_singleton_Some in Hc as [_ <-]. done.
  Qed.
  Lemma hush_alloc_stop c : st_feasible c = None -> hush (alloc_stop c).
  Proof. intros Hf h. split; [|split; cbn; eauto]. intros s c' g Hc' Hf'. cbn in Hc'. eapply (snoc_flag (fun c => st_feasible c = Some g)); [by rewrite Hf|done..]. Qed.
  Lemma hush_alloc_pt c : pt_feasible c = None -> hush (alloc_pt c).
  Proof. intros Hf h. split; [|split]; cbn; eauto. intros s c' g Hc' Hf'. eapply (snoc_flag (fun c => pt_feasible c = Some g)); [by rewrite Hf|done..]. Qed.
  Lemma hush_alloc_route c : rt_feasible c = None -> hush (alloc_route c).
  Proof. intros Hf h. split; [|split]; cbn; eauto. intros s c' g Hc' Hf'. eapply (snoc_flag (fun c => rt_feasible c = Some g)); [by rewrite Hf|done..]. Qed.
  Lemma hush_chain_fuel {A} (f : nat -> M A) : (forall n, hush (f n)) -> hush (chain_fuel f).
  Proof. intros Hf h. apply Hf. Qed.
End hush.

Create HintDb hush.
Ltac hush1 := first
  [ assumption
  | apply hush_ret | apply hush_raise | apply hush_assert | apply hush_nth | apply hush_some | apply hush_tick
  | apply hush_stop_get | apply hush_pt_get | apply hush_route_get
  | apply hush_stop_upd; intros [] ?; done
  | apply hush_pt_upd; intros [] ?; done
  | apply hush_route_upd; intros [] ?; done
  | apply hush_alloc_stop; done | apply hush_alloc_pt; done | apply hush_alloc_route; done
  | apply hush_bind; [|intros]
  | apply hush_mapM; intros | apply hush_iterM; intros | apply hush_foldM; intros | apply hush_allM; intros
  | apply hush_chain_fuel; intros
  | match goal with |- hush (match ?x with _ => _ end) => destruct x end
  | progress cbv zeta ].
Ltac hush := repeat (first [solve [eauto 2 with hush] | hush1]).

Section hush_ops.
  Context {W : World}.
  Lemma hush_trips_of l : hush (trips_of l).
  Proof. unfold trips_of. hush. Qed.
  Hint Resolve hush_trips_of : hush.
  Lemma hush_stop_earliest s : hush (stop_earliest s).
  Proof. unfold stop_earliest. hush. Qed.
  Lemma hush_stop_load_time s : hush (stop_load_time s).
  Proof. unfold stop_load_time. hush. Qed.
  Lemma hush_previous_position s : hush (previous_position s).
  Proof. unfold previous_position. hush. Qed.
  Hint Resolve hush_stop_earliest hush_stop_load_time hush_previous_position : hush.
  Section dep.
    Context (dep : nat -> M Z) (Hdep : forall s, hush (dep s)).
    Lemma hush_previous_departure_with s : hush (previous_departure_with dep s).
    Proof. unfold previous_departure_with. hush. Qed.
    Hint Resolve hush_previous_departure_with : hush.
    Lemma hush_transit_with s : hush (transit_with dep s).
    Proof. unfold transit_with. hush. Qed.
    Hint Resolve hush_transit_with : hush.
    Lemma hush_arrival_with s : hush (arrival_with dep s).
    Proof. unfold arrival_with. hush. Qed.
    Hint Resolve hush_arrival_with : hush.
    Lemma hush_starting_with s : hush (starting_with dep s).
    Proof. unfold starting_with. hush. Qed.
  End dep.
  Lemma hush_departure_fuel n : forall s, hush (departure_fuel n s).
  Proof. induction n as [|n IH]; intros s; cbn [departure_fuel]; [hush|]. pose proof (hush_starting_with _ IH). hush. Qed.
  Lemma hush_departure_time s : hush (departure_time s).
  Proof. unfold departure_time. pose proof hush_departure_fuel. hush. Qed.
  Lemma hush_arrival_time s : hush (arrival_time s).
  Proof. unfold arrival_time. apply hush_chain_fuel. intros n. apply hush_arrival_with, hush_departure_fuel. Qed.
  Lemma hush_starting_time s : hush (starting_time s).
  Proof. unfold starting_time. apply hush_chain_fuel. intros n. apply hush_starting_with, hush_departure_fuel. Qed.
  Hint Resolve hush_departure_time hush_arrival_time hush_starting_time : hush.
  Lemma hush_waiting_time s : hush (waiting_time s).
  Proof. unfold waiting_time. hush. Qed.
  Lemma hush_pt_flush p : hush (pt_flush p).
  Proof. apply hush_pt_upd. by intros []. Qed.
  Hint Resolve hush_waiting_time hush_pt_flush : hush.
  Lemma hush_stop_flush s : hush (stop_flush s).
  Proof. unfold stop_flush. hush. Qed.
  Hint Resolve hush_stop_flush : hush.
  Lemma hush_set_starting_time s x : hush (set_starting_time s x).
  Proof. unfold set_starting_time. hush. Qed.
  Hint Resolve hush_set_starting_time : hush.
  Lemma hush_append_pickup s p : hush (append_pickup s p).
  Proof. unfold append_pickup. hush. Qed.
  Lemma hush_append_delivery s p : hush (append_delivery s p).
  Proof. unfold append_delivery. hush. Qed.
  Hint Resolve hush_append_pickup hush_append_delivery : hush.
  Lemma hush_new_planned_trip v t a b : hush (new_planned_trip v t a b).
  Proof. unfold new_planned_trip. hush. Qed.
  Lemma hush_new_stop v p a b : hush (new_stop v p a b).
  Proof. unfold new_stop. hush. Qed.
  Hint Resolve hush_new_planned_trip hush_new_stop : hush.
  Lemma hush_pickup_time p : hush (pickup_time p).
  Proof. unfold pickup_time. hush. Qed.
  Lemma hush_delivery_time p : hush (delivery_time p).
  Proof. unfold delivery_time. hush. Qed.
  Hint Resolve hush_pickup_time hush_delivery_time : hush.
  Lemma hush_pt_duration p : hush (pt_duration p).
  Proof. unfold pt_duration. hush. Qed.
  Lemma hush_route_stops r : hush (route_stops r).
  Proof. unfold route_stops. hush. Qed.
  Hint Resolve hush_pt_duration hush_route_stops : hush.
  Lemma hush_new_route v : hush (new_route v).
  Proof. unfold new_route. hush. Qed.
  Lemma hush_planned_trips r : hush (planned_trips r).
  Proof. unfold planned_trips. hush. Qed.
  Hint Resolve hush_new_route hush_planned_trips : hush.
  Lemma hush_route_flush r : hush (route_flush r).
  Proof. unfold route_flush. hush. Qed.
  Lemma hush_insert_stop_at r i s : hush (insert_stop_at r i s).
  Proof. unfold insert_stop_at. hush. Qed.
  Lemma hush_remove_stop_at r i : hush (remove_stop_at r i).
  Proof. unfold remove_stop_at. hush. Qed.
  Hint Resolve hush_route_flush hush_insert_stop_at hush_remove_stop_at : hush.
  Lemma hush_insert_stop r s : hush (insert_stop r s).
  Proof. unfold insert_stop. hush. Qed.
  Lemma hush_assert_linked r : hush (assert_linked r).
  Proof. unfold assert_linked. hush. Qed.
  Lemma hush_assert_monotone r : hush (assert_monotone r).
  Proof. unfold assert_monotone. hush. Qed.
  Hint Resolve hush_insert_stop hush_assert_linked hush_assert_monotone : hush.
  Lemma hush_append_planned_trip r p : hush (append_planned_trip r p).
  Proof. unfold append_planned_trip. hush. Qed.
  Lemma hush_stop_has_trip t s : hush (stop_has_trip t s).
  Proof. unfold stop_has_trip. hush. Qed.
  Hint Resolve hush_stop_has_trip : hush.
  Lemma hush_remove_trip r t : hush (remove_trip r t).
  Proof.
    unfold remove_trip.
    assert (forall n, hush (remove_trip_loop r t n)) as H by (induction n; cbn [remove_trip_loop]; hush).
    hush.
  Qed.
  Lemma hush_cloner_loop ss d : forall idx m n, hush (cloner_loop ss d idx m n).
  Proof. induction idx as [|i IH]; intros m n; cbn [cloner_loop]; hush. Qed.
  Hint Resolve hush_cloner_loop : hush.
  Lemma hush_cloner_clone r d : hush (cloner_clone r d).
  Proof. unfold cloner_clone, cloner_init, clone_stop, map_planned. hush. Qed.
  Lemma hush_set_order l : hush (set_order l).
  Proof. unfold set_order. hush. Qed.
  Hint Resolve hush_set_order : hush.
  Lemma hush_shift_departure r : hush (shift_departure r).
  Proof. unfold shift_departure. hush. Qed.
  Lemma hush_delay_stop r i : hush (delay_stop r i).
  Proof. unfold delay_stop, longest_ride. hush. Qed.
  Hint Resolve hush_delay_stop : hush.
  Lemma hush_delay_loop r lo n : hush (delay_loop r lo n).
  Proof. induction n as [|i IH]; cbn [delay_loop]; hush. Qed.
  Lemma hush_build_pickup r t i : hush (build_pickup r t i).
  Proof. unfold build_pickup. hush. Qed.
  Lemma hush_build_delivery r t i j k : hush (build_delivery r t i j k).
  Proof. unfold build_delivery. hush. Qed.

  Lemma runs_hush {A} (m : M A) h Q : hush m -> runs m h Q -> runs m h (fun x h' => Q x h' /\ hushes h h').
  Proof. intros H R. specialize (H h). unfold runs in *. destruct (m h) as [[x|e] h']; [|done]. by split. Qed.
End hush_ops.
