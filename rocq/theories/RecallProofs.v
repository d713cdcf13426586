(** Recorded feasibility answers of routes are not lost while candidates are
    computed: only the new route objects are written. *)
From Verif Require Export ScoreProofs StrategyProofs.

Section low.
  (** [m] leaves the first [c] route objects alone, and its result satisfies [P] *)
  Definition low {A} (c : nat) (m : M A) (P : A -> Prop) : Prop := forall h, (c <= length (h_routes h))%nat ->
    (forall r, (r < c)%nat -> h_routes (m h).2 !! r = h_routes h !! r) /\ (c <= length (h_routes (m h).2))%nat /\
    forall x h', m h = (Ok x, h') -> P x.
  Context (c : nat).
  Lemma low_keeps {A} (m : M A) : keeps m -> low c m (fun _ => True).
  Proof. intros K h Hc. specialize (K h). cbn in *. rewrite K. split; [done|]. split; done. Qed.
  Lemma low_any {A} (m : M A) P : low c m P -> low c m (fun _ => True).
  Proof. intros K h Hc. destruct (K h Hc) as (? & ? & _). split; [done|]. split; done. Qed.
  Lemma low_ret {A} (x : A) (P : A -> Prop) : P x -> low c (ret x) P.
  Proof. intros HP h Hc. split; [done|]. split; [done|]. by intros ? ? [= <-]. Qed.
  Lemma low_raise {A} e (P : A -> Prop) : low c (raise e) P.
  Proof. intros h Hc. split; [done|]. split; [done|]. by intros ? ? [=]. Qed.
  Lemma low_bind {A B} (m : M A) (k : A -> M B) P Q : low c m P -> (forall x, P x -> low c (k x) Q) -> low c (bind m k) Q.
  Proof.
    intros Hm Hk h Hc. unfold bind. destruct (Hm h Hc) as (H1 & H2 & H3). destruct (m h) as [[x|e] h1]; cbn in *.
    - destruct (Hk x (H3 _ _ eq_refl) h1 H2) as (K1 & K2 & K3). split; [|done]. intros r Hr. by rewrite K1, H1.
    - split; [done|]. split; [done|]. by intros ? ? [=].
  Qed.
  Lemma low_mapM {A B} (f : A -> M B) l P : (forall x, low c (f x) P) -> low c (mapM f l) (Forall P).
  Proof.
    intros Hf. induction l; cbn; [by apply low_ret|]. eapply low_bind; [apply Hf|]. intros y Hy.
    eapply low_bind; [apply IHl|]. intros ys Hys. apply low_ret. by constructor.
  Qed.
  Lemma low_iterM {A} (f : A -> M unit) l : (forall x, low c (f x) (fun _ => True)) -> low c (iterM f l) (fun _ => True).
  Proof. intros Hf. induction l; cbn; [by apply low_ret|]. by eapply low_bind. Qed.
  Lemma low_foldM {A B} (f : B -> A -> M B) l : (forall b x, low c (f b x) (fun _ => True)) -> forall b, low c (foldM f b l) (fun _ => True).
  Proof. intros Hf. induction l; intros b; cbn; [by apply low_ret|]. by eapply low_bind. Qed.
  Lemma low_allM {A} (f : A -> M bool) l : (forall x, low c (f x) (fun _ => True)) -> low c (allM f l) (fun _ => True).
  Proof. intros Hf. induction l; cbn; [by apply low_ret|]. eapply low_bind; [apply Hf|]. intros [] _; [done|by apply low_ret]. Qed.
  Lemma low_tick : low c tick (fun _ => True).
  Proof. intros h Hc. split; [done|]. split; done. Qed.
  Lemma low_alloc_stop x : low c (alloc_stop x) (fun _ => True).
  Proof. intros h Hc. split; [done|]. split; done. Qed.
  Lemma low_alloc_pt x : low c (alloc_pt x) (fun _ => True).
  Proof. intros h Hc. split; [done|]. split; done. Qed.
  Lemma low_alloc_route x : low c (alloc_route x) (le c).
  Proof.
    intros h Hc. cbn. split; [|split].
    - intros r Hr. apply lookup_app_l. lia.
    - rewrite app_length. lia.
    - intros ? ? [= <- _]. done.
  Qed.
  Lemma low_route_upd r f : (c <= r)%nat -> low c (route_upd r f) (fun _ => True).
  Proof.
    intros Hr h Hc. cbn. split; [|split; [by rewrite alter_length|done]].
    intros q Hq. apply list_lookup_alter_ne. lia.
  Qed.
End low.

Create HintDb low.
Ltac low1 := lazymatch goal with
  | |- low _ (ret _) _ => apply low_ret; try done
  | |- low _ (raise _) _ => apply low_raise
  | |- low _ (bind _ _) _ =>
      first [ eapply low_bind; [solve [eauto 4 with low] | let x := fresh "x" in let H := fresh "Hx" in intros x H; cbn beta in H]
            | eapply (low_bind _ _ _ (fun _ => True)); [|let x := fresh "x" in intros x _] ]
  | |- low _ (mapM _ _) (fun _ => True) => eapply low_any, low_mapM; intros
  | |- low _ (iterM _ _) _ => apply low_iterM; intros
  | |- low _ (foldM _ _ _) _ => apply low_foldM; intros
  | |- low _ (allM _ _) _ => apply low_allM; intros
  | |- low _ (match ?x with _ => _ end) _ => destruct x
  | |- low _ (let x := _ in _) _ => cbv zeta
  end.
Ltac low := repeat (first [solve [eauto 4 with low] | low1]).

Section low_ops.
  Context {W : World} (c : nat).
  Hint Resolve low_tick low_alloc_stop low_alloc_pt low_alloc_route low_route_upd : low.
  Hint Extern 3 (low _ _ (fun _ => True)) => (apply low_keeps; solve [keeps]) : low.
  Lemma low_set_order l : low c (set_order l) (fun _ => True).
  Proof. unfold set_order. low. Qed.
  Lemma low_route_stops r : low c (route_stops r) (fun _ => True).
  Proof. apply low_keeps, keeps_route_stops. Qed.
  Lemma low_departure s : low c (departure_time s) (fun _ => True).
  Proof. apply low_keeps, keeps_departure. Qed.
  Lemma low_arrival s : low c (arrival_time s) (fun _ => True).
  Proof. apply low_keeps, keeps_arrival. Qed.
  Lemma low_starting s : low c (starting_time s) (fun _ => True).
  Proof. apply low_keeps, keeps_starting. Qed.
  Lemma low_pt_duration p : low c (pt_duration p) (fun _ => True).
  Proof. apply low_keeps, keeps_pt_duration. Qed.
  Lemma low_planned_trips r : low c (planned_trips r) (fun _ => True).
  Proof. apply low_keeps, keeps_planned_trips. Qed.
  Hint Resolve low_set_order low_route_stops low_departure low_arrival low_starting low_pt_duration low_planned_trips : low.
  Lemma low_waiting s : low c (waiting_time s) (fun _ => True).
  Proof. unfold waiting_time. low. Qed.
  Lemma low_pt_flush p : low c (pt_flush p) (fun _ => True).
  Proof. unfold pt_flush. low. Qed.
  Hint Resolve low_waiting low_pt_flush : low.
  Lemma low_stop_flush s : low c (stop_flush s) (fun _ => True).
  Proof. unfold stop_flush. low. Qed.
  Hint Resolve low_stop_flush : low.
  Lemma low_set_starting s x : low c (set_starting_time s x) (fun _ => True).
  Proof. unfold set_starting_time. low. Qed.
  Hint Resolve low_set_starting : low.
  Lemma low_new_stop v p a b : low c (new_stop v p a b) (fun _ => True).
  Proof. unfold new_stop. low. Qed.
  Lemma low_append_pickup s p : low c (append_pickup s p) (fun _ => True).
  Proof. unfold append_pickup. low. Qed.
  Lemma low_append_delivery s p : low c (append_delivery s p) (fun _ => True).
  Proof. unfold append_delivery. low. Qed.
  Hint Resolve low_new_stop low_append_pickup low_append_delivery : low.
  Lemma low_new_planned_trip v t a b : low c (new_planned_trip v t a b) (fun _ => True).
  Proof. unfold new_planned_trip. low. Qed.
  Hint Resolve low_new_planned_trip : low.
  Lemma low_route_feasible r : (c <= r)%nat -> low c (route_feasible r) (fun _ => True).
  Proof.
    intros Hr. unfold route_feasible. low1; [low|]. low1; [by apply low_ret|]. cbv zeta.
    eapply (low_bind _ _ _ (fun _ => True)); [|intros; low]. apply low_keeps.
    keeps; auto using keeps_first_stop, keeps_arrival, keeps_last_stop, keeps_last_departure, keeps_route_duration, keeps_feasible_trips.
  Qed.
  Lemma low_route_flush r : (c <= r)%nat -> low c (route_flush r) (fun _ => True).
  Proof. intros Hr. unfold route_flush. low. Qed.
  Lemma low_insert_stop_at r i s : (c <= r)%nat -> low c (insert_stop_at r i s) (fun _ => True).
  Proof. intros Hr. unfold insert_stop_at. low. Qed.
  Lemma low_remove_stop_at r i : (c <= r)%nat -> low c (remove_stop_at r i) (fun _ => True).
  Proof. intros Hr. unfold remove_stop_at. low. Qed.
  Hint Resolve low_route_feasible low_route_flush low_insert_stop_at low_remove_stop_at : low.
  Lemma low_insert_stop r s : (c <= r)%nat -> low c (insert_stop r s) (fun _ => True).
  Proof. intros Hr. unfold insert_stop. low. Qed.
  Lemma low_assert_linked r : low c (assert_linked r) (fun _ => True).
  Proof. unfold assert_linked. low. Qed.
  Lemma low_assert_monotone r : low c (assert_monotone r) (fun _ => True).
  Proof. unfold assert_monotone. low. Qed.
  Hint Resolve low_insert_stop low_assert_linked low_assert_monotone : low.
  Lemma low_append_planned_trip r p : (c <= r)%nat -> low c (append_planned_trip r p) (fun _ => True).
  Proof. intros Hr. unfold append_planned_trip. low. Qed.
  Lemma low_cloner_loop ss d : forall idx m n, low c (cloner_loop ss d idx m n) (fun _ => True).
  Proof. induction idx as [|i IH]; intros m n; cbn [cloner_loop]; low. Qed.
  Hint Resolve low_append_planned_trip low_cloner_loop : low.
  Lemma low_cloner_clone r d : low c (cloner_clone r d) (fun o => (c <= o.1)%nat).
  Proof. unfold cloner_clone, cloner_init, clone_stop, map_planned. low. Qed.
  Lemma low_shift_departure r : low c (shift_departure r) (fun _ => True).
  Proof. unfold shift_departure. low. Qed.
  Lemma low_delay_stop r i : low c (delay_stop r i) (fun _ => True).
  Proof. unfold delay_stop, longest_ride. low. Qed.
  Hint Resolve low_cloner_clone low_shift_departure low_delay_stop : low.
  Lemma low_delay_loop r lo n : low c (delay_loop r lo n) (fun _ => True).
  Proof. induction n as [|i IH]; cbn [delay_loop]; low. Qed.
  Lemma low_build_pickup r t i : low c (build_pickup r t i) (fun _ => True).
  Proof. unfold build_pickup. low. Qed.
  Lemma low_build_delivery r t i j k : low c (build_delivery r t i j k) (fun _ => True).
  Proof. unfold build_delivery. low. Qed.
  Hint Resolve low_delay_loop low_build_pickup low_build_delivery : low.
  Lemma low_improve r i : (c <= r)%nat -> low c (improve_ride_times r i) (fun _ => True).
  Proof. intros Hr. unfold improve_ride_times. low. Qed.
  Hint Resolve low_improve : low.
  Lemma low_compute_one r t i j : low c (compute_one r t i j) (le c).
  Proof.
    unfold compute_one. eapply low_bind; [apply low_cloner_clone|]. intros [r' th] Hr. cbn in Hr. low.
  Qed.
  Hint Resolve low_compute_one : low.
  Lemma low_compute of r ts i j : low c (compute of r ts i j) (Forall (le c)).
  Proof.
    unfold compute. low1; [low|]. eapply low_bind; [eapply (low_mapM c _ _ (Forall (le c)))|].
    - intros t. low1. low1; [low|]. apply low_ret. destruct x1; by repeat constructor.
    - intros l Hl. apply low_ret. induction Hl; cbn; [done|]. by apply Forall_app.
  Qed.
  Lemma low_strategy_compute st of r ts : low c (strategy_compute st of r ts) (Forall (le c)).
  Proof.
    unfold strategy_compute. eapply (low_bind _ _ _ (fun _ => True)).
    - unfold strategy_pairs, sample_pairs. low.
    - intros ps _. eapply low_bind; [eapply (low_mapM c _ _ (Forall (le c)))|].
      + intros p. apply low_compute.
      + intros l Hl. apply low_ret. induction Hl; cbn; [done|]. by apply Forall_app.
  Qed.

End low_ops.
