(** Code that is given references into a part of the heap which is closed under
    references changes nothing outside that part.  Used for deep copies: the
    originals are literally untouched. *)
From Verif Require Export Meta.

Section frame.
  Context {W : World}.
  (** the part: the stops in [a], the planned trips in [b] and the routes in [c] *)
  Context (a b c : nat -> Prop).

  Definition some_in (n : nat -> Prop) (o : option nat) : Prop := forall q, o = Some q -> n q.
  Definition stop_in (x : stop) : Prop :=
    some_in a (st_previous x) /\ Forall b (st_pickups x) /\ Forall b (st_deliveries x).
  Definition pt_in (x : ptrip) : Prop := some_in a (pt_pickup x) /\ some_in a (pt_delivery x).
  Definition route_in (x : route) : Prop := Forall a (rt_stops x).

  Record Inside (h : heap) : Prop := {
    in_ns : forall s, (length (h_stops h) <= s)%nat -> a s;
    in_np : forall s, (length (h_pts h) <= s)%nat -> b s;
    in_nr : forall s, (length (h_routes h) <= s)%nat -> c s;
    in_stop : forall s x, a s -> h_stops h !! s = Some x -> stop_in x;
    in_pt : forall p x, b p -> h_pts h !! p = Some x -> pt_in x;
    in_route : forall r x, c r -> h_routes h !! r = Some x -> route_in x
  }.
  Record same (h h' : heap) : Prop := {
    sm_stop : forall s, ~ a s -> h_stops h' !! s = h_stops h !! s;
    sm_pt : forall p, ~ b p -> h_pts h' !! p = h_pts h !! p;
    sm_route : forall r, ~ c r -> h_routes h' !! r = h_routes h !! r
  }.
  Definition fr {A} (m : M A) (P : A -> Prop) : Prop :=
    forall h, Inside h -> Inside (m h).2 /\ same h (m h).2 /\ (forall x, (m h).1 = Ok x -> P x).

  Lemma same_refl h : same h h.
  Proof. done. Qed.
  Lemma same_trans h1 h2 h3 : same h1 h2 -> same h2 h3 -> same h1 h3.
  Proof.
    intros [A1 A2 A3] [B1 B2 B3]. split; intros i Hi.
    - by rewrite B1, A1.
    - by rewrite B2, A2.
    - by rewrite B3, A3.
  Qed.

  Lemma fr_ret {A} (x : A) (P : A -> Prop) : P x -> fr (ret x) P.
  Proof. intros H h I. split; [done|]. split; [done|]. by intros ? [= <-]. Qed.
  Lemma fr_raise {A} e (P : A -> Prop) : fr (raise e) P.
  Proof. intros h I. split; [done|]. split; [done|]. by intros ? [=]. Qed.
  Lemma fr_bind {A B} (m : M A) (k : A -> M B) P Q :
    fr m P -> (forall x, P x -> fr (k x) Q) -> fr (bind m k) Q.
  Proof.
    intros Hm Hk h I. unfold bind. destruct (Hm h I) as (I1 & S1 & P1). destruct (m h) as [[x|e] h1] eqn:E.
    - destruct (Hk x (P1 x eq_refl) h1 I1) as (I2 & S2 & P2). split; [done|]. split; [|done]. by eapply same_trans.
    - split; [done|]. split; [done|]. intros x [=].
  Qed.
  Lemma fr_mono {A} (m : M A) (P Q : A -> Prop) : fr m P -> (forall x, P x -> Q x) -> fr m Q.
  Proof. intros H HPQ h I. destruct (H h I) as (? & ? & ?). eauto. Qed.
  Lemma fr_any {A} (m : M A) P : fr m P -> fr m (fun _ => True).
  Proof. intros H. by eapply fr_mono. Qed.
  Lemma fr_assert x : fr (py_assert x) (fun _ => True).
  Proof. destruct x; [by apply fr_ret|apply fr_raise]. Qed.
  Lemma fr_nth {A} (P : A -> Prop) l i : Forall P l -> fr (py_nth l i) P.
  Proof.
    intros H. unfold py_nth. destruct (l !! i) eqn:E; [|apply fr_raise].
    apply fr_ret. rewrite Forall_lookup in H. eauto.
  Qed.
  Lemma fr_some n o : some_in n o -> fr (py_some o) n.
  Proof. intros H. destruct o; [|apply fr_raise]. apply fr_ret. by apply H. Qed.
  Lemma fr_mapM {A B} (R : A -> Prop) (f : A -> M B) (P : B -> Prop) l :
    Forall R l -> (forall x, R x -> fr (f x) P) -> fr (mapM f l) (Forall P).
  Proof.
    intros Hl Hf. induction Hl as [|x l Hx Hl IH]; [by apply fr_ret|]. cbn [mapM].
    eapply fr_bind; [by apply Hf|]. intros y Hy. eapply fr_bind; [exact IH|]. intros ys Hys. apply fr_ret. by constructor.
  Qed.
  Lemma fr_iterM {A} (R : A -> Prop) (f : A -> M unit) l :
    Forall R l -> (forall x, R x -> fr (f x) (fun _ => True)) -> fr (iterM f l) (fun _ => True).
  Proof.
    intros Hl Hf. induction Hl as [|x l Hx Hl IH]; [by apply fr_ret|]. cbn [iterM].
    eapply fr_bind; [by apply Hf|]. intros y Hy. exact IH.
  Qed.
  Lemma fr_foldM {A B} (R : A -> Prop) (P : B -> Prop) (f : B -> A -> M B) l z :
    Forall R l -> P z -> (forall z x, P z -> R x -> fr (f z x) P) -> fr (foldM f z l) P.
  Proof.
    intros Hl Hz Hf. revert z Hz. induction Hl as [|x l Hx Hl IH]; intros z Hz; [by apply fr_ret|]. cbn [foldM].
    eapply fr_bind; [by apply Hf|]. intros y Hy. by apply IH.
  Qed.
  Lemma fr_filterM {A} (R : A -> Prop) (f : A -> M bool) l :
    Forall R l -> (forall x, R x -> fr (f x) (fun _ => True)) -> fr (filterM f l) (Forall R).
  Proof.
    intros Hl Hf. induction Hl as [|x l Hx Hl IH]; [by apply fr_ret|]. cbn [filterM].
    eapply fr_bind; [by apply Hf|]. intros y _. eapply fr_bind; [exact IH|]. intros ys Hys. apply fr_ret.
    destruct y; [by constructor|done].
  Qed.
  Lemma fr_allM {A} (R : A -> Prop) (f : A -> M bool) l :
    Forall R l -> (forall x, R x -> fr (f x) (fun _ => True)) -> fr (allM f l) (fun _ => True).
  Proof.
    intros Hl Hf. induction Hl as [|x l Hx Hl IH]; [by apply fr_ret|]. cbn [allM].
    eapply fr_bind; [by apply Hf|]. intros [] _; [exact IH|by apply fr_ret].
  Qed.
  Lemma fr_anyM {A} (R : A -> Prop) (f : A -> M bool) l :
    Forall R l -> (forall x, R x -> fr (f x) (fun _ => True)) -> fr (anyM f l) (fun _ => True).
  Proof.
    intros Hl Hf. induction Hl as [|x l Hx Hl IH]; [by apply fr_ret|]. cbn [anyM].
    eapply fr_bind; [by apply Hf|]. intros [] _; [by apply fr_ret|exact IH].
  Qed.
  Lemma Forall_any {A} (l : list A) : Forall (fun _ => True) l.
  Proof. by apply Forall_forall. Qed.

  (** primitives *)
  Lemma fr_stop_get s : a s -> fr (stop_get s) stop_in.
  Proof.
    intros H h I. unfold stop_get. destruct (h_stops h !! s) eqn:E; cbn; (split; [done|]); (split; [done|]).
    - intros x [= <-]. by eapply in_stop.
    - intros x [=].
  Qed.
  Lemma fr_pt_get s : b s -> fr (pt_get s) pt_in.
  Proof.
    intros H h I. unfold pt_get. destruct (h_pts h !! s) eqn:E; cbn; (split; [done|]); (split; [done|]).
    - intros x [= <-]. by eapply in_pt.
    - intros x [=].
  Qed.
  Lemma fr_route_get s : c s -> fr (route_get s) route_in.
  Proof.
    intros H h I. unfold route_get. destruct (h_routes h !! s) eqn:E; cbn; (split; [done|]); (split; [done|]).
    - intros x [= <-]. by eapply in_route.
    - intros x [=].
  Qed.
  Lemma fr_stop_upd s f : a s -> (forall x, stop_in x -> stop_in (f x)) ->
    fr (stop_upd s f) (fun _ => True).
  Proof.
    intros H Hf h I. cbn. split; [|split; [|done]].
    - destruct I. split; cbn; try done; [by rewrite alter_length|].
      intros s' x Hs'. destruct (decide (s' = s)) as [->|Hne].
      + rewrite list_lookup_alter. intros (y & Hy & ->)%fmap_Some_1. eauto.
      + rewrite list_lookup_alter_ne by done. eauto.
    - split; cbn; try done. intros s' Hs'. by rewrite list_lookup_alter_ne by (intros ->; done).
  Qed.
  Lemma fr_pt_upd s f : b s -> (forall x, pt_in x -> pt_in (f x)) ->
    fr (pt_upd s f) (fun _ => True).
  Proof.
    intros H Hf h I. cbn. split; [|split; [|done]].
    - destruct I. split; cbn; try done; [by rewrite alter_length|].
      intros s' x Hs'. destruct (decide (s' = s)) as [->|Hne].
      + rewrite list_lookup_alter. intros (y & Hy & ->)%fmap_Some_1. eauto.
      + rewrite list_lookup_alter_ne by done. eauto.
    - split; cbn; try done. intros s' Hs'. by rewrite list_lookup_alter_ne by (intros ->; done).
  Qed.
  Lemma fr_route_upd s f : c s -> (forall x, route_in x -> route_in (f x)) ->
    fr (route_upd s f) (fun _ => True).
  Proof.
    intros H Hf h I. cbn. split; [|split; [|done]].
    - destruct I. split; cbn; try done; [by rewrite alter_length|].
      intros s' x Hs'. destruct (decide (s' = s)) as [->|Hne].
      + rewrite list_lookup_alter. intros (y & Hy & ->)%fmap_Some_1. eauto.
      + rewrite list_lookup_alter_ne by done. eauto.
    - split; cbn; try done. intros s' Hs'. by rewrite list_lookup_alter_ne by (intros ->; done).
  Qed.
  Lemma fr_alloc_stop x : stop_in x -> fr (alloc_stop x) a.
  Proof.
    intros H h I. cbn. destruct I. split; [|split].
    - split; cbn; try done; [intros s'; rewrite app_length; cbn; intros; eauto with lia|].
      intros s' y Hs' [?|[? Hy]]%lookup_app_Some; [eauto|]. apply list_lookup_singleton_Some in Hy as [_ <-]. done.
    - split; cbn; try done. intros s' Hs'. rewrite lookup_app_l; [done|]. apply not_ge. unfold ge. eauto.
    - intros ? [= <-]. eauto.
  Qed.
  Lemma fr_alloc_pt x : pt_in x -> fr (alloc_pt x) b.
  Proof.
    intros H h I. cbn. destruct I. split; [|split].
    - split; cbn; try done; [intros s'; rewrite app_length; cbn; intros; eauto with lia|].
      intros s' y Hs' [?|[? Hy]]%lookup_app_Some; [eauto|]. apply list_lookup_singleton_Some in Hy as [_ <-]. done.
    - split; cbn; try done. intros s' Hs'. rewrite lookup_app_l; [done|]. apply not_ge. unfold ge. eauto.
    - intros ? [= <-]. eauto.
  Qed.
  Lemma fr_alloc_route x : route_in x -> fr (alloc_route x) c.
  Proof.
    intros H h I. cbn. destruct I. split; [|split].
    - split; cbn; try done; [intros s'; rewrite app_length; cbn; intros; eauto with lia|].
      intros s' y Hs' [?|[? Hy]]%lookup_app_Some; [eauto|]. apply list_lookup_singleton_Some in Hy as [_ <-]. done.
    - split; cbn; try done. intros s' Hs'. rewrite lookup_app_l; [done|]. apply not_ge. unfold ge. eauto.
    - intros ? [= <-]. eauto.
  Qed.
  Lemma fr_tick : fr tick (fun _ => True).
  Proof. intros h []. cbn. split; [|done]. by split. Qed.
  Lemma fr_chain_fuel {A} (f : nat -> M A) P : (forall n, fr (f n) P) -> fr (chain_fuel f) P.
  Proof. intros H h I. by apply H. Qed.
  Lemma fr_set_order n l : Forall n l -> fr (set_order l) (Forall n).
  Proof.
    intros H. unfold set_order. eapply fr_bind; [apply fr_tick|]. intros k _. apply fr_ret.
    rewrite (w_shuffle_perm k l). done.
  Qed.
  Lemma fr_set_order_any l : fr (set_order l) (fun _ => True).
  Proof. unfold set_order. eapply fr_bind; [apply fr_tick|]. intros k _. by apply fr_ret. Qed.
End frame.
