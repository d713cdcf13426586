(** A route of the town as a route with doubles. *)
From Verif Require Import Witness.
From Verif Require Import SpecBridge DoubleTheorems WholeTheorems BridgeTheorems.
From Coq Require Import Lra Lia.

(** trip 0 from visit 1 to visit 3, trip 1 from visit 2 to visit 4 *)
Definition town_rides : list (nat * nat * nat) := [(1, 3, 0); (2, 4, 1)]%nat.
Lemma town_unit k : @real town (k * 1000) = IZR k.
Proof. unfold real, ticks_per_unit. cbn [w_eb town]. replace (IZR _) with (IZR k * 1000) by (rewrite mult_IZR; reflexivity). match goal with |- context [?a / ?b] => replace b with 1000 by (vm_compute IZR; lra) end. lra. Qed.
Lemma town_whole k : whole (@real town (k * 1000)).
Proof. exists k. apply town_unit. Qed.
Lemma town_whole_limit k : whole_limit (@limit town (Lim (k * 1000))).
Proof. intros x [= <-]. apply town_whole. Qed.
Lemma none_whole : whole_limit None.
Proof. intros x. discriminate. Qed.
Lemma town_bound k b : (Z.abs k <= b)%Z -> Rabs (@real town (k * 1000)) <= IZR b.
Proof. intros H. rewrite town_unit, <- abs_IZR. apply IZR_le, H. Qed.
Lemma town_between k b : (0 <= k <= b)%Z -> 0 <= @real town (k * 1000) <= IZR b.
Proof. intros [H1 H2]. rewrite town_unit. split; apply IZR_le; assumption. Qed.
Lemma town_trips t : (t < 2)%nat -> whole_trip (@real_trip town (town_trip t)) /\ moderate_trip 1000 (@real_trip town (town_trip t)).
Proof.
  intros H. destruct t as [|[|t]]; [| |lia].
  - split; split; cbn -[real Rabs].
    + split; [apply (town_whole 1)|apply (town_whole 0)].
    + split; [apply (town_whole_limit 1000)|]. split; [exact none_whole|apply (town_whole_limit 20)].
    + split; [apply (town_whole 0)|]. split; [apply (town_whole 0)|apply (town_whole 3)].
    + split; [apply (town_bound 1 1000)|apply (town_bound 0 1000)]; lia.
    + split; [apply (town_bound 1000 1000); lia|]. split; [exact I|apply (town_bound 20 1000); lia].
    + split; [apply (town_between 0 1000); lia|]. split; [apply (town_between 0 1000); lia|apply (town_between 3 1000); lia].
  - split; split; cbn -[real Rabs].
    + split; [apply (town_whole 2)|apply (town_whole 0)].
    + split; [apply (town_whole_limit 3)|]. split; [exact none_whole|apply (town_whole_limit 200)].
    + split; [apply (town_whole 0)|]. split; [apply (town_whole 0)|apply (town_whole 3)].
    + split; [apply (town_bound 2 1000)|apply (town_bound 0 1000)]; lia.
    + split; [apply (town_bound 3 1000); lia|]. split; [exact I|apply (town_bound 200 1000); lia].
    + split; [apply (town_between 0 1000); lia|]. split; [apply (town_between 0 1000); lia|apply (town_between 3 1000); lia].
Qed.
Lemma town_stops_good s xs : xs = busy_visits \/ xs = late_visits -> In s (@real_stops town [0%Z] xs) ->
  whole_stop s /\ 0 <= ds_travel s /\ at_most 1000 (ds_request s) /\
    (forall t, In t (ds_pickups s) -> moderate_trip 1000 t) /\ (forall t, In t (ds_deliveries s) -> moderate_trip 1000 t).
Proof.
  destruct (town_trips 0 ltac:(lia)) as [W0 M0]. destruct (town_trips 1 ltac:(lia)) as [W1 M1].
  assert (G : forall k ps ds q, (0 <= k)%Z -> (forall t, In t ps -> t = 0%nat \/ t = 1%nat) -> (forall t, In t ds -> t = 0%nat \/ t = 1%nat) ->
    q = None \/ q = Some 50000%Z ->
    let s := DStop (@real town (k * 1000)) (map (fun t => @real_trip town (@w_trip town t)) ps) (map (fun t => @real_trip town (@w_trip town t)) ds) (option_map (@real town) q) in
    whole_stop s /\ 0 <= ds_travel s /\ at_most 1000 (ds_request s) /\
    (forall t, In t (ds_pickups s) -> moderate_trip 1000 t) /\ (forall t, In t (ds_deliveries s) -> moderate_trip 1000 t)).
  { intros k ps ds q Hk Hp Hd Hq s0. split; [split|split; [|split; [|split]]]; cbn -[real Rabs].
    - apply town_whole.
    - destruct Hq as [->| ->]; [exact none_whole|]. intros x [= <-]. apply (town_whole 50).
    - intros t Ht. apply in_map_iff in Ht as (z & <- & Hz). destruct (Hp z Hz) as [->| ->]; assumption.
    - intros t Ht. apply in_map_iff in Ht as (z & <- & Hz). destruct (Hd z Hz) as [->| ->]; assumption.
    - apply (town_between k k). lia.
    - destruct Hq as [->| ->]; [exact I|]. apply (town_bound 50 1000). lia.
    - intros t Ht. apply in_map_iff in Ht as (z & <- & Hz). destruct (Hp z Hz) as [->| ->]; assumption.
    - intros t Ht. apply in_map_iff in Ht as (z & <- & Hz). destruct (Hd z Hz) as [->| ->]; assumption. }
  intros [->| ->] Hs; cbn -[real real_trip In] in Hs.
  - destruct Hs as [<-|[<-|[<-|[<-|[<-|[<-|[]]]]]]];
      [apply (G 0%Z [] [] None)|apply (G 1%Z [0%nat] [] None)|apply (G 1%Z [1%nat] [] None)|apply (G 2%Z [] [0%nat] None)|apply (G 1%Z [] [1%nat] None)|apply (G 5%Z [] [] None)];
      try lia; try (left; reflexivity); try (intros t Ht; cbn in Ht; intuition lia).
  - destruct Hs as [<-|[<-|[<-|[<-|[<-|[<-|[]]]]]]];
      [apply (G 0%Z [] [] None)|apply (G 1%Z [0%nat] [] (Some 50000%Z))|apply (G 1%Z [1%nat] [] None)|apply (G 2%Z [] [0%nat] None)|apply (G 1%Z [] [1%nat] None)|apply (G 5%Z [] [] None)];
      try lia; try (left; reflexivity); try (right; reflexivity); try (intros t Ht; cbn in Ht; intuition lia).
Qed.
Lemma town_rides_trip i j t : In (i, j, t) (dr_rides (@real_route town 0 busy_visits town_rides)) -> whole_trip t /\ moderate_trip 1000 t.
Proof.
  intros H. cbn -[real_trip] in H. destruct H as [[= <- <- <-]|[[= <- <- <-]|[]]]; [apply (town_trips 0); lia|apply (town_trips 1); lia].
Qed.
Lemma town_route_good xs : xs = busy_visits \/ xs = late_visits ->
  whole_route (@real_route town 0 xs town_rides) /\ moderate 1000 (@real_route town 0 xs town_rides).
Proof.
  intros Hx. assert (H := fun s => town_stops_good s xs Hx). split; split.
  - apply (town_whole 0).
  - split; [exact none_whole|apply (town_whole_limit 1000)].
  - intros s Hs. apply (H s Hs).
  - intros i j t Hin. apply (town_rides_trip i j t Hin).
  - lra.
  - split; [apply (town_between 0 1000); lia|]. split; [exact I|apply (town_bound 1000 1000); lia].
  - intros s Hs. apply (H s Hs).
  - intros i j t Hin. apply (town_rides_trip i j t Hin).
  - destruct Hx as [->| ->]; discriminate.
  - destruct Hx as [->| ->].
    + change (length _ - 1)%nat with 5%nat.
      rewrite (@c95_exact town 0 busy_visits town_rides 5 (Timing 10000 10000 10000 0) ltac:(vm_compute; reflexivity)).
      apply (town_between 10 1000). lia.
    + change (length _ - 1)%nat with 5%nat.
      rewrite (@c95_exact town 0 late_visits town_rides 5 (Timing 59000 59000 59000 0) ltac:(vm_compute; reflexivity)).
      apply (town_between 59 1000). lia.
Qed.
Lemma town_rides_all xs : xs = busy_visits \/ xs = late_visits -> forall i j t, In (i, j, t) town_rides <-> ride xs t i j.
Proof.
  intros Hx i j t. split.
  - intros [[= <- <- <-]|[[= <- <- <-]|[]]]; destruct Hx as [->| ->]; eexists _, _; (split; [reflexivity|]); (split; [reflexivity|]); split; apply elem_of_list_here.
  - intros (x & y & Hi & Hj & Hb & Ha). destruct Hx as [->| ->].
    all: assert (Hit : i = 1%nat /\ t = 0%nat \/ i = 2%nat /\ t = 1%nat) by
      (destruct i as [|[|[|[|[|[|i]]]]]]; cbn in Hi; try discriminate; injection Hi as <-; cbn in Hb; apply elem_of_list_In in Hb; cbn in Hb; intuition lia).
    all: assert (Hjt : j = 3%nat /\ t = 0%nat \/ j = 4%nat /\ t = 1%nat) by
      (destruct j as [|[|[|[|[|[|j]]]]]]; cbn in Hj; try discriminate; injection Hj as <-; cbn in Ha; apply elem_of_list_In in Ha; cbn in Ha; intuition lia).
    all: destruct Hit as [[-> ->]|[-> ->]], Hjt as [[-> H]|[-> H]]; try discriminate; cbn; auto.
Qed.
