(** What the three-index model says about plans. *)
From Coq Require Import Sorted Lqa.
From Verif Require Import SpecDarp MilpGraph MilpTheorems SchedProofs TourProofs MilpProofs MilpSound MilpComplete MilpCost.

Lemma solves_fleet `{W : World} vs ts odd a : solves vs ts odd a -> exists v vs', vs = v :: vs'.
Proof. destruct vs as [|v vs']; [|eauto]. intros (_ & l & E & _). done. Qed.

(** ** Solutions are plans *)
Lemma c51_sound `{W : World} : forall vs ts odd a, NoDup ts -> one_depot vs -> finite vs ts -> moving ts ->
  (forall t, t ∈ ts -> 0 <= destination_duration (w_trip t) <= origin_duration (w_trip t)) ->
  (forall v, v ∈ vs -> v_origin_earliest v <= 0 /\ below day (v_destination_latest v)) ->
  solves vs ts odd a -> takes_time vs ts a ->
  exists tours, plan vs ts tours /\ within_day vs tours /\ forall k v xs, vs !! k = Some v -> tours !! k = Some xs -> follows vs ts a k v xs.
Proof.
  intros vs ts odd a Hnd Hdep Fin Mv Hdur Hv Hs Ht. destruct (solves_fleet vs ts odd a Hs) as (v0 & vs' & ->).
  apply (solves_system v0 vs' ts odd Fin Mv) in Hs. apply sound; [done|done|done|done|done| | |done]; intros v Hin; by apply Hv.
Qed.

(** ** Plans are solutions *)
Lemma c52_complete `{W : World} : forall vs ts odd tours, vs <> [] -> NoDup ts -> one_depot vs -> finite vs ts -> moving ts ->
  direct vs ts -> roomy vs ts ->
  (forall t, t ∈ ts -> 0 <= origin_duration (w_trip t) <= destination_duration (w_trip t)) ->
  plan vs ts tours -> within_day vs tours ->
  exists a, solves vs ts odd a /\ forall k v xs, vs !! k = Some v -> tours !! k = Some xs -> follows vs ts a k v xs.
Proof.
  intros vs ts odd tours Hne Hnd Hdep Fin Mv Hdir Hroom Hdur Hplan Hday. destruct vs as [|v0 vs']; [done|].
  destruct (good_exists v0 vs' ts tours Hplan) as (P & HP). destruct (starts_exist v0 vs' ts Hnd tours Hplan P HP) as (U & HU).
  exists (solution v0 vs' ts tours P U). split.
  - apply (solves_system v0 vs' ts odd Fin Mv). by apply solution_system.
  - intros k v xs Hk Hxs. by apply solution_follows.
Qed.

(** ** The objective *)
Lemma solves_binary `{W : World} v0 vs' ts odd a : finite (v0 :: vs') ts -> moving ts -> solves (v0 :: vs') ts odd a ->
  forall k i j, (k < length (v0 :: vs'))%nat -> (i < 2 * length ts + 2)%nat -> (j < 2 * length ts + 2)%nat -> (as_x a k i j == 0)%Q \/ (as_x a k i j == 1)%Q.
Proof. intros Fin Mv Hs. apply (solves_system v0 vs' ts odd Fin Mv) in Hs. apply (sy_x _ _ _ _ Hs). Qed.
Lemma c53_total `{W : World} : forall vs ts odd a tours, one_depot vs -> finite vs ts -> moving ts -> solves vs ts odd a -> plan vs ts tours ->
  (forall k v xs, vs !! k = Some v -> tours !! k = Some xs -> follows vs ts a k v xs) ->
  (objective_value vs ts a == inject_Z (fleet_way toll tours))%Q.
Proof.
  intros vs ts odd a tours Hdep Fin Mv Hs Hplan Hf. destruct (solves_fleet vs ts odd a Hs) as (v0 & vs' & ->).
  apply objective_total; [by eapply solves_binary|done|done|done].
Qed.
Lemma c53_modest `{W : World} : forall vs ts odd a, finite vs ts -> moving ts -> one_space vs ts -> solves vs ts odd a -> modest vs ts a -> takes_time vs ts a.
Proof.
  intros vs ts odd a Fin Mv Hsp Hs Hm. destruct (solves_fleet vs ts odd a Hs) as (v0 & vs' & ->).
  apply modest_takes_time; [by eapply solves_binary|done|done].
Qed.

(** below 10000 units nobody stays anywhere, so the objective is the distance *)
Lemma way_tolls `{W : World} l : 0 <= way toll l /\ (way toll l < big -> way toll l = way dist l).
Proof.
  induction l as [|p [|q l] IH]; [done|done|]. destruct IH as [IH1 IH2].
  change (way toll (p :: q :: l)) with (toll p q + way toll (q :: l)). change (way dist (p :: q :: l)) with (dist p q + way dist (q :: l)).
  unfold toll at 1 3 5. pose proof (dist_nonneg p q). unfold big in *. destruct (decide (p = q)); split; unfold eb in *; try lia.
Qed.
Lemma fleet_tolls `{W : World} tours : 0 <= fleet_way toll tours /\ (fleet_way toll tours < big -> fleet_way toll tours = fleet_way dist tours).
Proof.
  unfold fleet_way. induction tours as [|xs tours IH]; [done|]. cbn [map sum_of foldr]. destruct IH as [IH1 IH2]. unfold sum_of in *.
  destruct (way_tolls (map vi_place xs)) as [H1 H2]. split; [lia|]. intros H. rewrite H2, IH2; lia.
Qed.
Lemma c53_distance `{W : World} : forall vs ts odd a tours, one_depot vs -> finite vs ts -> moving ts -> solves vs ts odd a -> plan vs ts tours ->
  (forall k v xs, vs !! k = Some v -> tours !! k = Some xs -> follows vs ts a k v xs) ->
  (objective_value vs ts a < inject_Z (10000 * (1000 * eb)))%Q ->
  (objective_value vs ts a == inject_Z (fleet_way dist tours))%Q.
Proof.
  intros vs ts odd a tours Hdep Fin Mv Hs Hplan Hf. rewrite (c53_total vs ts odd a tours) by done. rewrite <- Zlt_Qlt. intros H.
  by rewrite (proj2 (fleet_tolls tours) H).
Qed.
(** in the plane with Manhattan distances no detour is shorter *)
Lemma manhattan_triangle a b c : length a = length b -> length b = length c -> manhattan a c <= manhattan a b + manhattan b c.
Proof.
  unfold manhattan. revert b c. induction a as [|x a IH]; intros [|y b] [|z c]; try done. cbn. intros H1 H2. specialize (IH b c ltac:(lia) ltac:(lia)). unfold zsum in *. lia.
Qed.
Lemma c52_manhattan `{W : World} : forall vs ts, w_metric = Manhattan -> one_space vs ts -> direct vs ts.
Proof. intros vs ts E H i j l Hi Hj Hl. unfold dist. rewrite E. cbn. apply manhattan_triangle; by apply H. Qed.

(** ** Optimal solutions *)
Lemma c54_optimal `{W : World} : forall vs ts odd a, NoDup ts -> one_depot vs -> finite vs ts -> moving ts ->
  direct vs ts -> roomy vs ts -> one_space vs ts ->
  (forall t, t ∈ ts -> origin_duration (w_trip t) = destination_duration (w_trip t) /\ 0 <= origin_duration (w_trip t)) ->
  (forall v, v ∈ vs -> v_origin_earliest v <= 0 /\ below day (v_destination_latest v)) ->
  optimal vs ts odd a -> modest vs ts a ->
  exists tours, plan vs ts tours /\ within_day vs tours /\ (forall k v xs, vs !! k = Some v -> tours !! k = Some xs -> follows vs ts a k v xs) /\
    forall tours', plan vs ts tours' -> within_day vs tours' -> fleet_way toll tours <= fleet_way toll tours'.
Proof.
  intros vs ts odd a Hnd Hdep Fin Mv Hdir Hroom Hsp Hdur Hv [Hs Ho] Hm. destruct (solves_fleet vs ts odd a Hs) as (v0 & vs' & ->).
  destruct (c51_sound (v0 :: vs') ts odd a) as (tours & Hp & Hw & Hf); try done.
  { intros t Ht. destruct (Hdur t Ht) as [E ?]. lia. }
  { by eapply c53_modest. }
  exists tours. split; [done|]. split; [done|]. split; [done|]. intros tours' Hp' Hw'.
  destruct (c52_complete (v0 :: vs') ts odd tours') as (a' & Hs' & Hf'); try done.
  { intros t Ht. destruct (Hdur t Ht) as [E ?]. lia. }
  specialize (Ho a' Hs'). rewrite (c53_total (v0 :: vs') ts odd a tours) in Ho by done.
  rewrite (c53_total (v0 :: vs') ts odd a' tours') in Ho by done. by rewrite <- Zle_Qle in Ho.
Qed.

(** ** Solutions that are no plans *)
(** a vehicle that serves a trip is busy at least for the ways to its origin, to
    its destination and back and for both stops *)
Lemma plan_shift `{W : World} : forall v ts t tours, [t] = ts -> finite [v] ts -> moving ts -> direct [v] ts ->
  0 <= origin_duration (w_trip t) <= destination_duration (w_trip t) -> plan [v] ts tours ->
  below (dist (v_origin_position v) (origin_position (w_trip t)) + dist (origin_position (w_trip t)) (destination_position (w_trip t)) +
         dist (destination_position (w_trip t)) (v_destination_position v) +
         origin_duration (w_trip t) + destination_duration (w_trip t)) (v_timeout v).
Proof.
  intros v ts t tours <- Fin Mv Hdir Hdur Hplan.
  assert (Hdep : one_depot [v]). { intros v1 v2 H1 H2. apply elem_of_list_singleton in H1 as ->, H2 as ->. done. }
  assert (Hd : forall t', t' ∈ [t] -> 0 <= origin_duration (w_trip t') <= destination_duration (w_trip t')).
  { intros t' Ht. apply elem_of_list_singleton in Ht as ->. done. }
  assert (Hnd : NoDup [t]) by apply NoDup_singleton.
  destruct (good_exists v [] [t] tours Hplan) as (P & HP). assert (Hk : (0 < length [v])%nat) by (cbn; lia).
  assert (P1 : pickup_node [t] 1 t) by (by exists 0%nat). assert (P2 : delivery_node [t] 2 t) by (by exists 0%nat).
  destruct (trip_tour v [] [t] tours Hplan t ltac:(by left)) as (k & Hk' & Hb). assert (k = 0%nat) as -> by (cbn in Hk'; lia).
  pose proof (proj2 (P_pickup v [] [t] Hnd tours Hplan P HP 0 1 t Hk P1) Hb) as Q1.
  pose proof (proj2 (P_delivery v [] [t] Hnd tours Hplan P HP 0 2 t Hk P2) Hb) as Q2.
  apply elem_of_list_lookup_1 in Q1 as (m1 & Q1), Q2 as (m2 & Q2).
  assert (Q0 : nodes [t] P 0 !! 0%nat = Some 0%nat) by done. pose proof (Q_last [t] P 0) as Q3. cbn [length Nat.mul Nat.add] in Q3.
  assert (AT := at_pos v [] [t] tours Hplan P HP 0).
  destruct (AT _ _ Hk Q0) as (x0 & T0 & Hx0 & HT0), (AT _ _ Hk Q1) as (x1 & T1 & Hx1 & HT1), (AT _ _ Hk Q2) as (x2 & T2 & Hx2 & HT2), (AT _ _ Hk Q3) as (x3 & T3 & Hx3 & HT3).
  assert (XT := X_timing v [] [t] Mv Hdep Hd tours Hplan P HP 0). assert (XD := X_data v [] [t] Mv Hdep Hd tours Hplan P HP 0).
  destruct (XT _ _ _ _ Hk Q1 Hx1 HT1) as (A1 & _ & D1), (XT _ _ _ _ Hk Q2 Hx2 HT2) as (A2 & _ & D2), (XT _ _ _ _ Hk Q3 Hx3 HT3) as (A3 & _ & D3).
  destruct (XD _ _ _ Hk Q1 Hx1) as (_ & _ & N1 & _), (XD _ _ _ Hk Q2 Hx2) as (_ & _ & N2 & _), (XD _ _ _ Hk Q3 Hx3) as (_ & _ & N3 & _).
  assert (TR := X_travel v [] [t] Mv Hdep Hdir Hd tours Hplan P HP 0).
  pose proof (lookup_lt_Some _ _ _ Q1) as L1. pose proof (lookup_lt_Some _ _ _ Q2) as L2.
  assert (Hl : length (nodes [t] P 0) = S (S (length (P 0%nat)))) by (unfold nodes; cbn; rewrite app_length; cbn; lia).
  assert (m1 <> 0 /\ m2 <> 0 /\ m1 <> S (length (P 0)) /\ m2 <> S (length (P 0)))%nat as (? & ? & ? & ?).
  { repeat split; intros ->; congruence. }
  assert (Hlt : (m1 < m2)%nat).
  { destruct (X_tour v [] [t] tours Hplan 0 Hk) as [HX _].
    destruct (tour_order _ _ HX t Hb) as (c & d & Hs & Hc & Hd'). apply sublist2 in Hs as (q & q' & Hqq & Hcq & Hdq).
    destruct (X_nodes v [] [t] tours Hplan P HP 0 m1 1 Hk Q1) as (y1 & Hy1 & C1). destruct (X_nodes v [] [t] tours Hplan P HP 0 m2 2 Hk Q2) as (y2 & Hy2 & C2).
    destruct C1 as [(? & _)|[(? & _)|C1]]; [done|done|]. destruct C2 as [(? & _)|[(? & _)|C2]]; [done|done|].
    apply (shows_board _ _ _ t C1) in P1. apply (shows_alight _ _ _ t C2) in P2.
    rewrite (flat_map_NoDup_lookup vi_board _ m1 q y1 c t (tour_once _ _ HX) Hy1 Hcq P1 Hc).
    by rewrite (flat_map_NoDup_lookup vi_alight _ m2 q' y2 d t (rides_alights_nodup _ (tour_rides _ _ HX)) Hy2 Hdq P2 Hd'). }
  assert (E1 : visit_duration x1 = origin_duration (w_trip t)).
  { destruct (X_nodes v [] [t] tours Hplan P HP 0 m1 1 Hk Q1) as (y & Hy & C). rewrite Hx1 in Hy. injection Hy as <-.
    destruct C as [(? & _)|[(? & _)|[(t' & HN & E)|(t' & HN & E)]]]; [done|done| |destruct HN as ([|?] & ? & ?); [done|cbn in *; lia]].
    destruct HN as ([|?] & HN & ?); [injection HN as <-|cbn in *; lia]. destruct x1. injection E as -> -> ->. unfold visit_duration. cbn. lia. }
  assert (E2 : visit_duration x2 = destination_duration (w_trip t)).
  { destruct (X_nodes v [] [t] tours Hplan P HP 0 m2 2 Hk Q2) as (y & Hy & C). rewrite Hx2 in Hy. injection Hy as <-.
    destruct C as [(? & _)|[(? & _)|[(t' & HN & E)|(t' & HN & E)]]]; [done|done|destruct HN as ([|?] & ? & ?); done|].
    destruct HN as ([|?] & HN & ?); [injection HN as <-|cbn in *; lia]. destruct x2. injection E as -> -> ->. unfold visit_duration. cbn. lia. }
  pose proof (TR _ _ _ Hk Q0 HT0 m1 _ T1 ltac:(lia) Q1 HT1) as R1. pose proof (TR _ _ _ Hk Q1 HT1 m2 _ T2 ltac:(lia) Q2 HT2) as R2.
  pose proof (TR _ _ _ Hk Q2 HT2 (S (length (P 0%nat))) _ T3 ltac:(lia) Q3 HT3) as R3.
  destruct (X_tour v [] [t] tours Hplan 0 Hk) as [_ HE].
  assert (Eh : head (TT v [] tours 0) = Some T0) by (rewrite head_lookup; done).
  assert (El : last (TT v [] tours 0) = Some T3).
  { rewrite last_lookup, TT_length, <- (Q_length v [] [t] tours Hplan P HP 0 Hk), Hl. done. }
  pose proof (ex_duration _ _ HE _ _ Eh El) as Hsh.
  change (pos [v] [t] 0) with (v_origin_position v) in *. change (pos [v] [t] 1) with (origin_position (w_trip t)) in *.
  change (pos [v] [t] 2) with (destination_position (w_trip t)) in *. change (pos [v] [t] 3) with (v_destination_position v) in *.
  change (V v [] 0) with v in Hsh. destruct (v_timeout v); cbn in *; [lia|done].
Qed.

(** The instances below have one vehicle, at (0,0), and one trip. *)
From Verif Require Import WitnessLoad.
Definition lone_world (o d : position) (so sd : Z) (shift : lim) : World :=
  world_of 1 Manhattan [Vehicle "0" (Service [0; 0] 0 (Lim 1440000) 0) None (Lim 3000) shift]
    [Trip "1" (Service o 0 (Lim 1440000) so) (Service d 0 (Lim 1440000) sd) 1000 0 Inf].
Lemma lone_instance o d so sd shift : o <> d -> let W := lone_world o d so sd shift in
  NoDup [0%nat] /\ one_depot (W := W) [0%nat] /\ finite (W := W) [0%nat] [0%nat] /\ moving (W := W) [0%nat] /\ roomy (W := W) [0%nat] [0%nat] /\
  (forall v, v ∈ [0%nat] -> v_origin_earliest (W := W) v <= 0 /\ below (day (W := W)) (v_destination_latest (W := W) v)).
Proof.
  intros H W. split; [apply NoDup_singleton|]. split; [|split; [|split; [|split]]].
  - intros v v' Hv Hv'. apply elem_of_list_singleton in Hv as ->, Hv' as ->. done.
  - split; intros v Hv; apply elem_of_list_singleton in Hv as ->; done.
  - intros t Ht. apply elem_of_list_singleton in Ht as ->. done.
  - intros v t Hv Ht. apply elem_of_list_singleton in Hv as ->, Ht as ->. vm_compute. by split.
  - intros v Hv. apply elem_of_list_singleton in Hv as ->. vm_compute. by split.
Qed.

Lemma direct_check `{W : World} vs ts :
  forallb (fun i => forallb (fun j => forallb (fun l => dist (pos vs ts i) (pos vs ts l) <=? dist (pos vs ts i) (pos vs ts j) + dist (pos vs ts j) (pos vs ts l))
    (seq 0 (node_count ts))) (seq 0 (node_count ts))) (seq 0 (node_count ts)) = true -> direct vs ts.
Proof.
  intros H i j l Hi Hj Hl. rewrite forallb_forall in H. specialize (H i ltac:(apply in_seq; lia)).
  rewrite forallb_forall in H. specialize (H j ltac:(apply in_seq; lia)).
  rewrite forallb_forall in H. specialize (H l ltac:(apply in_seq; lia)). lia.
Qed.
Lemma solves_check `{W : World} vs ts odd a : in_domain vs ts a = true ->
  match constraints vs ts odd a with Ok l => forallb id l | Raise _ => false end = true -> solves vs ts odd a.
Proof. intros H1 H2. split; [done|]. destruct (constraints vs ts odd a) as [l|]; [|done]. by exists l. Qed.

Definition arcs (l : list (nat * nat)) : nat -> nat -> nat -> Q :=
  fun _ i j => if existsb (fun '(i', j') => (i =? i')%nat && (j =? j')%nat) l then 1%Q else 0%Q.
Definition listed (l : list Z) : nat -> nat -> Z := fun _ i => nth i l 0.

(** the passenger boards, and is delivered by going from the place of delivery to
    itself *)
Lemma c51_loop : exists (W : World) vs ts odd a, NoDup ts /\ one_depot vs /\ finite vs ts /\ moving ts /\ direct vs ts /\ roomy vs ts /\
  (forall t, t ∈ ts -> 0 <= destination_duration (w_trip t) <= origin_duration (w_trip t)) /\
  (forall v, v ∈ vs -> v_origin_earliest v <= 0 /\ below day (v_destination_latest v)) /\
  solves vs ts odd a /\ ~ exists tours, plan vs ts tours.
Proof.
  exists (lone_world [1000; 0] [50000; 0] 0 0 (Lim 3000)), [0%nat], [0%nat], (fun _ _ _ => false),
    (Assignment (arcs [(0, 1); (1, 3); (2, 2)]%nat) (listed [0; 1000; 60000; 2000]) (listed [0; 1000; 0; 1000])).
  destruct (lone_instance [1000; 0] [50000; 0] 0 0 (Lim 3000) ltac:(done)) as (H1 & H2 & H3 & H4 & H5 & H6).
  assert (D : direct (W := lone_world [1000; 0] [50000; 0] 0 0 (Lim 3000)) [0%nat] [0%nat]) by (apply direct_check; by vm_compute).
  do 6 (split; [done|]). split; [|split; [done|split]].
  - intros t Ht. apply elem_of_list_singleton in Ht as ->. vm_compute. by split.
  - apply solves_check; by vm_compute.
  - intros (tours & Hp). refine (_ (plan_shift 0%nat [0%nat] 0%nat tours eq_refl H3 H4 D _ Hp)); vm_compute; [|by split]. intros H. by apply H.
Qed.
(** the route starts at the end of the shift and goes back to its start *)
Lemma c51_reversed : exists (W : World) vs ts odd a, NoDup ts /\ one_depot vs /\ finite vs ts /\ moving ts /\ direct vs ts /\ roomy vs ts /\
  (forall t, t ∈ ts -> destination_duration (w_trip t) = origin_duration (w_trip t) /\ 0 < origin_duration (w_trip t)) /\
  (forall v, v ∈ vs -> v_origin_earliest v <= 0 /\ below day (v_destination_latest v)) /\
  solves vs ts odd a /\ ~ exists tours, plan vs ts tours.
Proof.
  exists (lone_world [1000; 0] [50000; 0] 100 100 (Lim 3000)), [0%nat], [0%nat], (fun _ _ _ => false),
    (Assignment (arcs [(0, 0); (3, 3); (3, 1); (1, 2); (2, 0)]%nat) (listed [110000; 1000; 50100; 0]) (listed [0; 1000; 0; 0])).
  destruct (lone_instance [1000; 0] [50000; 0] 100 100 (Lim 3000) ltac:(done)) as (H1 & H2 & H3 & H4 & H5 & H6).
  assert (D : direct (W := lone_world [1000; 0] [50000; 0] 100 100 (Lim 3000)) [0%nat] [0%nat]) by (apply direct_check; by vm_compute).
  do 6 (split; [done|]). split; [|split; [done|split]].
  - intros t Ht. apply elem_of_list_singleton in Ht as ->. vm_compute. by split.
  - apply solves_check; by vm_compute.
  - intros (tours & Hp). refine (_ (plan_shift 0%nat [0%nat] 0%nat tours eq_refl H3 H4 D _ Hp)); vm_compute; [|by split]. intros H. by apply H.
Qed.
(** deliveries are given the time of the pickup, which may be too short *)
Lemma c51_rushed : exists (W : World) vs ts odd a, NoDup ts /\ one_depot vs /\ finite vs ts /\ moving ts /\ direct vs ts /\ roomy vs ts /\
  (forall t, t ∈ ts -> 0 <= origin_duration (w_trip t) /\ 0 <= destination_duration (w_trip t)) /\
  (forall v, v ∈ vs -> v_origin_earliest v <= 0 /\ below day (v_destination_latest v)) /\
  solves vs ts odd a /\ takes_time vs ts a /\ ~ exists tours, plan vs ts tours.
Proof.
  exists (lone_world [1000; 0] [50000; 0] 0 5000 (Lim 100000)), [0%nat], [0%nat], (fun _ _ _ => false),
    (Assignment (arcs [(0, 1); (1, 2); (2, 3)]%nat) (listed [0; 1000; 50000; 100000]) (listed [0; 1000; 0; 0])).
  destruct (lone_instance [1000; 0] [50000; 0] 0 5000 (Lim 100000) ltac:(done)) as (H1 & H2 & H3 & H4 & H5 & H6).
  assert (D : direct (W := lone_world [1000; 0] [50000; 0] 0 5000 (Lim 100000)) [0%nat] [0%nat]) by (apply direct_check; by vm_compute).
  do 6 (split; [done|]). split; [|split; [done|split; [|split]]].
  - intros t Ht. apply elem_of_list_singleton in Ht as ->. vm_compute. by split.
  - apply solves_check; by vm_compute.
  - intros k i j (_ & Hi & Hj & E) _ _. left. cbn [length Nat.mul Nat.add] in Hi, Hj.
    do 4 (destruct i as [|i]; [do 4 (destruct j as [|j]; [by vm_compute in E |- *|]); lia|]). lia.
  - intros (tours & Hp). refine (_ (plan_shift 0%nat [0%nat] 0%nat tours eq_refl H3 H4 D _ Hp)); vm_compute; [|by split]. intros H. by apply H.
Qed.

(** ** Plans that are no solutions *)
Definition shuttle `{W : World} (v t : nat) : list visit :=
  [Visit (v_origin_position v) [] [] None; pick_up t; drop_off t; Visit (v_destination_position v) [] [] None].
Definition idle `{W : World} (v : nat) : list visit :=
  [Visit (v_origin_position v) [] [] None; Visit (v_destination_position v) [] [] None].
Lemma shuttle_tour `{W : World} v t : tour v (shuttle v t) /\ simple (shuttle v t).
Proof.
  split; [constructor|].
  - eexists _, _. split; [done|]. done.
  - by exists [Visit (v_origin_position v) [] [] None; pick_up t; drop_off t], (Visit (v_destination_position v) [] [] None).
  - constructor.
    + apply NoDup_singleton.
    + done.
    + intros t' Ht. apply elem_of_list_singleton in Ht as ->. exists (pick_up t), (drop_off t). split; [|split; by left].
      apply sublist_cons, sublist_skip, sublist_skip, sublist_nil_l.
    + intros x Hx. unfold shuttle in Hx. rewrite !elem_of_cons, elem_of_nil in Hx.
      destruct Hx as [->|[->|[->|[->|[]]]]]; split; intros t' Ht; cbn in Ht; try (by inversion Ht); by apply elem_of_list_singleton in Ht as ->.
  - exists (Visit (v_origin_position v) [] [] None), [pick_up t; drop_off t], (Visit (v_destination_position v) [] [] None). split; [done|].
    repeat constructor.
Qed.
Lemma idle_tour `{W : World} v : tour v (idle v) /\ simple (idle v).
Proof.
  split; [constructor|].
  - eexists _, _. split; [done|]. done.
  - by exists [Visit (v_origin_position v) [] [] None], (Visit (v_destination_position v) [] [] None).
  - constructor.
    + apply NoDup_nil_2.
    + done.
    + intros t Ht. by apply elem_of_nil in Ht.
    + intros x Hx. unfold idle in Hx. rewrite !elem_of_cons, elem_of_nil in Hx.
      destruct Hx as [->|[->|[]]]; split; intros t Ht; by apply elem_of_nil in Ht.
  - exists (Visit (v_origin_position v) [] [] None), [], (Visit (v_destination_position v) [] [] None). split; [done|]. constructor.
Qed.
(** the limits, checked by computation *)
Definition belowb (x : Z) (l : lim) : bool := match l with Lim z => x <=? z | Inf => true end.
Definition exactb `{W : World} (v : nat) (xs : list visit) : bool :=
  let Ts := timetable v xs in
  match head Ts, last Ts with
  | Some T0, Some T => belowb (tm_departure T) (v_destination_latest v) && belowb (tm_departure T - tm_departure T0) (v_timeout v)
  | _, _ => false
  end &&
  forallb (fun '(x, T) =>
    forallb (fun t => belowb (tm_start T) (origin_latest (w_trip t))) (vi_board x) &&
    forallb (fun t => belowb (tm_start T) (destination_latest (w_trip t))) (vi_alight x) &&
    belowb (tm_load T) (v_capacity v) &&
    forallb (fun '(y, T') => forallb (fun t => implb (bool_decide (t ∈ vi_alight y)) (belowb (tm_start T' - tm_departure T) (tr_timeout (w_trip t)))) (vi_board x)) (zip xs Ts)) (zip xs Ts).
Lemma belowb_below x l : belowb x l = true -> below x l.
Proof. destruct l; cbn; [lia|done]. Qed.
Lemma exactb_exact `{W : World} v xs : exactb v xs = true -> exact v xs.
Proof.
  unfold exactb. rewrite andb_true_iff. intros [H1 H2].
  assert (Z : forall i x T, xs !! i = Some x -> timetable v xs !! i = Some T -> In (x, T) (zip xs (timetable v xs))).
  { intros i x T Hx HT. apply elem_of_list_In, (elem_of_list_lookup_2 _ i). by rewrite lookup_zip_with, Hx, HT. }
  rewrite forallb_forall in H2. constructor.
  - intros T HT. rewrite HT in H1. destruct (head _); [|done]. apply andb_true_iff in H1 as [H1 _]. by apply belowb_below.
  - intros T0 T H0 HT. rewrite HT, H0 in H1. apply andb_true_iff in H1 as [_ H1]. by apply belowb_below.
  - intros i x T Hx HT. specialize (H2 _ (Z i x T Hx HT)). cbn in H2. rewrite !andb_true_iff in H2. destruct H2 as [[[Ha Hb] Hc] _].
    rewrite forallb_forall in Ha, Hb. split; [|split].
    + intros t Ht. apply belowb_below, Ha. by apply elem_of_list_In.
    + intros t Ht. apply belowb_below, Hb. by apply elem_of_list_In.
    + by apply belowb_below.
  - intros t i j Ti Tj (x & y & Hx & Hy & Hbx & Hay) HTi HTj. specialize (H2 _ (Z i x Ti Hx HTi)). cbn in H2. rewrite !andb_true_iff in H2. destruct H2 as [_ Hd].
    rewrite forallb_forall in Hd. specialize (Hd _ (Z j y Tj Hy HTj)). cbn in Hd. rewrite forallb_forall in Hd. specialize (Hd t ltac:(by apply elem_of_list_In)).
    rewrite bool_decide_true in Hd by done. by apply belowb_below.
Qed.
Definition pair_world (p0 p1 : position) (c0 c1 : Z) (latest : Z) : World :=
  world_of 1 Manhattan [Vehicle "0" (Service p0 0 (Lim 1440000) 0) None (Lim c0) Inf; Vehicle "1" (Service p1 0 (Lim 1440000) 0) None (Lim c1) Inf]
    [Trip "1" (Service [1000; 0] 0 (Lim latest) 100) (Service [2000; 0] 0 (Lim 1440000) 100) 1000 0 Inf].

(** a vehicle that is too small for a trip makes the model infeasible, even when
    another vehicle serves the trip *)
Lemma c52_small : exists (W : World) vs ts tours, NoDup ts /\ one_depot vs /\ finite vs ts /\ moving ts /\ direct vs ts /\
  (forall t, t ∈ ts -> 0 <= origin_duration (w_trip t) <= destination_duration (w_trip t)) /\
  plan vs ts tours /\ within_day vs tours /\ forall odd a, ~ solves vs ts odd a.
Proof.
  pose (W := pair_world [0; 0] [0; 0] 3000 500 1440000).
  exists W, [0; 1]%nat, [0%nat], [shuttle 0 0; idle 1]. split; [apply NoDup_singleton|].
  assert (F : finite [0; 1]%nat [0%nat]).
  { split; [intros v Hv; rewrite !elem_of_cons, elem_of_nil in Hv; destruct Hv as [->|[->|[]]]; done|].
    intros t Ht. apply elem_of_list_singleton in Ht as ->. done. }
  assert (M : moving [0%nat]) by (intros t Ht; apply elem_of_list_singleton in Ht as ->; done).
  split; [|split; [done|split; [done|split; [|split; [|split; [split|split]]]]]].
  - intros v v' Hv Hv'. rewrite !elem_of_cons, elem_of_nil in Hv, Hv'. destruct Hv as [->|[->|[]]], Hv' as [->|[->|[]]]; done.
  - apply direct_check. by vm_compute.
  - intros t Ht. apply elem_of_list_singleton in Ht as ->. vm_compute. by split.
  - constructor; [|constructor; [|constructor]].
    + destruct (shuttle_tour 0 0). split; [done|]. split; [done|]. apply exactb_exact. by vm_compute.
    + destruct (idle_tour 1). split; [done|]. split; [done|]. apply exactb_exact. by vm_compute.
  - done.
  - intros [|[|k]] v xs T Hk Hxs HT; [| |done]; injection Hk as <-; injection Hxs as <-; vm_compute in HT; injection HT as <-; by vm_compute.
  - intros odd a Hs. apply (solves_system 0%nat [1%nat] [0%nat] odd F M) in Hs.
    destruct (sy_room _ _ _ _ Hs 1%nat 1%nat ltac:(cbn; lia) ltac:(cbn; lia)) as [H1 H2].
    vm_compute in H1. cbn in H2. change (as_w a 1 1 <= 500) in H2. change (1000 <= as_w a 1 1) in H1. lia.
Qed.
(** all vehicles start where the first one does *)
Lemma c52_depots : exists (W : World) vs ts tours, NoDup ts /\ finite vs ts /\ moving ts /\ roomy vs ts /\
  (forall v, v ∈ vs -> direct [v] ts) /\
  (forall t, t ∈ ts -> 0 <= origin_duration (w_trip t) <= destination_duration (w_trip t)) /\
  plan vs ts tours /\ within_day vs tours /\ forall odd a, ~ solves vs ts odd a.
Proof.
  pose (W := pair_world [90000; 0] [0; 0] 3000 3000 5000).
  exists W, [0; 1]%nat, [0%nat], [idle 0; shuttle 1 0]. split; [apply NoDup_singleton|].
  assert (F : finite [0; 1]%nat [0%nat]).
  { split; [intros v Hv; rewrite !elem_of_cons, elem_of_nil in Hv; destruct Hv as [->|[->|[]]]; done|].
    intros t Ht. apply elem_of_list_singleton in Ht as ->. done. }
  assert (M : moving [0%nat]) by (intros t Ht; apply elem_of_list_singleton in Ht as ->; done).
  split; [done|split; [done|split; [|split; [|split; [|split; [split|split]]]]]].
  - intros v t Hv Ht. apply elem_of_list_singleton in Ht as ->. rewrite !elem_of_cons, elem_of_nil in Hv. destruct Hv as [->|[->|[]]]; vm_compute; by split.
  - intros v Hv. rewrite !elem_of_cons, elem_of_nil in Hv. destruct Hv as [->|[->|[]]]; apply direct_check; by vm_compute.
  - intros t Ht. apply elem_of_list_singleton in Ht as ->. vm_compute. by split.
  - constructor; [|constructor; [|constructor]].
    + destruct (idle_tour 0). split; [done|]. split; [done|]. apply exactb_exact. by vm_compute.
    + destruct (shuttle_tour 1 0). split; [done|]. split; [done|]. apply exactb_exact. by vm_compute.
  - done.
  - intros [|[|k]] v xs T Hk Hxs HT; [| |done]; injection Hk as <-; injection Hxs as <-; vm_compute in HT; injection HT as <-; by vm_compute.
  - intros odd a Hs. apply (solves_system 0%nat [1%nat] [0%nat] odd F M) in Hs.
    pose proof (sy_once _ _ _ _ Hs 1%nat ltac:(cbn; lia)) as Ho.
    change (length (ones (λ '(j, k), as_x a k 1%nat j) (product2 (seq 0 4) (seq 0 2))) = 1%nat) in Ho. apply length_one in Ho as ([j k] & Ho).
    assert (Hin : (j, k) ∈ ones (λ '(j, k), as_x a k 1%nat j) (product2 (seq 0 4) (seq 0 2))) by (rewrite Ho; by left).
    apply elem_of_ones in Hin as [Hin E]. apply elem_of_product in Hin as [Hj Hk]. apply elem_of_seq in Hj, Hk.
    pose proof (sy_flow _ _ _ _ Hs k 1%nat ltac:(cbn; lia) ltac:(cbn; lia)) as Hf.
    assert (Hout : j ∈ ones (fun j => as_x a k 1%nat j) (seq 0 4)) by (apply elem_of_ones; split; [apply elem_of_seq; lia|done]).
    change (2 * length [0%nat] + 2)%nat with 4%nat in Hf.
    destruct (ones (fun j => as_x a k j 1%nat) (seq 0 4)) as [|i is] eqn:Ei; [destruct (ones (fun j => as_x a k 1%nat j) (seq 0 4)); [by apply elem_of_nil in Hout|done]|].
    assert (Hi : i ∈ ones (fun j => as_x a k j 1%nat) (seq 0 4)) by (rewrite Ei; by left). apply elem_of_ones in Hi as [Hi Ex]. apply elem_of_seq in Hi.
    assert (Hk2 : (k < length [0; 1])%nat) by (cbn; lia).
    pose proof (sy_time _ _ _ _ Hs k i 1%nat Hk2 ltac:(cbn; lia) ltac:(cbn; lia) Ex) as Ht.
    pose proof (sy_load _ _ _ _ Hs k i 1%nat Hk2 ltac:(cbn; lia) ltac:(cbn; lia) Ex) as Hl.
    pose proof (sy_ride _ _ _ _ Hs k 1%nat Hk2 ltac:(cbn; lia)) as [Hr _].
    pose proof (sy_window _ _ _ _ Hs k 1%nat Hk2 ltac:(cbn; lia)) as [_ Hw]. change (as_u a k 1 <= 5000) in Hw.
    pose proof (sy_u0 _ _ _ _ Hs k i Hk2 ltac:(cbn; lia)) as H0.
    change (1000 <= as_u a k 2 - (as_u a k 1 + 100)) in Hr.
    destruct i as [|[|[|[|i]]]]; [| | | |lia].
    + change (as_u a k 0 + 0 + 89000 <= as_u a k 1) in Ht. lia.
    + change (as_w a k 1 + 1000 <= as_w a k 1) in Hl. lia.
    + change (as_u a k 2 + 100 + 1000 <= as_u a k 1) in Ht. lia.
    + change (as_u a k 3 + 0 + 89000 <= as_u a k 1) in Ht. lia.
Qed.

(** ** The objective is not the distance *)
(** a vehicle that stays at its depot costs 10000 units *)
Lemma c53_idle : exists (W : World) vs ts odd a tours, one_depot vs /\ finite vs ts /\ moving ts /\ solves vs ts odd a /\ plan vs ts tours /\
  (forall k v xs, vs !! k = Some v -> tours !! k = Some xs -> follows vs ts a k v xs) /\
  ~ (objective_value vs ts a == inject_Z (fleet_way dist tours))%Q.
Proof.
  pose (W := lone_world [1000; 0] [50000; 0] 0 0 (Lim 3000)).
  exists W, [0%nat], [], (fun _ _ _ => false), (Assignment (arcs [(0, 1)]%nat) (listed [0; 0]) (listed [0; 0])), [idle 0].
  destruct (lone_instance [1000; 0] [50000; 0] 0 0 (Lim 3000) ltac:(done)) as (_ & H2 & H3 & _).
  split; [done|]. split; [split; [apply H3|intros t Ht; by apply elem_of_nil in Ht]|]. split; [intros t Ht; by apply elem_of_nil in Ht|].
  split; [apply solves_check; by vm_compute|]. split; [split; [|done]|split].
  - constructor; [|constructor]. destruct (idle_tour 0). split; [done|]. split; [done|]. apply exactb_exact. by vm_compute.
  - intros [|k] v xs Hk Hxs; [|done]. injection Hk as <-. injection Hxs as <-.
    exists [], (Visit (v_origin_position 0) [] [] None), [], (Visit (v_destination_position 0) [] [] None). split; [done|]. split; [constructor|]. split; [|done].
    intros i j. split.
    + intros (Hk & Hi & Hj & E). split; [done|]. cbn in Hi, Hj. exists [], []. destruct i as [|[|i]], j as [|[|j]]; [| | | | |lia..]; try (by vm_compute in E); lia.
    + intros [Hk H]. destruct H as ([|z [|z' l]] & l2 & E); [|injection E as -> E; destruct l2; done|injection E as -> -> E; destruct l; done].
      injection E as <- <- <-. cbn. repeat split; lia.
  - vm_compute. discriminate.
Qed.
