(** Proofs about the numbering and the reading of solutions (C48, C49). *)
From Coq Require Import Lqa.
From Verif Require Import SpecMilp ScoreProofs WitnessLoad.

Section numbering.
  Context {W : World} (v : nat) (vs ts : list nat).

  Lemma trip_by_pickup k t : ts !! k = Some t -> trip_by_position_idx ts (k + 1) = Ok (Some t).
  Proof.
    intros E. pose proof (lookup_lt_Some _ _ _ E) as Hk. unfold trip_by_position_idx, node_count, trip_count.
    destruct (Nat.eqb_spec (k + 1) 0); [lia|]. destruct (Nat.eqb_spec (k + 1) (2 * length ts + 2 - 1)); [lia|]. cbn.
    destruct (Nat.eqb_spec (length ts) 0); [lia|]. unfold py_index.
    destruct (decide (k + 1 = length ts)%nat) as [Hl|Hl].
    - rewrite Hl, Z.mod_same by lia. change (0 - 1) with (-1). change (-1 <? 0) with true. cbn [andb]. replace (Z.to_nat (Z.of_nat (length ts) + -1)) with k by lia. rewrite E.
      destruct (Z.ltb_spec (Z.of_nat (length ts) + -1) 0); [lia|done].
    - rewrite Z.mod_small by lia. destruct (Z.ltb_spec (Z.of_nat (k + 1) - 1) 0); [lia|].
      replace (Z.to_nat (Z.of_nat (k + 1) - 1)) with k by lia. by rewrite E.
  Qed.
  Lemma trip_by_delivery k t : ts !! k = Some t -> trip_by_position_idx ts (length ts + k + 1) = Ok (Some t).
  Proof.
    intros E. pose proof (lookup_lt_Some _ _ _ E) as Hk. unfold trip_by_position_idx, node_count, trip_count.
    destruct (Nat.eqb_spec (length ts + k + 1) 0); [lia|]. destruct (Nat.eqb_spec (length ts + k + 1) (2 * length ts + 2 - 1)); [lia|]. cbn.
    destruct (Nat.eqb_spec (length ts) 0); [lia|]. unfold py_index.
    destruct (decide (k + 1 = length ts)%nat) as [Hl|Hl].
    - replace (Z.of_nat (length ts + k + 1)) with (0 + 2 * Z.of_nat (length ts)) by lia.
      rewrite Z.mod_add by lia. rewrite Z.mod_0_l by lia. change (0 - 1) with (-1). change (-1 <? 0) with true. cbn [andb]. replace (Z.to_nat (Z.of_nat (length ts) + -1)) with k by lia. rewrite E.
      destruct (Z.ltb_spec (Z.of_nat (length ts) + -1) 0); [lia|done].
    - replace (Z.of_nat (length ts + k + 1)) with (Z.of_nat (k + 1) + 1 * Z.of_nat (length ts)) by lia.
      rewrite Z.mod_add, Z.mod_small by lia. destruct (Z.ltb_spec (Z.of_nat (k + 1) - 1) 0); [lia|].
      replace (Z.to_nat (Z.of_nat (k + 1) - 1)) with k by lia. by rewrite E.
  Qed.
  Lemma trip_by_depot i : depot_node ts i -> trip_by_position_idx ts i = Ok None.
  Proof.
    intros [-> | ->]; unfold trip_by_position_idx, node_count, trip_count; [done|].
    replace (2 * length ts + 2 - 1)%nat with (2 * length ts + 1)%nat by lia. rewrite Nat.eqb_refl.
    by rewrite orb_true_r.
  Qed.
  Lemma pos_pickup k t : ts !! k = Some t -> pos (v :: vs) ts (k + 1) = origin_position (w_trip t).
  Proof.
    intros E. pose proof (lookup_lt_Some _ _ _ E) as Hk. unfold pos, positions. rewrite Nat.add_1_r. cbn [nth].
    rewrite app_nth1 by (by rewrite map_length). rewrite nth_lookup.
    change (map ?f ts !! k) with ((f <$> ts) !! k). by rewrite list_lookup_fmap, E.
  Qed.
  Lemma pos_delivery k t : ts !! k = Some t -> pos (v :: vs) ts (length ts + k + 1) = destination_position (w_trip t).
  Proof.
    intros E. pose proof (lookup_lt_Some _ _ _ E) as Hk. unfold pos, positions. rewrite Nat.add_1_r. cbn [nth].
    rewrite app_nth2 by (rewrite map_length; lia). rewrite map_length. replace (length ts + k - length ts)%nat with k by lia.
    rewrite app_nth1 by (by rewrite map_length). rewrite nth_lookup.
    change (map ?f ts !! k) with ((f <$> ts) !! k). by rewrite list_lookup_fmap, E.
  Qed.
End numbering.

(** the nodes: a depot at each end, and one pickup and one delivery per trip *)
Lemma c48_nodes `{W : World} : forall ts i, (i < node_count ts)%nat ->
  depot_node ts i \/ (exists t, pickup_node ts i t) \/ (exists t, delivery_node ts i t).
Proof.
  intros ts i Hi. unfold node_count, trip_count in Hi. destruct (decide (i = 0 \/ i = 2 * length ts + 1)%nat) as [|Hn]; [by left|].
  right. destruct (decide (i <= length ts)%nat).
  - left. destruct (lookup_lt_is_Some_2 ts (i - 1)) as [t Ht]; [lia|]. exists t, (i - 1)%nat. split; [done|lia].
  - right. destruct (lookup_lt_is_Some_2 ts (i - length ts - 1)) as [t Ht]; [lia|]. exists t, (i - length ts - 1)%nat. split; [done|lia].
Qed.
Lemma c48_pickup `{W : World} : forall v vs ts i t, pickup_node ts i t ->
  trip_by_position_idx ts i = Ok (Some t) /\
  pos (v :: vs) ts i = origin_position (w_trip t) /\
  capacity_by_position_idx ts i = Ok (tr_capacity (w_trip t)) /\
  load_time_by_position_idx ts i = Ok (origin_duration (w_trip t)) /\
  timeout_by_position_idx ts i = Ok (tr_timeout (w_trip t)) /\
  time_window_by_position_idx (v :: vs) ts i = Ok (origin_earliest (w_trip t), origin_latest (w_trip t)).
Proof.
  intros v vs ts i t (k & E & ->). pose proof (lookup_lt_Some _ _ _ E) as Hk.
  assert (T := trip_by_pickup ts k t E). assert (P := pos_pickup v vs ts k t E).
  unfold capacity_by_position_idx, load_time_by_position_idx, timeout_by_position_idx, time_window_by_position_idx.
  rewrite T, P, bool_decide_true by done. unfold node_count, trip_count.
  destruct (Nat.ltb_spec (2 * (k + 1)) (2 * length ts + 2)); [|lia]. done.
Qed.
Lemma c48_delivery `{W : World} : forall v vs ts i t, delivery_node ts i t ->
  trip_by_position_idx ts i = Ok (Some t) /\
  pos (v :: vs) ts i = destination_position (w_trip t) /\
  capacity_by_position_idx ts i = Ok (- tr_capacity (w_trip t)) /\
  timeout_by_position_idx ts i = Ok (tr_timeout (w_trip t)).
Proof.
  intros v vs ts i t (k & E & ->). pose proof (lookup_lt_Some _ _ _ E) as Hk.
  assert (T := trip_by_delivery ts k t E). assert (P := pos_delivery v vs ts k t E).
  unfold capacity_by_position_idx, timeout_by_position_idx. rewrite T, P.
  split; [done|]. split; [done|]. split; [|done]. unfold node_count, trip_count.
  destruct (Nat.ltb_spec (2 * (length ts + k + 1)) (2 * length ts + 2)); [lia|]. f_equal. lia.
Qed.
Lemma c48_delivery_window `{W : World} : forall v vs ts i t, delivery_node ts i t ->
  origin_position (w_trip t) <> destination_position (w_trip t) ->
  time_window_by_position_idx (v :: vs) ts i = Ok (destination_earliest (w_trip t), destination_latest (w_trip t)).
Proof.
  intros v vs ts i t H Hne. destruct (c48_delivery v vs ts i t H) as (T & P & _).
  unfold time_window_by_position_idx. rewrite T, P, bool_decide_false by done. by rewrite bool_decide_true.
Qed.
Lemma c48_depot `{W : World} : forall v vs ts i, depot_node ts i ->
  trip_by_position_idx ts i = Ok None /\ capacity_by_position_idx ts i = Ok 0 /\
  load_time_by_position_idx ts i = Ok 0 /\
  time_window_by_position_idx (v :: vs) ts i = Ok (0, Lim (1440 * (1000 * eb))) /\
  pos (v :: vs) ts i = if (i =? 0)%nat then v_origin_position v else v_destination_position v.
Proof.
  intros v vs ts i H. assert (T := trip_by_depot ts i H).
  unfold capacity_by_position_idx, load_time_by_position_idx, time_window_by_position_idx. rewrite T.
  do 4 (split; [done|]). destruct H as [-> | ->]; [done|].
  rewrite Nat.add_1_r. cbn [Nat.eqb]. unfold pos, positions. cbn [nth].
  rewrite app_nth2 by (rewrite map_length; lia). rewrite map_length.
  rewrite app_nth2 by (rewrite map_length; lia). rewrite map_length.
  by replace (2 * length ts - length ts - length ts)%nat with 0%nat by lia.
Qed.
(** a delivery at the place of the pickup gets the window of the pickup *)
Lemma c48_naive `{W : World} : forall v vs ts i t, delivery_node ts i t ->
  origin_position (w_trip t) = destination_position (w_trip t) ->
  time_window_by_position_idx (v :: vs) ts i = Ok (origin_earliest (w_trip t), origin_latest (w_trip t)).
Proof.
  intros v vs ts i t H He. destruct (c48_delivery v vs ts i t H) as (T & P & _).
  unfold time_window_by_position_idx. rewrite T, P, bool_decide_true by done. done.
Qed.
(** and every delivery the duration of the pickup *)
Lemma c48_duration `{W : World} : forall ts i t, delivery_node ts i t ->
  load_time_by_position_idx ts i = Ok (origin_duration (w_trip t)).
Proof. intros ts i t (k & E & ->). unfold load_time_by_position_idx. by rewrite (trip_by_delivery ts k t E). Qed.
(** so the claim about windows is false *)
Lemma c48_refutation : exists (W : World) v ts i t, delivery_node ts i t /\
  time_window_by_position_idx [v] ts i <> Ok (destination_earliest (w_trip t), destination_latest (w_trip t)).
Proof.
  exists (world_of 1 Manhattan [Vehicle "0" (Service [0; 0] 0 Inf 0) None (Lim 3000) Inf]
    [Trip "1" (Service [5; 5] 1000 (Lim 2000) 100) (Service [5; 5] 4000 (Lim 5000) 100) 1000 0 (Lim 9000)]), 0%nat, [0%nat], 2%nat, 0%nat.
  split; [by exists 0%nat|]. vm_compute. discriminate.
Qed.

(** ** C49 *)
Lemma validate_near `{W : World} vs ts a : validate vs ts a = Ok tt ->
  forall k i j, (k < length vs)%nat -> (i < node_count ts)%nat -> (j < node_count ts)%nat ->
    near_binary (as_x a k i j) = true /\ 0 <= as_u a k i /\ 0 <= as_w a k i.
Proof.
  unfold validate. intros H k i j Hk Hi Hj. destruct (forallb _ _) eqn:E in H; [|discriminate].
  rewrite forallb_forall in E. specialize (E k). rewrite in_seq in E. specialize (E ltac:(lia)).
  rewrite forallb_forall in E. specialize (E i). rewrite in_seq in E. specialize (E ltac:(lia)).
  rewrite !andb_true_iff in E. destruct E as [[E1 E2] E3].
  rewrite forallb_forall in E3. specialize (E3 j). rewrite in_seq in E3. specialize (E3 ltac:(lia)).
  split; [done|]. lia.
Qed.
Lemma near_binary_within x : near_binary x = true <-> within x 0 \/ within x 1.
Proof.
  unfold near_binary, within. rewrite Qle_bool_iff, Q.min_le_iff, !Qabs_Qle_condition.
  split; intros [[? ?]|[? ?]]; [left|right|left|right]; split; lra.
Qed.
Lemma trunc_one x : within x 0 \/ within x 1 -> (Z.eqb (py_trunc x) 1 = true <-> (1 <= x)%Q).
Proof.
  intros H. rewrite Z.eqb_eq. unfold py_trunc. destruct x as [p q]. unfold within, Qle, Qminus, Qplus, Qopp in *. cbn in *.
  split.
  - intros E. assert (Hp : 0 <= p).
    { destruct (Z.le_gt_cases 0 p); [done|]. exfalso. pose proof (Z.quot_opp_l p (Z.pos q) ltac:(lia)) as Eo.
      assert (0 <= Z.quot (- p) (Z.pos q)) by (apply Z.quot_pos; lia). lia. }
    pose proof (Z.quot_rem' p (Z.pos q)) as Eq. assert (0 <= Z.rem p (Z.pos q)) by (apply Z.rem_nonneg; lia).
    rewrite E in Eq. lia.
  - intros E. symmetry. apply (Z.quot_unique p (Z.pos q) 1 (p - Z.pos q)); lia.
Qed.
Lemma elem_of_ordered ts a k i : i ∈ ordered_indexes ts a k <-> (i < node_count ts)%nat.
Proof.
  unfold ordered_indexes. change (map snd) with (fmap (M := list) (@snd Z nat)). rewrite sort_keyed_perm.
  rewrite elem_of_list_fmap. split.
  - intros ([z i'] & -> & Hi). apply elem_of_list_fmap in Hi as (i0 & [= -> ->] & Hi). apply elem_of_seq in Hi. cbn [snd]. lia.
  - intros Hi. exists (as_u a k i, i). split; [done|]. apply elem_of_list_fmap. exists i. split; [done|]. apply elem_of_seq. lia.
Qed.

(** what a validated solution is read as: the nodes with an outgoing arc of at
    least 1, by starting time *)
Lemma c49_reads `{W : World} : forall vs ts a k, validate vs ts a = Ok tt -> (k < length vs)%nat ->
  (forall i, i ∈ solution_to_nodes ts a k <->
     (i < node_count ts)%nat /\ exists j, (j < node_count ts)%nat /\ (1 <= as_x a k i j)%Q) /\
  StronglySorted (fun i j => as_u a k i <= as_u a k j) (solution_to_nodes ts a k).
Proof.
  intros vs ts a k V Hk. pose proof (validate_near vs ts a V) as N. split.
  - intros i. unfold solution_to_nodes. rewrite elem_of_list_In, in_flat_map. split.
    + intros (i' & Hi' & Hi). rewrite <- elem_of_list_In, elem_of_ordered in Hi'. apply in_map_iff in Hi as (j & -> & Hj).
      apply filter_In in Hj as [Hj Hu]. apply in_seq in Hj. split; [done|]. exists j. split; [lia|].
      apply trunc_one; [|done]. apply near_binary_within. apply N; lia || done.
    + intros (Hi & j & Hj & Hx). exists i. split; [by apply elem_of_list_In, elem_of_ordered|].
      apply in_map_iff. exists j. split; [done|]. apply filter_In. split; [apply in_seq; lia|].
      apply trunc_one; [|done]. apply near_binary_within. by apply N.
  - unfold solution_to_nodes.
    assert (S : StronglySorted (fun i j => as_u a k i <= as_u a k j) (ordered_indexes ts a k)).
    { unfold ordered_indexes.
      pose proof (sort_keyed_sorted Z.ltb ltac:(intros x y z; lia) ltac:(intros x y; lia) false
        (map (fun i => (as_u a k i, i)) (seq 0 (node_count ts)))) as H.
      assert (F : Forall (fun p => p.1 = as_u a k p.2) (sort_keyed Z.ltb false (map (fun i => (as_u a k i, i)) (seq 0 (node_count ts))))).
      { apply Forall_forall. intros p Hp. rewrite sort_keyed_perm in Hp. by apply elem_of_list_fmap in Hp as (s & -> & _). }
      revert F. induction H as [|x m Hm IH Hx]; intros F; [constructor|].
      inversion F as [|? ? F1 F2]; subst. cbn. constructor; [by apply IH|].
      apply Forall_fmap. apply Forall_forall. intros y Hy. rewrite Forall_forall in Hx, F2.
      specialize (Hx y Hy). specialize (F2 y Hy). unfold inorder, before in Hx. cbn. lia. }
    induction S as [|i l Hl IH Hi]; [constructor|]. cbn [flat_map].
    induction (List.filter _ _) as [|j js IHj]; [done|]. cbn. constructor; [done|].
    apply Forall_app. split; apply Forall_forall.
    + intros i' Hi'. apply elem_of_list_In, in_map_iff in Hi' as (? & <- & _). lia.
    + intros i' Hi'. apply elem_of_list_In, in_flat_map in Hi' as (i2 & Hi2 & Hi'). apply in_map_iff in Hi' as (? & <- & _).
      rewrite Forall_forall in Hi. apply Hi. by apply elem_of_list_In.
Qed.
(** the claim holds of solutions whose values are not just below 1 *)
Lemma c49_kept `{W : World} : forall vs ts a k i j, validate vs ts a = Ok tt -> (k < length vs)%nat ->
  (i < node_count ts)%nat -> (j < node_count ts)%nat ->
  within (as_x a k i j) 1 -> (1 <= as_x a k i j)%Q -> i ∈ solution_to_nodes ts a k.
Proof.
  intros vs ts a k i j V Hk Hi Hj _ Hx. apply (c49_reads vs ts a k V Hk). split; [done|]. by exists j.
Qed.
(** values just below 1 pass the validation and are dropped *)
Lemma c49_naive : exists (W : World) vs ts a k i j, validate vs ts a = Ok tt /\ (k < length vs)%nat /\
  (i < node_count ts)%nat /\ (j < node_count ts)%nat /\
  within (as_x a k i j) 1 /\ i ∉ solution_to_nodes ts a k.
Proof.
  exists (world_of 1 Manhattan [Vehicle "0" (Service [0; 0] 0 Inf 0) None (Lim 3000) Inf] []), [0%nat], [],
    (Assignment (fun _ i j => if (i =? 0)%nat && (j =? 1)%nat then 96 # 100 else 0)%Q (fun _ _ => 0) (fun _ _ => 0)), 0%nat, 0%nat, 1%nat.
  split; [reflexivity|]. split; [cbn; lia|]. split; [cbn; lia|]. split; [cbn; lia|].
  split; [split; vm_compute; discriminate|]. vm_compute. inversion 1.
Qed.
