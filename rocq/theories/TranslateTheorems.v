(** Proofs about the translation of solutions into routes (C55). *)
From Coq Require Import Sorted.
From Verif Require Import SpecTranslate MilpGraph MilpTheorems TimeTheorems SchedProofs MilpProofs MilpSound MilpCost DarpTheorems TranslateProofs TranslateRoute
  RankingTheorems LocalTheorems RepresentsProofs.

(** ** Exact plans are admissible *)
Lemma schedule_earliest `{W : World} xs : forall l i x T, xs !! i = Some x -> schedule l xs !! i = Some T -> visit_earliest x <= tm_start T.
Proof.
  induction xs as [|y xs IH]; intros l i x T Hx HT; [done|]. destruct i as [|i]; cbn in *.
  - injection Hx as <-. injection HT as <-. destruct l as [[? ?] ?]. cbn. lia.
  - by eapply IH.
Qed.
Lemma below_most `{W : World} x l : below x l -> at_most x l.
Proof. destruct l as [z|]; cbn; [|done]. unfold eb. lia. Qed.
Lemma exact_admissible `{W : World} v xs : tour v xs -> exact v xs -> admissible v xs.
Proof.
  intros Ht [E1 E2 E3 E4]. destruct (tour_first v xs Ht) as (x0 & rest & -> & _ & H0 & _). destruct (tour_last v _ Ht) as (front & xn & El & Hn & _).
  assert (O : forall i x T, (x0 :: rest) !! i = Some x -> timetable v (x0 :: rest) !! i = Some T -> on_time v x T).
  { intros i x T Hx HT. destruct (E3 i x T Hx HT) as (B1 & B2 & B3). pose proof (schedule_earliest _ _ _ _ _ Hx HT) as He. unfold visit_earliest in He.
    split; [|split; [|by apply below_most]]; intros t Hin; (split; [|apply below_most; by auto]).
    - pose proof (max_or_ge 0 (map (fun t => origin_earliest (w_trip t)) (vi_board x) ++ map (fun t => destination_earliest (w_trip t)) (vi_alight x)) (origin_earliest (w_trip t))) as Hm.
      specialize (Hm ltac:(apply elem_of_app; left; apply elem_of_list_fmap; by exists t)). unfold eb. lia.
    - pose proof (max_or_ge 0 (map (fun t => origin_earliest (w_trip t)) (vi_board x) ++ map (fun t => destination_earliest (w_trip t)) (vi_alight x)) (destination_earliest (w_trip t))) as Hm.
      specialize (Hm ltac:(apply elem_of_app; right; apply elem_of_list_fmap; by exists t)). unfold eb. lia. }
  constructor.
  - by exists x0.
  - exists xn. split; [by rewrite El, last_snoc|done].
  - intros T HT. by apply below_most, E1.
  - intros T0 T H1 H2. by apply below_most, E2.
  - intros t i j x y Ti Tj Hr Hx Hy HTi HTj. split; [by eapply O|]. split; [by eapply O|]. by eapply below_most, E4.
Qed.

(** ** Reading the path *)
Lemma unasked_untouched `{W : World} h h' r v ids xs : well_formed h r v ids xs -> unasked h r ids -> untouched h h' -> unasked h' r ids.
Proof.
  intros Hw (U1 & U2 & U3) (T1 & T2 & T3). destruct Hw as [[(rc & Hr & _) Hl Hs] _ _ _].
  assert (Hst : forall s, s ∈ ids -> exists c x, h_stops h !! s = Some c /\ plans h (st_pickups c) (vi_board x)).
  { intros s Hin. apply elem_of_list_lookup_1 in Hin as (i & Hi). destruct (lookup_lt_is_Some_2 xs i) as [x Hx]; [rewrite <- Hl; by eapply lookup_lt_Some|].
    destruct (lookup_lt_is_Some_2 (timetable v xs) i) as [T HT]; [unfold timetable; rewrite schedule_length; by eapply lookup_lt_Some|].
    destruct (Hs i s x T Hi Hx HT) as (c & Hc & Sh). exists c, x. split; [done|]. apply Sh. }
  split; [|split].
  - intros c Hc. rewrite T3 in Hc by (by eapply lookup_lt_Some). by apply U1.
  - intros s c Hin Hc. destruct (Hst s Hin) as (c' & x & Hc' & _). rewrite T1 in Hc by (by eapply lookup_lt_Some). by eapply U2.
  - intros s c q pc Hin Hc Hq Hpc. destruct (Hst s Hin) as (c' & x & Hc' & Hp). rewrite T1 in Hc by (by eapply lookup_lt_Some).
    assert (c' = c) as -> by congruence. apply elem_of_list_lookup_1 in Hq as Hq'. destruct Hq' as (i & Hi).
    destruct (Forall2_lookup_l _ _ _ _ _ Hp Hi) as (t & _ & pc' & Hpc' & _). rewrite T2 in Hpc by (by eapply lookup_lt_Some). by eapply U3.
Qed.
Lemma untouched_trans `{W : World} h1 h2 h3 : (length (h_stops h1) <= length (h_stops h2))%nat -> (length (h_pts h1) <= length (h_pts h2))%nat ->
  (length (h_routes h1) <= length (h_routes h2))%nat -> untouched h1 h2 -> untouched h2 h3 -> untouched h1 h3.
Proof.
  intros L1 L2 L3 (A1 & A2 & A3) (B1 & B2 & B3). split; [|split]; intros i Hi.
  - rewrite B1 by lia. by apply A1.
  - rewrite B2 by lia. by apply A2.
  - rewrite B3 by lia. by apply A3.
Qed.
Lemma H_untouched h v SS PP ss : untouched h (H h v SS PP ss).
Proof. split; [|split]; intros i Hi; cbn; by rewrite lookup_app_l. Qed.
Lemma sorted_weaken (f : nat -> Z) l : StronglySorted (fun i j => f i < f j) l -> StronglySorted (fun i j => f i <= f j) l.
Proof. induction 1 as [|x l Hl IH Hx]; constructor; [done|]. eapply Forall_impl; [exact Hx|]. cbn. lia. Qed.
Lemma sorted_same (f : nat -> Z) l1 : forall l2, StronglySorted (fun i j => f i < f j) l1 -> StronglySorted (fun i j => f i <= f j) l2 -> NoDup l2 ->
  (forall i, i ∈ l1 <-> i ∈ l2) -> l1 = l2.
Proof.
  induction l1 as [|x l1 IH]; intros l2 H1 H2 Hn He.
  - destruct l2 as [|y l2]; [done|]. exfalso. apply (not_elem_of_nil y), He. by left.
  - inversion H1 as [|? ? H1' Hx]; subst. destruct l2 as [|y l2]; [exfalso; apply (not_elem_of_nil x), He; by left|].
    inversion H2 as [|? ? H2' Hy]; subst. rewrite Forall_forall in Hx, Hy. apply NoDup_cons in Hn as [Hny Hn].
    assert (x = y) as ->.
    { destruct (decide (x = y)) as [|Hxy]; [done|]. exfalso. assert (Hy1 : y ∈ l1) by (assert (Hc : y ∈ x :: l1) by (apply He; by left); by apply elem_of_cons in Hc as [?|?]).
      assert (Hx2 : x ∈ l2) by (assert (Hc : x ∈ y :: l2) by (apply He; by left); by apply elem_of_cons in Hc as [?|?]).
      specialize (Hx y Hy1). specialize (Hy x Hx2). lia. }
    f_equal. apply IH; [done|done|done|]. intros i. destruct (decide (i = y)) as [->|Hiy].
    + split; [|done]. intros Hc. specialize (Hx y Hc). lia.
    + specialize (He i). rewrite !elem_of_cons in He. tauto.
Qed.

Section all.
  Context {W : World} (v0 : nat) (vs' ts : list nat).
  Notation vs := (v0 :: vs').
  Notation n := (length ts).
  Notation N := (2 * length ts + 2)%nat.
  Notation L := (2 * length ts + 1)%nat.
  Context (a : assignment) (S : system v0 vs' ts a) (Hap : apart vs ts) (Hsp : one_space vs ts) (Hnd : NoDup ts) (Hdep : one_depot vs).
  Context (Hdur : forall t, t ∈ ts -> 0 <= destination_duration (w_trip t) <= origin_duration (w_trip t)).
  Context (Htt : takes_time vs ts a).
  Notation u := (as_u a).

  Lemma pos_apart i j : (i < L)%nat -> (j < L)%nat -> pos vs ts i = pos vs ts j -> i = j.
  Proof.
    intros Hi Hj. specialize (Hap v0 ltac:(by left)). set (l := v_origin_position v0 :: _ ++ _) in Hap.
    assert (E : forall i, (i < L)%nat -> l !! i = Some (pos vs ts i)).
    { intros q Hq. assert (Hl : length l = L) by (unfold l; cbn; rewrite app_length, !map_length; lia).
      assert (Ep : positions vs ts = Ok (l ++ [v_destination_position v0])) by (unfold l; cbn; by rewrite <- app_assoc).
      unfold pos. rewrite Ep, app_nth1 by lia.
      destruct (nth_lookup_or_length l q []) as [El|El]; [done|lia]. }
    intros Eq. eapply NoDup_lookup; [exact Hap|by apply E|]. rewrite Eq. by apply E.
  Qed.
  Lemma apart_moving : moving ts.
  Proof.
    intros t Ht E. apply elem_of_list_lookup_1 in Ht as (q & Hq). pose proof (lookup_lt_Some _ _ _ Hq).
    pose proof (pos_pickup v0 vs' ts q t Hq) as P1. pose proof (pos_delivery v0 vs' ts q t Hq) as P2. rewrite E, <- P2 in P1. apply pos_apart in P1; lia.
  Qed.
  Lemma binary_used k i j : (k < length vs)%nat -> (i < N)%nat -> (j < N)%nat -> used a k i j = true <-> (as_x a k i j == 1)%Q.
  Proof.
    intros Hk Hi Hj. unfold used. rewrite trunc_one.
    - destruct (sy_x v0 vs' ts a S k i j Hk Hi Hj) as [E|E]; rewrite E; split; intros Hc; try done; by compute in Hc.
    - destruct (sy_x v0 vs' ts a S k i j Hk Hi Hj) as [E|E]; [left|right]; unfold within; rewrite E; split; by compute.
  Qed.
  Lemma validated : validate vs ts a = Ok tt.
  Proof.
    unfold validate. assert (E : forallb (fun k => forallb (fun i => (0 <=? u k i) && (0 <=? as_w a k i) && forallb (fun j => near_binary (as_x a k i j)) (seq 0 (node_count ts)))
      (seq 0 (node_count ts))) (seq 0 (length vs)) = true); [|by rewrite E].
    apply forallb_forall. intros k Hk. apply in_seq in Hk. apply forallb_forall. intros i Hi. apply in_seq in Hi. unfold node_count, trip_count in Hi.
    pose proof (sy_u0 v0 vs' ts a S k i ltac:(lia) ltac:(lia)). pose proof (sy_w0 v0 vs' ts a S k i ltac:(lia) ltac:(lia)).
    rewrite !andb_true_iff. split; [lia|]. apply forallb_forall. intros j Hj. apply in_seq in Hj. unfold node_count, trip_count in Hj.
    apply near_binary_within. destruct (sy_x v0 vs' ts a S k i j ltac:(lia) ltac:(lia) ltac:(lia)) as [E|E]; [left|right]; unfold within; rewrite E; split; by compute.
  Qed.

  Section vehicle.
    Context (k v : nat) (Hk : vs !! k = Some v) (p : list nat) (Hin : Forall (fun i => 0 < i < L)%nat p)
      (Hlink : forall i j, arc ts a k i j <-> next_to (0%nat :: p ++ [L]) i j)
      (Hsort : StronglySorted (fun i j => rank ts a k i < rank ts a k j) (0%nat :: p ++ [L])).
    Lemma Hkl : (k < length vs)%nat.
    Proof. by eapply lookup_lt_Some. Qed.
    Lemma path_u : StronglySorted (fun i j => u k i < u k j) (0%nat :: p).
    Proof.
      apply (linked_sorted (fun i j => arc ts a k i j /\ i <> j /\ (i < L)%nat /\ (j < L)%nat)).
      - intros i j (Ha & Hij & Hi & Hj). pose proof (arc_time v0 vs' ts a S k v Hk i j Ha) as Ht. pose proof (nload_nonneg v0 vs' ts apart_moving Hdur i ltac:(lia)).
        assert (0 < dist (pos vs ts i) (pos vs ts j)); [|lia]. apply dist_pos; [apply Hsp; unfold node_count, trip_count; lia|]. intros E. apply pos_apart in E; [done|lia|lia].
      - intros i j Hij. assert (Hn : next_to (0%nat :: p ++ [L]) i j).
        { destruct Hij as (l1 & l2 & E). exists l1, (l2 ++ [L]). rewrite app_comm_cons, E, <- app_assoc. done. }
        assert (Hr : forall q, q ∈ 0%nat :: p -> (q < L)%nat).
        { intros q Hq. apply elem_of_cons in Hq as [->|Hq]; [lia|]. rewrite Forall_forall in Hin. apply Hin in Hq. lia. }
        apply next_to_elem in Hij as [Hi Hj]. split; [by apply Hlink|]. split; [|split; by apply Hr].
        intros ->. clear -Hn Hsort. destruct Hn as (l1 & l2 & E). rewrite E in Hsort. clear E. induction l1 as [|y l1 IH]; cbn in Hsort.
        + inversion Hsort as [|? ? _ Hf]; subst. apply Forall_cons in Hf as [Hf _]. lia.
        + inversion Hsort; subst. by apply IH.
    Qed.
    Lemma out_once i : (i < L)%nat -> (length (List.filter (fun j => used a k i j) (seq 0 (node_count ts))) <= 1)%nat.
    Proof.
      intros Hi. pose proof (out_le v0 vs' ts a S k v Hk i Hi) as Ho. eapply Nat.le_trans; [|exact Ho]. unfold ones.
      apply Nat.eq_le_incl. f_equal. unfold node_count, trip_count. apply filter_ext_in. intros j Hj. apply in_seq in Hj.
      apply eq_true_iff_eq. rewrite Qeq_bool_iff. apply binary_used; [apply Hkl|lia|lia].
    Qed.
    Lemma reads_path : solution_to_nodes ts a k = 0%nat :: p.
    Proof.
      destruct (c49_reads vs ts a k validated Hkl) as [Hr Hs]. symmetry. apply (sorted_same (u k)); [apply path_u|done|..].
      - assert (Hl : forall i, i ∈ ordered_indexes ts a k -> (length (List.filter (fun j => used a k i j) (seq 0 (node_count ts))) <= 1)%nat).
        { intros i Hi. apply elem_of_ordered in Hi. unfold node_count, trip_count in Hi. destruct (decide (i < L)%nat) as [|Hn]; [by apply out_once|].
          assert (i = L) as -> by lia. destruct (List.filter _ _) as [|j l] eqn:E; [cbn; lia|]. exfalso.
          assert (Hj : j ∈ List.filter (fun j => used a k L j) (seq 0 (node_count ts))) by (rewrite E; by left).
          apply elem_of_list_In, filter_In in Hj as [Hj Hu]. apply in_seq in Hj. unfold node_count, trip_count in Hj. apply binary_used in Hu; [|apply Hkl|lia|lia].
          assert (Ha : arc ts a k L j) by (split; [lia|split; [lia|done]]). apply Hlink in Ha. clear -Ha Hin.
          destruct Ha as (l1 & l2 & Ea). assert (Hx : exists l3, 0%nat :: p ++ [L] = l3 ++ [L] /\ L ∉ l3).
          { exists (0%nat :: p). split; [done|]. rewrite not_elem_of_cons. split; [lia|]. intros Hc. rewrite Forall_forall in Hin. apply Hin in Hc. lia. }
          destruct Hx as (l3 & E3 & Hn). rewrite E3 in Ea. destruct l2 as [|y l2] using rev_ind.
          - change (l1 ++ [L; j]) with (l1 ++ [L] ++ [j]) in Ea. rewrite app_assoc in Ea. apply app_inj_tail in Ea as [-> _]. apply Hn. apply elem_of_app. right. by left.
          - rewrite !app_comm_cons, app_assoc in Ea. apply app_inj_tail in Ea as [-> _]. apply Hn. apply elem_of_app. right. by left. }
        unfold solution_to_nodes. assert (Hno : NoDup (ordered_indexes ts a k)).
        { unfold ordered_indexes. change (map snd) with (fmap (M := list) (@snd Z nat)). rewrite sort_keyed_perm. change (map ?f ?l) with (f <$> l).
          rewrite <- list_fmap_compose. apply NoDup_fmap_2; [intros ? ?; done|apply NoDup_seq]. }
        apply NoDup_flat; [done|..].
        + intros i Hi. specialize (Hl i Hi). destruct (List.filter _ _) as [|j [|j' l]]; cbn in *; [constructor|apply NoDup_singleton|lia].
        + intros i i' y Hi Hi' Hy Hy'. apply elem_of_list_In, in_map_iff in Hy as (? & <- & _). apply elem_of_list_In, in_map_iff in Hy' as (? & <- & _). done.
      - intros i. rewrite Hr. unfold node_count, trip_count. split.
        + intros Hi. assert (Ha : exists j, arc ts a k i j).
          { destruct (next_to_exists (0%nat :: p ++ [L]) i L) as (j & Hj); [apply elem_of_cons in Hi as [->|Hi]; [by left|right; apply elem_of_app; by left]|rewrite app_comm_cons; apply last_snoc| |exists j; by apply Hlink].
            apply elem_of_cons in Hi as [->|Hi]; [lia|]. rewrite Forall_forall in Hin. apply Hin in Hi. lia. }
          destruct Ha as (j & H1 & H2 & H3). split; [done|]. exists j. split; [done|]. rewrite H3. by compute.
        + intros (Hi & j & Hj & Hx). assert (Ha : arc ts a k i j).
          { split; [done|]. split; [done|]. destruct (sy_x v0 vs' ts a S k i j Hkl Hi Hj) as [E|E]; [|done]. rewrite E in Hx. by compute in Hx. }
          apply Hlink in Ha. destruct Ha as (l1 & l2 & E). clear -E. assert (Hi : i ∈ 0%nat :: p); [|done].
          destruct l2 as [|y l2 _] using rev_ind.
          * change (l1 ++ [i; j]) with (l1 ++ [i] ++ [j]) in E. rewrite app_assoc, app_comm_cons in E. apply app_inj_tail in E as [-> _]. apply elem_of_app. right. by left.
          * rewrite !app_comm_cons, app_assoc in E. apply app_inj_tail in E as [-> _]. apply elem_of_app. right. by left.
    Qed.
  End vehicle.

  (** ** All vehicles *)
  Context (P : nat -> list nat) (HP : forall k, (k < length vs)%nat -> is_path ts a k (P k)).
  Lemma route_made k v h : vs !! k = Some v -> exists h' ids, solution_to_route vs ts a k v h = (Ok (length (h_routes h)), h') /\
    well_formed h' (length (h_routes h)) v ids (visits ts a k v (P k)) /\ unasked h' (length (h_routes h)) ids /\ untouched h h' /\
    (length (h_stops h) <= length (h_stops h'))%nat /\ (length (h_pts h) <= length (h_pts h'))%nat /\ length (h_routes h') = Datatypes.S (length (h_routes h)).
  Proof.
    intros Hk. pose proof (Hkl k v Hk) as Hl. destruct (HP k Hl) as (H1 & H2 & H3).
    pose proof (reads_path k v Hk (P k) H1 H2 H3) as Hr. pose proof (path_u k v Hk (P k) H1 H2 H3) as Hu.
    assert (Hpd : NoDup (P k)) by (by apply (path_NoDup ts a k)).
    pose proof (path_pair v0 vs' ts a S k v Hk (P k) H1 H2) as Hpair.
    pose proof (visits_rides v0 vs' ts a S apart_moving Hnd Hdur k v Hk (P k) H1 H2 H3) as Hrides.
    assert (Hu' : StronglySorted (fun i j => u k i < u k j) (P k)) by (by inversion Hu).
    assert (Hride : forall i, (1 <= i <= n)%nat -> i ∈ P k -> u k i <= u k (i + n)%nat).
    { intros i Hi _. destruct (sy_ride v0 vs' ts a S k i Hl Hi) as [Hd _]. pose proof (dist_nonneg (pos vs ts i) (pos vs ts (i + n))).
      pose proof (nload_nonneg v0 vs' ts apart_moving Hdur i ltac:(lia)). lia. }
    pose proof (depot_first v0 vs' ts Hdep k v Hk) as Hf.
    exists (final v0 vs' ts a k v (P k) h), (stops_at h (length (ps v0 vs' ts (P k)))). pose proof pos_apart as Hpa.
    split; [by apply run_route|]. split; [by apply final_formed|]. split; [by apply final_unasked|].
    split; [apply H_untouched|]. unfold final, H. cbn. rewrite !app_length. cbn. lia.
  Qed.
  Lemma routes_made l : (forall k v, (k, v) ∈ l -> vs !! k = Some v) -> forall h,
    exists h', mapM (fun kv : nat * nat => solution_to_route vs ts a kv.1 kv.2) l h = (Ok (seq (length (h_routes h)) (length l)), h') /\ untouched h h' /\
      (forall q k v, l !! q = Some (k, v) -> exists ids, well_formed h' (length (h_routes h) + q) v ids (visits ts a k v (P k)) /\ unasked h' (length (h_routes h) + q) ids).
  Proof.
    induction l as [|[k v] l IH]; intros Hl h.
    { exists h. split; [done|]. split; [by split|]. done. }
    destruct (route_made k v h) as (h1 & ids & E1 & F1 & U1 & T1 & L1 & L2 & L3); [apply Hl; by left|].
    destruct (IH ltac:(intros k' v' Hin; apply Hl; by right) h1) as (h2 & E2 & T2 & R2). rewrite L3 in E2, R2.
    exists h2. split.
    { cbn [mapM fst snd]. rewrite (bind_ok _ _ _ _ _ E1), (bind_ok _ _ _ _ _ E2). done. }
    split; [eapply untouched_trans; [| | |exact T1|exact T2]; lia|].
    intros [|q] k' v' Hq.
    - injection Hq as <- <-. exists ids. rewrite Nat.add_0_r. split; [|by eapply unasked_untouched]. by apply (grow_kept _ _ (untouched_grow _ _ T2)).
    - destruct (R2 q k' v' Hq) as (ids' & ? & ?). exists ids'. by rewrite Nat.add_succ_r.
  Qed.
  Lemma all_made h : exists h', milp_optimize vs ts a h = (Ok (seq (length (h_routes h)) (length vs)), h') /\ untouched h h' /\
    forall k v, vs !! k = Some v -> exists ids, well_formed h' (length (h_routes h) + k) v ids (visits ts a k v (P k)) /\ unasked h' (length (h_routes h) + k) ids.
  Proof.
    unfold milp_optimize. rewrite validated. unfold solution_to_routes.
    destruct (routes_made (zip (seq 0 (length vs)) vs)) with (h := h) as (h' & E & T & R).
    { intros k v Hin. apply elem_of_list_lookup_1 in Hin as (i & Hi). apply lookup_zip_with_Some in Hi as (x & y & [= -> ->] & Hx & Hy). apply lookup_seq in Hx as [-> _]. done. }
    exists h'. rewrite zip_with_length, seq_length, Nat.min_id in E. split; [done|]. split; [done|]. intros k v Hk. apply (R k k v).
    apply lookup_zip_with_Some. exists k, v. split; [done|]. split; [|done]. apply lookup_seq. split; [done|]. by eapply lookup_lt_Some.
  Qed.
End all.

(** ** The routes of a solution *)
Lemma c55_routes `{W : World} : forall vs ts odd a h, NoDup ts -> one_depot vs -> one_space vs ts -> apart vs ts -> finite vs ts ->
  (forall t, t ∈ ts -> 0 <= destination_duration (w_trip t) <= origin_duration (w_trip t)) ->
  (forall v, v ∈ vs -> v_origin_earliest v <= 0 /\ below day (v_destination_latest v)) ->
  solves vs ts odd a -> takes_time vs ts a ->
  exists rs tours h', milp_optimize vs ts a h = (Ok rs, h') /\ untouched h h' /\ drives h' vs rs tours /\
    plan vs ts tours /\ within_day vs tours /\ forall k v xs, vs !! k = Some v -> tours !! k = Some xs -> follows vs ts a k v xs.
Proof.
  intros vs ts odd a h Hnd Hdep Hsp Hap Fin Hdur Hv Hs Ht. destruct (solves_fleet vs ts odd a Hs) as (v0 & vs' & ->).
  pose proof (apart_moving v0 vs' ts Hap) as Mv. apply (solves_system v0 vs' ts odd Fin Mv) in Hs.
  destruct (paths v0 vs' ts a Hs Mv Hdur Ht) as (P & HP).
  destruct (paths_sound v0 vs' ts a Hs Mv Hnd Hdep Hdur) with (P := P) as (H1 & H2 & H3); [intros v Hin; by apply Hv|intros v Hin; by apply Hv|done|].
  destruct (all_made v0 vs' ts a Hs Hap Hsp Hnd Hdep Hdur P HP h) as (h' & E & T & R).
  exists (seq (length (h_routes h)) (length (v0 :: vs'))), (path_tours v0 vs' ts a P), h'. split; [done|]. split; [done|]. split; [|done].
  split; [by rewrite seq_length|]. intros k r v xs Hr Hk Hx. apply lookup_seq in Hr as [-> Hl].
  unfold path_tours in Hx. apply (list_lookup_fmap_inv (fun k => visits ts a k (nth k (v0 :: vs') 0%nat) (P k))) in Hx as (k' & -> & Hk'). apply lookup_seq in Hk' as [-> _].
  cbn [Nat.add]. rewrite (nth_lookup_Some _ _ _ _ Hk). destruct (R k v Hk) as (ids & F & U). exists ids. split; [|done]. split; [done|].
  destruct (HP k Hl) as (P1 & P2 & P3). by apply (visits_tour v0 vs').
Qed.

(** ** The planning of a solution *)
Lemma drives_serves `{W : World} h vs rs tours k r v xs : drives h vs rs tours -> rs !! k = Some r -> vs !! k = Some v -> tours !! k = Some xs ->
  route_serves h r v (boards xs).
Proof. intros [_ D] Hr Hv Hx. destruct (D k r v xs Hr Hv Hx) as (ids & O & _). by exists ids, xs. Qed.
Lemma serves_det `{W : World} h r v v' B B' : route_serves h r v B -> route_serves h r v' B' -> v = v' /\ B = B'.
Proof.
  intros (ids & xs & [O _] & <-) (ids' & xs' & [O' _] & <-). apply well_formed_RouteW in O, O'.
  by destruct (RouteW_det _ _ _ _ _ _ _ _ O O') as (-> & _ & ->).
Qed.
Lemma concat_unique {A} (l : list (list A)) i j a b x : NoDup (concat l) -> l !! i = Some a -> l !! j = Some b -> x ∈ a -> x ∈ b -> i = j.
Proof.
  revert i j. induction l as [|c l IH]; intros i j Hn Hi Hj Ha Hb; [done|]. cbn in Hn. apply NoDup_app in Hn as (_ & Hd & Hn).
  destruct i as [|i], j as [|j]; cbn in Hi, Hj.
  - done.
  - injection Hi as <-. destruct (Hd x Ha). apply elem_of_list_In, in_concat. exists b. split; apply elem_of_list_In; [by eapply elem_of_list_lookup_2|done].
  - injection Hj as <-. destruct (Hd x Hb). apply elem_of_list_In, in_concat. exists a. split; apply elem_of_list_In; [by eapply elem_of_list_lookup_2|done].
  - f_equal. by eapply IH.
Qed.
Lemma drives_valid `{W : World} h vs ts rs tours : NoDup vs -> NoDup ts -> plan vs ts tours -> drives h vs rs tours ->
  valid_planning h vs ts rs /\ serves_all h rs ts.
Proof.
  intros Nv Nt [HF HP] D. pose proof D as [Hl _]. pose proof (Forall2_length _ _ _ HF) as Hl'.
  assert (G : forall k r, rs !! k = Some r -> exists v xs, vs !! k = Some v /\ tours !! k = Some xs /\ route_serves h r v (boards xs)).
  { intros k r Hr. pose proof (lookup_lt_Some _ _ _ Hr) as Hk. destruct (lookup_lt_is_Some_2 vs k ltac:(lia)) as [v Hv].
    destruct (lookup_lt_is_Some_2 tours k ltac:(lia)) as [xs Hx]. exists v, xs. split; [done|]. split; [done|]. by eapply drives_serves. }
  assert (Nc : NoDup (concat (map boards tours))) by (by rewrite HP).
  assert (Hb : forall k xs, tours !! k = Some xs -> map boards tours !! k = Some (boards xs)).
  { intros k xs Hx. exact (eq_trans (list_lookup_fmap boards tours k) (f_equal (fmap boards) Hx)). }
  split; [constructor; [done| | |]|].
  - exists vs. split; [done|]. apply Forall2_same_length_lookup_2; [done|]. intros k r v Hr Hv. destruct (G k r Hr) as (v' & xs & Hv' & Hx & S).
    assert (v' = v) as -> by congruence. by eexists.
  - intros r v B t Hr S Ht. apply elem_of_list_lookup_1 in Hr as (k & Hr). destruct (G k r Hr) as (v' & xs & _ & Hx & S').
    destruct (serves_det _ _ _ _ _ _ S S') as [-> ->]. rewrite <- HP. apply elem_of_list_In, in_concat. exists (boards xs).
    split; apply elem_of_list_In; [by eapply elem_of_list_lookup_2, Hb|done].
  - intros r r' v v' B B' t Hr Hr' S S' Ht Ht'. apply elem_of_list_lookup_1 in Hr as (k & Hr), Hr' as (k' & Hr').
    destruct (G k r Hr) as (w & xs & _ & Hx & T), (G k' r' Hr') as (w' & xs' & _ & Hx' & T').
    destruct (serves_det _ _ _ _ _ _ S T) as [-> ->], (serves_det _ _ _ _ _ _ S' T') as [-> ->].
    assert (k = k') as <- by (by eapply (concat_unique (map boards tours)); eauto). congruence.
  - intros t Ht. rewrite <- HP in Ht. apply elem_of_list_In, in_concat in Ht as (B & HB & Ht). apply elem_of_list_In in HB, Ht.
    apply elem_of_list_lookup_1 in HB as (k & HB). apply (list_lookup_fmap_inv boards) in HB as (xs & -> & Hx).
    pose proof (lookup_lt_Some _ _ _ Hx). destruct (lookup_lt_is_Some_2 rs k ltac:(lia)) as [r Hr].
    destruct (G k r Hr) as (v & xs' & _ & Hx' & S). assert (xs' = xs) as -> by congruence.
    exists r, v, (boards xs). split; [by eapply elem_of_list_lookup_2|done].
Qed.
Lemma c55_valid `{W : World} : forall vs ts odd a h, NoDup vs -> NoDup ts -> one_depot vs -> one_space vs ts -> apart vs ts -> finite vs ts ->
  (forall t, t ∈ ts -> 0 <= destination_duration (w_trip t) <= origin_duration (w_trip t)) ->
  (forall v, v ∈ vs -> v_origin_earliest v <= 0 /\ below day (v_destination_latest v)) ->
  solves vs ts odd a -> takes_time vs ts a ->
  exists rs h', milp_optimize vs ts a h = (Ok rs, h') /\ valid_planning h' vs ts rs /\ serves_all h' rs ts.
Proof.
  intros vs ts odd a h Nv Nt Hdep Hsp Hap Fin Hdur Hv Hs Ht.
  destruct (c55_routes vs ts odd a h Nt Hdep Hsp Hap Fin Hdur Hv Hs Ht) as (rs & tours & h' & E & _ & D & P & _).
  exists rs, h'. split; [done|]. by eapply drives_valid.
Qed.
(** every route is feasible *)
Lemma c55_feasible `{W : World} : forall vs ts odd a h, sane -> NoDup ts -> one_depot vs -> one_space vs ts -> apart vs ts -> finite vs ts ->
  (forall t, t ∈ ts -> 0 <= destination_duration (w_trip t) <= origin_duration (w_trip t)) ->
  (forall v, v ∈ vs -> v_origin_earliest v <= 0 /\ below day (v_destination_latest v)) ->
  solves vs ts odd a -> takes_time vs ts a ->
  exists rs h', milp_optimize vs ts a h = (Ok rs, h') /\ forall r, r ∈ rs -> exists h'', route_feasible r h' = (Ok true, h'').
Proof.
  intros vs ts odd a h [SD SC] Nt Hdep Hsp Hap Fin Hdur Hv Hs Ht.
  destruct (c55_routes vs ts odd a h Nt Hdep Hsp Hap Fin Hdur Hv Hs Ht) as (rs & tours & h' & E & _ & [Hl D] & [HF _] & _).
  pose proof (Forall2_length _ _ _ HF) as Hl'. exists rs, h'. split; [done|]. intros r Hr. apply elem_of_list_lookup_1 in Hr as (k & Hr).
  pose proof (lookup_lt_Some _ _ _ Hr) as Hk. destruct (lookup_lt_is_Some_2 vs k ltac:(lia)) as [v Hvk].
  destruct (lookup_lt_is_Some_2 tours k ltac:(lia)) as [xs Hx]. destruct (D k r v xs Hr Hvk Hx) as (ids & [O T] & U).
  destruct (Forall2_lookup_lr _ _ _ _ _ _ HF Hvk Hx) as (_ & _ & Ex).
  destruct (c05_feasible h' r v ids xs SD SC O) as (b & h'' & F & B & _); [|done|].
  - intros ->. pose proof (lk_length _ _ _ _ _ (wf_linked _ _ _ _ _ O)). destruct (tour_first _ _ T) as (x & ? & -> & _). done.
  - exists h''. rewrite F. rewrite (proj2 B); [done|]. by apply exact_admissible.
Qed.
(** the routes of an optimal solution are a shortest plan *)
Lemma c55_optimal `{W : World} : forall vs ts odd a h, NoDup ts -> one_depot vs -> one_space vs ts -> apart vs ts -> finite vs ts ->
  direct vs ts -> roomy vs ts ->
  (forall t, t ∈ ts -> origin_duration (w_trip t) = destination_duration (w_trip t) /\ 0 <= origin_duration (w_trip t)) ->
  (forall v, v ∈ vs -> v_origin_earliest v <= 0 /\ below day (v_destination_latest v)) ->
  optimal vs ts odd a -> modest vs ts a ->
  exists rs tours h', milp_optimize vs ts a h = (Ok rs, h') /\ drives h' vs rs tours /\ plan vs ts tours /\ within_day vs tours /\
    forall tours', plan vs ts tours' -> within_day vs tours' -> fleet_way toll tours <= fleet_way toll tours'.
Proof.
  intros vs ts odd a h Nt Hdep Hsp Hap Fin Hdir Hroom Hdur Hv [Hs Ho] Hm.
  destruct (solves_fleet vs ts odd a Hs) as (v0 & vs' & Evs). assert (Mv : moving ts) by (subst vs; by eapply apart_moving).
  pose proof (c53_modest _ _ _ _ Fin Mv Hsp Hs Hm) as Ht.
  destruct (c55_routes vs ts odd a h Nt Hdep Hsp Hap Fin) as (rs & tours & h' & E & _ & D & P & Wd & Fo); [|done|done|done|].
  { intros t Hin. destruct (Hdur t Hin). lia. }
  exists rs, tours, h'. do 4 (split; [done|]). intros tours' P' Wd'.
  destruct (c52_complete vs ts odd tours') as (a' & Hs' & Fo'); [by subst vs|done|done|done|done|done|done| |done|done|].
  { intros t Hin. destruct (Hdur t Hin). lia. }
  specialize (Ho a' Hs'). rewrite (c53_total vs ts odd a tours) in Ho by done.
  rewrite (c53_total vs ts odd a' tours') in Ho by done. by rewrite <- Zle_Qle in Ho.
Qed.

(** ** Places used twice *)
Lemma served_planned `{W : World} h r v B t : route_serves h r v B -> t ∈ B -> exists p c, h_pts h !! p = Some c /\ pt_trip c = t.
Proof.
  intros (ids & xs & [O _] & <-) Ht. unfold boards in Ht. apply elem_of_list_In, in_flat_map in Ht as (x & Hx & Ht). apply elem_of_list_In in Hx, Ht.
  apply elem_of_list_lookup_1 in Hx as (i & Hx). pose proof (wf_linked _ _ _ _ _ O) as L. pose proof (lk_length _ _ _ _ _ L) as Hl.
  pose proof (lookup_lt_Some _ _ _ Hx) as Hi. destruct (lookup_lt_is_Some_2 ids i ltac:(lia)) as [s Hs].
  destruct (lookup_lt_is_Some_2 (timetable v xs) i) as [T HT]; [by unfold timetable; rewrite schedule_length|].
  destruct (lk_stops _ _ _ _ _ L i s x T Hs Hx HT) as (c & _ & Sh). pose proof (sh_board _ _ _ _ _ _ Sh) as P.
  apply elem_of_list_lookup_1 in Ht as (j & Hj). destruct (Forall2_lookup_r _ _ _ _ _ P Hj) as (p & _ & pc & Hp & E). by exists p, pc.
Qed.

From Verif Require Import WitnessDarp.
(** both trips start at (1,0); the second is lost *)
Definition shared_world : World := world_of 1 Manhattan
  [Vehicle "a" (Service [0; 0] 0 (Lim 1440000) 0) None (Lim 3000) (Lim 60000)]
  [Trip "1" (Service [1000; 0] 0 (Lim 9000) 100) (Service [2000; 0] 0 (Lim 90000) 100) 1000 0 (Lim 4000);
   Trip "2" (Service [1000; 0] 0 (Lim 8000) 100) (Service [3000; 0] 0 (Lim 70000) 100) 1000 0 (Lim 9000)].
Definition shared_solution : assignment :=
  Assignment (arcs [(0, 1); (1, 3); (3, 2); (2, 4); (4, 5)]%nat) (listed [0; 1000; 3200; 2100; 5300; 9000]) (listed [0; 1000; 1000; 0; 0; 0]).
Lemma c55_shared : exists (W : World) vs ts odd a rs h', NoDup vs /\ NoDup ts /\ one_depot vs /\ one_space vs ts /\ finite vs ts /\ moving ts /\ direct vs ts /\ roomy vs ts /\
  (forall t, t ∈ ts -> origin_duration (w_trip t) = destination_duration (w_trip t) /\ 0 <= origin_duration (w_trip t)) /\
  (forall v, v ∈ vs -> v_origin_earliest v <= 0 /\ below day (v_destination_latest v)) /\
  solves vs ts odd a /\ modest vs ts a /\ (exists tours, plan vs ts tours /\ within_day vs tours) /\
  milp_optimize vs ts a empty_heap = (Ok rs, h') /\ ~ serves_all h' rs ts.
Proof.
  exists shared_world, [0%nat], [0; 1]%nat, (fun _ _ _ => false), shared_solution.
  destruct (milp_optimize (W := shared_world) [0%nat] [0; 1]%nat shared_solution empty_heap) as [o h'] eqn:E. vm_compute in E. injection E as <- <-.
  pose (W := shared_world). eexists _, _. split; [apply NoDup_singleton|]. split; [by apply NoDup_cons; split; [rewrite elem_of_list_singleton|apply NoDup_singleton]|].
  assert (Hdep : one_depot [0%nat]). { intros v v' Hv Hv'. apply elem_of_list_singleton in Hv as ->, Hv' as ->. done. }
  assert (Hsp : one_space [0%nat] [0; 1]%nat) by (apply (one_space_check _ _ 2); by vm_compute).
  assert (Fin : finite [0%nat] [0; 1]%nat). { split; [by refine (elem_lone _ _)|by refine (elem_pair _ _ _)]. }
  assert (Mv : moving [0; 1]%nat) by (by refine (elem_pair _ _ _)).
  assert (Hdur : forall t, t ∈ [0; 1]%nat -> origin_duration (w_trip t) = destination_duration (w_trip t) /\ 0 <= origin_duration (w_trip t)) by (by refine (elem_pair _ _ _)).
  assert (Hv : forall v, v ∈ [0%nat] -> v_origin_earliest v <= 0 /\ below day (v_destination_latest v)) by (refine (elem_lone _ _); by vm_compute).
  assert (Hs : solves [0%nat] [0; 1]%nat (fun _ _ _ => false) shared_solution) by (apply solves_check; by vm_compute).
  assert (Hm : modest [0%nat] [0; 1]%nat shared_solution) by (unfold modest; by vm_compute).
  do 4 (split; [done|]). split; [apply direct_check; by vm_compute|].
  split; [intros v t Hin Ht; revert v Hin; apply elem_lone; revert t Ht; apply elem_pair; vm_compute; by split|].
  do 4 (split; [done|]). split; [|split; [done|]].
  { destruct (c51_sound [0%nat] [0; 1]%nat (fun _ _ _ => false) shared_solution) as (tours & P & D & _); [|done|done|done| |done|done| |by exists tours].
    - by apply NoDup_cons; split; [rewrite elem_of_list_singleton|apply NoDup_singleton].
    - intros t Ht. destruct (Hdur t Ht). lia.
    - by eapply c53_modest. }
  intros S. destruct (S 1%nat ltac:(by right; left)) as (r & v & B & _ & R & Hin). destruct (served_planned _ _ _ _ _ R Hin) as (p & c & Hp & Ec).
  cbn in Hp. destruct p; [|done]. injection Hp as <-. done.
Qed.
(** the trip ends where the vehicle starts; it is planned to end before it starts *)
Definition home_world : World := world_of 1 Manhattan
  [Vehicle "a" (Service [0; 0] 0 (Lim 1440000) 0) (Some (Service [3000; 0] 0 (Lim 1440000) 0)) (Lim 3000) (Lim 60000)]
  [Trip "1" (Service [1000; 0] 0 (Lim 9000) 100) (Service [0; 0] 0 (Lim 90000) 100) 1000 0 (Lim 4000)].
Definition home_solution : assignment := Assignment (arcs [(0, 1); (1, 2); (2, 3)]%nat) (listed [0; 1000; 2100; 9000]) (listed [0; 1000; 0; 0]).
Lemma c55_home : exists (W : World) vs ts odd a rs h', NoDup vs /\ NoDup ts /\ one_depot vs /\ one_space vs ts /\ finite vs ts /\ moving ts /\ direct vs ts /\ roomy vs ts /\
  (forall t, t ∈ ts -> origin_duration (w_trip t) = destination_duration (w_trip t) /\ 0 <= origin_duration (w_trip t)) /\
  (forall v, v ∈ vs -> v_origin_earliest v <= 0 /\ below day (v_destination_latest v)) /\
  NoDup (map (fun t => origin_position (w_trip t)) ts ++ map (fun t => destination_position (w_trip t)) ts) /\
  solves vs ts odd a /\ modest vs ts a /\ (exists tours, plan vs ts tours /\ within_day vs tours) /\
  milp_optimize vs ts a empty_heap = (Ok rs, h') /\ forall r v B, r ∈ rs -> ~ route_serves h' r v B.
Proof.
  exists home_world, [0%nat], [0%nat], (fun _ _ _ => false), home_solution.
  destruct (milp_optimize (W := home_world) [0%nat] [0%nat] home_solution empty_heap) as [o h'] eqn:E. vm_compute in E. injection E as <- <-.
  pose (W := home_world). eexists _, _. split; [apply NoDup_singleton|]. split; [apply NoDup_singleton|].
  assert (Hdep : one_depot [0%nat]). { intros v v' Hv Hv'. apply elem_of_list_singleton in Hv as ->, Hv' as ->. done. }
  assert (Hsp : one_space [0%nat] [0%nat]) by (apply (one_space_check _ _ 2); by vm_compute).
  assert (Fin : finite [0%nat] [0%nat]). { split; by refine (elem_lone _ _). }
  assert (Mv : moving [0%nat]) by (by refine (elem_lone _ _)).
  assert (Hdur : forall t, t ∈ [0%nat] -> origin_duration (w_trip t) = destination_duration (w_trip t) /\ 0 <= origin_duration (w_trip t)) by (by refine (elem_lone _ _)).
  assert (Hv : forall v, v ∈ [0%nat] -> v_origin_earliest v <= 0 /\ below day (v_destination_latest v)) by (refine (elem_lone _ _); by vm_compute).
  assert (Hs : solves [0%nat] [0%nat] (fun _ _ _ => false) home_solution) by (apply solves_check; by vm_compute).
  assert (Hm : modest [0%nat] [0%nat] home_solution) by (unfold modest; by vm_compute).
  do 4 (split; [done|]). split; [apply direct_check; by vm_compute|].
  split; [intros v t Hin Ht; revert v Hin; apply elem_lone; revert t Ht; apply elem_lone; vm_compute; by split|].
  do 2 (split; [done|]). split; [apply NoDup_cons; split; [intros X; vm_compute in X; by apply elem_of_list_singleton in X|apply NoDup_singleton]|].
  do 2 (split; [done|]). split; [|split; [done|]].
  { destruct (c51_sound [0%nat] [0%nat] (fun _ _ _ => false) home_solution) as (tours & P & D & _); [|done|done|done| |done|done| |by exists tours].
    - apply NoDup_singleton.
    - intros t Ht. destruct (Hdur t Ht). lia.
    - by eapply c53_modest. }
  intros r v B Hr (ids & xs & [O T] & _). apply elem_of_list_singleton in Hr as ->.
  pose proof (wf_linked _ _ _ _ _ O) as L. destruct (lk_route _ _ _ _ _ L) as (c & Hc & <- & <-). injection Hc as <-.
  destruct (wf_deliveries _ _ _ _ _ O 0%nat 0%nat _ 0%nat eq_refl eq_refl) as (i & ? & ? & Hi & _); [by left|lia].
Qed.
