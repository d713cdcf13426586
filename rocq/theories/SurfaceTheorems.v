(** Proofs about surfaces (C34, C35). *)
From Verif Require Import SpecSurface.

(** ** The metric against its specification *)
Lemma over_common_zip (f : Z -> Z -> Z) a b :
  over_common f a b = zsum (zip_with f a b).
Proof.
  unfold over_common. revert b. induction a as [|x a IH]; intros [|y b]; try reflexivity.
  cbn [length Nat.min seq map foldr zip_with zsum nth]. unfold zsum in *. cbn [foldr]. f_equal.
  rewrite <- IH, <- seq_shift, map_map. reflexivity.
Qed.

Lemma zsum_nonneg l : Forall (fun x => 0 <= x) l -> 0 <= zsum l.
Proof. unfold zsum. induction 1; cbn [foldr]; lia. Qed.

Lemma squares_nonneg a b : 0 <= zsum (zip_with (fun x y => (x - y) * (x - y)) a b).
Proof.
  revert b. induction a as [|x a IH]; intros [|y b]; try (unfold zsum; cbn; lia).
  unfold zsum in *. cbn [zip_with foldr]. specialize (IH b). pose proof (Z.square_nonneg (x - y)). lia.
Qed.

Lemma metric_is_distance m a b : is_distance m a b (metric_distance m a b).
Proof.
  destruct m; cbn [is_distance metric_distance].
  - rewrite over_common_zip. unfold euclidean.
    assert (E : zip_with (fun x y => (x - y) ^ 2) a b = zip_with (fun x y => (x - y) * (x - y)) a b).
    { revert b. induction a as [|x a IH]; intros [|y b]; try reflexivity.
      cbn [zip_with]. rewrite IH. f_equal. lia. }
    rewrite E. pose proof (squares_nonneg a b) as H.
    pose proof (Z.sqrt_spec _ H) as H2. pose proof (Z.sqrt_nonneg (zsum (zip_with (fun x y => (x - y) * (x - y)) a b))).
    unfold Z.succ in H2. lia.
  - by rewrite over_common_zip.
Qed.

Lemma is_distance_unique m a b d d' : is_distance m a b d -> is_distance m a b d' -> d = d'.
Proof. destruct m; cbn; intros; [nia|lia]. Qed.

(** ** Dictionaries *)
Lemma cd_get_set {V} k k' (v : V) d :
  cd_get k (cd_set k' v d) = if decide (k = k') then Some v else cd_get k d.
Proof.
  induction d as [|[k1 v1] d IH]; cbn [cd_set cd_get].
  - reflexivity.
  - destruct (decide (k' = k1)) as [->|Hk]; cbn [cd_get].
    + by destruct (decide (k = k1)).
    + rewrite IH. destruct (decide (k = k1)) as [->|]; [|done].
      by rewrite decide_False by congruence.
Qed.

(** ** The cache holds only metric values *)
Definition cache_ok (s : surface) : Prop :=
  forall a row b d, cd_get a (sf_cache s) = Some row -> cd_get b row = Some d ->
    d = metric_distance (sf_metric s) a b.
Definition store_ok (s : surface) : Prop :=
  NoDup (map po_coords (sf_positions s)) /\ Forall (fun p => (po_id p < sf_next s)%nat) (sf_positions s).

Lemma distance_runs a b s : cache_ok s ->
  exists s', surface_distance a b s = (Ok (metric_distance (sf_metric s) (po_coords a) (po_coords b)), s') /\
    cache_ok s' /\ sf_metric s' = sf_metric s /\ sf_positions s' = sf_positions s /\ sf_next s' = sf_next s.
Proof.
  intros H. unfold surface_distance, cached_row, bind.
  destruct (cd_get (po_coords a) (sf_cache s)) as [row|] eqn:Ea.
  - destruct (cd_get (po_coords b) row) as [d|] eqn:Eb.
    + exists s. split; [|done]. by rewrite (H _ _ _ _ Ea Eb).
    + cbn. rewrite Ea. eexists. split; [reflexivity|]. split; [|done].
      intros a' row' b' d'. cbn. rewrite cd_get_set. case_decide as Ha; [|by apply H].
      intros [= <-]. rewrite cd_get_set. case_decide as Hb; [by intros [= <-]; subst|].
      subst. by apply H.
  - cbn. rewrite cd_get_set, decide_True by done.
    eexists. split; [reflexivity|]. split; [|done].
    intros a' row' b' d'. cbn. rewrite !cd_get_set. case_decide as Ha; [|by apply H].
    intros [= <-]. cbn. case_decide as Hb; [by intros [= <-]; subst|done].
Qed.

Lemma create_runs c s :
  exists s' p, get_or_create_position c s = (Ok p, s') /\ po_id p = sf_next s /\ po_coords p = c /\
    sf_metric s' = sf_metric s /\ sf_cache s' = sf_cache s /\ sf_next s' = S (sf_next s) /\
    sf_positions s' = if has_position c s then sf_positions s else sf_positions s ++ [p].
Proof.
  unfold get_or_create_position, build_position, bind, get_state.
  unfold has_position. cbn.
  destruct (existsb _ (sf_positions s)); cbn; eexists _, _; (split; [reflexivity|]); done.
Qed.

Lemma has_position_iff c s : has_position c s = true <-> c ∈ map po_coords (sf_positions s).
Proof.
  unfold has_position. rewrite existsb_exists, elem_of_list_In, in_map_iff. split.
  - intros (p & Hp & E%bool_decide_eq_true). eauto.
  - intros (p & E & Hp). exists p. by rewrite bool_decide_eq_true.
Qed.

(** what one request does *)
Lemma perform_runs q s : cache_ok s ->
  exists r s', perform q s = (Ok r, s') /\ right_reply (sf_metric s) q r /\
    cache_ok s' /\ sf_metric s' = sf_metric s /\
    (NoDup (map po_coords (sf_positions s)) -> NoDup (map po_coords (sf_positions s'))) /\
    (forall c, c ∈ map po_coords (sf_positions s') <-> c ∈ map po_coords (sf_positions s) \/ c ∈ asked [q]).
Proof.
  intros H. destruct q as [c|a b|a b now]; cbn [perform]; unfold bind.
  - destruct (create_runs c s) as (s' & p & -> & _ & Hc & Hm & Hca & _ & Hp).
    eexists _, _. split; [reflexivity|]. split; [exact Hc|]. split.
    { unfold cache_ok. by rewrite Hca, Hm. }
    split; [done|]. rewrite Hp.
    destruct (has_position c s) eqn:Eh.
    + split; [done|]. intros c'. cbn. rewrite elem_of_list_singleton.
      apply has_position_iff in Eh. split; [by left|]. by intros [?| ->].
    + split.
      * rewrite map_app. intros Hnd. apply NoDup_app. split; [done|]. split.
        -- intros c' Hc' Hi. cbn in Hi. apply elem_of_list_singleton in Hi as ->. rewrite Hc in Hc'.
           apply has_position_iff in Hc'. congruence.
        -- apply NoDup_singleton.
      * intros c'. rewrite map_app, elem_of_app. cbn. by rewrite Hc.
  - unfold distance_to. destruct (distance_runs a b s H) as (s' & -> & H1 & Hm & Hp & _).
    eexists _, _. split; [reflexivity|]. split; [apply metric_is_distance|].
    split; [done|]. split; [done|]. rewrite Hp. split; [done|]. intros c. cbn. rewrite elem_of_nil. tauto.
  - unfold time_to, surface_time. destruct (distance_runs a b s H) as (s' & -> & H1 & Hm & Hp & _).
    eexists _, _. split; [reflexivity|]. split; [apply metric_is_distance|].
    split; [done|]. split; [done|]. rewrite Hp. split; [done|]. intros c. cbn. rewrite elem_of_nil. tauto.
Qed.

Lemma perform_all_runs qs : forall s, cache_ok s ->
  exists rs s', perform_all qs s = (Ok rs, s') /\ Forall2 (right_reply (sf_metric s)) qs rs /\
    cache_ok s' /\ sf_metric s' = sf_metric s /\
    (NoDup (map po_coords (sf_positions s)) -> NoDup (map po_coords (sf_positions s'))) /\
    (forall c, c ∈ map po_coords (sf_positions s') <-> c ∈ map po_coords (sf_positions s) \/ c ∈ asked qs).
Proof.
  induction qs as [|q qs IH]; intros s H.
  - exists [], s. do 5 (split; [done||constructor|]). intros c. cbn. rewrite elem_of_nil. tauto.
  - destruct (perform_runs q s H) as (r & s1 & E1 & Hr & H1 & Hm1 & Hn1 & Hc1).
    destruct (IH s1 H1) as (rs & s2 & E2 & Hrs & H2 & Hm2 & Hn2 & Hc2).
    exists (r :: rs), s2. unfold perform_all in *. cbn [mapM]. unfold bind. rewrite E1, E2.
    split; [done|]. split; [constructor; [done|]; by rewrite <- Hm1|]. split; [done|].
    split; [congruence|]. split; [auto|]. intros c. rewrite Hc2, Hc1.
    change (q :: qs) with ([q] ++ qs). unfold asked. rewrite flat_map_app, elem_of_app. tauto.
Qed.

Lemma cache_ok_new m : cache_ok (new_surface m).
Proof. intros a row b d. done. Qed.

Lemma surface_after_ok m qs : cache_ok (surface_after m qs) /\ sf_metric (surface_after m qs) = m /\
  NoDup (position_coordinates (surface_after m qs)) /\
  forall c, c ∈ position_coordinates (surface_after m qs) <-> c ∈ asked qs.
Proof.
  unfold surface_after, position_coordinates.
  destruct (perform_all_runs qs (new_surface m) (cache_ok_new m)) as (rs & s & -> & _ & H & Hm & Hn & Hc).
  split; [done|]. split; [done|]. split; [apply Hn; constructor|].
  intros c. rewrite Hc. cbn. rewrite elem_of_nil. tauto.
Qed.

(** ** C34 *)
Lemma c34_replies : forall m qs, exists rs s,
  perform_all qs (new_surface m) = (Ok rs, s) /\ Forall2 (right_reply m) qs rs.
Proof.
  intros m qs. destruct (perform_all_runs qs (new_surface m) (cache_ok_new m)) as (rs & s & E & H & _).
  by exists rs, s.
Qed.

Lemma after_distance m qs a b :
  (distance_to a b (surface_after m qs)).1 = Ok (metric_distance m (po_coords a) (po_coords b)).
Proof.
  destruct (surface_after_ok m qs) as (H & Hm & _).
  unfold distance_to. destruct (distance_runs a b _ H) as (s' & -> & _). cbn. by rewrite Hm.
Qed.

Lemma c34_metric : forall m qs a b, exists d,
  (distance_to a b (surface_after m qs)).1 = Ok d /\
  is_distance m (po_coords a) (po_coords b) d /\
  forall qs' now, (time_to a b now (surface_after m qs')).1 = Ok d.
Proof.
  intros m qs a b. eexists. split; [apply after_distance|]. split; [apply metric_is_distance|].
  intros. apply after_distance.
Qed.

Lemma c34_world `{W : World} : forall qs a b,
  (distance_to a b (surface_after w_metric qs)).1 = Ok (dist (po_coords a) (po_coords b)).
Proof. intros. apply after_distance. Qed.

Lemma sym_sum (f : Z -> Z -> Z) a b : (forall x y, f x y = f y x) -> zip_with f a b = zip_with f b a.
Proof.
  intros Hf. revert b. induction a as [|x a IH]; intros [|y b]; try reflexivity.
  cbn. by rewrite IH, Hf.
Qed.
Lemma metric_sym m a b : metric_distance m a b = metric_distance m b a.
Proof.
  destruct m; cbn; unfold euclidean, manhattan; [f_equal|]; f_equal; apply sym_sum; intros; lia.
Qed.
Lemma manhattan_nonneg a b : 0 <= manhattan a b.
Proof.
  unfold manhattan, zsum. revert b. induction a as [|x a IH]; intros [|y b]; cbn; try lia.
  specialize (IH b). lia.
Qed.
Lemma metric_nonneg m a b : 0 <= metric_distance m a b.
Proof. destruct m; cbn; [apply Z.sqrt_nonneg|apply manhattan_nonneg]. Qed.
Lemma metric_diag m a : metric_distance m a a = 0.
Proof.
  assert (H : forall f : Z -> Z -> Z, (forall x, f x x = 0) -> zsum (zip_with f a a) = 0).
  { intros f Hf. unfold zsum. induction a as [|x a' IH]; cbn; [done|]. rewrite IH, Hf. done. }
  destruct m; cbn; unfold euclidean, manhattan; rewrite H; try done; intros; lia.
Qed.

Lemma c34_symmetric : forall m qs qs' a b,
  (distance_to a b (surface_after m qs)).1 = (distance_to b a (surface_after m qs')).1.
Proof. intros. by rewrite !after_distance, metric_sym. Qed.

Lemma c34_positive : forall m qs a b d,
  (distance_to a b (surface_after m qs)).1 = Ok d -> 0 <= d.
Proof. intros m qs a b d. rewrite after_distance. intros [= <-]. apply metric_nonneg. Qed.

Lemma c34_diagonal : forall m qs a b, po_coords a = po_coords b ->
  (distance_to a b (surface_after m qs)).1 = Ok 0.
Proof. intros m qs a b E. by rewrite after_distance, E, metric_diag. Qed.

Lemma c34_separates : forall qs a b, length (po_coords a) = length (po_coords b) ->
  (distance_to a b (surface_after Manhattan qs)).1 = Ok 0 -> po_coords a = po_coords b.
Proof.
  intros qs a b. rewrite after_distance. cbn. generalize (po_coords a), (po_coords b). intros x y Hl [= H].
  revert y Hl H. induction x as [|u x IH]; intros [|v y]; cbn; try done.
  intros [= Hl] H.
  fold (zsum (zip_with (fun x y => Z.abs (x - y)) x y)) in H. fold (manhattan x y) in H.
  pose proof (manhattan_nonneg x y). assert (u = v) by lia. subst. f_equal. apply IH; [done|lia].
Qed.

Lemma manhattan_triangle a b c : length a = length b -> length b = length c ->
  manhattan a c <= manhattan a b + manhattan b c.
Proof.
  revert b c. induction a as [|x a IH]; intros [|y b] [|z c]; cbn; try done.
  intros [= H1] [= H2]. specialize (IH b c H1 H2). unfold manhattan, zsum in *. cbn. lia.
Qed.

Lemma c34_triangle : forall qs qs' qs'' a b c x y z,
  length (po_coords a) = length (po_coords b) -> length (po_coords b) = length (po_coords c) ->
  (distance_to a b (surface_after Manhattan qs)).1 = Ok x ->
  (distance_to b c (surface_after Manhattan qs')).1 = Ok y ->
  (distance_to a c (surface_after Manhattan qs'')).1 = Ok z ->
  z <= x + y.
Proof.
  intros qs qs' qs'' a b c x y z H1 H2. rewrite !after_distance. intros [= <-] [= <-] [= <-].
  by apply manhattan_triangle.
Qed.

(** the Euclidean distance, rounded down, may exceed the detour by at most
    one tick *)
Fixpoint sq (l : list Z) : Z := match l with [] => 0 | x :: l => x * x + sq l end.
Lemma sq_nonneg l : 0 <= sq l.
Proof. induction l as [|x l IH]; cbn; [lia|]. pose proof (Z.square_nonneg x). lia. Qed.
Definition dot (l m : list Z) : Z := zsum (zip_with Z.mul l m).
Lemma cauchy l : forall m, dot l m * dot l m <= sq l * sq m.
Proof.
  induction l as [|x l IH]; intros [|y m]; unfold dot, zsum in *; cbn; try lia.
  specialize (IH m). set (P := foldr Z.add 0 (zip_with Z.mul l m)) in *.
  pose proof (sq_nonneg l) as HA. pose proof (sq_nonneg m) as HB.
  set (A := sq l) in *. set (B := sq m) in *. clearbody P A B. clear l m.
  assert (H : 2 * P * x * y <= A * (y * y) + B * (x * x)).
  { assert (0 <= A * (y * y) + B * (x * x)) by nia.
    assert ((2 * P * x * y) * (2 * P * x * y) <= (A * (y * y) + B * (x * x)) * (A * (y * y) + B * (x * x))).
    { assert (P * P * ((x * x) * (y * y)) <= A * B * ((x * x) * (y * y))).
      { apply Z.mul_le_mono_nonneg_r; nia. }
      pose proof (Z.square_nonneg (A * (y * y) - B * (x * x))). nia. }
    destruct (Z.le_gt_cases (2 * P * x * y) 0); [lia|].
    apply Z.square_le_simpl_nonneg; lia. }
  nia.
Qed.
Lemma euclid_sq a b : euclidean a b = Z.sqrt (sq (zip_with Z.sub a b)).
Proof.
  unfold euclidean, zsum. f_equal. revert b. induction a as [|x a IH]; intros [|y b]; try reflexivity.
  cbn. by rewrite IH.
Qed.
Lemma sq_add l : forall m, length l = length m ->
  sq (zip_with Z.add l m) = sq l + 2 * dot l m + sq m.
Proof.
  induction l as [|x l IH]; intros [|y m]; cbn; try done. intros [= H].
  rewrite IH by done. unfold dot, zsum. cbn. lia.
Qed.
Lemma euclid_triangle a b c : length a = length b -> length b = length c ->
  euclidean a c <= euclidean a b + euclidean b c + 1.
Proof.
  intros H1 H2. rewrite !euclid_sq.
  set (l := zip_with Z.sub a b). set (m := zip_with Z.sub b c).
  assert (Hl : length l = length m) by (unfold l, m; rewrite !zip_with_length; lia).
  assert (E : zip_with Z.sub a c = zip_with Z.add l m).
  { unfold l, m. clear -H1 H2. revert b c H1 H2. induction a as [|x a IH]; intros [|y b] [|z c]; cbn; try done.
    intros [= H1] [= H2]. rewrite <- IH by done. f_equal. lia. }
  pose proof (sq_nonneg (zip_with Z.add l m)) as HP. rewrite sq_add in HP by done.
  rewrite E, sq_add by done. pose proof (cauchy l m) as HC.
  pose proof (sq_nonneg l) as HA. pose proof (sq_nonneg m) as HB.
  pose proof (Z.sqrt_spec _ HA) as SA. pose proof (Z.sqrt_spec _ HB) as SB.
  pose proof (Z.sqrt_nonneg (sq l)). pose proof (Z.sqrt_nonneg (sq m)).
  set (A := sq l) in *. set (B := sq m) in *. set (D := dot l m) in *.
  set (u := Z.sqrt A) in *. set (v := Z.sqrt B) in *. clearbody A B D u v.
  unfold Z.succ in *.
  assert (HD : D < (u + 1) * (v + 1)).
  { destruct (Z.le_gt_cases D 0); [nia|].
    apply Z.square_lt_simpl_nonneg; [nia|].
    assert (A * B < ((u + 1) * (u + 1)) * ((v + 1) * (v + 1))) by nia. nia. }
  assert (A + 2 * D + B < (u + v + 2) * (u + v + 2)) by nia.
  assert (Hs : Z.sqrt (A + 2 * D + B) < u + v + 2).
  { apply Z.sqrt_lt_square; lia. }
  lia.
Qed.
Lemma c34_straight : forall qs qs' qs'' a b c x y z,
  length (po_coords a) = length (po_coords b) -> length (po_coords b) = length (po_coords c) ->
  (distance_to a b (surface_after Euclidean qs)).1 = Ok x ->
  (distance_to b c (surface_after Euclidean qs')).1 = Ok y ->
  (distance_to a c (surface_after Euclidean qs'')).1 = Ok z ->
  z <= x + y + 1.
Proof.
  intros qs qs' qs'' a b c x y z H1 H2. rewrite !after_distance. intros [= <-] [= <-] [= <-].
  by apply euclid_triangle.
Qed.

(** ** C35 *)
Lemma c35_unique : forall m qs,
  NoDup (position_coordinates (surface_after m qs)) /\
  forall c, c ∈ position_coordinates (surface_after m qs) <-> c ∈ asked qs.
Proof. intros m qs. destruct (surface_after_ok m qs) as (_ & _ & H). exact H. Qed.

Lemma c35_returns : forall m qs c, exists p,
  (get_or_create_position c (surface_after m qs)).1 = Ok p /\ po_coords p = c.
Proof.
  intros m qs c. destruct (create_runs c (surface_after m qs)) as (s' & p & -> & _ & Hc & _). by exists p.
Qed.

(** identities: a call never returns an object built before *)
Lemma c35_fresh : forall m qs c p s,
  get_or_create_position c (surface_after m qs) = (Ok p, s) ->
  forall q, q ∈ sf_positions (surface_after m qs) -> po_id q <> po_id p.
Proof.
  intros m qs c p s E q Hq.
  destruct (create_runs c (surface_after m qs)) as (s' & p' & E' & Hid & _).
  rewrite E in E'. injection E' as <- <-. rewrite Hid.
  assert (H : forall qs s, Forall (fun p => (po_id p < sf_next s)%nat) (sf_positions s) -> cache_ok s ->
    Forall (fun p => (po_id p < sf_next (perform_all qs s).2)%nat) (sf_positions (perform_all qs s).2)).
  { clear. unfold perform_all. induction qs as [|q qs IH]; intros s H Hk; [done|]. cbn [mapM]. unfold bind.
    assert (H1 : exists r s1, perform q s = (Ok r, s1) /\ Forall (fun p => (po_id p < sf_next s1)%nat) (sf_positions s1) /\ cache_ok s1).
    { destruct q as [c|a b|a b now]; cbn [perform]; unfold bind.
      - destruct (create_runs c s) as (s' & p & -> & Hi & Hc & Hm & Hca & Hn & Hp).
        eexists _, _. split; [reflexivity|]. rewrite Hp, Hn. split; [|unfold cache_ok; by rewrite Hca, Hm].
        destruct (has_position c s).
        + eapply Forall_impl; [exact H|]. intros ? ?. cbn in *. lia.
        + apply Forall_app. split.
          * eapply Forall_impl; [exact H|]. intros ? ?. cbn in *. lia.
          * constructor; [lia|constructor].
      - unfold distance_to. destruct (distance_runs a b s Hk) as (s' & -> & H1 & Hm & Hp & Hn).
        eexists _, _. split; [reflexivity|]. by rewrite Hp, Hn.
      - unfold time_to, surface_time. destruct (distance_runs a b s Hk) as (s' & -> & H1 & Hm & Hp & Hn).
        eexists _, _. split; [reflexivity|]. by rewrite Hp, Hn. }
    destruct H1 as (r & s1 & -> & H1 & Hk1). specialize (IH s1 H1 Hk1).
    by destruct (mapM perform qs s1) as [[?|?] ?]. }
  specialize (H qs (new_surface m) ltac:(constructor) (cache_ok_new m)).
  fold (surface_after m qs) in H. rewrite Forall_forall in H. specialize (H q Hq). lia.
Qed.
