(** What the iteration order of Python's sets decides (C86). *)
From Verif Require Import TimeTheorems ScoreProofs ValueTheorems MetaTheorems NameTheorems WarmTheorems SpecOrder WitnessOrder.

#[local] Existing Instance any_shape.
Section order.
  Context {W : World}.
  Lemma people_schedule l xs ys : Forall2 same_people xs ys -> schedule l xs = schedule l ys.
  Proof.
    intros S. revert l. induction S as [|x y xs ys (Sp & Sb & Sa & Sr) S IH]; intros l; [done|]. cbn.
    assert (advance l x = advance l y) as ->.
    { unfold advance, visit_earliest, visit_duration. destruct l as [[now here] load]. rewrite Sr.
      rewrite Sp, (weight_perm _ _ Sb), (weight_perm _ _ Sa).
      rewrite (max_or_perm 0 (map _ (vi_board x) ++ _) (map _ (vi_board y) ++ map _ (vi_alight y))) by (by rewrite Sb, Sa).
      f_equal. f_equal. apply max_or_perm. by rewrite Sb, Sa. }
    f_equal. unfold leave. rewrite Sp. by apply IH.
  Qed.
  Lemma people_timetable v xs ys : Forall2 same_people xs ys -> timetable v xs = timetable v ys.
  Proof. apply people_schedule. Qed.
  Lemma people_sym x y : same_people x y -> same_people y x.
  Proof. intros (A & B & C & D). by split; [|split; [|split]]. Qed.
  Lemma people_sym_all xs ys : Forall2 same_people xs ys -> Forall2 same_people ys xs.
  Proof. intros F. apply Forall2_flip. eapply Forall2_impl; [exact F|]. apply people_sym. Qed.
  Lemma people_on_time v x y T : same_people x y -> on_time v x T -> on_time v y T.
  Proof. intros (_ & B & C & _) (H1 & H2 & H3). split; [|split; [|done]]; intros t Ht; [apply H1; by rewrite B|apply H2; by rewrite C]. Qed.
  Lemma people_admissible v xs ys : Forall2 same_people xs ys -> admissible v xs -> admissible v ys.
  Proof.
    intros F [A1 A2 A3 A4 A5]. pose proof (people_timetable v _ _ F) as E. rewrite E in *. split; try done.
    - destruct A1 as (x & Hx & Hp). destruct F as [|a b ? ? (S & _)]; [done|]. injection Hx as <-. exists b. split; [done|]. by rewrite <- S.
    - destruct A2 as (x & Hx & Hp). rewrite last_lookup in Hx. destruct (Forall2_lookup_l _ _ _ _ _ F Hx) as (y & Hy & S & _).
      exists y. split; [by rewrite last_lookup, <- (Forall2_length _ _ _ F)|]. by rewrite <- S.
    - intros t i j y z Ti Tj (y1 & z1 & Hy1 & Hz1 & By & Az) Hy Hz HTi HTj.
      rewrite Hy in Hy1. injection Hy1 as <-. rewrite Hz in Hz1. injection Hz1 as <-.
      destruct (Forall2_lookup_r _ _ _ _ _ F Hy) as (x & Hx & Sx). destruct (Forall2_lookup_r _ _ _ _ _ F Hz) as (w & Hw & Sw).
      destruct (A5 t i j x w Ti Tj) as (O1 & O2 & O3); [|done..|].
      { exists x, w. split; [done|]. split; [done|]. destruct Sx as (_ & S1 & _), Sw as (_ & _ & S2 & _). by rewrite S1, S2. }
      split; [by eapply people_on_time|]. split; [by eapply people_on_time|done].
  Qed.
  Lemma people_boards xs ys : Forall2 same_people xs ys -> boards xs ≡ₚ boards ys.
  Proof. induction 1 as [|x y xs ys (_ & B & _) F IH]; [done|]. cbn. by rewrite B, IH. Qed.
  Lemma people_driven xs ys : Forall2 same_people xs ys -> forall here, driven here xs = driven here ys.
  Proof. induction 1 as [|x y xs ys (P & _) F IH]; intros here; [done|]. cbn. by rewrite P, IH. Qed.
  Lemma people_moment b f v xs ys : Forall2 same_people xs ys -> (forall x y, same_people x y -> b x = b y) -> moment b f v xs = moment b f v ys.
  Proof.
    intros F Hb. unfold moment. rewrite (people_timetable v _ _ F). generalize (timetable v ys) as Ts.
    induction F as [|x y xs ys S F IH]; intros [|T Ts]; try done. cbn. rewrite (Hb _ _ S). by destruct (b y).
  Qed.
  Lemma people_picked v xs ys t : Forall2 same_people xs ys -> picked_up_at v xs t = picked_up_at v ys t.
  Proof. intros F. apply people_moment; [done|]. intros x y (_ & B & _). apply bool_decide_ext. by rewrite B. Qed.
  Lemma people_dropped v xs ys t : Forall2 same_people xs ys -> dropped_off_at v xs t = dropped_off_at v ys t.
  Proof. intros F. apply people_moment; [done|]. intros x y (_ & _ & B & _). apply bool_decide_ext. by rewrite B. Qed.
  Lemma sum_perm l k : l ≡ₚ k -> sum_of l = sum_of k.
  Proof. unfold sum_of. intros H. induction H; cbn in *; lia. Qed.
  Lemma sum_same f g l k : l ≡ₚ k -> (forall t : nat, f t = g t) -> sum_of (map f l) = sum_of (map g k).
  Proof. intros H E. rewrite (map_ext _ _ E). by apply sum_perm, Permutation_map. Qed.
  Lemma people_value o v xs ys : Forall2 same_people xs ys -> value_of o v xs = value_of o v ys.
  Proof.
    intros F. pose proof (people_boards _ _ F) as B. destruct o; cbn.
    - rewrite B. unfold travelled. by rewrite (people_driven _ _ F).
    - f_equal. apply sum_same; [done|]. intros t. unfold ride_time. by rewrite (people_picked v _ _ t F), (people_dropped v _ _ t F).
    - f_equal. apply sum_same; [done|]. intros t. unfold ride_score. by rewrite (people_picked v _ _ t F).
  Qed.
  Lemma people_score k v xs ys : Forall2 same_people xs ys -> score_of k v xs = score_of k v ys.
  Proof.
    intros F. pose proof (people_boards _ _ F) as B. unfold score_of, returned_at, left_at. rewrite (people_timetable v _ _ F).
    destruct k; try done.
    - rewrite (sum_same (ride_time v xs) (ride_time v ys) _ _ B), (Permutation_length B).
      + destruct (boards xs) as [|a l], (boards ys) as [|b m]; try done; by apply Permutation_length in B.
      + intros t. unfold ride_time. by rewrite (people_picked v _ _ t F), (people_dropped v _ _ t F).
    - do 2 f_equal. by apply sum_same.
    - do 2 f_equal. apply sum_same; [done|]. intros t. unfold ride_score. by rewrite (people_picked v _ _ t F).
  Qed.
End order.

Lemma c86_schedule : forall (W : World) f Hf v xs ys, Forall2 same_people xs ys ->
  @timetable W v xs = @timetable (reordered W f Hf) v ys.
Proof. intros W f Hf v xs ys F. exact (people_timetable v xs ys F). Qed.
Lemma c86_limits : forall (W : World) f Hf v xs ys, Forall2 same_people xs ys ->
  @admissible W v xs <-> @admissible (reordered W f Hf) v ys.
Proof.
  intros W f Hf v xs ys F. split; intros A.
  - pose proof (@people_admissible W v xs ys F A) as [A1 A2 A3 A4 A5]. by split.
  - destruct A as [A1 A2 A3 A4 A5]. apply (@people_admissible W v ys xs); [by apply people_sym_all|]. by split.
Qed.
Lemma reordered_sane W f Hf : @sane W -> @sane (reordered W f Hf).
Proof. intros [H1 H2]. by split. Qed.
Lemma c86_feasible : forall (W : World) f Hf h r v ids xs h' r' ids' ys, @sane W -> Forall2 same_people xs ys ->
  @well_formed W h r v ids xs -> ids <> [] -> unasked h r ids ->
  @well_formed (reordered W f Hf) h' r' v ids' ys -> ids' <> [] -> unasked h' r' ids' ->
  exists b, fst (@route_feasible W r h) = Ok b /\ fst (@route_feasible (reordered W f Hf) r' h') = Ok b.
Proof.
  intros W f Hf h r v ids xs h' r' ids' ys Hs F R N U R' N' U'.
  destruct (@c05_feasible W h r v ids xs (proj1 Hs) (proj2 Hs) R N U) as (b & h1 & E & Hb & _).
  destruct (reordered_sane W f Hf Hs) as [Hs1 Hs2].
  destruct (@c05_feasible (reordered W f Hf) h' r' v ids' ys Hs1 Hs2 R' N' U') as (b' & h1' & E' & Hb' & _).
  exists b. rewrite E, E'. split; [done|]. cbn. f_equal. rewrite <- (c86_limits W f Hf v xs ys F) in Hb'.
  apply eq_true_iff_eq. by rewrite Hb, Hb'.
Qed.
Lemma c86_value : forall (W : World) f Hf v xs ys, Forall2 same_people xs ys ->
  (forall o, @value_of W o v xs = @value_of (reordered W f Hf) o v ys) /\
  (forall k, @score_of W k v xs = @score_of (reordered W f Hf) k v ys).
Proof. intros W f Hf v xs ys F. split; intros ?; [exact (people_value _ v xs ys F)|exact (people_score _ v xs ys F)]. Qed.

(** ** Choices *)
Lemma sorted_same {A} (R : A -> A -> Prop) l1 : forall l2,
  (forall x y, x ∈ l1 -> y ∈ l1 -> R x y -> R y x -> x = y) -> StronglySorted R l1 -> StronglySorted R l2 -> l1 ≡ₚ l2 -> l1 = l2.
Proof.
  induction l1 as [|a l1 IH]; intros l2 Ha S1 S2 P; [by apply Permutation_nil in P|].
  destruct l2 as [|b l2]; [by apply Permutation_nil_r in P|].
  apply StronglySorted_inv in S1 as [S1 F1]. apply StronglySorted_inv in S2 as [S2 F2].
  assert (a = b) as ->.
  { assert (Hb : b ∈ a :: l1) by (rewrite P; left). assert (Ha2 : a ∈ b :: l2) by (rewrite <- P; left).
    apply elem_of_cons in Hb as [->|Hb]; [done|]. apply elem_of_cons in Ha2 as [->|Ha2]; [done|].
    rewrite Forall_forall in F1, F2. apply Ha; [left|by right|by apply F1|by apply F2]. }
  f_equal. apply IH; [|done|done|by eapply Permutation_cons_inv]. intros x y Hx Hy. apply Ha; by right.
Qed.
Lemma c86_sorted `{W : World} : forall k h l l', sane -> (forall r, r ∈ l -> a_tour h r) -> no_ties k h l -> l ≡ₚ l' ->
  exists s h1 h2, criterion_sorted k l h = (Ok s, h1) /\ criterion_sorted k l' h = (Ok s, h2).
Proof.
  intros k h l l' Hs Hl [Ha Hn] P.
  assert (HS : forall r, r ∈ l -> exists x, Score k h r x).
  { intros r Hr. destruct (Ha r Hr) as [b Hb], (Hl r Hr) as (v & ids & xs & T).
    exists (if b then score_of k v xs else worst k). apply scored_Score. by exists v, ids, xs, b. }
  assert (G : forall m, m ≡ₚ l -> exists s h1, criterion_sorted k m h = (Ok s, h1) /\ s ≡ₚ l /\
    StronglySorted (fun a b => forall x y, Score k h a x -> Score k h b y -> ~ beats k y x) s).
  { intros m Hm. pose proof (criterion_sorted_runs k m h Hs) as H.
    apply runs_eq in H as (s & h' & E & M & Hp & ks & F & El).
    2:{ intros r Hr. apply a_tour_served, Hl. by rewrite <- Hm. }
    exists s, h'. split; [done|]. split; [by rewrite Hp|].
    destruct (c24_any_sorted _ _ score_ltb (criterion_direction k) (zip ks m) score_order) as (z & Ez & Hz & Ho & _).
    unfold dir_sorted in Ez. change (match criterion_direction k with Maximization => true | Minimization => false end) with (rev_of k) in Ez.
    rewrite Ez in El. clear Ez. subst s.
    assert (HS' : forall e, e ∈ z -> Score k h' e.2 e.1).
    { intros e He. rewrite Hz in He. by apply (zip_Forall2 _ _ _ _ F). }
    apply StronglySorted_pair. intros i j a b Hij Ea Eb x y Sa Sb.
    apply list_lookup_fmap_Some in Ea as ([x' a'] & Ea & ->), Eb as ([y' b'] & Eb & ->). cbn in *.
    apply (Score_mono _ _ _ _ _ M) in Sa, Sb.
    assert (Sa' : Score k h' a' x') by (apply (HS' (x', a')); by eapply elem_of_list_lookup_2).
    assert (Sb' : Score k h' b' y') by (apply (HS' (y', b')); by eapply elem_of_list_lookup_2).
    rewrite (Score_det _ _ _ _ _ Sa Sa'), (Score_det _ _ _ _ _ Sb Sb'), beats_ahead. by apply (Ho i j (x', a') (y', b')). }
  destruct (G l) as (s1 & h1 & E1 & P1 & S1); [done|]. destruct (G l') as (s2 & h2 & E2 & P2 & S2); [by symmetry|].
  assert (s1 = s2) as <-; [|by exists s1, h1, h2].
  eapply sorted_same; [|exact S1|exact S2|by rewrite P1, P2].
  intros a b Ha1 Hb1 Rab Rba. rewrite P1 in Ha1, Hb1. destruct (decide (a = b)) as [|Hab]; [done|]. exfalso.
  destruct (HS a Ha1) as [x Sx], (HS b Hb1) as [y Sy].
  destruct (Hn a b x y Ha1 Hb1 Hab) as [B|B]; [by apply scored_Score|by apply scored_Score|by apply (Rba y x)|by apply (Rab x y)].
Qed.
Lemma c86_total : forall (W : World) f Hf o h pl pl', @well_planned W h pl -> pl ≡ₚ pl' ->
  exists x h1 h2, @planning_value W o pl h = (Ok x, h1) /\ @planning_value (reordered W f Hf) o pl' h = (Ok x, h2).
Proof.
  intros W f Hf o h pl pl' Hp P. destruct (@well_planned_worth W o h pl Hp) as [x Wx].
  assert (Wx' : @total_worth (reordered W f Hf) o h pl' x).
  { destruct Wx as (xs & F & ->). destruct (Permutation_Forall2 P F) as (ys & Hy & F'). exists ys.
    split; [|rewrite !total_value_foldr; by apply foldr_tuple_perm].
    eapply Forall2_impl; [exact F'|]. intros r w (v & ids & zs & R & ->). exists v, ids, zs. split; [|done].
    destruct R as [[R1 R2 R3] R4 R5 R6]. destruct R4. split; [|by split|done|done]. by split. }
  apply (@planning_value_gives W) in Wx. apply (@planning_value_gives (reordered W f Hf)) in Wx'.
  apply gives_eq in Wx as (h1 & E1 & _), Wx' as (h2 & E2 & _). by exists x, h1, h2.
Qed.

(** ** A town where the order decides *)
Lemma fork_sane : @sane fork_world.
Proof. split; intros [|[|[|[|t]]]]; vm_compute; try split; congruence. Qed.
Lemma fork_run : insertion_optimize (W := fork_world) (warm_config EarliestLastDeparture) [0%nat] [0; 1; 2]%nat None empty_heap = (Ok [15%nat], fork_after).
Proof. vm_compute. reflexivity. Qed.
Lemma krof_run : insertion_optimize (W := krof_world) (warm_config EarliestLastDeparture) [0%nat] [0; 1; 2]%nat None empty_heap = (Ok [2%nat], krof_after).
Proof. vm_compute. reflexivity. Qed.
Lemma fork_tour : @on_tour fork_world fork_after 15 0 (stops_in fork_after 15) (visits_of fork_after 15).
Proof. apply on_tourb_sound. vm_compute. reflexivity. Qed.
Lemma krof_tour : @on_tour krof_world krof_after 2 0 (stops_in krof_after 2) (visits_of krof_after 2).
Proof. apply on_tourb_sound. vm_compute. reflexivity. Qed.
Lemma c86_refuted : ~ forall (W : World) f Hf o cfg fleet job pl h pl' h' x y,
  @sane W -> NoDup fleet -> NoDup job -> ic_only_feasible cfg = true -> ic_random cfg = 1%nat ->
  @insertion_optimize W cfg fleet job None empty_heap = (Ok pl, h) ->
  @insertion_optimize (reordered W f Hf) cfg fleet job None empty_heap = (Ok pl', h') ->
  @total_worth W o h pl x -> @total_worth (reordered W f Hf) o h' pl' y -> x = y.
Proof.
  intros H. assert (N : NoDup [0; 1; 2]%nat) by (apply (bool_decide_unpack _); vm_compute; exact I).
  specialize (H fork_world last_first last_first_perm DialARide (warm_config EarliestLastDeparture) [0%nat] [0; 1; 2]%nat _ _ _ _ _ _
    fork_sane (NoDup_singleton 0%nat) N eq_refl eq_refl fork_run krof_run (one_worth DialARide _ _ _ _ _ fork_tour) (one_worth DialARide _ _ _ _ _ krof_tour)).
  vm_compute in H. discriminate H.
Qed.

(** ** Routes without ties *)
Lemma ranked_scored r x : r ∈ [4; 2; 3]%nat -> @scored meter LongestUtilTime ranked_town r x ->
  x = @score_of meter LongestUtilTime (if decide (r = 2%nat) then 0%nat else 1%nat) (visits_of ranked_town r).
Proof.
  intros Hr S. apply scored_Score in S. eapply Score_det; [exact S|]. apply scored_Score.
  assert (r = 4 \/ r = 2 \/ r = 3)%nat as [-> | [-> | ->]] by (set_solver).
  - exists 1%nat, (stops_in ranked_town 4), (visits_of ranked_town 4), true.
    split; [apply on_tourb_sound; vm_compute; reflexivity|]. split; [eexists; split; reflexivity|reflexivity].
  - exists 0%nat, (stops_in ranked_town 2), (visits_of ranked_town 2), true.
    split; [apply on_tourb_sound; vm_compute; reflexivity|]. split; [eexists; split; reflexivity|reflexivity].
  - exists 1%nat, (stops_in ranked_town 3), (visits_of ranked_town 3), true.
    split; [apply on_tourb_sound; vm_compute; reflexivity|]. split; [eexists; split; reflexivity|reflexivity].
Qed.
Lemma ranked_no_ties : @no_ties meter LongestUtilTime ranked_town [4; 2; 3]%nat.
Proof.
  split.
  - intros r Hr. exists true. assert (r = 4 \/ r = 2 \/ r = 3)%nat as [-> | [-> | ->]] by (set_solver); eexists; split; reflexivity.
  - intros r s x y Hr Hs N Sx Sy. apply ranked_scored in Sx, Sy; [|done|done]. subst x y.
    assert (r = 4 \/ r = 2 \/ r = 3)%nat as [-> | [-> | ->]] by (set_solver);
    assert (s = 4 \/ s = 2 \/ s = 3)%nat as [-> | [-> | ->]] by (set_solver); try done;
      (left; apply score_ltb_lt; vm_compute; reflexivity) || (right; apply score_ltb_lt; vm_compute; reflexivity).
Qed.
