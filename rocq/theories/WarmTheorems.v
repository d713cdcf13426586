(** What a warm start does to the value of a planning (C82). *)
From Verif Require Import LocalTheorems WarmProofs SchedProofs.
From Verif Require Import WitnessWarm ShiftTheorems RefuteTheorems.

#[local] Existing Instance any_shape.
Section rides.
  Context {W : World}.
  Definition plain_ride (t : nat) : Z := unless_empty t (trip_distance (w_trip t)).
  Lemma plain_value v xs : (forall t, tr_bonus (w_trip t) = 0) -> value_of HashCode v xs = [sum_of (map plain_ride (boards xs))].
  Proof.
    intros Hb. cbn. do 2 f_equal. apply map_ext. intros t. unfold plain_ride, ride_score. rewrite Hb. f_equal. destruct (decide _); lia.
  Qed.
  Lemma plain_nonneg t : 0 <= plain_ride t.
  Proof. unfold plain_ride, unless_empty, trip_distance, svc_dist. destruct (decide _); [lia|]. apply dist_nonneg. Qed.
  Lemma plain_worth h pl A : (forall t, tr_bonus (w_trip t) = 0) -> Plan h pl A ->
    total_worth HashCode h pl [sum_of (map plain_ride (concat (map snd A)))].
  Proof.
    intros Hb (F & _). induction F as [|r [v B] rs A S F (xs & FX & E)]; [by exists []|].
    destruct S as (ids & L & R & _ & EB). cbn [fst snd] in *. exists (value_of HashCode v L :: xs). split.
    - constructor; [|done]. exists v, ids, L. split; [|done]. apply well_formed_RouteW, R.
    - unfold total_value in *. cbn [foldr map concat snd]. rewrite <- E, plain_value, EB by done. cbn. f_equal.
      rewrite map_app. clear. unfold sum_of. induction (map plain_ride B) as [|z l IH]; cbn; [lia|]. rewrite <- Z.add_assoc, <- IH. lia.
  Qed.
  Lemma plain_submseteq l k : l ⊆+ k -> sum_of (map plain_ride l) <= sum_of (map plain_ride k).
  Proof.
    unfold sum_of. induction 1 as [|x l k _ IH|x y l|x l k _ IH|l k m _ IH1 _ IH2]; cbn; try lia.
    pose proof (plain_nonneg x). lia.
  Qed.
End rides.

Lemma c82_plain `{W : World} : forall cfg fleet job h vs ts rs0,
  sane -> tidy h -> valid_planning h vs ts rs0 -> NoDup job -> (1 <= ic_random cfg)%nat ->
  (forall t, tr_bonus (w_trip t) = 0) ->
  exists pl h', insertion_optimize cfg fleet job (Some rs0) h = (Ok pl, h') /\
    forall x y, total_worth HashCode h rs0 x -> total_worth HashCode h' pl y -> at_least x y.
Proof.
  intros cfg fleet job h vs ts rs0 Hs HT V Hj Hr Hb. apply tidy_HInv in HT.
  pose proof (insertion_warm_runs cfg fleet job h vs ts rs0 Hs HT V (all_good_any _ _) (False_ind _) Hj Hr) as R.
  apply runs_eq in R as (pl & h' & E & _ & _ & V' & _ & G). exists pl, h'. split; [done|].
  destruct (valid_Plan h vs ts rs0 V (all_good_any _ _)) as (A & PA & _ & _).
  destruct (valid_Plan h' vs (job ++ ts) pl V' (all_good_any _ _)) as (A' & PA' & _ & _).
  intros x y Wx Wy. rewrite (total_worth_det _ _ _ _ _ Wx (plain_worth _ _ _ Hb PA)), (total_worth_det _ _ _ _ _ Wy (plain_worth _ _ _ Hb PA')).
  pose proof PA as (_ & _ & N). assert (concat (map snd A) ⊆+ concat (map snd A')) as S%plain_submseteq.
  { apply NoDup_submseteq; [done|]. intros t Ht. apply (takes_concat _ _ _ _ PA) in Ht as (v & us & Hp & Hu).
    destruct (G v us Hp) as (us' & Hp' & Hsub). apply (takes_concat _ _ _ _ PA'). exists v, us'. split; [done|by apply Hsub]. }
  apply Z.le_lteq in S as [S|S]; [right; by apply lex_here|left; by rewrite S].
Qed.

Lemma bonus_sane : @sane bonus_world.
Proof. split; intros [|[|[|t]]]; vm_compute; try split; congruence. Qed.
Lemma shared_sane : @sane shared_world.
Proof. split; intros [|[|[|t]]]; vm_compute; try split; congruence. Qed.
Lemma bonus_cold : insertion_optimize (W := bonus_world) (warm_config HashCodeCriterion) [0%nat] [0%nat] None empty_heap = (Ok [1%nat], bonus_before).
Proof. vm_compute. reflexivity. Qed.
Lemma bonus_warm : insertion_optimize (W := bonus_world) (warm_config HashCodeCriterion) [0%nat] [1%nat] (Some [1%nat]) bonus_before = (Ok [3%nat], bonus_after).
Proof. vm_compute. reflexivity. Qed.
Lemma shared_cold : insertion_optimize (W := shared_world) (warm_config EarliestLastDeparture) [0%nat] [0%nat] None empty_heap = (Ok [1%nat], shared_before).
Proof. vm_compute. reflexivity. Qed.
Lemma shared_warm : insertion_optimize (W := shared_world) (warm_config EarliestLastDeparture) [0%nat] [1%nat] (Some [1%nat]) shared_before = (Ok [4%nat], shared_after).
Proof. vm_compute. reflexivity. Qed.
Lemma bonus_tour_before : @on_tour bonus_world bonus_before 1 0 (stops_in bonus_before 1) (visits_of bonus_before 1).
Proof. apply on_tourb_sound. vm_compute. reflexivity. Qed.
Lemma bonus_tour_after : @on_tour bonus_world bonus_after 3 0 (stops_in bonus_after 3) (visits_of bonus_after 3).
Proof. apply on_tourb_sound. vm_compute. reflexivity. Qed.
Lemma shared_tour_before : @on_tour shared_world shared_before 1 0 (stops_in shared_before 1) (visits_of shared_before 1).
Proof. apply on_tourb_sound. vm_compute. reflexivity. Qed.
Lemma shared_tour_after : @on_tour shared_world shared_after 4 0 (stops_in shared_after 4) (visits_of shared_after 4).
Proof. apply on_tourb_sound. vm_compute. reflexivity. Qed.
Lemma one_worth `{W : World} o h r v ids xs : on_tour h r v ids xs -> total_worth o h [r] (total_value o [value_of o v xs]).
Proof. intros [R _]. exists [value_of o v xs]. split; [|done]. constructor; [|constructor]. by exists v, ids, xs. Qed.
Lemma found `{W : World} cfg fleet job pl h : sane -> NoDup fleet -> NoDup job -> (1 <= ic_random cfg)%nat ->
  insertion_optimize cfg fleet job None empty_heap = (Ok pl, h) -> tidy h /\ valid_planning h fleet job pl.
Proof.
  intros Hs Hf Hj Hr E. assert (HI : HInv empty_heap) by (apply tidy_HInv, tidyb_sound; reflexivity).
  pose proof (insertion_cold_runs cfg fleet job empty_heap Hs HI (False_ind _) Hf Hj Hr) as R. unfold runs in R. rewrite E in R.
  destruct R as (_ & HI' & V & _). split; [by apply tidy_HInv|done].
Qed.

Lemma c82_refuted : ~ forall (W : World) cfg fleet job h vs ts rs0 pl h' x y,
  sane -> tidy h -> valid_planning h vs ts rs0 -> NoDup job -> ic_only_feasible cfg = true -> (1 <= ic_random cfg)%nat ->
  insertion_optimize cfg fleet job (Some rs0) h = (Ok pl, h') ->
  total_worth HashCode h rs0 x -> total_worth HashCode h' pl y -> at_least x y.
Proof.
  intros H. destruct (@found bonus_world (warm_config HashCodeCriterion) _ _ _ _ bonus_sane (NoDup_singleton 0%nat) (NoDup_singleton 0%nat) (le_n 1) bonus_cold) as [T V].
  specialize (H bonus_world (warm_config HashCodeCriterion) _ _ _ _ _ _ _ _ _ _ bonus_sane T V (NoDup_singleton 1%nat) eq_refl (le_n 1) bonus_warm
    (one_worth _ _ _ _ _ _ bonus_tour_before) (one_worth _ _ _ _ _ _ bonus_tour_after)).
  vm_compute in H. destruct H as [H|H]; [discriminate|]. inversion H. lia.
Qed.
Lemma c82_refuted_taxi : ~ forall (W : World) cfg fleet job h vs ts rs0 pl h' x y,
  sane -> tidy h -> valid_planning h vs ts rs0 -> NoDup job -> ic_only_feasible cfg = true -> (1 <= ic_random cfg)%nat ->
  insertion_optimize cfg fleet job (Some rs0) h = (Ok pl, h') ->
  total_worth TaxiSharing h rs0 x -> total_worth TaxiSharing h' pl y -> at_least x y.
Proof.
  intros H. destruct (@found shared_world (warm_config EarliestLastDeparture) _ _ _ _ shared_sane (NoDup_singleton 0%nat) (NoDup_singleton 0%nat) (le_n 1) shared_cold) as [T V].
  specialize (H shared_world (warm_config EarliestLastDeparture) _ _ _ _ _ _ _ _ _ _ shared_sane T V (NoDup_singleton 1%nat) eq_refl (le_n 1) shared_warm
    (one_worth _ _ _ _ _ _ shared_tour_before) (one_worth _ _ _ _ _ _ shared_tour_after)).
  vm_compute in H. destruct H as [H|H]; [discriminate|]. inversion H. lia.
Qed.
