(** C20, C21: the stateless iterators. *)
From Verif Require Import WitnessSelect StatelessProofs.
#[local] Existing Instance any_shape.

Lemma c20_cold `{W : World} : forall cfg fleet job h,
  sane -> tidy h -> NoDup fleet -> NoDup job ->
  exists pl h', stateless_optimize cfg fleet job None h = (Ok pl, h') /\ tidy h' /\
    valid_planning h' fleet job pl /\
    (forall v ts, planned_for h' pl v ts -> (length ts <= 1)%nat).
Proof.
  intros cfg fleet job h Hs HT Hf Hj. apply tidy_HInv in HT.
  assert (R : runs (stateless_optimize cfg fleet job None) h (fun pl h' => tidy h' /\ valid_planning h' fleet job pl /\
    (forall v ts, planned_for h' pl v ts -> (length ts <= 1)%nat))).
  { unfold stateless_optimize. step. eapply runs_mono; [by apply init_cold_runs|].
    intros i h1 (E1 & I1 & Hk & Ha & Ej & Ep). pose proof (SInv_start _ _ job _ I1 ltac:(by rewrite Ep) Ha) as SI. step.
    eapply runs_mono; [eapply (stateless_loop_runs job job _ _ (MkStateless i None) h1 Hs); [by split; [exact SI|]|cbn; rewrite Ep; lia]|].
    intros k h2 (E2 & I2 & Hk2). apply runs_ret. cbn in Hk2.
    split; [apply tidy_HInv, (si_heap _ _ _ _ _ I2)|]. split; [eapply SInv_valid; [exact I2|by rewrite Hk2|done]|].
    intros v ts A. apply (planned_for_held _ _ _ _ _ _ _ I2) in A.
    assert (H0 : forall w B, assigned h1 (it_routes i) w B -> B = []).
    { intros w [|t B] AB; [done|]. exfalso. apply (ii_free _ _ _ I1 w (t :: B) t); [done|left|]. rewrite Ep.
      apply (ii_known _ _ _ I1 w (t :: B) t); [done|left]. }
    destruct (SInv_assigned _ _ _ _ _ _ _ I2 A) as [HB|(B & t & HB & _ & _ & P)].
    - rewrite (H0 _ _ HB). cbn. lia.
    - rewrite (H0 _ _ HB) in P. rewrite P. cbn. lia. }
  apply runs_eq in R as (pl & h' & E & H). by exists pl, h'.
Qed.

Lemma c20_warm `{W : World} : forall cfg fleet job rs0 vs ts h,
  sane -> tidy h -> valid_planning h vs ts rs0 -> NoDup job ->
  exists pl h', stateless_optimize cfg fleet job (Some rs0) h = (Ok pl, h') /\ tidy h' /\
    valid_planning h' vs (job ++ ts) pl /\
    (forall v us, planned_for h' pl v us -> exists us0, planned_for h rs0 v us0 /\
       (us = us0 \/ exists t, t ∈ job /\ us ≡ₚ t :: us0)).
Proof.
  intros cfg fleet job rs0 vs ts h Hs HT V Hj. apply tidy_HInv in HT.
  assert (R : runs (stateless_optimize cfg fleet job (Some rs0)) h (fun pl h' => tidy h' /\ valid_planning h' vs (job ++ ts) pl /\
    (forall v us, planned_for h' pl v us -> exists us0, planned_for h rs0 v us0 /\
       (us = us0 \/ exists t, t ∈ job /\ us ≡ₚ t :: us0)))).
  { unfold stateless_optimize. step. eapply runs_mono; [by apply (init_warm_valid _ _ _ fleet job rs0 vs ts)|].
    intros i h1 (E1 & I1 & Ha & Hk & Hp & Has). assert (HJ : forall t, t ∈ it_pending i -> t ∈ job) by (intros t Ht; by eapply elem_of_submseteq, sublist_submseteq).
    pose proof (SInv_start _ _ job _ I1 HJ Ha) as SI. step.
    eapply runs_mono; [eapply (stateless_loop_runs (job ++ ts) job _ _ (MkStateless i None) h1 Hs); [by split; [exact SI|]|]|].
    { cbn. apply sublist_length in Hp. lia. }
    intros k h2 (E2 & I2 & Hk2). apply runs_ret. cbn in Hk2.
    split; [apply tidy_HInv, (si_heap _ _ _ _ _ I2)|]. split; [eapply SInv_valid; [exact I2|by rewrite Hk2|intros; apply elem_of_app; by left]|].
    intros v us A. apply (planned_for_held _ _ _ _ _ _ _ I2) in A.
    destruct (SInv_assigned _ _ _ _ _ _ _ I2 A) as [HB|(B & t & HB & Ht & Hnb & P)].
    - exists us. split; [by apply Has|by left].
    - exists B. split; [by apply Has|]. right. by exists t. }
  apply runs_eq in R as (pl & h' & E & H). by exists pl, h'.
Qed.

Lemma c20_refuted : exists (W : World) cfg fleet job k0 h0 k1 h1 k2 h2 t,
  sane /\ begin cfg fleet job None empty_heap = (Ok k0, h0) /\
  turns 1 k0 h0 k1 h1 /\ (exists v ts, planned_for h1 (holds k1) v ts /\ t ∈ ts) /\
  turns 1 k1 h1 k2 h2 /\ t ∉ waiting k2 /\
  ~ (exists v ts, planned_for h2 (holds k2) v ts /\ t ∈ ts).
Proof.
  exists town, loner_config, [0%nat], [0; 3]%nat, loner0, loner_town0, loner1, loner_town1, loner2, loner_town2, 0%nat.
  split; [apply town_sane|]. split; [vm_compute; reflexivity|].
  split; [eapply turns_more; [vm_compute; reflexivity..|apply turns_none]|].
  split.
  { exists 0%nat, [0%nat]. split; [|left]. exists 1%nat. split; [left|].
    exists (stops_in loner_town1 1), (visits_of loner_town1 1).
    split; [apply on_tourb_sound; vm_compute; reflexivity|vm_compute; reflexivity]. }
  split; [eapply turns_more; [vm_compute; reflexivity..|apply turns_none]|].
  split; [apply not_elem_of_nil|].
  intros (v & ts & (r & Hr & S) & Ht). change (holds loner2) with [2%nat] in Hr. apply elem_of_list_singleton in Hr as ->.
  assert (S' : @route_serves town loner_town2 2 0 [3%nat]).
  { exists (stops_in loner_town2 2), (visits_of loner_town2 2).
    split; [apply on_tourb_sound; vm_compute; reflexivity|vm_compute; reflexivity]. }
  apply route_serves_Serves in S, S'. destruct (Serves_det _ _ _ _ _ _ S S') as [_ ->].
  apply elem_of_list_singleton in Ht. discriminate.
Qed.

(** ** The iterator of the best candidates *)
Section best.
  Context {W : World}.
  Lemma best_next_fails h U J Base k rs : sane -> SState h U J Base k -> (1 <= rs)%nat ->
    exists e h', best_stateless_next rs k h = (Raise e, h') /\ (e = TypeError \/ e = AttributeError).
  Proof.
    intros Hs [I Eg] Hrs. unfold best_stateless_next.
    pose proof (open_runs h U J Base k Hs I Eg) as O. apply runs_eq in O as ([[k1 pairs] buf] & h1 & E1 & _ & -> & I1 & _ & _ & _ & Hp).
    rewrite (bind_ok _ _ _ _ _ E1).
    pose proof (gen_all_runs h1 U J Base (sl_it k1) (it_strategy (sl_it k1)) (it_only_feasible (sl_it k1)) pairs Hs I1 Hp) as G.
    apply runs_eq in G as (args & h2 & E2 & _ & _ & Hc). cbv zeta. rewrite (bind_ok _ _ _ _ _ E2).
    assert (One : forall r (kk : list nat -> M (option nat * stateless)), r ∈ args -> exists e h', bind (nbest_of_route rs r) kk h2 = (Raise e, h') /\ (e = TypeError \/ e = AttributeError)).
    { intros r kk Hr. destruct (Hc r Hr) as (v & B & t & B' & S & _). destruct (Serves_cell _ _ _ _ S) as (c & Hcell & _).
      exists AttributeError, h2. split; [|by right].
      unfold nbest_of_route, bind at 1. unfold bind at 1. unfold route_get. rewrite Hcell. rewrite decide_False by lia. done. }
    destruct args as [|r1 [|r2 [|r3 args]]].
    - exists TypeError, h2. split; [done|by left].
    - apply One. left.
    - apply One. left.
    - exists TypeError, h2. split; [done|by left].
  Qed.
  Lemma best_loop_fails h U J Base k rs n : sane -> SState h U J Base k -> (1 <= rs)%nat ->
    exists e h', best_stateless_loop (S n) rs k h = (Raise e, h') /\ (e = TypeError \/ e = AttributeError).
  Proof.
    intros Hs I Hrs. destruct (best_next_fails h U J Base k rs Hs I Hrs) as (e & h' & E & He).
    exists e, h'. split; [|done]. cbn [best_stateless_loop]. unfold bind. by rewrite E.
  Qed.
End best.

Lemma c21_cold `{W : World} : forall cfg fleet job h,
  sane -> tidy h -> NoDup fleet -> NoDup job -> (1 <= ic_random cfg)%nat ->
  exists e h', best_stateless_optimize cfg fleet job None h = (Raise e, h') /\ (e = TypeError \/ e = AttributeError).
Proof.
  intros cfg fleet job h Hs HT Hf Hj Hr. apply tidy_HInv in HT. unfold best_stateless_optimize.
  pose proof (init_cold_runs (ic_strategy cfg) (ic_only_feasible cfg) (ic_criterion cfg) fleet job h HT (False_ind _) Hf Hj) as R.
  apply runs_eq in R as (i & h1 & E & _ & I1 & _ & Ha & _ & Ep). rewrite (bind_ok _ _ _ _ _ E).
  pose proof (SInv_start _ _ job _ I1 ltac:(by rewrite Ep) Ha) as SI.
  destruct (best_loop_fails h1 _ _ _ (MkStateless i None) (ic_random cfg) (length job) Hs (conj SI eq_refl) Hr) as (e & h' & El & He).
  exists e, h'. split; [|done]. unfold bind. by rewrite El.
Qed.
Lemma c21_warm `{W : World} : forall cfg fleet job rs0 vs ts h,
  sane -> tidy h -> valid_planning h vs ts rs0 -> NoDup job -> (1 <= ic_random cfg)%nat ->
  exists e h', best_stateless_optimize cfg fleet job (Some rs0) h = (Raise e, h') /\ (e = TypeError \/ e = AttributeError).
Proof.
  intros cfg fleet job rs0 vs ts h Hs HT V Hj Hr. apply tidy_HInv in HT. unfold best_stateless_optimize.
  pose proof (init_warm_valid (ic_strategy cfg) (ic_only_feasible cfg) (ic_criterion cfg) fleet job rs0 vs ts h HT V Hj) as R.
  apply runs_eq in R as (i & h1 & E & _ & I1 & Ha & _ & Hp & _). rewrite (bind_ok _ _ _ _ _ E).
  assert (HJ : forall t, t ∈ it_pending i -> t ∈ job) by (intros t Ht; by eapply elem_of_submseteq, sublist_submseteq).
  pose proof (SInv_start _ _ job _ I1 HJ Ha) as SI.
  destruct (best_loop_fails h1 _ _ _ (MkStateless i None) (ic_random cfg) (length job) Hs (conj SI eq_refl) Hr) as (e & h' & El & He).
  exists e, h'. split; [|done]. unfold bind. by rewrite El.
Qed.
