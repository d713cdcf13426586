(** Properties of the insertion strategies (C14-C16). *)
From Verif Require Import Reads RepresentsProofs StrategyProofs.
From Verif Require Import TimeTheorems EditTheorems Choices.

Section insert.
  Context {W : World}.
  Lemma sane_both : sane -> sane_durations /\ sane_capacities.
  Proof. done. Qed.
  Lemma fresh_route h r : (length (h_routes h) <= r)%nat -> h_routes h !! r = None.
  Proof. apply lookup_ge_None. Qed.
  Lemma evolves_similar h h' r v ids xs : evolves h h' -> RouteOK h r v ids xs ->
    exists xs', RouteOK h' r v ids xs' /\ similar v xs xs'.
  Proof. intros [L _] R. by apply (lt_routes _ _ L). Qed.
End insert.

Lemma c14_one `{W : World} : forall h r v ids xs t i j,
  sane -> tidy h -> on_tour h r v ids xs -> t ∉ boards xs -> (i < j < length ids)%nat ->
  exists r' h' ids' xs', compute_one r t i j h = (Ok r', h') /\ tidy h' /\ h_routes h !! r' = None /\
    on_tour h' r' v ids' xs' /\ map anytime xs' = map anytime (serve t i j xs) /\
    boards xs' ≡ₚ t :: boards xs.
Proof.
  intros h r v ids xs t i j [S1 S2] T R Ht Hij. apply tidy_HInv in T. apply on_tour_RouteOK in R.
  rewrite (RouteW_length _ _ _ _ _ (proj1 R)) in Hij.
  pose proof (compute_one_runs _ _ _ _ _ t i j S1 S2 T R Ht Hij) as G.
  apply runs_eq in G as (r' & h' & E & L & T' & Er & _ & ids' & xs' & R' & A & _).
  exists r', h', ids', xs'. split; [done|]. split; [by apply tidy_HInv|]. split; [apply fresh_route; lia|].
  split; [by apply on_tour_RouteOK|]. split; [done|].
  rewrite <- (boards_anytime xs'), A, boards_anytime. apply boards_serve; lia.
Qed.
Lemma c14_compute `{W : World} : forall of h r v ids xs ts i j,
  sane -> tidy h -> on_tour h r v ids xs -> (forall t, t ∈ ts -> t ∉ boards xs) -> (i < j < length ids)%nat ->
  exists rs h', compute of r ts i j h = (Ok rs, h') /\ tidy h' /\
    (of = false -> length rs = length ts) /\
    (forall r', r' ∈ rs -> h_routes h !! r' = None /\
      exists t ids' xs', t ∈ ts /\ on_tour h' r' v ids' xs' /\ map anytime xs' = map anytime (serve t i j xs)).
Proof.
  intros of h r v ids xs ts i j [S1 S2] T R Ht Hij. apply tidy_HInv in T. apply on_tour_RouteOK in R.
  rewrite (RouteW_length _ _ _ _ _ (proj1 R)) in Hij.
  pose proof (compute_runs of _ _ _ _ _ ts i j S1 S2 T R Ht Hij) as G.
  apply runs_eq in G as (rs & h' & E & T' & Ev & rss & -> & F).
  exists (concat rss), h'. split; [done|]. split; [by apply tidy_HInv|]. split.
  - intros ->. clear E. induction F as [|t l ts rss H F IH]; [done|]. cbn [concat]. rewrite app_length.
    destruct H as [[? _]|(r' & -> & _)]; [done|]. cbn. f_equal. apply IH. intros u Hu. apply Ht. by right.
  - intros r' Hr. apply elem_of_list_In, in_concat in Hr as (l & Hl & Hr).
    apply elem_of_list_In in Hl, Hr. apply elem_of_list_lookup in Hl as [k Hk].
    destruct (Forall2_lookup_r _ _ _ _ _ F Hk) as (t & Hkt & [[_ ->]|(r1 & -> & Hge & (ids' & xs' & R' & A) & _)]).
    { by apply elem_of_nil in Hr. }
    apply elem_of_list_singleton in Hr as ->. split; [by apply fresh_route|].
    exists t, ids', xs'. split; [by eapply elem_of_list_lookup_2|]. split; [by apply on_tour_RouteOK|done].
Qed.
Lemma c14_strategy `{W : World} : forall st of h r v ids xs ts,
  sane -> tidy h -> on_tour h r v ids xs -> (forall t, t ∈ ts -> t ∉ boards xs) ->
  exists rs h', strategy_compute st of r ts h = (Ok rs, h') /\ tidy h' /\
    forall r', r' ∈ rs -> h_routes h !! r' = None /\
      exists t i j ids' xs', t ∈ ts /\ (i < j < length xs)%nat /\
        on_tour h' r' v ids' xs' /\ map anytime xs' = map anytime (serve t i j xs).
Proof.
  intros st of h r v ids xs ts [S1 S2] T R Ht. apply tidy_HInv in T. apply on_tour_RouteOK in R.
  pose proof (strategy_compute_runs st of _ _ _ _ _ ts S1 S2 T R Ht) as G.
  apply runs_eq in G as (rs & h' & E & T' & Ev & F). exists rs, h'. split; [done|]. split; [by apply tidy_HInv|].
  intros r' Hr. destruct (F r' Hr) as (Hge & (t & i & j & Hin & Hij & ids' & xs' & R' & A) & _).
  split; [by apply fresh_route|]. exists t, i, j, ids', xs'. split; [done|]. split; [done|]. split; [by apply on_tour_RouteOK|done].
Qed.

Lemma c15_similar `{W : World} : forall st of h r v ids xs ts,
  sane -> tidy h -> on_tour h r v ids xs -> (forall t, t ∈ ts -> t ∉ boards xs) ->
  exists rs h', strategy_compute st of r ts h = (Ok rs, h') /\
    forall r0 v0 ids0 xs0, on_tour h r0 v0 ids0 xs0 -> exists xs1, on_tour h' r0 v0 ids0 xs1 /\ similar v0 xs0 xs1.
Proof.
  intros st of h r v ids xs ts [S1 S2] T R Ht. apply tidy_HInv in T. apply on_tour_RouteOK in R.
  pose proof (strategy_compute_runs st of _ _ _ _ _ ts S1 S2 T R Ht) as G.
  apply runs_eq in G as (rs & h' & E & T' & Ev & F). exists rs, h'. split; [done|].
  intros r0 v0 ids0 xs0 R0. apply on_tour_RouteOK in R0.
  destruct (evolves_similar _ _ _ _ _ _ Ev R0) as (xs1 & R1 & S). exists xs1. split; [by apply on_tour_RouteOK|done].
Qed.

(** C16 *)
Section sample.
  Lemma set_add_pair_spec p l : NoDup l -> NoDup (set_add_pair p l) /\
    (forall q, q ∈ set_add_pair p l <-> q = p \/ q ∈ l).
  Proof.
    intros ND. unfold set_add_pair. destruct (bool_decide (p ∈ l)) eqn:E.
    - apply bool_decide_eq_true in E. split; [done|]. intros q. split; [by right|]. intros [->|]; done.
    - apply bool_decide_eq_false in E. split.
      + apply NoDup_app. split; [done|]. split; [|apply NoDup_singleton]. intros x Hx Hp.
        apply elem_of_list_singleton in Hp as ->. done.
      + intros q. rewrite elem_of_app, elem_of_list_singleton. tauto.
  Qed.
  Lemma sample_loop_spec (P : nat * nat -> Prop) rnd count : (forall k, P (rnd k)) ->
    forall fuel k acc l, NoDup acc -> (forall q, q ∈ acc -> P q) -> (length acc <= count)%nat ->
    sample_loop fuel rnd k count acc = Some l ->
    NoDup l /\ (forall q, q ∈ l -> P q) /\ length l = count.
  Proof.
    intros HP. induction fuel as [|fuel IH]; intros k acc l ND HA HL E; cbn [sample_loop] in E.
    - destruct (length acc <? count)%nat eqn:El; [done|]. apply Nat.ltb_ge in El. injection E as <-. split_and!; [done|done|lia].
    - destruct (length acc <? count)%nat eqn:El.
      + apply Nat.ltb_lt in El. destruct (set_add_pair_spec (rnd k) acc ND) as [ND' HE].
        eapply IH; [exact ND'| |  |exact E].
        * intros q Hq. apply HE in Hq as [->|Hq]; [apply HP|by apply HA].
        * unfold set_add_pair. destruct (bool_decide _); [lia|]. rewrite app_length. cbn. lia.
      + apply Nat.ltb_ge in El. injection E as <-. split_and!; [done|done|lia].
  Qed.
  Lemma sample_loop_ends rnd count (all : list (nat * nat)) :
    NoDup all -> (count <= length all)%nat ->
    (forall p k0, p ∈ all -> exists k, (k0 <= k)%nat /\ rnd k = p) ->
    forall m k acc, (m = count - length acc)%nat -> NoDup acc -> exists fuel l, sample_loop fuel rnd k count acc = Some l.
  Proof.
    intros NDall Hc Fair. induction m as [m IH] using lt_wf_ind. intros k acc Em ND.
    destruct (decide (count <= length acc)%nat) as [Hge|Hlt].
    { exists 0%nat, acc. cbn [sample_loop]. apply Nat.ltb_ge in Hge. by rewrite Hge. }
    assert (Hex : exists p, p ∈ all /\ p ∉ acc).
    { destruct (decide (Exists (fun p => p ∉ acc) all)) as [H|H].
      - apply Exists_exists in H as (p & Hp & H). eauto.
      - exfalso. assert (Hsub : all ⊆ acc).
        { intros p Hp. destruct (decide (p ∈ acc)); [done|]. destruct H. apply Exists_exists. eauto. }
        pose proof (submseteq_length _ _ (NoDup_submseteq _ _ NDall Hsub)). lia. }
    destruct Hex as (p & Hp & Hn). destruct (Fair p k Hp) as (k1 & Hk1 & E1).
    remember (k1 - k)%nat as d eqn:Ed. revert k acc ND Em Hn Hlt Hk1 Ed.
    induction d as [|d IHd]; intros k acc ND Em Hn Hlt Hk1 Ed.
    - assert (k1 = k) as -> by lia.
      destruct (set_add_pair_spec (rnd k) acc ND) as [ND' HE].
      assert (length (set_add_pair (rnd k) acc) = S (length acc)).
      { unfold set_add_pair. rewrite bool_decide_eq_false_2 by (by rewrite E1). rewrite app_length. cbn. lia. }
      destruct (IH (count - length (set_add_pair (rnd k) acc))%nat ltac:(lia) (S k) (set_add_pair (rnd k) acc) eq_refl ND') as (fuel & l & E).
      exists (S fuel), l. cbn [sample_loop]. assert (Hlt' : (length acc < count)%nat) by lia. apply Nat.ltb_lt in Hlt'. by rewrite Hlt'.
    - destruct (set_add_pair_spec (rnd k) acc ND) as [ND' HE].
      assert (Hlt' : (length acc < count)%nat) by lia. apply Nat.ltb_lt in Hlt'.
      assert (exists fuel l, sample_loop fuel rnd (S k) count (set_add_pair (rnd k) acc) = Some l) as (fuel & l & E).
      { destruct (decide (rnd k ∈ acc)) as [Hin|Hnin].
        - unfold set_add_pair in *. rewrite bool_decide_eq_true_2 in * by done. apply IHd; try done; lia.
        - eapply IH; [|reflexivity|done]. unfold set_add_pair. rewrite bool_decide_eq_false_2 by done. rewrite app_length. cbn. lia. }
      exists (S fuel), l. cbn [sample_loop]. by rewrite Hlt'.
  Qed.
End sample.

Lemma c16_all : forall n count draw, (2 <= n)%nat -> (n * (n - 1) / 2 <= count)%nat ->
  NoDup (sample_index_pairs n count draw) /\
  (forall i j, (i, j) ∈ sample_index_pairs n count draw <-> (i < j < n)%nat) /\
  length (sample_index_pairs n count draw) = (n * (n - 1) / 2)%nat.
Proof.
  intros n count draw Hn Hc. unfold sample_index_pairs.
  pose proof (combinations2_length (seq 0 n)) as EL. rewrite seq_length in EL.
  assert (EL' : length (combinations2 (seq 0 n)) = (n * (n - 1) / 2)%nat).
  { rewrite <- EL. symmetry. rewrite Nat.mul_comm. apply Nat.div_mul. lia. }
  rewrite ncr_two by done. rewrite EL'.
  assert (Z.of_nat (n * (n - 1) / 2) <= Z.of_nat count) as H by lia. apply Z.leb_le in H. rewrite H.
  split; [apply combinations2_NoDup, NoDup_ListNoDup, seq_NoDup|]. split; [|done].
  intros i j. rewrite combinations2_seq. lia.
Qed.
Lemma c16_random : forall n count rnd fuel l, (2 <= n)%nat -> (count < n * (n - 1) / 2)%nat ->
  (forall k, draws n (rnd k)) ->
  sample_loop fuel rnd 0 count [] = Some l ->
  NoDup (sample_index_pairs n count l) /\
  (forall i j, (i, j) ∈ sample_index_pairs n count l -> (i < j < n)%nat) /\
  length (sample_index_pairs n count l) = count.
Proof.
  intros n count rnd fuel l Hn Hc HD E. unfold sample_index_pairs.
  pose proof (combinations2_length (seq 0 n)) as EL. rewrite seq_length in EL.
  assert (EL' : length (combinations2 (seq 0 n)) = (n * (n - 1) / 2)%nat).
  { rewrite <- EL. symmetry. rewrite Nat.mul_comm. apply Nat.div_mul. lia. }
  rewrite ncr_two by done. rewrite EL'.
  assert (Z.of_nat count < Z.of_nat (n * (n - 1) / 2)) as H by lia. apply Z.leb_gt in H. rewrite H.
  destruct (sample_loop_spec (draws n) rnd count HD fuel 0 [] l) as (ND & HP & HL); try done.
  - constructor.
  - intros q Hq. by apply elem_of_nil in Hq.
  - cbn. lia.
  - split; [done|]. split; [|done]. intros i j Hij. apply HP in Hij. destruct Hij. cbn in *. lia.
Qed.
Lemma c16_ends : forall n count rnd, (2 <= n)%nat -> (count < n * (n - 1) / 2)%nat ->
  (forall p k0, draws n p -> exists k, (k0 <= k)%nat /\ rnd k = p) ->
  exists fuel l, sample_loop fuel rnd 0 count [] = Some l.
Proof.
  intros n count rnd Hn Hc Fair.
  pose proof (combinations2_length (seq 0 n)) as EL. rewrite seq_length in EL.
  assert (EL' : length (combinations2 (seq 0 n)) = (n * (n - 1) / 2)%nat).
  { rewrite <- EL. symmetry. rewrite Nat.mul_comm. apply Nat.div_mul. lia. }
  eapply (sample_loop_ends rnd count (combinations2 (seq 0 n))); try done.
  - apply combinations2_NoDup, NoDup_ListNoDup, seq_NoDup.
  - lia.
  - intros [i j] k0 Hp. apply Fair. apply combinations2_seq in Hp. split; cbn; lia.
  - constructor.
Qed.
Lemma c16_strategies `{W : World} : forall h r v ids xs, on_tour h r v ids xs ->
  (exists ps, strategy_pairs Intensive r h = (Ok ps, h) /\ NoDup ps /\
     forall i j, (i, j) ∈ ps <-> (i < j < length ids)%nat) /\
  strategy_pairs Tail r h = (Ok [((length ids - 2)%nat, (length ids - 1)%nat)], h) /\
  (2 <= length ids)%nat.
Proof.
  intros h r v ids xs R. apply on_tour_RouteOK in R. pose proof R as [RW T].
  pose proof (RouteW_length _ _ _ _ _ RW) as EL. pose proof (tour_length _ _ T) as TL.
  destruct (rw_cell _ _ _ _ _ RW) as (c & Hc & _ & Ec).
  assert (E : route_stops r h = (Ok ids, h)). { unfold route_stops, bind, route_get, ret. by rewrite Hc, Ec. }
  unfold strategy_pairs. unfold bind at 1 2. rewrite E. split; [|split; [done|lia]].
  exists (combinations2 (seq 0 (length ids))). split; [done|]. split.
  - apply combinations2_NoDup, NoDup_ListNoDup, seq_NoDup.
  - intros i j. rewrite combinations2_seq. lia.
Qed.
