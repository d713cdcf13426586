(** The sub-rankings of the ranking iterator stay sorted while it runs, so
    that with [randomized_size] 1 every insertion accepted is a best one; and
    computing candidates for a route leaves what belongs to others alone. *)
From Verif Require Export RankingTheorems SelectTheorems RecallProofs.

Section settings.
  Context {W : World}.
  (** whenever [m] returns, its result satisfies [P] *)
  Definition gives {A} (m : M A) (P : A -> Prop) : Prop := forall h x h', m h = (Ok x, h') -> P x.
  Lemma gives_ret {A} (x : A) (P : A -> Prop) : P x -> gives (ret x) P.
  Proof. by intros H h y h' [= <- _]. Qed.
  Lemma gives_bind {A B} (m : M A) (k : A -> M B) P Q : gives m P -> (forall x, P x -> gives (k x) Q) -> gives (bind m k) Q.
  Proof.
    intros Hm Hk h y h'. unfold bind. destruct (m h) as [[x|e] h1] eqn:E; [|done]. apply Hk. by eapply Hm.
  Qed.
  Lemma gives_then {A B} (m : M A) (k : A -> M B) Q : (forall x, gives (k x) Q) -> gives (bind m k) Q.
  Proof. intros H. apply (gives_bind m k (fun _ => True)); [done|auto]. Qed.
  Lemma attractive_gives i : gives (attractive_routes i) (fun o => it_criterion o.2 = it_criterion i).
  Proof.
    unfold attractive_routes. apply gives_then. intros base. apply gives_then. intros l. apply gives_then. intros []; [by apply gives_ret|].
    apply gives_then. intros rs. apply gives_then. intros o. by apply gives_ret.
  Qed.
  Lemma start_gives cfg fleet job initial :
    gives (start cfg fleet job initial) (fun k => it_criterion (rk_it k) = ic_criterion cfg /\ rk_random k = ic_random cfg).
  Proof.
    unfold start, ranking_init. apply (gives_bind _ _ (fun i => it_criterion i = ic_criterion cfg)).
    - unfold iterator_init. destruct initial; repeat (apply gives_then; intros ?); by apply gives_ret.
    - intros i Hi. unfold initialize_ranking. eapply gives_bind; [apply attractive_gives|]. intros [l i'] Ei. cbn in Ei.
      repeat (apply gives_then; intros ?). apply gives_ret. cbn. split; [congruence|done].
  Qed.
End settings.

Section ranked.
  Context {W : World} {Sh : Shape}.
  Lemma rounds_settings U n k h k' h' : sane -> rounds n k h k' h' -> RankInv h U k ->
    it_criterion (rk_it k') = it_criterion (rk_it k) /\ rk_random k' = rk_random k.
  Proof.
    intros Hs HR. induction HR as [k h|n k h r h1 h2 k' h3 k'' h'' En Ef Ea HR IH]; intros RI; [done|].
    pose proof (ranking_next_runs h U k Hs RI) as N. unfold runs in N. rewrite En in N.
    destruct N as (E1 & K1 & HI1 & v & sub & G & Hr).
    assert (RI1 : RankInv h1 U k) by by eapply RankInv_mono.
    pose proof (feasible_step h1 U k v sub r Hs RI1 G Hr) as F. unfold runs in F. rewrite Ef in F. destruct F as (E2 & RI2).
    pose proof (ranking_set_route_runs h2 U k v sub r Hs RI2 G Hr) as A. unfold runs in A. rewrite Ea in A.
    destruct A as (_ & RI3 & (C3 & R3) & _). destruct (IH RI3) as [C4 R4]. split; congruence.
  Qed.
  Lemma RankInv_ranked h U k : RankInv h U k -> ranked k h.
  Proof.
    intros RI. split.
    - intros r (v & sub & Hin & Hr). apply (dict_in_get _ _ _ (ri_keys _ _ _ RI)) in Hin.
      destruct (proj1 (ri_order _ _ _ RI v sub Hin) r Hr) as [_ [x Hx]]. exists x. by apply scored_Score.
    - intros v sub Hin. apply (dict_in_get _ _ _ (ri_keys _ _ _ RI)) in Hin.
      destruct (ri_order _ _ _ RI v sub Hin) as [_ HS]. unfold chosen_by. clear Hin.
      intros i j a b x y Hij Hi Hj Hx Hy. rewrite beats_ahead. apply scored_Score in Hx, Hy.
      assert (P : precedes (it_criterion (rk_it k)) h a b).
      { clear -HS Hij Hi Hj. revert i j Hij Hi Hj. induction HS as [|c l HS IH Hc]; intros i j Hij Hi Hj; [done|].
        destruct j as [|j]; [lia|]. destruct i as [|i].
        - injection Hi as ->. rewrite Forall_forall in Hc. apply Hc. by eapply elem_of_list_lookup_2.
        - by apply (IH i j); [lia|..]. }
      specialize (P x y Hx Hy). unfold rev_of, before, ahead in *. by destruct (criterion_direction _); rewrite P.
  Qed.
End ranked.

#[local] Existing Instance any_shape.
Lemma c68_ranked `{W : World} : forall cfg fleet job h k0 h0 n k h1,
  sane -> tidy h -> NoDup fleet -> NoDup job -> (1 <= ic_random cfg)%nat ->
  start cfg fleet job None h = (Ok k0, h0) -> rounds n k0 h0 k h1 ->
  ranked k h1 /\ chosen_by k = ic_criterion cfg.
Proof.
  intros cfg fleet job h k0 h0 n k h1 Hs HT Hf Hj Hr E R. apply tidy_HInv in HT.
  pose proof (start_cold_runs cfg fleet job h Hs HT (False_ind _) Hf Hj Hr) as S. unfold runs in S. rewrite E in S.
  destruct S as (Ev & RI & _). destruct (start_gives _ _ _ _ _ _ _ E) as [Ec _].
  split; [apply (RankInv_ranked h1 job), (rounds_inv job n k0 h0 k h1 Hs R RI)|].
  destruct (rounds_settings job n k0 h0 k h1 Hs R RI) as [Ec' _]. unfold chosen_by. congruence.
Qed.
Lemma c68_warm_ranked `{W : World} : forall cfg fleet job h vs ts rs0 k0 h0 n k h1,
  sane -> tidy h -> valid_planning h vs ts rs0 -> NoDup job -> (1 <= ic_random cfg)%nat ->
  start cfg fleet job (Some rs0) h = (Ok k0, h0) -> rounds n k0 h0 k h1 ->
  ranked k h1 /\ chosen_by k = ic_criterion cfg.
Proof.
  intros cfg fleet job h vs ts rs0 k0 h0 n k h1 Hs HT V Hj Hr E R. apply tidy_HInv in HT.
  pose proof (start_warm_runs cfg fleet job rs0 vs ts h Hs HT V (all_good_any _ _) (False_ind _) Hj Hr) as S. unfold runs in S. rewrite E in S.
  destruct S as (Ev & RI & _). destruct (start_gives _ _ _ _ _ _ _ E) as [Ec _].
  split; [apply (RankInv_ranked h1 (job ++ ts)), (rounds_inv (job ++ ts) n k0 h0 k h1 Hs R RI)|].
  destruct (rounds_settings (job ++ ts) n k0 h0 k h1 Hs R RI) as [Ec' _]. unfold chosen_by. congruence.
Qed.
Lemma c68_best `{W : World} : forall cfg fleet job h k0 h0 n k h1,
  sane -> tidy h -> NoDup fleet -> NoDup job -> ic_random cfg = 1%nat ->
  start cfg fleet job None h = (Ok k0, h0) -> rounds n k0 h0 k h1 ->
  exists o h2, ranking_next k h1 = (Ok o, h2) /\ routes_kept h1 h2 /\
    match o with Some r => unbeaten k h1 r | None => forall r, ~ candidate k r end.
Proof.
  intros cfg fleet job h k0 h0 n k h1 Hs HT Hf Hj Hr E R.
  apply c22_best; [done| |by eapply c68_ranked; [..|exact E|exact R]; try done; lia].
  apply tidy_HInv in HT.
  pose proof (start_cold_runs cfg fleet job h Hs HT (False_ind _) Hf Hj ltac:(lia)) as S. unfold runs in S. rewrite E in S.
  destruct S as (Ev & RI & _). destruct (start_gives _ _ _ _ _ _ _ E) as [_ Er].
  destruct (rounds_settings job n k0 h0 k h1 Hs R RI) as [_ Er']. congruence.
Qed.
Lemma c68_warm_best `{W : World} : forall cfg fleet job h vs ts rs0 k0 h0 n k h1,
  sane -> tidy h -> valid_planning h vs ts rs0 -> NoDup job -> ic_random cfg = 1%nat ->
  start cfg fleet job (Some rs0) h = (Ok k0, h0) -> rounds n k0 h0 k h1 ->
  exists o h2, ranking_next k h1 = (Ok o, h2) /\ routes_kept h1 h2 /\
    match o with Some r => unbeaten k h1 r | None => forall r, ~ candidate k r end.
Proof.
  intros cfg fleet job h vs ts rs0 k0 h0 n k h1 Hs HT V Hj Hr E R.
  apply c22_best; [done| |by eapply (c68_warm_ranked cfg fleet job h vs ts rs0); [..|exact E|exact R]; try done; lia].
  apply tidy_HInv in HT.
  pose proof (start_warm_runs cfg fleet job rs0 vs ts h Hs HT V (all_good_any _ _) (False_ind _) Hj ltac:(lia)) as S. unfold runs in S. rewrite E in S.
  destruct S as (Ev & RI & _). destruct (start_gives _ _ _ _ _ _ _ E) as [_ Er].
  destruct (rounds_settings (job ++ ts) n k0 h0 k h1 Hs R RI) as [_ Er']. congruence.
Qed.

(** computing candidates *)
Lemma c69_own `{W : World} : forall st of r ts h v ids xs h' o,
  on_tour h r v ids xs -> strategy_compute st of r ts h = (o, h') ->
  (forall s c, h_stops h !! s = Some c -> s ∉ ids -> h_stops h' !! s = Some c) /\
  (forall p c, h_pts h !! p = Some c ->
     (forall s x, s ∈ ids -> h_stops h !! s = Some x -> p ∉ st_pickups x /\ p ∉ st_deliveries x) ->
     h_pts h' !! p = Some c) /\
  (forall q c, h_routes h !! q = Some c -> h_routes h' !! q = Some c).
Proof.
  intros st of r ts h v ids xs h' o R E. apply on_tour_RouteOK in R as [R _].
  assert (E' : h' = (strategy_compute st of r ts h).2) by (by rewrite E).
  destruct (fr_strategy_compute (own_stop h ids) (own_pt h ids) (own_route h r) st of r ts ltac:(by left) h (own_inside _ _ _ _ _ R))
    as (_ & [S1 S2 _] & _). rewrite <- E' in S1, S2.
  split; [|split].
  - intros s c Hc Hs. rewrite S1; [done|]. intros [?|Hl]; [done|]. apply lookup_lt_Some in Hc. lia.
  - intros p c Hc Hp. rewrite S2; [done|]. intros [(s & x & Hs & Hx & Hin)|Hl]; [|apply lookup_lt_Some in Hc; lia].
    destruct (Hp s x Hs Hx) as [H1 H2]. apply elem_of_app in Hin as [?|?]; done.
  - intros q c Hc. destruct (low_strategy_compute (length (h_routes h)) st of r ts h ltac:(done)) as (H & _ & _).
    rewrite E', H; [done|]. by eapply lookup_lt_Some.
Qed.
Lemma c69_vehicles `{W : World} : forall st of r ts h v ids xs h' o,
  on_tour h r v ids xs -> strategy_compute st of r ts h = (o, h') ->
  (forall s c, h_stops h !! s = Some c -> st_vehicle c <> v -> h_stops h' !! s = Some c) /\
  (forall p c, h_pts h !! p = Some c -> pt_vehicle c <> v -> h_pts h' !! p = Some c) /\
  (forall q c, h_routes h !! q = Some c -> rt_vehicle c <> v -> h_routes h' !! q = Some c).
Proof.
  intros st of r ts h v ids xs h' o R E. apply on_tour_RouteOK in R as [R _].
  assert (E' : h' = (strategy_compute st of r ts h).2) by (by rewrite E). rewrite E'.
  enough (A : aside v h (strategy_compute st of r ts h).2) by (destruct A as [A1 A2 A3]; split; [exact A1|split; [exact A2|exact A3]]).
  eapply fr_aside; [exact R|]. apply fr_strategy_compute. by left.
Qed.
