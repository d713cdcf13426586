(** The insertion algorithm with the ranking iterator, from the first route to
    the returned planning. *)
From Verif Require Export RepresentsProofs FrameRuns RankingRuns.

(** all tours, and those with one boarding or alighting per inner stop *)
Definition any_shape {W : World} : Shape.
Proof. refine {| good _ _ := True; trusted := False; relaxed := False |}; done. Defined.
Definition simple_shape {W : World} : Shape.
Proof.
  refine {| good _ := simple; trusted := False; relaxed := False |}.
  - intros v xs ys _ [E _]. by apply simple_same.
  - apply simple_idle.
  - intros v t i j xs ys T Hij S E _. eapply simple_same; [done|]. by eapply simple_serve.
Defined.

Section bridge.
  Context {W : World} {Sh : Shape}.
  (** the tours of the planning [pl] are of the kind considered *)
  Definition all_good (h : heap) (pl : list nat) : Prop :=
    forall r v ids xs, r ∈ pl -> on_tour h r v ids xs -> good v xs.
  Lemma Serves_route h r v ts : Serves h r v ts -> route_serves h r v ts.
  Proof. intros (ids & xs & R & _ & E). exists ids, xs. split; [by apply on_tour_RouteOK|done]. Qed.
  Lemma Serves_good h r v ts ids xs : Serves h r v ts -> on_tour h r v ids xs -> good v xs.
  Proof.
    intros (ids' & xs' & [R _] & G & E) R'. apply on_tour_RouteOK in R' as [R' _].
    by destruct (RouteW_det _ _ _ _ _ _ _ _ R R') as (_ & _ & ->).
  Qed.
  Lemma route_Serves h r v ts pl : all_good h pl -> r ∈ pl -> route_serves h r v ts -> Serves h r v ts.
  Proof.
    intros Ha Hr (ids & xs & R & E). exists ids, xs. split; [by apply on_tour_RouteOK|]. split; [by eapply Ha|done].
  Qed.
  Lemma route_serves_eq h r v v' ts ts' : Serves h r v ts -> route_serves h r v' ts' -> v = v' /\ ts = ts'.
  Proof.
    intros (ids & xs & [R _] & _ & <-) (ids' & xs' & R' & <-). apply on_tour_RouteOK in R' as [R' _].
    by destruct (RouteW_det _ _ _ _ _ _ _ _ R R') as (-> & _ & ->).
  Qed.
  Lemma served_all_good h pl : (forall r, r ∈ pl -> served h r) -> all_good h pl.
  Proof.
    intros Hs r v ids xs Hr R. destruct (Hs r Hr) as (w & B & S). eapply (Serves_good h r v B ids xs); [|done].
    assert (R1 : route_serves h r v (boards xs)) by (by exists ids, xs).
    by destruct (route_serves_eq _ _ _ _ _ _ S R1) as [-> _].
  Qed.
  Lemma current_get h U k r : ItInv h U (rk_it k) -> r ∈ current k <-> exists v, dict_get v (it_routes (rk_it k)) = Some r.
  Proof.
    intros I. unfold current, it_route_set. rewrite elem_of_list_fmap. split.
    - intros ([v q] & -> & Hin). exists v. apply dict_in_get; [apply I|done].
    - intros (v & G). exists (v, r). split; [done|by apply dict_get_in].
  Qed.
  Lemma planned_for_assigned h U k v ts : ItInv h U (rk_it k) ->
    planned_for h (current k) v ts <-> assigned h (it_routes (rk_it k)) v ts.
  Proof.
    intros I. unfold planned_for, assigned. split.
    - intros (r & Hr & S). apply (current_get h U) in Hr as (w & G); [|done].
      destruct (ii_routes _ _ _ I w r G) as [B S'].
      destruct (route_serves_eq _ _ _ _ _ _ S' S) as [<- <-]. by exists r.
    - intros (r & G & S). exists r. split; [apply (current_get h U); eauto|by apply Serves_route].
  Qed.
  Lemma ItInv_valid h U k vs : ItInv h U (rk_it k) -> map fst (it_routes (rk_it k)) ≡ₚ vs -> valid_planning h vs U (current k).
  Proof.
    intros I Hk. split.
    - rewrite <- Hk. apply I.
    - exists (map fst (it_routes (rk_it k))). split; [done|]. unfold current, it_route_set.
      pose proof (ii_nodup _ _ _ I) as Hn. pose proof (ii_routes _ _ _ I) as Hr.
      assert (Hin : forall e, e ∈ it_routes (rk_it k) -> exists B, Serves h e.2 e.1 B).
      { intros [v r] He. apply Hr. by apply dict_in_get. }
      clear -Hin. induction (it_routes (rk_it k)) as [|e d IH]; [constructor|]. cbn. constructor.
      + destruct (Hin e) as [B S]; [left|]. exists B. by apply Serves_route.
      + apply IH. intros e' He'. apply Hin. by right.
    - intros r v ts t Hr S Ht. apply (ii_known _ _ _ I v ts t); [|done].
      apply (planned_for_assigned h U k); [done|]. by exists r.
    - intros r r' v v' ts ts' t Hr Hr' S S' Ht Ht'.
      assert (A : assigned h (it_routes (rk_it k)) v ts) by (apply (planned_for_assigned h U k); [done|by exists r]).
      assert (A' : assigned h (it_routes (rk_it k)) v' ts') by (apply (planned_for_assigned h U k); [done|by exists r']).
      pose proof (ii_once _ _ _ I v v' ts ts' t A A' Ht Ht') as <-.
      apply (current_get h U) in Hr as (w & G); [|done]. apply (current_get h U) in Hr' as (w' & G'); [|done].
      destruct (ii_routes _ _ _ I w r G) as [C SC]. destruct (ii_routes _ _ _ I w' r' G') as [C' SC'].
      destruct (route_serves_eq _ _ _ _ _ _ SC S) as [-> _]. destruct (route_serves_eq _ _ _ _ _ _ SC' S') as [-> _]. congruence.
  Qed.
  Lemma ItInv_good h U k : ItInv h U (rk_it k) -> all_good h (current k).
  Proof.
    intros I. apply served_all_good. intros r Hr. apply (current_get h U) in Hr as (v & G); [|done].
    destruct (ii_routes _ _ _ I v r G) as [B S]. by exists v, B.
  Qed.

  Lemma start_cold_runs cfg fleet job h :
    sane -> HInv h -> (trusted -> ic_only_feasible cfg = true /\ Trust h) -> NoDup fleet -> NoDup job -> (1 <= ic_random cfg)%nat ->
    runs (start cfg fleet job None) h (fun k h' => evolves h h' /\ RankInv h' job k /\
      map fst (it_routes (rk_it k)) ≡ₚ fleet /\ it_job (rk_it k) = job /\ it_pending (rk_it k) = job).
  Proof.
    intros Hs HI Htr Hf Hj Hr. unfold start, ranking_init. step.
    eapply runs_mono; [by apply init_cold_runs|]. intros i h1 (E1 & I1 & Hk & Ha & Hjob & Hp). cbv zeta.
    eapply runs_mono; [by apply (initialize_runs h1 job (MkRanking i _ (ic_random cfg) []))|].
    cbn. intros k h2 (E2 & RI & Er & Ep & Ej & _ & _). split; [by eapply evolves_trans|]. split; [done|].
    rewrite Er, Ep, Ej. done.
  Qed.
  Lemma start_warm_runs cfg fleet job rs0 vs ts h :
    sane -> HInv h -> valid_planning h vs ts rs0 -> all_good h rs0 -> (trusted -> ic_only_feasible cfg = true /\ Trust h) -> NoDup job -> (1 <= ic_random cfg)%nat ->
    runs (start cfg fleet job (Some rs0)) h (fun k h' => evolves h h' /\ RankInv h' (job ++ ts) k /\
      map fst (it_routes (rk_it k)) ≡ₚ vs /\ it_job (rk_it k) = job /\ it_pending (rk_it k) `sublist_of` job /\
      (forall v B, planned_for h rs0 v B <-> assigned h' (it_routes (rk_it k)) v B) /\
      ((exists v B, planned_for h rs0 v B /\ B <> []) ->
         exists l, it_attractive (rk_it k) = Some l /\
           (forall r, r ∈ l -> exists v B, Serves h' r v B /\ planned_for h rs0 v B /\ B <> []) /\
           exists r, r ∈ l /\ busy h' r)).
  Proof.
    intros Hs HI V Hgood Htr Hj Hr. unfold start, ranking_init. destruct V as [V1 (ws & Hws & V2) V3 V4].
    assert (Hnd : NoDup ws) by by rewrite Hws.
    assert (Hw : forall i r v B, rs0 !! i = Some r -> Serves h r v B -> ws !! i = Some v).
    { intros i r v B Hi S. destruct (Forall2_lookup_l _ _ _ _ _ V2 Hi) as (w & Hi' & C & SC).
      by destruct (route_serves_eq _ _ _ _ _ _ S SC) as [-> _]. }
    assert (Hex : forall i v, ws !! i = Some v -> exists r B, rs0 !! i = Some r /\ Serves h r v B).
    { intros i v Hi. destruct (Forall2_lookup_r _ _ _ _ _ V2 Hi) as (r & Hi' & C & SC).
      exists r, C. split; [done|]. eapply route_Serves; [done|by eapply elem_of_list_lookup_2|done]. }
    step. eapply runs_mono; [apply (init_warm_runs _ _ _ fleet job rs0 (job ++ ts) h)|].
    - done.
    - done.
    - done.
    - intros r Hin. apply elem_of_list_lookup_1 in Hin as [i Hi].
      destruct (Forall2_lookup_l _ _ _ _ _ V2 Hi) as (w & Hi' & C & SC). exists w, C.
      eapply route_Serves; [done|by eapply elem_of_list_lookup_2|done].
    - intros i j r r' v B B' Hi Hj' S S'. pose proof (Hw i r v B Hi S). pose proof (Hw j r' v B' Hj' S').
      by eapply NoDup_lookup_eq.
    - intros r r' v v' B B' t Hr1 Hr2 S S' Ht Ht'.
      assert (r = r') as <-.
      { apply (V4 r r' v v' B B' t); try done; by apply Serves_route. }
      by destruct (Serves_det _ _ _ _ _ _ S S').
    - intros t Ht. apply elem_of_app. by left.
    - intros r v B t Hr1 S Ht. apply elem_of_app. right. apply (V3 r v B t); [done|by apply Serves_route|done].
    - intros i h1 (E1 & I1 & Ha & Hjob & Hp & Has). cbv zeta.
      eapply runs_mono; [by apply (initialize_runs h1 (job ++ ts) (MkRanking i _ (ic_random cfg) []))|].
      cbn. intros k h2 (E2 & RI & Er & Ep & Ej & _ & Hbusy). split; [by eapply evolves_trans|]. split; [done|].
      rewrite Er, Ep, Ej.
      assert (Has' : forall v B, planned_for h rs0 v B <-> assigned h2 (it_routes i) v B).
      { intros v B. transitivity (exists r, r ∈ rs0 /\ Serves h r v B).
        - unfold planned_for. split; intros (r & Hr1 & S); exists r; (split; [done|]); [by eapply route_Serves|by apply Serves_route].
        - rewrite Has. split; [by apply assigned_evolves|by eapply assigned_evolves_inv]. }
      split; [|split; [done|split; [done|split; [done|]]]].
      2:{ intros (v & B & Hpv & HB). apply Has' in Hpv as (r & G & S).
        assert (Hset : forall r v B, dict_get v (it_routes i) = Some r -> Serves h2 r v B -> Serves h1 r v B).
        { intros r' v' B' G' S'. destruct (ii_routes _ _ _ I1 v' r' G') as [B'' S''].
          by destruct (Serves_det _ _ _ _ _ _ S' (Serves_evolves _ _ _ _ _ E2 S'')) as [_ ->]. }
        destruct Hbusy as (l & El & Hl & q & Hq & Hbq).
        { exists r. split; [|exists v, B; split; [by apply Hset|done]]. apply dict_get_in in G.
          unfold it_route_set. by apply (elem_of_list_fmap_1 snd _ (v, r)). }
        exists l. split; [done|]. split.
        - intros r' Hr'. destruct (Hl r' Hr') as [Hin (v' & B' & S' & HB')]. exists v', B'.
          split; [by eapply Serves_evolves|]. split; [|done]. apply Has'. exists r'. split; [|by eapply Serves_evolves].
          unfold it_route_set in Hin. apply elem_of_list_fmap in Hin as ([v2 r2] & -> & Hin).
          apply (dict_in_get _ _ _ (ii_nodup _ _ _ I1)) in Hin. cbn in S'.
          destruct (ii_routes _ _ _ I1 v2 r2 Hin) as [B2 S2]. by destruct (Serves_det _ _ _ _ _ _ S' S2) as [-> _].
        - exists q. split; [done|]. by eapply busy_evolves. }
      rewrite <- Hws. apply NoDup_Permutation; [apply I1|done|].
      intros v. rewrite <- dict_get_key. split.
      + intros [r G]. destruct (ii_routes _ _ _ I1 v r G) as [B S].
        assert (A : assigned h1 (it_routes i) v B) by by exists r. apply Has in A as (r0 & Hr0 & S0).
        apply elem_of_list_lookup_1 in Hr0 as [n Hn]. eapply elem_of_list_lookup_2. by eapply Hw.
      + intros Hv. apply elem_of_list_lookup_1 in Hv as [n Hn]. destruct (Hex n v Hn) as (r & B & Hr1 & S).
        assert (A : exists r, r ∈ rs0 /\ Serves h r v B) by (exists r; split; [by eapply elem_of_list_lookup_2|done]).
        apply Has in A as (q & G & _). eauto.
  Qed.

  (** how the loop ends *)
  Lemma ranking_loop_rounds U n : forall k h, sane -> RankInv h U k -> (length (it_pending (rk_it k)) < n)%nat ->
    exists m k1 h1 h', rounds m k h k1 h1 /\ ranking_loop n k h = (Ok k1, h') /\ evolves h1 h' /\
      (ranking_next k1 h1 = (Ok None, h') \/
       exists r h2, ranking_next k1 h1 = (Ok (Some r), h2) /\ route_feasible r h2 = (Ok false, h')).
  Proof.
    induction n as [|n IH]; intros k h Hs RI Hlen; [lia|]. cbn [ranking_loop].
    pose proof (ranking_next_runs h U k Hs RI) as N. apply runs_eq in N as (o & h1 & En & E1 & K1 & HI1 & Ho).
    rewrite (bind_ok _ _ _ _ _ En).
    destruct o as [r|].
    2:{ exists 0%nat, k, h, h1. split; [constructor|]. split; [done|]. split; [done|]. by left. }
    destruct Ho as (v & sub & G & Hr).
    assert (RI1 : RankInv h1 U k) by by eapply RankInv_mono.
    pose proof (feasible_step h1 U k v sub r Hs RI1 G Hr) as F. apply runs_eq in F as (b & h2 & Ef & E2 & RI2).
    rewrite (bind_ok _ _ _ _ _ Ef). destruct b; cbn [negb].
    2:{ exists 0%nat, k, h, h2. split; [constructor|]. split; [done|]. split; [by eapply evolves_trans|]. right. by exists r, h1. }
    pose proof (accept_step h2 U k v sub r Hs RI2 G Hr) as A. apply runs_eq in A as (k' & h3 & Ea & RI3 & _ & El).
    rewrite (bind_ok _ _ _ _ _ Ea). destruct (IH k' h3 Hs RI3) as (m & k1 & h4 & h5 & HR & EL & E4 & Hend); [lia|].
    exists (S m), k1, h4, h5. split; [by eapply rounds_more|]. done.
  Qed.

  (** whole runs *)
  Lemma insertion_cold_runs cfg fleet job h :
    sane -> HInv h -> (trusted -> ic_only_feasible cfg = true /\ Trust h) -> NoDup fleet -> NoDup job -> (1 <= ic_random cfg)%nat ->
    runs (insertion_optimize cfg fleet job None) h (fun pl h' => evolves h h' /\ HInv h' /\
      valid_planning h' fleet job pl /\ all_good h' pl).
  Proof.
    intros Hs HT Htr Hf Hj Hr.
    pose proof (start_cold_runs cfg fleet job h Hs HT Htr Hf Hj Hr) as R. apply runs_eq in R as (k & h0 & E & Ev & RI & Hk & Ej & Ep).
    unfold insertion_optimize. change (ranking_init _ _ _ _ _ _ _ _) with (start cfg fleet job None).
    pose proof (ranking_loop_runs job (S (length job)) k h0 Hs RI) as L.
    apply runs_eq in L as (k' & h' & EL & RI' & (E' & _ & K' & _)); [|rewrite Ep; lia].
    apply runs_eq. exists (current k'), h'. rewrite (bind_ok _ _ _ _ _ E), (bind_ok _ _ _ _ _ EL). split; [done|].
    split; [by eapply evolves_trans|]. split; [apply (ii_heap _ _ _ (ri_it _ _ _ RI'))|].
    split; [apply ItInv_valid; [apply RI'|by rewrite K']|]. eapply ItInv_good, RI'.
  Qed.
  Lemma insertion_warm_runs cfg fleet job h vs ts rs0 :
    sane -> HInv h -> valid_planning h vs ts rs0 -> all_good h rs0 -> (trusted -> ic_only_feasible cfg = true /\ Trust h) -> NoDup job -> (1 <= ic_random cfg)%nat ->
    runs (insertion_optimize cfg fleet job (Some rs0)) h (fun pl h' => evolves h h' /\ HInv h' /\
      valid_planning h' vs (job ++ ts) pl /\ all_good h' pl /\
      (forall v us, planned_for h rs0 v us -> exists us', planned_for h' pl v us' /\ forall t, t ∈ us -> t ∈ us')).
  Proof.
    intros Hs HT V Hg Htr Hj Hr.
    pose proof (start_warm_runs cfg fleet job rs0 vs ts h Hs HT V Hg Htr Hj Hr) as R.
    apply runs_eq in R as (k & h0 & E & Ev & RI & Hk & Ej & Ep & Has & _).
    unfold insertion_optimize. change (ranking_init _ _ _ _ _ _ _ _) with (start cfg fleet job (Some rs0)).
    pose proof (ranking_loop_runs (job ++ ts) (S (length job)) k h0 Hs RI) as L.
    apply runs_eq in L as (k' & h' & EL & RI' & (E' & _ & K' & G)).
    2:{ apply sublist_length in Ep. lia. }
    apply runs_eq. exists (current k'), h'. rewrite (bind_ok _ _ _ _ _ E), (bind_ok _ _ _ _ _ EL). split; [done|].
    split; [by eapply evolves_trans|]. split; [apply (ii_heap _ _ _ (ri_it _ _ _ RI'))|].
    split; [apply ItInv_valid; [apply RI'|by rewrite K']|]. split; [eapply ItInv_good, RI'|].
    intros v us A. apply Has in A. destruct (G v us A) as (us' & A' & Hsub). exists us'. split; [|done].
    apply (planned_for_assigned h' (job ++ ts)); [apply RI'|done].
  Qed.
End bridge.

#[local] Existing Instance any_shape.
Lemma all_good_any `{W : World} h pl : all_good h pl.
Proof. by intros ? ? ? ? ? ?. Qed.
Lemma route_serves_Serves `{W : World} h r v ts : route_serves h r v ts <-> Serves h r v ts.
Proof.
  split; [|apply Serves_route]. intros H. apply (route_Serves h r v ts [r]); [apply all_good_any|left|done].
Qed.

Lemma c17_start `{W : World} : forall cfg fleet job h,
  sane -> tidy h -> NoDup fleet -> NoDup job -> (1 <= ic_random cfg)%nat ->
  exists k h', start cfg fleet job None h = (Ok k, h') /\ tidy h' /\
    valid_planning h' fleet job (current k) /\ pending k = job /\
    (forall v ts, planned_for h' (current k) v ts -> ts = []).
Proof.
  intros cfg fleet job h Hs HT Hf Hj Hr. apply tidy_HInv in HT.
  pose proof (start_cold_runs cfg fleet job h Hs HT (False_ind _) Hf Hj Hr) as R. apply runs_eq in R as (k & h' & E & Ev & RI & Hk & Ej & Ep).
  exists k, h'. split; [done|]. split; [apply tidy_HInv, (ii_heap _ _ _ (ri_it _ _ _ RI))|].
  split; [apply ItInv_valid; [apply RI|done]|]. split; [done|].
  intros v ts A. apply (planned_for_assigned h' job) in A; [|apply RI].
  destruct ts as [|t ts]; [done|]. exfalso.
  apply (ii_free _ _ _ (ri_it _ _ _ RI) v (t :: ts) t); [done|left|]. rewrite Ep.
  apply (ii_known _ _ _ (ri_it _ _ _ RI) v (t :: ts) t); [done|left].
Qed.

Lemma c17_rounds `{W : World} : forall cfg fleet job h k0 h0 n k h1,
  sane -> tidy h -> NoDup fleet -> NoDup job -> (1 <= ic_random cfg)%nat ->
  start cfg fleet job None h = (Ok k0, h0) -> rounds n k0 h0 k h1 ->
  valid_planning h1 fleet job (current k) /\ NoDup (pending k) /\
  (forall t, t ∈ job <-> t ∈ pending k \/ exists v ts, planned_for h1 (current k) v ts /\ t ∈ ts) /\
  (forall t v ts, t ∈ pending k -> planned_for h1 (current k) v ts -> t ∉ ts).
Proof.
  intros cfg fleet job h k0 h0 n k h1 Hs HT Hf Hj Hr E R. apply tidy_HInv in HT.
  pose proof (start_cold_runs cfg fleet job h Hs HT (False_ind _) Hf Hj Hr) as S. unfold runs in S. rewrite E in S.
  destruct S as (Ev & RI & Hk & Ej & Ep).
  destruct (rounds_inv job n k0 h0 k h1 Hs R RI) as (RI1 & (E1 & J1 & K1 & G1) & _).
  split; [apply ItInv_valid; [apply RI1|by rewrite K1]|].
  split; [apply (ii_pending _ _ _ (ri_it _ _ _ RI1))|]. split.
  - intros t. split.
    + intros Ht. destruct (ii_all _ _ _ (ri_it _ _ _ RI1) t) as [?|(v & B & A & HB)]; [by rewrite J1, Ej|by left|right].
      exists v, B. split; [|done]. apply (planned_for_assigned h1 job); [apply RI1|done].
    + intros [Ht|(v & B & A & HB)]; [by apply (ii_todo _ _ _ (ri_it _ _ _ RI1))|].
      apply (planned_for_assigned h1 job) in A; [|apply RI1]. by apply (ii_known _ _ _ (ri_it _ _ _ RI1) v B t).
  - intros t v ts Ht A HB. apply (planned_for_assigned h1 job) in A; [|apply RI1].
    by apply (ii_free _ _ _ (ri_it _ _ _ RI1) v ts t).
Qed.

Lemma c17_kept `{W : World} : forall cfg fleet job h k0 h0 n k h1 m k' h2 v ts,
  sane -> tidy h -> NoDup fleet -> NoDup job -> (1 <= ic_random cfg)%nat ->
  start cfg fleet job None h = (Ok k0, h0) -> rounds n k0 h0 k h1 -> rounds m k h1 k' h2 ->
  planned_for h1 (current k) v ts ->
  exists ts', planned_for h2 (current k') v ts' /\ forall t, t ∈ ts -> t ∈ ts'.
Proof.
  intros cfg fleet job h k0 h0 n k h1 m k' h2 v ts Hs HT Hf Hj Hr E R1 R2 A. apply tidy_HInv in HT.
  pose proof (start_cold_runs cfg fleet job h Hs HT (False_ind _) Hf Hj Hr) as S. unfold runs in S. rewrite E in S.
  destruct S as (Ev & RI & _).
  destruct (rounds_inv job n k0 h0 k h1 Hs R1 RI) as (RI1 & _).
  destruct (rounds_inv job m k h1 k' h2 Hs R2 RI1) as (RI2 & (_ & _ & _ & G) & _).
  apply (planned_for_assigned h1 job) in A; [|apply RI1]. destruct (G v ts A) as (ts' & A' & Hsub).
  exists ts'. split; [|done]. apply (planned_for_assigned h2 job); [apply RI2|done].
Qed.

Lemma c17_result `{W : World} : forall cfg fleet job h,
  sane -> tidy h -> NoDup fleet -> NoDup job -> (1 <= ic_random cfg)%nat ->
  exists pl h', insertion_optimize cfg fleet job None h = (Ok pl, h') /\ tidy h' /\ valid_planning h' fleet job pl.
Proof.
  intros cfg fleet job h Hs HT Hf Hj Hr. apply tidy_HInv in HT.
  pose proof (insertion_cold_runs cfg fleet job h Hs HT (False_ind _) Hf Hj Hr) as R. apply runs_eq in R as (pl & h' & E & _ & HI & V & _).
  exists pl, h'. split; [done|]. split; [by apply tidy_HInv|done].
Qed.

Lemma c18_bound `{W : World} : forall cfg fleet job h k0 h0 n k h1,
  sane -> tidy h -> NoDup fleet -> NoDup job -> (1 <= ic_random cfg)%nat ->
  start cfg fleet job None h = (Ok k0, h0) -> rounds n k0 h0 k h1 ->
  (n + length (pending k) = length job)%nat.
Proof.
  intros cfg fleet job h k0 h0 n k h1 Hs HT Hf Hj Hr E R. apply tidy_HInv in HT.
  pose proof (start_cold_runs cfg fleet job h Hs HT (False_ind _) Hf Hj Hr) as S. unfold runs in S. rewrite E in S.
  destruct S as (Ev & RI & Hk & Ej & Ep).
  destruct (rounds_inv job n k0 h0 k h1 Hs R RI) as (_ & _ & El). rewrite Ep in El. unfold pending. lia.
Qed.
Lemma c18_ends `{W : World} : forall cfg fleet job h,
  sane -> tidy h -> NoDup fleet -> NoDup job -> (1 <= ic_random cfg)%nat ->
  exists k0 h0 n k h1 h',
    start cfg fleet job None h = (Ok k0, h0) /\ rounds n k0 h0 k h1 /\ (n <= length job)%nat /\
    insertion_optimize cfg fleet job None h = (Ok (current k), h') /\
    (ranking_next k h1 = (Ok None, h') \/
     exists r h2, ranking_next k h1 = (Ok (Some r), h2) /\ route_feasible r h2 = (Ok false, h')).
Proof.
  intros cfg fleet job h Hs HT Hf Hj Hr. pose proof HT as HT'. apply tidy_HInv in HT.
  pose proof (start_cold_runs cfg fleet job h Hs HT (False_ind _) Hf Hj Hr) as R. apply runs_eq in R as (k & h0 & E & Ev & RI & Hk & Ej & Ep).
  destruct (ranking_loop_rounds job (S (length job)) k h0 Hs RI) as (n & k1 & h1 & h' & HR & EL & _ & Hend); [rewrite Ep; lia|].
  exists k, h0, n, k1, h1, h'. split; [done|]. split; [done|].
  split; [pose proof (c18_bound _ _ _ _ _ _ _ _ _ Hs HT' Hf Hj Hr E HR); lia|]. split; [|done].
  unfold insertion_optimize. change (ranking_init _ _ _ _ _ _ _ _) with (start cfg fleet job None).
  rewrite (bind_ok _ _ _ _ _ E), (bind_ok _ _ _ _ _ EL). done.
Qed.
Lemma c18_fuel `{W : World} : forall cfg fleet job h k0 h0 fuel,
  sane -> tidy h -> NoDup fleet -> NoDup job -> (1 <= ic_random cfg)%nat ->
  start cfg fleet job None h = (Ok k0, h0) -> (length job < fuel)%nat ->
  ranking_loop fuel k0 h0 = ranking_loop (S (length job)) k0 h0 /\
  exists k h', ranking_loop fuel k0 h0 = (Ok k, h').
Proof.
  intros cfg fleet job h k0 h0 fuel Hs HT Hf Hj Hr E Hfu. apply tidy_HInv in HT.
  pose proof (start_cold_runs cfg fleet job h Hs HT (False_ind _) Hf Hj Hr) as S. unfold runs in S. rewrite E in S.
  destruct S as (Ev & RI & Hk & Ej & Ep). split.
  - apply (ranking_loop_fuel job); [done|done|rewrite Ep; lia|lia].
  - pose proof (ranking_loop_runs job fuel k0 h0 Hs RI) as L. rewrite Ep in L.
    apply runs_eq in L as (k & h' & EL & _); [|done]. eauto.
Qed.

Lemma c19_warm `{W : World} : forall cfg fleet job h vs ts rs0,
  sane -> tidy h -> valid_planning h vs ts rs0 -> NoDup job -> (1 <= ic_random cfg)%nat ->
  exists pl h', insertion_optimize cfg fleet job (Some rs0) h = (Ok pl, h') /\ tidy h' /\
    valid_planning h' vs (job ++ ts) pl /\
    (forall v us, planned_for h rs0 v us -> exists us', planned_for h' pl v us' /\ forall t, t ∈ us -> t ∈ us').
Proof.
  intros cfg fleet job h vs ts rs0 Hs HT V Hj Hr. apply tidy_HInv in HT.
  pose proof (insertion_warm_runs cfg fleet job h vs ts rs0 Hs HT V (all_good_any _ _) (False_ind _) Hj Hr) as R.
  apply runs_eq in R as (pl & h' & E & _ & HI & V' & _ & K).
  exists pl, h'. split; [done|]. split; [by apply tidy_HInv|]. split; [done|]. exact K.
Qed.

Lemma c18_warm `{W : World} : forall cfg fleet job h vs ts rs0 k0 h0 n k h1,
  sane -> tidy h -> valid_planning h vs ts rs0 -> NoDup job -> (1 <= ic_random cfg)%nat ->
  start cfg fleet job (Some rs0) h = (Ok k0, h0) -> rounds n k0 h0 k h1 ->
  (n + length (pending k) = length (pending k0) /\ length (pending k0) <= length job)%nat.
Proof.
  intros cfg fleet job h vs ts rs0 k0 h0 n k h1 Hs HT V Hj Hr E R. apply tidy_HInv in HT.
  pose proof (start_warm_runs cfg fleet job rs0 vs ts h Hs HT V (all_good_any _ _) (False_ind _) Hj Hr) as S. unfold runs in S. rewrite E in S.
  destruct S as (Ev & RI & Hk & Ej & Ep & Has & _).
  destruct (rounds_inv (job ++ ts) n k0 h0 k h1 Hs R RI) as (_ & _ & El).
  apply sublist_length in Ep. unfold pending in *. lia.
Qed.

Lemma c19_untouched `{W : World} : forall cfg fleet job rs0 h,
  untouched h (snd (insertion_optimize cfg fleet job (Some rs0) h)).
Proof. intros. apply insertion_framed. Qed.
