(** Strategies over all trips and index pairs: strategies/abc.py:33-54,
    tail.py, intensive.py, sampling.py; utils/random.py. *)
From Verif Require Export ComputeProofs.

Section loops.
  Context {S : Type} (R : S -> S -> Prop) (Rrefl : forall h, R h h) (Rtrans : forall a b c, R a b -> R b c -> R a c).

  Lemma runs_mapM_mono {A B} (f : A -> ST S B) (I : S -> Prop) (g : A -> B -> S -> Prop) l : forall h,
    (forall x y h h', g x y h -> R h h' -> g x y h') ->
    I h ->
    (forall x h, x ∈ l -> I h -> runs (f x) h (fun y h' => I h' /\ R h h' /\ g x y h')) ->
    runs (mapM f l) h (fun ys h' => I h' /\ R h h' /\ Forall2 (fun x y => g x y h') l ys).
  Proof.
    induction l as [|x l IH]; intros h Hg HI Hf; cbn.
    - apply runs_ret. split; [done|]. split; [done|]. constructor.
    - step. eapply runs_mono; [apply Hf; [set_solver|done]|]. intros y h1 (I1 & R1 & G1).
      step. eapply runs_mono; [apply IH; [done|done|]|].
      { intros x' h' Hx'. apply Hf. set_solver. }
      intros ys h2 (I2 & R2 & G2). apply runs_ret. split; [done|]. split; [eauto|]. constructor; [eauto|done].
  Qed.
End loops.

Section pairs.
  (** ** Index pairs *)
  Lemma combinations2_seq n m i j : (i, j) ∈ combinations2 (seq m n) <-> (m <= i < j /\ j < m + n)%nat.
  Proof.
    revert m. induction n as [|n IH]; intros m; cbn.
    - split; [intros H; inversion H|lia].
    - rewrite elem_of_app, elem_of_list_fmap, IH. setoid_rewrite elem_of_seq. split.
      + intros [(y & [= -> ->] & Hy)|H]; lia.
      + intros [H1 H2]. destruct (decide (i = m)) as [->|Hne].
        * left. exists j. split; [done|lia].
        * right. lia.
  Qed.
  Lemma combinations2_NoDup {A} (l : list A) : NoDup l -> NoDup (combinations2 l).
  Proof.
    induction l as [|x l IH]; cbn; [intros _; constructor|]. intros [Hx Hl]%NoDup_cons.
    apply NoDup_app. split; [|split; [|by apply IH]].
    - apply NoDup_fmap_2; [|done]. by intros ? ? [= ->].
    - intros [a b] Hab. apply elem_of_list_fmap in Hab as (y & [= -> ->] & Hy). intros Hin. apply Hx.
      clear -Hin. induction l as [|z l IH]; cbn in *; [inversion Hin|].
      apply elem_of_app in Hin as [Hin|Hin].
      + apply elem_of_list_fmap in Hin as (? & [= -> ->] & _). set_solver.
      + right. by apply IH.
  Qed.
  Lemma combinations2_length {A} (l : list A) :
    (2 * length (combinations2 l) = length l * (length l - 1))%nat.
  Proof.
    induction l as [|x l IH]; cbn; [done|]. rewrite app_length, fmap_length. nia.
  Qed.
End pairs.

Section strategies.
  Context {W : World}.

  Definition Cand1 (h : heap) (v : nat) (xs : list visit) (t i j r' : nat) : Prop :=
    exists ids L', RouteOK h r' v ids L' /\ map anytime L' = map anytime (serve t i j xs).
  Lemma Cand1_later h h' v xs t i j r' : Cand1 h v xs t i j r' -> later h h' -> Cand1 h' v xs t i j r'.
  Proof.
    intros (ids & L & R & E) Lt. destruct (lt_routes _ _ Lt _ _ _ _ R) as (L' & R' & S & _).
    exists ids, L'. split; [done|]. congruence.
  Qed.
  Lemma Cand1_same h v xs ys t i j r' : map anytime xs = map anytime ys -> Cand1 h v xs t i j r' -> Cand1 h v ys t i j r'.
  Proof.
    intros E (ids & L & R & EL). exists ids, L. split; [done|]. rewrite EL. by apply serve_same.
  Qed.

  (** what holds between two states of one computation *)
  Definition evolves (h h' : heap) : Prop := later h h' /\ (length (h_routes h) <= length (h_routes h'))%nat /\ (forall g, Worth g h -> Worth g h').
  Lemma evolves_refl h : evolves h h.
  Proof. split; [apply later_refl|done]. Qed.
  Lemma evolves_trans h1 h2 h3 : evolves h1 h2 -> evolves h2 h3 -> evolves h1 h3.
  Proof. intros (A1 & A2 & A3) (B1 & B2 & B3). split; [by eapply later_trans|split; [lia|auto]]. Qed.
  Lemma evolves_soft h1 h2 : soft h1 h2 -> evolves h1 h2.
  Proof. intros (G & _ & _ & L & F). split; [by apply later_grow|split; [lia|done]]. Qed.
  Lemma HInv_soft h h' : HInv h -> soft h h' -> HInv h'.
  Proof. intros HI (G & _ & _ & L & _). eapply HInv_later; [exact HI|by apply later_grow|done]. Qed.
  (** the route answers [True] as far as recorded answers can be trusted *)
  Definition Near (h : heap) (r : nat) : Prop := exists v ids L, RouteOK h r v ids L /\ nearly v L.
  Lemma Near_later h h' r : Near h r -> later h h' -> Near h' r.
  Proof.
    intros (v & ids & L & R & N) Lt. destruct (lt_routes _ _ Lt _ _ _ _ R) as (L' & R' & S).
    exists v, ids, L'. split; [done|]. eapply similar_nearly; [apply R'|exact S|done].
  Qed.
  (** no start times are requested for the stops of the route *)
  Definition Calm (h : heap) (r : nat) : Prop := exists v ids L, RouteOK h r v ids L /\ calm L (length L).
  Lemma calm_similar v L L' : similar v L L' -> calm L (length L) -> calm L' (length L').
  Proof. rewrite !calm_elem. by intros (_ & <- & _). Qed.
  Lemma Calm_later h h' r : Calm h r -> later h h' -> Calm h' r.
  Proof.
    intros (v & ids & L & R & C) Lt. destruct (lt_routes _ _ Lt _ _ _ _ R) as (L' & R' & S).
    exists v, ids, L'. split; [done|]. by eapply calm_similar.
  Qed.
  Lemma calm_evolves h h' r v ids L L' : RouteOK h r v ids L -> RouteOK h' r v ids L' -> evolves h h' ->
    calm L (length L) -> calm L' (length L').
  Proof.
    intros R R' (Lt & _ & _). destruct (lt_routes _ _ Lt _ _ _ _ R) as (L2 & R2 & S).
    destruct (RouteW_det _ _ _ _ _ _ _ _ (proj1 R2) (proj1 R')) as (_ & _ & <-). by apply (calm_similar v).
  Qed.
  (** what an accepted candidate for a route with visits [L] can be trusted to be *)
  Definition Fine (h : heap) (L : list visit) (h' : heap) (r' : nat) : Prop :=
    Near h' r' /\ (limitless -> Worth false h -> calm L (length L) -> Calm h' r').
  Lemma Fine_later h L h1 h2 r : Fine h L h1 r -> later h1 h2 -> Fine h L h2 r.
  Proof. intros [N C] Lt. split; [by eapply Near_later|]. intros. eapply Calm_later; [by apply C|done]. Qed.
  Lemma route_feasible_known h r c b Q : h_routes h !! r = Some c -> rt_feasible c = Some b ->
    runs (route_feasible r) h Q -> runs (route_feasible r) h (fun x h' => x = b /\ Q x h').
  Proof. intros Hc Hb. unfold runs, route_feasible, route_get, bind. rewrite Hc, Hb. cbn. done. Qed.
  Lemma RouteOK_evolves h h' r v ids L : RouteOK h r v ids L -> evolves h h' ->
    exists L', RouteOK h' r v ids L' /\ map anytime L' = map anytime L.
  Proof. intros R (Lt & _ & _). destruct (lt_routes _ _ Lt _ _ _ _ R) as (L' & R' & S & _). eauto. Qed.

  Lemma compute_runs of h r v ids L ts pi fi :
    sane_durations -> sane_capacities -> HInv h -> RouteOK h r v ids L ->
    (forall t, t ∈ ts -> t ∉ boards L) -> (pi < fi < length L)%nat ->
    runs (compute of r ts pi fi) h (fun rs h' => HInv h' /\ evolves h h' /\
      exists rss, rs = concat rss /\
        Forall2 (fun t l => (of = true /\ l = []) \/
          exists r', l = [r'] /\ (length (h_routes h) <= r')%nat /\ Cand1 h' v L t pi fi r' /\
            (of = true -> Fair h -> Fine h L h' r')) ts rss).
  Proof.
    intros SD SC HI R Ht Hpf. unfold compute. step. apply runs_assert; [apply Nat.ltb_lt; lia|]. step.
    eapply runs_mono.
    - apply (runs_mapM_mono evolves evolves_refl evolves_trans _
        (fun h' => HInv h' /\ evolves h h')
        (fun t l h' => (of = true /\ l = []) \/
          exists r', l = [r'] /\ (length (h_routes h) <= r')%nat /\ Cand1 h' v L t pi fi r' /\ (of = true -> Fair h -> Fine h L h' r'))).
      + intros t l h1 h2 [H|(r' & -> & Hr & C & N)] (Lt & _ & _); [by left|right]. exists r'. split; [done|]. split; [done|].
        split; [by eapply Cand1_later|]. intros. eapply Fine_later; [by apply N|done].
      + split; [done|apply evolves_refl].
      + intros t h1 Hin [HI1 E1]. destruct (RouteOK_evolves _ _ _ _ _ _ R E1) as (L1 & R1 & S1).
        step. eapply runs_mono; [eapply (compute_one_runs h1 r v ids L1 t pi fi); try done|].
        { rewrite (boards_same _ _ S1). by apply Ht. }
        { by rewrite (anytime_length _ _ S1). }
        intros r' h2 (Lt2 & HI2 & Hr' & Hn & ids' & L' & R' & EL' & F' & _ & Sm & (c2 & b2 & Hc2 & Hb2) & _).
        assert (E2 : evolves h1 h2) by (split; [done|split; [lia|done]]).
        assert (C2 : Cand1 h2 v L t pi fi r').
        { exists ids', L'. split; [done|]. rewrite EL'. by apply serve_same. }
        pose proof E1 as (_ & Hle & HF1).
        destruct of; cbn.
        * step. eapply runs_mono; [eapply route_feasible_known; [exact Hc2|exact Hb2|eapply route_feasible_runs; [done|done|apply R'|by eapply RouteW_nonempty]]|].
          intros b h3 (-> & S3 & _ & Nb & _). apply runs_ret. split; [split; [by eapply HInv_soft|]|].
          { eapply evolves_trans; [exact E1|]. eapply evolves_trans; [exact E2|]. by apply evolves_soft. }
          split; [eapply evolves_trans; [exact E2|]; by apply evolves_soft|].
          destruct b2; [|by left]. right. exists r'. split; [done|]. split; [lia|].
          split; [eapply Cand1_later; [exact C2|]; by apply later_grow, S3|]. intros _ F.
          split; [exists v, ids', L'; split; [by eapply RouteOK_soft|]; apply Nb; [|done]; apply F'; auto|].
          intros Hl Ff Hc. exists v, ids', L'. split; [by eapply RouteOK_soft|]. eapply calm_similar.
          { eapply (Sm Hl); [auto|auto|exact (calm_evolves _ _ _ _ _ _ _ R R1 E1 Hc)|exact Hc2|exact Hb2]. }
          apply serve_calm; [by rewrite (anytime_length _ _ S1)|exact (calm_evolves _ _ _ _ _ _ _ R R1 E1 Hc)].
        * split; [split; [done|by eapply evolves_trans]|]. split; [done|].
          right. exists r'. split; [done|]. split; [lia|]. split; done.
    - intros rss h' ([HI' E'] & _ & F). apply runs_ret. split; [done|]. split; [done|]. by exists rss.
  Qed.
  (** a single trip: the answer also covers the time the vehicle is on the way *)
  Lemma compute_single_runs h r v ids L t pi fi :
    sane_durations -> sane_capacities -> HInv h -> RouteOK h r v ids L ->
    t ∉ boards L -> (pi < fi < length L)%nat -> Fair h ->
    runs (compute true r [t] pi fi) h (fun rs h' => Fair h' /\
      forall r', r' ∈ rs -> exists ids' L', RouteOK h' r' v ids' L' /\ nearly v L' /\ brief v L').
  Proof.
    intros SD SC HI R Ht Hpf F. unfold compute. step. apply runs_assert; [apply Nat.ltb_lt; lia|]. cbn [mapM]. step. step. step.
    eapply runs_mono; [by eapply (compute_one_runs h r v ids L t pi fi)|].
    intros r' h2 (Lt2 & HI2 & Hr' & Hn & ids' & L' & R' & EL' & F' & B' & _). pose proof (F' true F) as F2. pose proof (B' F) as B2.
    step. eapply runs_mono; [eapply route_feasible_runs; [done|done|apply R'|by eapply RouteW_nonempty]|].
    intros b h3 (S3 & _ & Nb & _). apply runs_ret. step. apply runs_ret. apply runs_ret. apply runs_ret.
    split; [by apply S3|]. intros q Hq. destruct b; cbn in Hq; [|inversion Hq]. apply elem_of_list_singleton in Hq as ->.
    exists ids', L'. split; [by eapply RouteOK_soft|]. destruct (Nb F2 eq_refl) as [N1 N2]. split; [done|].
    destruct (rw_cell _ _ _ _ _ (proj1 R')) as (c & Hc & _ & _).
    destruct (decide (rt_feasible c = Some true)) as [E|E]; [by apply (B2 c)|].
    apply N2. intros c' Hc'. rewrite Hc in Hc'. by injection Hc' as <-.
  Qed.

  (** a route made from [xs] by serving one more trip of [ts] *)
  Definition Cand (h : heap) (v : nat) (xs : list visit) (ts : list nat) (r' : nat) : Prop :=
    exists t i j, t ∈ ts /\ (i < j < length xs)%nat /\ Cand1 h v xs t i j r'.
  Lemma Cand_later h h' v xs ts r' : Cand h v xs ts r' -> later h h' -> Cand h' v xs ts r'.
  Proof. intros (t & i & j & H1 & H2 & H3) Lt. exists t, i, j. split; [done|]. split; [done|]. by eapply Cand1_later. Qed.
  Lemma Cand_same h v xs ys ts r' : map anytime xs = map anytime ys -> Cand h v xs ts r' -> Cand h v ys ts r'.
  Proof.
    intros E (t & i & j & H1 & H2 & H3). exists t, i, j. split; [done|].
    split; [by rewrite <- (anytime_length _ _ E)|]. by eapply Cand1_same.
  Qed.

  Lemma ncr_two n : (2 <= n)%nat -> ncr (Z.of_nat n) 2 = Z.of_nat (length (combinations2 (seq 0 n))).
  Proof.
    intros Hn. pose proof (combinations2_length (seq 0 n)) as E. rewrite seq_length in E.
    unfold ncr. destruct (decide (n = 2)%nat) as [->|H2]; [done|]. destruct (decide (n = 3)%nat) as [->|H3]; [done|].
    replace (Z.min 2 (Z.of_nat n - 2)) with 2 by lia.
    change ((1 * Z.of_nat n * (Z.of_nat n - 1)) / 2 = Z.of_nat (length (combinations2 (seq 0 n)))).
    replace (1 * Z.of_nat n * (Z.of_nat n - 1)) with (Z.of_nat (length (combinations2 (seq 0 n))) * 2) by nia.
    rewrite Z.div_mul; lia.
  Qed.

  Lemma sample_pairs_runs h n count (Q : list (nat * nat) -> heap -> Prop) :
    (2 <= n)%nat ->
    (forall ps k, (forall i j, (i, j) ∈ ps -> (i < j < n)%nat) ->
       Q ps (MkHeap (h_stops h) (h_pts h) (h_routes h) k)) ->
    runs (sample_pairs n count) h Q.
  Proof.
    intros Hn HQ. unfold sample_pairs. step. apply runs_ret. apply HQ. intros i j. unfold sample_index_pairs.
    destruct (_ <=? _).
    - rewrite combinations2_seq. lia.
    - apply w_sample_lt.
  Qed.

  Lemma strategy_pairs_runs st h r v ids L :
    RouteOK h r v ids L ->
    runs (strategy_pairs st r) h (fun ps h' => soft h h' /\ forall i j, (i, j) ∈ ps -> (i < j < length L)%nat).
  Proof.
    intros [RW T]. pose proof (RouteW_length _ _ _ _ _ RW) as Hl. pose proof (tour_length _ _ T) as H2.
    unfold strategy_pairs. step. eapply runs_route_stops; [exact RW|]. rewrite Hl.
    destruct st as [| |count].
    - apply runs_ret. split; [apply soft_refl|]. intros i j Hin. apply elem_of_list_singleton in Hin as [= -> ->]. lia.
    - apply runs_ret. split; [apply soft_refl|]. intros i j Hin. apply combinations2_seq in Hin. lia.
    - apply sample_pairs_runs; [done|]. intros ps k Hps. split; [apply soft_tick|done].
  Qed.

  Lemma strategy_compute_runs st of h r v ids L ts :
    sane_durations -> sane_capacities -> HInv h -> RouteOK h r v ids L ->
    (forall t, t ∈ ts -> t ∉ boards L) ->
    runs (strategy_compute st of r ts) h (fun rs h' => HInv h' /\ evolves h h' /\
      forall r', r' ∈ rs -> (length (h_routes h) <= r')%nat /\ Cand h' v L ts r' /\ (of = true -> Fair h -> Fine h L h' r')).
  Proof.
    intros SD SC HI R Ht. unfold strategy_compute. step. eapply runs_mono; [by eapply strategy_pairs_runs|].
    intros ps h1 [S1 Hps]. pose proof (RouteOK_soft _ _ _ _ _ _ S1 R) as R1. pose proof (HInv_soft _ _ HI S1) as HI1.
    step. eapply runs_mono.
    - apply (runs_mapM_mono evolves evolves_refl evolves_trans _
        (fun h' => HInv h' /\ evolves h1 h')
        (fun p l h' => forall r', r' ∈ l -> (length (h_routes h1) <= r')%nat /\ Cand h' v L ts r' /\ (of = true -> Fair h1 -> Fine h1 L h' r'))).
      + intros p l h2 h3 Hc (Lt & _ & _) r' Hr'. destruct (Hc r' Hr') as (A & B & N). split; [done|]. split; [by eapply Cand_later|].
        intros. eapply Fine_later; [by apply N|done].
      + split; [done|apply evolves_refl].
      + intros [i j] h2 Hin [HI2 E2]. destruct (RouteOK_evolves _ _ _ _ _ _ R1 E2) as (L2 & R2 & S2).
        eapply runs_mono; [eapply (compute_runs of h2 r v ids L2 ts i j); try done|].
        { intros t Hin'. rewrite (boards_same _ _ S2). by apply Ht. }
        { rewrite (anytime_length _ _ S2). by apply Hps. }
        cbn [fst snd]. intros rs h3 (HI3 & E3 & rss & -> & F). split; [split; [done|by eapply evolves_trans]|]. split; [done|].
        intros r' Hr'. apply elem_of_list_In, in_concat in Hr' as (l & Hl & Hr'). apply elem_of_list_In in Hl, Hr'.
        apply elem_of_list_lookup in Hl as [k Hk]. destruct (Forall2_lookup_r _ _ _ _ _ F Hk) as (t & Htk & [[_ ->]|(r2 & -> & Hr2 & C & N)]).
        { inversion Hr'. }
        apply elem_of_list_singleton in Hr' as ->. pose proof E2 as (_ & Hle & HF). split; [lia|]. split; [|intros Ho Fr; destruct (N Ho (HF _ Fr)) as [N1 N2]; split; [done|]; intros Hl Ff Hc; apply N2; [done|auto|exact (calm_evolves _ _ _ _ _ _ _ R1 R2 E2 Hc)]].
        exists t, i, j. split; [by eapply elem_of_list_lookup_2|]. split; [by apply Hps|]. by eapply Cand1_same.
    - intros rss h' ([HI' E'] & _ & F). apply runs_ret. split; [done|].
      split; [eapply evolves_trans; [by apply evolves_soft|done]|].
      intros r' Hr'. apply elem_of_list_In, in_concat in Hr' as (l & Hl & Hr'). apply elem_of_list_In in Hl, Hr'.
      apply elem_of_list_lookup in Hl as [k Hk]. destruct (Forall2_lookup_r _ _ _ _ _ F Hk) as (p & _ & Hc).
      destruct S1 as (_ & _ & _ & L1 & F1). rewrite <- L1. destruct (Hc r' Hr') as (A & B & N). split; [done|]. split; [done|].
      intros Ho Fr. destruct (N Ho (F1 _ Fr)) as [N1 N2]. split; [done|]. auto.
  Qed.
End strategies.
