(** Search by reallocation takes a best move (C74). *)
From Verif Require Export SpecMoves LocalTheorems.
From Verif Require Import MissProofs FullProofs DetourTheorems InsertTheorems Reads.

Section moves.
  Context {W : World}.
  #[local] Existing Instance simple_shape.
  Lemma move_similar o v xs w ys t i j gain xs' ys' : tour v xs -> tour v xs' -> tour w ys -> tour w ys' ->
    similar v xs xs' -> similar w ys ys' -> move o v xs w ys t i j gain -> move o v xs' w ys' t i j gain.
  Proof.
    intros T1 T2 T3 T4 S1 S2 (H1 & H2 & H3). split; [|split].
    - by rewrite <- (boards_anytime xs'), <- (proj1 S1), boards_anytime.
    - by rewrite <- (similar_tour _ _ _ T4 S2).
    - intros xs2 ys2 T5 S3 T6 S4. unfold price at 3 4.
      rewrite <- (value_similar o v xs xs' T1 T2 S1), <- (value_similar o w ys ys' T3 T4 S2).
      apply H3; [done|by eapply similar_trans|done|by eapply similar_trans].
  Qed.

  (** ** The best value only rises *)
  Definition rises (st : realloc_state) (m : M realloc_state) : Prop :=
    forall h st' h', m h = (Ok st', h') -> ra_best st <= ra_best st'.
  Lemma rises_ret st st' : ra_best st <= ra_best st' -> rises st (ret st').
  Proof. intros H h ? ? [= <- <-]. done. Qed.
  Lemma rises_bind {A} st (m : M A) k : (forall a, rises st (k a)) -> rises st (bind m k).
  Proof. intros H h st' h'. unfold bind. destruct (m h) as [[a|e] h1]; [|done]. apply H. Qed.
  Lemma rises_foldM {A} (f : realloc_state -> A -> M realloc_state) l : (forall st x, rises st (f st x)) -> forall st, rises st (foldM f st l).
  Proof.
    intros H. induction l as [|x l IH]; intros st; [by apply rises_ret|]. cbn. intros h st' h'. unfold bind.
    destruct (f st x h) as [[st1|e] h1] eqn:E; [|done]. intros E'. apply H in E. apply IH in E'. lia.
  Qed.
  Lemma rises_insert o a r t cost st p : rises st (realloc_insert o a r t cost st p).
  Proof.
    unfold realloc_insert. apply rises_bind. intros [|d ds]; [by apply rises_ret|]. apply rises_bind. intros x. apply rises_bind. intros z.
    destruct (Z.ltb_spec (ra_best st) (cost + z)); cbn [negb]; apply rises_ret; cbn; lia.
  Qed.
  Lemma rises_trip o q r partial st t : rises st (realloc_trip o q r partial st t).
  Proof.
    unfold realloc_trip. do 4 (apply rises_bind; intros ?). destruct (negb _); [by apply rises_ret|].
    do 4 (apply rises_bind; intros ?). apply rises_foldM. intros. apply rises_insert.
  Qed.
  Lemma rises_pair o base st p : rises st (realloc_pair o base st p).
  Proof. unfold realloc_pair. do 5 (apply rises_bind; intros ?). apply rises_foldM. intros. apply rises_trip. Qed.
  (** so that what one element brings is not lost *)
  Lemma foldM_hits {A} (f : realloc_state -> A -> M realloc_state) (I : realloc_state -> heap -> Prop) l x k :
    (forall st x, rises st (f st x)) -> x ∈ l -> (forall st y h, y ∈ l -> I st h -> runs (f st y) h I) ->
    (forall st h, I st h -> runs (f st x) h (fun st' _ => k <= ra_best st')) ->
    forall st h, I st h -> runs (foldM f st l) h (fun st' h' => I st' h' /\ k <= ra_best st').
  Proof.
    intros Hr Hx HI Hk. induction l as [|y l IH]; [inversion Hx|]. intros st h H. cbn [foldM]. apply elem_of_cons in Hx as [->|Hx].
    - step. eapply runs_mono; [apply runs_both; [apply HI; [left|done]|by apply Hk]|]. intros st1 h1 [H1 K1]. cbn beta.
      assert (G : runs (foldM f st1 l) h1 I) by (apply runs_foldM; [done|]; intros; apply HI; [by right|done]).
      apply runs_eq in G as (st2 & h2 & E & H2). apply runs_eq. exists st2, h2. split; [done|]. split; [done|].
      apply (rises_foldM f l Hr) in E. lia.
    - step. eapply runs_mono; [apply HI; [left|done]|]. intros st1 h1 H1. apply IH; [done| |done]. intros; apply HI; [by right|done].
  Qed.
End moves.

Section best_move.
  Context {W : World}.
  #[local] Existing Instance simple_shape.

  Lemma value_price o v L (z : Z) : last (value_of o v L) = Some z -> price o v L = z.
  Proof. unfold price. by intros ->. Qed.
  Lemma Priced_price o h r v ids L z : RouteOK h r v ids L -> Priced o h r z -> z = price o v L.
  Proof.
    intros R P. destruct (value_of_last o v L) as (z' & Hz & _). rewrite (value_price _ _ _ _ Hz).
    eapply Priced_det; [exact P|]. by exists v, ids, L.
  Qed.

  Lemma insert_hits o h r w ids M t i j cost st a : sane -> HInv h -> Worth false h -> RouteOK h r w ids M -> t ∉ boards M ->
    (i < j < length M)%nat -> fits w (serve t i j M) ->
    runs (realloc_insert o a r t cost st (i, j)) h (fun st' _ => cost + price o w (serve t i j M) <= ra_best st').
  Proof.
    intros [SD SC] HI Wf R Ht Hij Hf. unfold realloc_insert. cbn [fst snd]. step.
    eapply runs_mono; [by apply (compute_finds_runs h r w ids M t i j)|]. intros ds h1 (d & ids' & M' & -> & _ & R' & S).
    step. eapply gives_det_runs; [eapply route_value_gives, R'|]. intros h2 _.
    destruct (value_of_last o w M') as (z & Hz & _). step. eapply last_component_runs; [exact Hz|].
    assert (E : price o w (serve t i j M) = z).
    { unfold price. rewrite (value_similar o w _ M'); [by rewrite Hz|by apply tour_serve; [apply R| |]|apply R'|done]. }
    rewrite E. destruct (Z.ltb_spec (ra_best st) (cost + z)); cbn [negb]; apply runs_ret; cbn; lia.
  Qed.

  Lemma trip_hits o base rs q r v w B C t i j zq zr partial st h gain :
    sane -> HInv h -> Worth false h -> q ∈ rs -> r ∈ rs -> Serves h q v B -> Serves h r w C -> t ∈ B -> t ∉ C -> v <> w ->
    Priced o h q zq -> Priced o h r zr -> partial = base - zq - zr -> LocalProofs.Found o base h rs st ->
    (forall ids ids' L M, RouteOK h q v ids L -> RouteOK h r w ids' M -> (length M <= 16)%nat /\ move o v L w M t i j gain) ->
    runs (realloc_trip o q r partial st t) h (fun st' _ => base + gain <= ra_best st').
  Proof.
    intros Hs HI Wf Hq Hr Sq Sr HtB HtC Hne Pq Pr -> F Hm. unfold realloc_trip.
    pose proof (take_out_runs h q v B t Hs HI ltac:(done) Sq HtB) as TA.
    pose proof Sq as (ids & L & R & G & EB). pose proof Sr as (ids' & M & R' & G' & EC). cbn in G, G'.
    assert (D : dedicated t L) by (eapply simple_dedicated; [apply R|done]).
    assert (TB := take_off_runs h q v ids L t Hs R ltac:(by rewrite EB) D).
    destruct (Hm _ _ _ _ R R') as (H16 & Ht & Hij & HM).
    pose proof (runs_both _ _ _ _ TA TB) as T. clear TA TB. apply runs_bind_inv in T. step.
    eapply runs_mono; [exact T|]. clear T. intros a h1 T. apply runs_bind_inv in T. step.
    eapply runs_mono; [exact T|]. clear T. intros ? h2 T. apply runs_bind_inv in T. step.
    eapply runs_mono; [exact T|]. clear T. intros ? h3 T. apply runs_bind_inv in T. step.
    eapply runs_mono; [exact T|]. clear T. intros b h4 T. unfold runs, ret in T. cbn in T.
    destruct T as ((E4 & HI4 & Sa) & _ & _ & idsa & Ra & _ & Hb).
    destruct (HM L M (proj2 R) (similar_refl _ _) (proj2 R') (similar_refl _ _)) as (F1 & F2 & Hg).
    rewrite (proj2 Hb (proj1 F1)). rewrite (proj2 Hb (proj1 F1)) in Sa. cbn [negb]. destruct (Sa eq_refl) as (B' & Sa' & HB). clear Sa. rename Sa' into Sa.
    step. eapply serves_value_runs; [exact Sa|]. intros x z h5 Hx Pz S5. step. eapply last_component_runs; [done|].
    pose proof (Priced_price _ _ _ _ _ _ _ Ra Pz) as Ez.
    assert (E5 : evolves h h5) by (eapply evolves_trans; [exact E4|by apply evolves_soft]).
    assert (HI5 : HInv h5) by by eapply HInv_soft.
    destruct (lt_routes _ _ (proj1 E5) _ _ _ _ R') as (M5 & R5 & SM5).
    step. eapply runs_route_stops; [apply R5|]. pose proof (RouteW_length _ _ _ _ _ (proj1 R5)) as Hl.
    pose proof (tour_length _ _ (proj2 R5)) as H2. pose proof (similar_tour _ _ _ (proj2 R5) SM5) as EM5.
    step. unfold sample_pairs. step. unfold tick at 1. unfold runs at 1. cbn beta iota.
    set (h6 := MkHeap _ _ _ _). apply runs_ret. set (ps := sample_index_pairs _ _ _).
    assert (Hps : forall i j, (i, j) ∈ ps <-> (i < j < length M5)%nat).
    { intros i0 j0. subst ps. rewrite Hl. apply c16_all; [done|].
      change 128%nat with (16 * 8)%nat. rewrite EM5 in H16. apply Nat.div_le_upper_bound; [done|]. nia. }
    assert (E6 : evolves h h6) by (eapply evolves_trans; [exact E5|apply evolves_tick]).
    assert (HI6 : HInv h6) by by apply HInv_tick.
    eapply runs_mono.
    { apply (foldM_hits (realloc_insert o a r t (base - zq - zr + z)) (fun st' h' => evolves h6 h' /\ HInv h' /\ LocalProofs.Found o base h' rs st') ps (i, j) (base + gain)).
      - intros. apply rises_insert.
      - apply Hps. lia.
      - intros st' [i0 j0] h7 Hp (E7 & HI7 & F7).
        assert (E57 : evolves h5 h7) by (eapply evolves_trans; [apply evolves_tick|exact E7]).
        assert (E07 : evolves h h7) by (eapply evolves_trans; [exact E5|exact E57]).
        assert (E47 : evolves h4 h7) by (eapply evolves_trans; [by apply evolves_soft|exact E57]).
        eapply runs_mono; [apply (realloc_insert_runs o base rs q r w C v B t a B' z zq zr); try done|].
        + by eapply Serves_evolves; [exact E07|].
        + by eapply Serves_evolves; [exact E07|].
        + by eapply Serves_evolves; [exact E47|].
        + by eapply Priced_evolves; [exact E07|].
        + by eapply Priced_evolves; [exact E07|].
        + by eapply Priced_evolves; [exact E47|].
        + apply Hps in Hp. cbn. split; [lia|]. intros ids2 L' R2.
          destruct (RouteOK_evolves _ _ _ _ _ _ R5 E57) as (L7 & R7 & E). destruct (RouteW_det _ _ _ _ _ _ _ _ (proj1 R2) (proj1 R7)) as (_ & _ & ->).
          rewrite (anytime_length _ _ E). lia.
        + intros st'' h8 (E8 & HI8 & F8). split; [by eapply evolves_trans|done].
      - intros st' h7 (E7 & HI7 & F7). assert (E07 : evolves h h7) by by eapply evolves_trans.
        destruct (lt_routes _ _ (proj1 E07) _ _ _ _ R') as (M7 & R7 & SM7).
        destruct (HM L M7 (proj2 R) (similar_refl _ _) (proj2 R7) SM7) as (_ & F7' & Hg7).
        eapply runs_mono; [apply (insert_hits o h7 r w ids' M7 t i j); try done|].
        + by apply E07.
        + rewrite <- (boards_anytime M7), <- (proj1 SM7), boards_anytime. by rewrite EC.
        + by rewrite <- (similar_tour _ _ _ (proj2 R7) SM7).
        + intros st'' h8 H. rewrite (Priced_price _ _ _ _ _ _ _ R Pq), (Priced_price _ _ _ _ _ _ _ R' Pr), Ez in H. lia.
      - split; [apply evolves_refl|]. split; [done|]. by eapply LocalProofs.Found_evolves. }
    intros st' h7 (_ & H). done.
  Qed.

  Definition Movable (o : objective) (h : heap) (q r v w t i j : nat) (gain : Z) : Prop :=
    exists ids ids' L M, RouteOK h q v ids L /\ RouteOK h r w ids' M /\ (length M <= 16)%nat /\ move o v L w M t i j gain.
  Lemma Movable_evolves o h h' q r v w t i j gain : evolves h h' -> Movable o h q r v w t i j gain -> Movable o h' q r v w t i j gain.
  Proof.
    intros E (ids & ids' & L & M & R & R' & H1 & H2). destruct (lt_routes _ _ (proj1 E) _ _ _ _ R) as (L1 & R1 & S1).
    destruct (lt_routes _ _ (proj1 E) _ _ _ _ R') as (M1 & R1' & S1'). exists ids, ids', L1, M1. split; [done|]. split; [done|].
    split; [by rewrite <- (similar_tour _ _ _ (proj2 R1') S1')|]. by eapply (move_similar o v L w M); [apply R|apply R1|apply R'|apply R1'| | |].
  Qed.
  Lemma Movable_det o h q r v w t i j gain ids ids' L M : Movable o h q r v w t i j gain -> RouteOK h q v ids L -> RouteOK h r w ids' M ->
    (length M <= 16)%nat /\ move o v L w M t i j gain.
  Proof.
    intros (ids1 & ids1' & L1 & M1 & R & R' & H1 & H2) R1 R1'.
    destruct (RouteW_det _ _ _ _ _ _ _ _ (proj1 R) (proj1 R1)) as (_ & _ & ->).
    by destruct (RouteW_det _ _ _ _ _ _ _ _ (proj1 R') (proj1 R1')) as (_ & _ & ->).
  Qed.

  Lemma pair_hits o base rs A q r v w t i j st h gain :
    sane -> HInv h -> Worth false h -> Plan h rs A -> (q, r) ∈ permutations2 rs -> LocalProofs.Found o base h rs st ->
    Movable o h q r v w t i j gain ->
    runs (realloc_pair o base st (q, r)) h (fun st' _ => base + gain <= ra_best st').
  Proof.
    intros Hs HI Wf (FS & N1 & N2) (k & l & Hkl & Hk & Hl)%permutations2_elem F Mv.
    destruct (Forall2_lookup_l _ _ _ _ _ FS Hk) as ([v' B] & Ai & Sq). destruct (Forall2_lookup_l _ _ _ _ _ FS Hl) as ([w' C] & Aj & Sr).
    cbn [fst snd] in Sq, Sr.
    assert (v' = v /\ w' = w /\ t ∈ B) as (-> & -> & HtB).
    { destruct Mv as (ids1 & ids1' & L1 & M1 & R & R' & H1 & H2). destruct Sq as (ids & L & R2 & _ & <-). destruct Sr as (ids' & M & R2' & _ & <-).
      destruct (RouteW_det _ _ _ _ _ _ _ _ (proj1 R) (proj1 R2)) as (<- & _ & <-).
      destruct (RouteW_det _ _ _ _ _ _ _ _ (proj1 R') (proj1 R2')) as (<- & _ & <-). split; [done|]. split; [done|]. apply H2. }
    assert (Hne : v <> w).
    { intros <-. apply Hkl. eapply NoDup_lookup_eq; [exact N1| |]; rewrite list_lookup_fmap; [rewrite Ai|rewrite Aj]; done. }
    assert (HtC : t ∉ C).
    { intros HtC. apply Hkl. eapply (concat_disjoint (map snd A) k l B C t); [done| | |done|done].
      - by rewrite list_lookup_fmap, Ai.
      - by rewrite list_lookup_fmap, Aj. }
    unfold realloc_pair. cbn [fst snd].
    step. eapply serves_value_runs; [exact Sq|]. intros x1 z1 h1 Hx1 P1 S1. step. eapply last_component_runs; [done|].
    pose proof (Serves_soft _ _ _ _ _ S1 Sr) as Sr1. pose proof (Serves_soft _ _ _ _ _ S1 Sq) as Sq1.
    step. eapply serves_value_runs; [exact Sr1|]. intros x2 z2 h2 Hx2 P2 S2. step. eapply last_component_runs; [done|].
    pose proof (Serves_soft _ _ _ _ _ S2 Sr1) as Sr2. pose proof (Serves_soft _ _ _ _ _ S2 Sq1) as Sq2.
    assert (E2 : evolves h h2) by (eapply evolves_trans; by apply evolves_soft).
    assert (HI2 : HInv h2) by (eapply HInv_soft; [|exact S2]; by eapply HInv_soft).
    step. eapply runs_serves_trips; [exact Sq2|].
    assert (Hin : forall h3 (E3 : evolves h2 h3), Priced o h3 q z1 /\ Priced o h3 r z2).
    { intros h3 E3. split; [eapply Priced_evolves; [|exact P1]; by eapply evolves_trans|].
      eapply Priced_evolves; [|exact P2]. eapply evolves_trans; [by apply evolves_soft|done]. }
    eapply runs_mono.
    { apply (foldM_hits (realloc_trip o q r (base - z1 - z2)) (fun st' h' => evolves h2 h' /\ HInv h' /\ LocalProofs.Found o base h' rs st') B t (base + gain)).
      - intros. apply rises_trip.
      - done.
      - intros st' u h3 Hu (E3 & HI3 & F3). destruct (Hin h3 E3) as [Q1 Q2].
        eapply runs_mono; [apply (realloc_trip_runs o base rs r w C v B q u z1 z2); try done|].
        + by eapply elem_of_list_lookup_2.
        + by eapply elem_of_list_lookup_2.
        + by eapply Serves_evolves.
        + by eapply Serves_evolves.
        + intros HuC. apply Hkl. eapply (concat_disjoint (map snd A) k l B C u); [done| | |done|done].
          * by rewrite list_lookup_fmap, Ai.
          * by rewrite list_lookup_fmap, Aj.
        + intros st'' h4 (E4 & HI4 & F4). split; [by eapply evolves_trans|done].
      - intros st' h3 (E3 & HI3 & F3). destruct (Hin h3 E3) as [Q1 Q2]. assert (E03 : evolves h h3) by by eapply evolves_trans.
        apply (trip_hits o base rs q r v w B C t i j z1 z2); try done.
        + by apply E03.
        + by eapply elem_of_list_lookup_2.
        + by eapply elem_of_list_lookup_2.
        + by eapply Serves_evolves.
        + by eapply Serves_evolves.
        + intros ids ids' L M R R'. eapply Movable_det; [|exact R|exact R']. by eapply Movable_evolves.
      - split; [apply evolves_refl|]. split; [done|]. by eapply LocalProofs.Found_evolves. }
    intros st' h3 [_ H]. done.
  Qed.

  Lemma permutations2_intro {T} (l : list T) (a b : T) : a ∈ l -> b ∈ l -> a <> b -> (a, b) ∈ permutations2 l.
  Proof.
    intros [i Hi]%elem_of_list_lookup_1 [j Hj]%elem_of_list_lookup_1 Hne. unfold permutations2. apply elem_of_list_In, in_flat_map.
    exists i. split; [apply in_seq; apply lookup_lt_Some in Hi; lia|]. apply in_flat_map. exists j.
    split; [apply in_seq; apply lookup_lt_Some in Hj; lia|]. rewrite decide_False by congruence. rewrite Hi, Hj. by left.
  Qed.
  Lemma reallocation_hits o h rs A z q r v w t i j gain : sane -> HInv h -> Worth false h -> Plan h rs A -> Sold o h rs z ->
    q ∈ rs -> r ∈ rs -> q <> r -> Movable o h q r v w t i j gain ->
    runs (reallocation_improve o rs) h (fun rs' h' => evolves h h' /\ HInv h' /\ (exists A', Plan h' rs' A') /\ exists z', Sold o h' rs' z' /\ z + gain <= z').
  Proof.
    intros Hs HI Wf P Z Hq Hr Hne Mv. unfold reallocation_improve. destruct (Plan_sold o h rs A P) as (z' & Z' & Hx).
    pose proof (Sold_det _ _ _ _ _ Z' Z) as ->.
    step. eapply gives_det_runs; [apply planning_value_gives, Hx|]. intros h1 [S1 _].
    step. eapply (last_component_runs _ z); [by destruct o|]. step. apply runs_set_order. intros rs1 Hrs1. set (h2 := MkHeap _ _ _ _).
    assert (S2 : soft h h2) by (eapply soft_trans; [exact S1|apply soft_tick]).
    assert (E2 : evolves h h2) by by apply evolves_soft. assert (HI2 : HInv h2) by by eapply HInv_soft.
    pose proof (Plan_evolves _ _ _ _ E2 P) as P2. destruct (Plan_perm _ _ rs1 _ ltac:(by symmetry) P2) as (A1 & PA & P1).
    step. eapply runs_mono.
    { apply (foldM_hits (realloc_pair o z) (fun st' h' => evolves h2 h' /\ HInv h' /\ LocalProofs.Found o z h' rs1 st') (permutations2 rs1) (q, r) (z + gain)).
      - intros. apply rises_pair.
      - apply permutations2_intro; [by rewrite Hrs1..|done].
      - intros st' p h3 Hp (E3 & HI3 & F3).
        eapply runs_mono; [apply (realloc_pair_runs o z rs1 A1 p st' h3 Hs HI3 ltac:(done)); try done; by eapply Plan_evolves|].
        intros st'' h4 (E4 & HI4 & F4). split; [by eapply evolves_trans|done].
      - intros st' h3 (E3 & HI3 & F3). assert (E03 : evolves h h3) by by eapply evolves_trans.
        apply (pair_hits o z rs1 A1 q r v w t i j); try done.
        + by apply E03.
        + exact (Plan_evolves _ _ _ _ E3 P1).
        + apply permutations2_intro; [by rewrite Hrs1..|done].
        + exact (Movable_evolves _ _ _ _ _ _ _ _ _ _ _ E03 Mv).
      - split; [apply evolves_refl|]. split; [done|]. by left. }
    intros st h3 [(E3 & HI3 & F3) Hk]. pose proof (Plan_evolves _ _ _ _ E3 P2) as P3.
    assert (E03 : evolves h h3) by by eapply evolves_trans.
    pose proof (Sold_evolves _ _ _ _ _ E03 Z) as Z3.
    destruct F3 as [[-> Eb]|(a & b & -> & Hb & Mb)].
    { apply runs_ret. split; [done|]. split; [done|]. split; [by exists A|]. exists z. split; [done|]. lia. }
    eapply runs_mono; [apply (update_routes_runs o h3 rs A a b z (ra_best st - z) P3 Z3)|].
    { destruct Mb as (q0 & r0 & Mb). exists q0, r0. destruct Mb as (v0 & B0 & w0 & C0 & t0 & B1 & C1 & zq & zr & za & zb & M1 & M2 & M3 & M4).
      rewrite Hrs1 in M2, M3. exists v0, B0, w0, C0, t0, B1, C1, zq, zr, za, zb. by repeat (split; [done|]). }
    intros rs' ? (-> & HZ & v0 & B0 & w0 & C0 & t0 & B1 & C1 & A0 & H1 & H2 & H3 & H4 & A' & H5 & H6). split; [done|]. split; [done|].
    split; [by exists A'|]. eexists. split; [exact HZ|]. lia.
  Qed.

  Lemma improve_hits o h rs A z q r v w t i j gain : sane -> HInv h -> Worth false h -> Plan h rs A -> Sold o h rs z ->
    q ∈ rs -> r ∈ rs -> q <> r -> Movable o h q r v w t i j gain ->
    runs (ls_improve Reallocation o rs) h (fun rs' h' => exists z', Sold o h' rs' z' /\ z + gain <= z').
  Proof.
    intros Hs HI Wf P Z Hq Hr Hne Mv. unfold ls_improve. step. eapply runs_mono; [apply deepcopy_runs|].
    { intros r0 Hr0. destruct (Plan_served _ _ _ _ P Hr0) as (v0 & B & S). destruct (Serves_cell _ _ _ _ S) as (c & Hc & _). eauto. }
    intros rs1 h1 (HC & Ers & F). assert (HI1 : HInv h1) by by eapply Copied_HInv.
    assert (E1 : evolves h h1) by by apply Copied_evolves.
    assert (P1 : Plan h1 rs1 A).
    { destruct P as (FS & N). split; [|done]. clear -FS F HC. revert A FS. induction F as [|r r' rs rs1 (c & Hc & Hc') F IH]; intros A FS.
      - inversion FS. constructor.
      - inversion FS as [|? a ? A' S FS']; subst. constructor; [|by apply IH]. destruct S as (ids & L & R & G & EB).
        exists (map (up h) ids), L. split; [|done]. by eapply Copied_route. }
    assert (Z1 : Sold o h1 rs1 z).
    { destruct Z as (zs & FZ & ->). exists zs. split; [|done]. clear -FZ F HC. revert zs FZ. induction F as [|r r' rs rs1 (c & Hc & Hc') F IH]; intros zs FZ.
      - inversion FZ. constructor.
      - inversion FZ as [|? a ? A' S FS']; subst. constructor; [|by apply IH]. destruct S as (v & ids & L & R & G).
        exists v, (map (up h) ids), L. split; [|done]. by eapply Copied_route. }
    assert (exists q1 r1, q1 ∈ rs1 /\ r1 ∈ rs1 /\ q1 <> r1 /\ Movable o h1 q1 r1 v w t i j gain) as (q1 & r1 & Hq1 & Hr1 & Hne1 & Mv1).
    { apply elem_of_list_lookup_1 in Hq as [k Hk]. apply elem_of_list_lookup_1 in Hr as [l Hl].
      destruct (Forall2_lookup_l _ _ _ _ _ F Hk) as (q1 & Hk1 & c & Hc & Hc1). destruct (Forall2_lookup_l _ _ _ _ _ F Hl) as (r1 & Hl1 & d & Hd & Hd1).
      exists q1, r1. split; [by eapply elem_of_list_lookup_2|]. split; [by eapply elem_of_list_lookup_2|].
      destruct Mv as (ids & ids' & L & M & R & R' & H16 & Hm).
      assert (R1 : RouteOK h1 q1 v (map (up h) ids) L) by by eapply Copied_route.
      assert (R1' : RouteOK h1 r1 w (map (up h) ids') M) by by eapply Copied_route.
      split; [|by exists (map (up h) ids), (map (up h) ids'), L, M]. intros <-.
      destruct P as (FS & N1 & N2).
      destruct (Forall2_lookup_l _ _ _ _ _ FS Hk) as ([v' B] & Ai & Sq). destruct (Forall2_lookup_l _ _ _ _ _ FS Hl) as ([w' C] & Aj & Sr). cbn [fst snd] in Sq, Sr.
      destruct Sq as (ids2 & L2 & R2 & _). destruct Sr as (ids3 & L3 & R3 & _).
      destruct (RouteW_det _ _ _ _ _ _ _ _ (proj1 R) (proj1 R2)) as (<- & _ & _). destruct (RouteW_det _ _ _ _ _ _ _ _ (proj1 R') (proj1 R3)) as (<- & _ & _).
      destruct (RouteW_det _ _ _ _ _ _ _ _ (proj1 R1) (proj1 R1')) as (<- & _ & _).
      apply Hne. assert (k = l) as <-; [|congruence].
      eapply NoDup_lookup_eq; [exact N1| |]; rewrite list_lookup_fmap; [rewrite Ai|rewrite Aj]; done. }
    step. eapply runs_mono; [by eapply check_routes_runs|]. intros ? h2 S2.
    assert (HI2 : HInv h2) by by eapply HInv_soft. pose proof (Plan_evolves _ _ _ _ (evolves_soft _ _ S2) P1) as P2.
    pose proof (Sold_evolves _ _ _ _ _ (evolves_soft _ _ S2) Z1) as Z2.
    assert (E02 : evolves h h2) by (eapply evolves_trans; [exact E1|by apply evolves_soft]).
    step. eapply runs_mono; [apply (reallocation_hits o h2 rs1 A z q1 r1 v w t i j gain Hs HI2); try done|].
    { by apply E02. }
    { exact (Movable_evolves _ _ _ _ _ _ _ _ _ _ _ (evolves_soft _ _ S2) Mv1). }
    intros rs3 h3 (E3 & HI3 & (A3 & P3) & z3 & Z3 & Hz).
    step. eapply runs_mono; [by eapply check_routes_runs|]. intros ? h4 S4. apply runs_ret. exists z3. split; [|done].
    exact (Sold_evolves _ _ _ _ _ (evolves_soft _ _ S4) Z3).
  Qed.
End best_move.
