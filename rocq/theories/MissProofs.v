(** Insertions that keep all limits are found (C70). *)
From Verif Require Export RepresentsProofs StrategyProofs RecallProofs.
From Verif Require Import Reads.

Section miss.
  Context {W : World}.
  Lemma head_departure v L T : tour v L -> head (timetable v L) = Some T -> v_origin_earliest v <= tm_departure T.
  Proof.
    intros T0 E. destruct (tour_first _ _ T0) as (x0 & rest & -> & _ & P & B1 & B2). cbn in E. injection E as <-. cbn.
    unfold visit_duration. rewrite B1, B2. cbn. pose proof (dist_nonneg (v_origin_position v) (vi_place x0)). lia.
  Qed.
  Lemma similar_last v L L' T : tour v L' -> similar v L L' -> last (timetable v L') = Some T ->
    exists T0, last (timetable v L) = Some T0 /\ tm_departure T0 = tm_departure T.
  Proof.
    intros T1 S. pose proof S as (E1 & _). rewrite last_lookup. intros HTn.
    assert (El : length (timetable v L') = length (timetable v L)).
    { unfold timetable. rewrite !schedule_length. apply (f_equal length) in E1. by rewrite !map_length in E1. }
    assert (length (timetable v L') = length L') as El' by apply schedule_length.
    pose proof (tour_length _ _ T1) as Hlen.
    assert (Hn : Nat.pred (length (timetable v L')) <> 0%nat) by (rewrite El'; lia).
    destruct (similar_service v L L' _ T S Hn HTn) as (T0 & HT0 & _ & E & _).
    exists T0. split; [|done]. by rewrite last_lookup, <- El.
  Qed.
  Lemma similar_brisk v L L' : tour v L' -> similar v L L' -> brisk v L -> brisk v L'.
  Proof. intros T S H T1 HT. destruct (similar_last v L L' T1 T S HT) as (T0 & HT0 & <-). by apply H. Qed.
  Lemma similar_fits v L L' : tour v L' -> similar v L L' -> fits v L -> fits v L'.
  Proof.
    intros T S [[A1 A2 A3 A4 A5] R]. pose proof (similar_brisk _ _ _ T S R) as R'. split; [|done]. split.
    - destruct (tour_first _ _ T) as (x0 & rest & -> & _ & E & _). by exists x0.
    - destruct (tour_last _ _ T) as (front & xn & -> & E & _). exists xn. by rewrite last_snoc.
    - intros T1 HT. destruct (similar_last v L L' T1 T S HT) as (T0 & HT0 & <-). by apply A3.
    - intros T0 T1 HT0 HT1. pose proof (head_departure _ _ _ T HT0). eapply at_most_le; [|by apply R']. lia.
    - intros t i j x y Ti Tj Hr Hx Hy HTi HTj. destruct (tour_ride _ _ _ _ _ T Hr) as [Hi Hj]. pose proof S as (_ & E2 & _).
      destruct (similar_service v L L' i Ti S Hi HTi) as (Ti' & HTi' & S1 & S2 & S3).
      destruct (similar_service v L L' j Tj S Hj HTj) as (Tj' & HTj' & S4 & S5 & S6).
      rewrite <- (drop1_eq _ _ i E2 Hi) in Hx. rewrite <- (drop1_eq _ _ j E2 Hj) in Hy.
      assert (Hr' : ride L t i j).
      { destruct Hr as (x' & y' & Hx' & Hy' & Hb & Ha). exists x', y'. rewrite !(drop1_eq _ _ _ E2) by done. done. }
      pose proof (A5 t i j x y Ti' Tj' Hr' Hx Hy HTi' HTj') as N. unfold on_time in *. by rewrite S1, S2, S3, S4, S6 in N.
  Qed.
  Lemma fits_okb v L L' : tour v L' -> similar v L L' -> fits v L -> route_okb v L'.
  Proof.
    intros T S F. apply route_okb_admissible; [|by apply (similar_fits v L L')]. destruct (tour_first _ _ T) as (? & ? & -> & _). done.
  Qed.

  Lemma honest_Worth h : HInv h -> honest h <-> Worth false h.
  Proof.
    intros I. split.
    - intros F. split.
      + intros r rc i s c Hrc _ Hi Hc Hf. destruct (HInv_route _ _ _ I Hrc) as (L & R & ->).
        apply on_tour_RouteOK in R. by apply (proj1 (F _ _ _ _ R) i s c).
      + intros r rc i j s d c p pc Hrc _ Hi Hj Hc Hp Hpc P1 P2 Hf. destruct (HInv_route _ _ _ I Hrc) as (L & R & ->).
        apply on_tour_RouteOK in R. by apply (proj2 (F _ _ _ _ R) i j s d c p pc).
      + done.
    - intros F r v ids xs R. apply on_tour_RouteOK in R. pose proof (RouteW_P _ _ _ _ _ (proj1 R)) as P. split.
      + intros i s c Hi Hc Hf. by apply (Worth_stop false h r v ids xs i s c).
      + intros i j s d c p pc Hi Hj Hc Hp Hpc P1 P2 Hf. by apply (Worth_pt false h r v ids xs i j s d c p pc).
  Qed.

  (** one trip, at one place *)
  Lemma compute_finds_runs h r v ids L t pi fi :
    sane_durations -> sane_capacities -> HInv h -> RouteOK h r v ids L ->
    t ∉ boards L -> (pi < fi < length L)%nat -> Worth false h -> fits v (serve t pi fi L) ->
    runs (compute true r [t] pi fi) h (fun rs h' => exists r' ids' L', rs = [r'] /\ (length (h_routes h) <= r')%nat /\
      RouteOK h' r' v ids' L' /\ similar v (serve t pi fi L) L').
  Proof.
    intros SD SC HI R Ht Hpf F Hfit. unfold compute. step. apply runs_assert; [apply Nat.ltb_lt; lia|]. cbn [mapM]. step. step. step.
    eapply runs_mono; [by eapply (compute_one_runs h r v ids L t pi fi)|].
    intros r' h2 (Lt2 & HI2 & Hr' & Hn & ids' & L' & R' & EL' & F' & _ & _ & _ & O').
    destruct (O' F) as [S2 M2]. { intros L1 T1 S1. by eapply fits_okb. }
    step. eapply runs_mono; [eapply route_feasible_runs; [done|done|apply R'|by eapply RouteW_nonempty]|].
    intros b h3 (S3 & _ & _ & _ & Nb). apply runs_ret. step. apply runs_ret. apply runs_ret. apply runs_ret.
    destruct b.
    - exists r', ids', L'. split; [done|]. split; [lia|]. split; [by eapply RouteOK_soft|done].
    - exfalso. apply Nb; [by apply F'| |done|]. { intros c Hc E. specialize (M2 c Hc). congruence. }
      apply (fits_okb v (serve t pi fi L)); [apply R'|done|done].
  Qed.

  (** serving a trip behind the first visit does not make tours less similar *)
  Lemma serve_similar v t i j L L' : (1 <= i)%nat -> (i < j < length L)%nat -> similar v L L' ->
    similar v (serve t i j L) (serve t i j L').
  Proof.
    intros Hi Hj (E1 & E2 & E3).
    destruct L as [|x0 [|x1 X]]; [cbn in Hj; lia|cbn in Hj; lia|].
    destruct L' as [|y0 [|y1 Y]]; [done|done|]. cbn in E2. injection E2 as <- <-.
    destruct i as [|i]; [lia|]. destruct j as [|[|j]]; [lia|lia|].
    assert (EZ : exists Z, forall z, serve t (S i) (S (S j)) (z :: x1 :: X) = z :: x1 :: Z) by (by exists (take i X ++ pick_up t :: drop i (take j X) ++ drop_off t :: drop j X)).
    destruct EZ as [Z EZ]. rewrite !EZ. split; [|split].
    - cbn in E1 |- *. assert (E : anytime x0 = anytime y0) by congruence. by rewrite E.
    - done.
    - set (T1 := fun z => advance (leave z (advance (ready v) z)) x1).
      assert (ET : forall z Y, drop 1 (map service_of (timetable v (z :: x1 :: Y))) =
        service_of (T1 z) :: map service_of (schedule (leave x1 (T1 z)) Y)) by done.
      rewrite ET, ET in E3. rewrite ET, ET. clearbody T1.
      assert (E : service_of (T1 x0) = service_of (T1 y0)) by congruence. rewrite E. do 2 f_equal.
      apply service_of_eq in E as (_ & E4 & E5). unfold leave. by rewrite E4, E5.
  Qed.
  Lemma similar_tour v L L' : tour v L' -> similar v L L' -> length L = length L'.
  Proof. intros _ (E & _). apply (f_equal length) in E. by rewrite !map_length in E. Qed.

  (** later and nothing recorded for a route is lost *)
  Definition stays (h h' : heap) : Prop := evolves h h' /\ forall r b, memo h r b -> memo h' r b.
  Lemma stays_refl h : stays h h.
  Proof. split; [apply evolves_refl|done]. Qed.
  Lemma stays_trans h1 h2 h3 : stays h1 h2 -> stays h2 h3 -> stays h1 h3.
  Proof. intros [A1 A2] [B1 B2]. split; [by eapply evolves_trans|auto]. Qed.
  Lemma stays_mono h h' : mono h h' -> stays h h'.
  Proof. intros [S M]. split; [by apply evolves_soft|done]. Qed.
  Lemma low_memo {A} (m : M A) P h Q : low (length (h_routes h)) m P -> runs m h Q ->
    runs m h (fun x h' => Q x h' /\ forall r b, memo h r b -> memo h' r b).
  Proof.
    intros K R. destruct (K h (le_n _)) as (K1 & _ & _). unfold runs in *. destruct (m h) as [[x|e] h']; [|done]. split; [done|].
    intros r b (y & Hy & Hb). exists y. cbn in K1. rewrite K1; [done|]. by eapply lookup_lt_Some.
  Qed.

  (** [c] is [xs] with [t] served from [i] to [j] *)
  Definition Found (h : heap) (v : nat) (xs : list visit) (t i j c : nat) : Prop :=
    exists ids ys, RouteOK h c v ids ys /\ similar v (serve t i j xs) ys.
  Lemma Found_evolves h h' v xs t i j c : evolves h h' -> Found h v xs t i j c -> Found h' v xs t i j c.
  Proof.
    intros [Lt _] (ids & ys & R & S). destruct (lt_routes _ _ Lt _ _ _ _ R) as (ys' & R' & S').
    exists ids, ys'. split; [done|]. by eapply similar_trans.
  Qed.

  (** several trips, behind the first visit *)
  Lemma compute_all_runs h r v ids L ts pi fi :
    sane_durations -> sane_capacities -> HInv h -> RouteOK h r v ids L ->
    (forall t, t ∈ ts -> t ∉ boards L) -> (pi < fi < length L)%nat -> Worth false h ->
    runs (compute true r ts pi fi) h (fun rs h' => HInv h' /\ stays h h' /\
      (forall c, c ∈ rs -> memo h' c true) /\
      forall t, t ∈ ts -> (1 <= pi)%nat -> fits v (serve t pi fi L) -> exists c, c ∈ rs /\ Found h' v L t pi fi c).
  Proof.
    intros SD SC HI R Ht Hpf Wf. unfold compute. step. apply runs_assert; [apply Nat.ltb_lt; lia|]. step.
    eapply runs_mono.
    - apply (runs_mapM_mono stays stays_refl stays_trans _
        (fun h' => HInv h' /\ stays h h')
        (fun t l h' => (forall c, c ∈ l -> memo h' c true) /\
          ((1 <= pi)%nat -> fits v (serve t pi fi L) -> exists c, c ∈ l /\ Found h' v L t pi fi c))).
      + intros t l h1 h2 [H1 H2] [E M]. split; [auto|]. intros Hpi Hf. destruct (H2 Hpi Hf) as (c & Hc & F).
        exists c. split; [done|]. by eapply Found_evolves.
      + split; [done|apply stays_refl].
      + intros t h1 Hin [HI1 E1]. destruct (lt_routes _ _ (proj1 (proj1 E1)) _ _ _ _ R) as (L1 & R1 & S1).
        pose proof (similar_tour _ _ _ (proj2 R1) S1) as El.
        step. eapply runs_mono; [eapply low_memo; [apply low_compute_one|eapply (compute_one_runs h1 r v ids L1 t pi fi); try done]|].
        { rewrite <- (boards_anytime L1), <- (proj1 S1), boards_anytime. by apply Ht. }
        { by rewrite <- El. }
        intros r' h2 ((Lt2 & HI2 & Hr' & Hn & ids' & L' & R' & EL' & F' & _ & _ & _ & O') & M2).
        assert (E2 : stays h1 h2) by (split; [split; [done|split; [lia|done]]|done]).
        step. pose proof (route_feasible_mono h2 r' v ids' L' SD SC R') as G1.
        pose proof (route_feasible_runs h2 r' v ids' L' SD SC (proj1 R') (RouteW_nonempty _ _ _ _ _ R')) as G2.
        apply runs_eq in G1 as (b & h3 & E3 & M3 & Mb & _). apply runs_eq in G2 as (b' & h3' & E3' & S3 & _ & _ & _ & Nb).
        rewrite E3 in E3'. injection E3' as <- <-. apply runs_eq. exists b, h3.
        split; [done|]. apply runs_ret.
        assert (E13 : stays h1 h3) by (eapply stays_trans; [exact E2|by apply stays_mono]).
        split; [split; [by eapply HInv_soft|by eapply stays_trans]|]. split; [done|]. split.
        { intros c Hc. destruct b; [|inversion Hc]. by apply elem_of_list_singleton in Hc as ->. }
        intros Hpi Hf. pose proof (serve_similar v t pi fi L L1 Hpi Hpf S1) as SS.
        assert (Wf1 : Worth false h1) by by apply (proj1 E1).
        assert (Hs : forall L2, tour v L2 -> similar v (serve t pi fi L1) L2 -> route_okb v L2).
        { intros L2 T2 S2. eapply (fits_okb v (serve t pi fi L)); [done|by eapply similar_trans|done]. }
        destruct (O' Wf1 Hs) as [S2 Mt].
        destruct b.
        * exists r'. split; [left|]. exists ids', L'. split; [by eapply RouteOK_soft|by eapply similar_trans].
        * exfalso. apply Nb; [by apply F'| |done|]. { intros c Hc E. specialize (Mt c Hc). congruence. }
          apply Hs; [apply R'|done].
    - intros rss h' ([HI' E'] & _ & F). apply runs_ret. split; [done|]. split; [done|]. split.
      + intros c Hc. apply elem_of_list_In, in_concat in Hc as (l & Hl & Hc). apply elem_of_list_In in Hl, Hc.
        apply elem_of_list_lookup in Hl as [k Hk]. destruct (Forall2_lookup_r _ _ _ _ _ F Hk) as (t & _ & H & _). auto.
      + intros t Hin Hpi Hf. apply elem_of_list_lookup in Hin as [k Hk].
        destruct (Forall2_lookup_l _ _ _ _ _ F Hk) as (l & Hl & _ & H). destruct (H Hpi Hf) as (c & Hc & HF). exists c. split; [|done].
        apply elem_of_list_In, in_concat. exists l. split; apply elem_of_list_In; [by eapply elem_of_list_lookup_2|done].
  Qed.

  (** the exhaustive strategy *)
  Lemma intensive_runs h r v ids L ts :
    sane_durations -> sane_capacities -> HInv h -> RouteOK h r v ids L ->
    (forall t, t ∈ ts -> t ∉ boards L) -> Worth false h ->
    runs (strategy_compute Intensive true r ts) h (fun rs h' => HInv h' /\ stays h h' /\
      (forall c, c ∈ rs -> memo h' c true) /\
      forall t i j, t ∈ ts -> (1 <= i)%nat -> (i < j < length L)%nat -> fits v (serve t i j L) ->
        exists c, c ∈ rs /\ Found h' v L t i j c).
  Proof.
    intros SD SC HI R Ht Wf. unfold strategy_compute. step. unfold strategy_pairs. step.
    eapply runs_route_stops; [apply R|]. rewrite (RouteW_length _ _ _ _ _ (proj1 R)). apply runs_ret. step.
    eapply runs_mono.
    - apply (runs_mapM_mono stays stays_refl stays_trans _
        (fun h' => HInv h' /\ stays h h')
        (fun p l h' => (forall c, c ∈ l -> memo h' c true) /\
          forall t, t ∈ ts -> (1 <= p.1)%nat -> fits v (serve t p.1 p.2 L) -> exists c, c ∈ l /\ Found h' v L t p.1 p.2 c)).
      + intros p l h1 h2 [H1 H2] [E M]. split; [auto|]. intros t Hin Hi Hf. destruct (H2 t Hin Hi Hf) as (c & Hc & F).
        exists c. split; [done|]. by eapply Found_evolves.
      + split; [done|apply stays_refl].
      + intros [i j] h1 Hin [HI1 E1]. apply combinations2_seq in Hin.
        destruct (lt_routes _ _ (proj1 (proj1 E1)) _ _ _ _ R) as (L1 & R1 & S1).
        pose proof (similar_tour _ _ _ (proj2 R1) S1) as El. cbn [fst snd].
        eapply runs_mono; [eapply (compute_all_runs h1 r v ids L1 ts i j); try done|].
        { intros t Hin'. rewrite <- (boards_anytime L1), <- (proj1 S1), boards_anytime. by apply Ht. }
        { rewrite <- El. lia. }
        { by apply (proj1 E1). }
        intros rs h2 (HI2 & E2 & M2 & F2). split; [split; [done|by eapply stays_trans]|]. split; [done|]. split; [done|].
        intros t Hin' Hi Hf. assert (Hij : (i < j < length L)%nat) by lia. pose proof (serve_similar v t i j L L1 Hi Hij S1) as SS.
        assert (T1 : tour v (serve t i j L1)).
        { apply tour_serve; [apply R1| |rewrite <- El; lia].
          rewrite <- (boards_anytime L1), <- (proj1 S1), boards_anytime. by apply Ht. }
        destruct (F2 t Hin' Hi) as (c & Hc & ids' & ys & R' & S'); [by eapply similar_fits|].
        exists c. split; [done|]. exists ids', ys. split; [done|]. by eapply similar_trans.
    - intros rss h' ([HI' E'] & _ & F). apply runs_ret. split; [done|]. split; [done|]. split.
      + intros c Hc. apply elem_of_list_In, in_concat in Hc as (l & Hl & Hc). apply elem_of_list_In in Hl, Hc.
        apply elem_of_list_lookup in Hl as [k Hk]. destruct (Forall2_lookup_r _ _ _ _ _ F Hk) as (p & _ & H & _). auto.
      + intros t i j Hin Hi Hij Hf.
        assert (Hp : (i, j) ∈ combinations2 (seq 0 (length L))) by (apply combinations2_seq; lia).
        apply elem_of_list_lookup in Hp as [k Hk].
        destruct (Forall2_lookup_l _ _ _ _ _ F Hk) as (l & Hl & _ & H). destruct (H t Hin Hi Hf) as (c & Hc & HF). exists c. split; [|done].
        apply elem_of_list_In, in_concat. exists l. split; apply elem_of_list_In; [by eapply elem_of_list_lookup_2|done].
  Qed.
End miss.
