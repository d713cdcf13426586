(** C73: taking a passenger off a route. *)
From Verif Require Import SpecDetour DetourProofs LocalProofs HushProofs Choices SurfaceTheorems.

Section take_off.
  Context {W : World}.
  Lemma take_off_runs h r v ids L t : sane -> RouteOK h r v ids L -> t ∈ boards L -> dedicated t L ->
    runs (let! r' := route_clone r 0 in remove_trip r' t ;;; route_flush r' ;;; let! b := route_feasible r' in ret (r', b)) h
      (fun x h' => grow h h' /\ h_routes h !! x.1 = None /\ exists ids', RouteOK h' x.1 v ids' (without t L) /\
        (forall s, s ∈ ids' -> h_stops h !! s = None) /\ (x.2 = true <-> admissible v (without t L))).
  Proof.
    intros [SD SC] R Ht D. step. unfold route_clone. step.
    eapply runs_mono; [eapply runs_hush; [apply hush_cloner_clone|by eapply cloner_clone_runs]|].
    intros [r' th] h1 [C Nc]. cbn [fst snd] in C. apply runs_ret.
    assert (th = 0%nat) as Hth by (destruct (cl_cut _ _ _ _ _ _ _ _ C) as [?|?]; lia).
    pose proof (cl_ok _ _ _ _ _ _ _ _ C) as R1. pose proof (Cloned_grow _ _ _ _ _ _ _ _ C) as G1.
    pose proof (cl_route _ _ _ _ _ _ _ _ C) as Er.
    assert (N1 : length (h_routes h1) = S (length (h_routes h))).
    { rewrite (cl_routes _ _ _ _ _ _ _ _ C), app_length. cbn. lia. }
    step. eapply runs_mono; [eapply runs_hush; [apply hush_remove_trip|by eapply remove_trip_runs]|].
    intros ? h2 ((R2 & L1 & L2 & L3 & MG & MP) & Nr). set (ids' := keep_ids t (clone_ids h th ids) L) in *.
    assert (G2 : grow h h2).
    { apply MG; [done| |lia]. intros q Hq. rewrite Hth in Hq. unfold clone_ids in Hq. cbn in Hq. apply elem_of_seq in Hq. lia. }
    assert (Hnew : forall s, s ∈ ids' -> (length (h_stops h) <= s)%nat) by (intros s Hs; eapply keep_ids_new; [exact Hth|exact Hs]).
    step. eapply runs_mono; [eapply runs_hush; [apply hush_route_flush|eapply route_flush_runs, RouteW_P, R2]|]. intros ? h3 ((S3 & F1 & F2 & F3) & Nf).
    pose proof (RouteOK_soft _ _ _ _ _ _ S3 R2) as R3.
    assert (N03 : hushes h h3) by (eapply hushes_trans; [exact Nc|by eapply hushes_trans]).
    assert (U : unasked h3 r' ids').
    { split; [done|]. destruct N03 as (K1 & K2 & _).
      assert (HS : forall s c, s ∈ ids' -> h_stops h3 !! s = Some c -> forall g, st_feasible c <> Some g).
      { intros s c Hs Hc g Hg. destruct (K1 s c g Hc Hg) as (c0 & Hc0 & _). apply lookup_lt_Some in Hc0. specialize (Hnew s Hs). lia. }
      split.
      - intros s c Hs Hc. destruct (st_feasible c) as [g|] eqn:E; [|done]. by destruct (HS s c Hs Hc g).
      - intros s c p pc Hs Hc Hp Hpc. destruct (pt_feasible pc) as [g|] eqn:E; [|done]. exfalso.
        destruct (K2 p pc g Hpc E) as (qc0 & Hqc0 & _). apply lookup_lt_Some in Hqc0.
        rewrite F1 in Hc. apply fmap_Some in Hc as (c2 & Hc2 & Ec).
        assert (Hs1 : exists c1, h_stops h1 !! s = Some c1) by (apply lookup_lt_is_Some; apply lookup_lt_Some in Hc2; lia).
        destruct Hs1 as [c1 Hc1]. destruct (MP s c1 Hc1) as (c3 & Hc3 & E3 & _). rewrite Hc2 in Hc3. injection Hc3 as <-.
        assert (Ep : st_pickups c = st_pickups c1) by (rewrite Ec, <- E3; unfold clear_if; case_match; done).
        rewrite Ep in Hp. destruct (cl_stops _ _ _ _ _ _ _ _ C) as (N & EN & HlN & HfN). specialize (Hnew s Hs).
        rewrite EN in Hc1. apply lookup_app_Some in Hc1 as [Hc1|[_ Hc1]]; [apply lookup_lt_Some in Hc1; lia|].
        rewrite Forall_lookup in HfN. destruct (HfN _ _ Hc1) as (_ & _ & HN). specialize (HN p). rewrite elem_of_app in HN.
        specialize (HN (or_introl Hp)). lia. }
    destruct (unasked_Flags _ _ _ _ _ (proj1 R3) U) as [FO FN].
    step. eapply runs_mono; [eapply route_feasible_runs; [done|done|apply R3|by eapply RouteW_nonempty]|]. intros b h4 (S4 & HF & _).
    pose proof (RouteOK_soft _ _ _ _ _ _ S4 R3) as R4. apply runs_ret. cbn [fst snd].
    split; [|split].
    - eapply grow_trans; [exact G2|]. eapply grow_trans; [apply S3|apply S4].
    - apply lookup_ge_None. lia.
    - exists ids'. split; [done|]. split; [intros s Hs; by apply lookup_ge_None, Hnew|].
      rewrite <- route_okb_admissible by (destruct (tour_first _ _ (proj2 R4)) as (? & ? & -> & _); done). by apply HF.
  Qed.
End take_off.

Lemma c73_schedule `{W : World} : forall v t xs,
  sane -> tour v xs -> t ∈ boards xs -> dedicated t xs -> no_shortcuts (v_origin_position v :: map vi_place xs) ->
  exists f : nat -> nat, (forall i, i <= f i <= i + 2)%nat /\ (forall i j, i < j -> f i < f j)%nat /\
    (forall i, without t xs !! i = xs !! f i) /\
    (forall i T, timetable v (without t xs) !! i = Some T -> exists T', timetable v xs !! f i = Some T' /\ sooner T T').
Proof.
  intros v t xs Sn T Ht D N. destruct (without_schedule v t xs Sn T Ht D N) as (f & F1 & F2 & F3 & F4 & F5 & F6). by exists f.
Qed.
Lemma c73_decides `{W : World} : forall h r v ids xs t,
  sane -> on_tour h r v ids xs -> t ∈ boards xs -> dedicated t xs ->
  exists r' b h' ids',
    (let! r' := route_clone r 0 in remove_trip r' t ;;; route_flush r' ;;; let! b := route_feasible r' in ret (r', b)) h = (Ok (r', b), h') /\
    h_routes h !! r' = None /\ on_tour h' r' v ids' (without t xs) /\ (forall s, s ∈ ids' -> h_stops h !! s = None) /\
    on_tour h' r v ids xs /\ (b = true <-> admissible v (without t xs)).
Proof.
  intros h r v ids xs t Sn R Ht D. pose proof R as R0. apply on_tour_RouteOK in R.
  pose proof (take_off_runs h r v ids xs t Sn R Ht D) as G. apply runs_eq in G as ([r' b] & h' & E & G & Hn & ids' & R' & Hs & Hb).
  exists r', b, h', ids'. split; [done|]. split; [done|]. split; [by apply on_tour_RouteOK|]. split; [done|].
  split; [|done]. apply on_tour_RouteOK. split; [|apply R]. eapply RouteW_grow; [exact G|apply R].
Qed.
Lemma c73_keeps `{W : World} : forall h r v ids xs t,
  sane -> on_tour h r v ids xs -> t ∈ boards xs -> dedicated t xs -> no_shortcuts (v_origin_position v :: map vi_place xs) ->
  (forall u, u ∈ boards xs -> u <> t -> tr_timeout (w_trip u) = Inf) -> admissible v xs ->
  exists r' h' ids',
    (let! r' := route_clone r 0 in remove_trip r' t ;;; route_flush r' ;;; let! b := route_feasible r' in ret (r', b)) h = (Ok (r', true), h') /\
    on_tour h' r' v ids' (without t xs) /\ admissible v (without t xs).
Proof.
  intros h r v ids xs t Sn R Ht D N Hl A.
  assert (A' : admissible v (without t xs)) by (apply without_admissible; try done; by apply on_tour_RouteOK in R as [_ ?]).
  destruct (c73_decides h r v ids xs t Sn R Ht D) as (r' & b & h' & ids' & E & _ & R' & _ & _ & Hb).
  rewrite (proj2 Hb A') in E. by exists r', h', ids'.
Qed.
(** a trip that finds no place still finds none after more trips were accepted *)
Lemma c73_smaller `{W : World} : forall v t u i j xs,
  sane -> tour v xs -> u ∈ boards xs -> dedicated u xs -> t ∉ boards xs -> (i < j < length xs)%nat ->
  no_shortcuts (v_origin_position v :: map vi_place (serve t i j xs)) ->
  (forall w, w ∈ t :: boards xs -> w <> u -> tr_timeout (w_trip w) = Inf) ->
  admissible v (serve t i j xs) ->
  exists i' j', (i' < j' < length (without u xs))%nat /\ admissible v (serve t i' j' (without u xs)).
Proof.
  intros v t u i j xs Sn T Hu D Ht Hij N Hl A.
  assert (Hne : u <> t) by congruence.
  assert (T' : tour v (serve t i j xs)) by (by apply tour_serve).
  assert (NM : forall z, z ∈ serve t i j xs -> z = pick_up t \/ z = drop_off t \/ z ∈ xs).
  { intros z Hz. rewrite serve_weave in Hz. apply weave_elem in Hz; [done|lia|lia]. }
  assert (D' : dedicated u (serve t i j xs)).
  { intros z Hz M. destruct (NM z Hz) as [->|[->|Hz']]; [done|done|by apply D]. }
  assert (Hu' : u ∈ boards (serve t i j xs)) by (rewrite boards_serve by lia; by right).
  pose proof (without_admissible v u (serve t i j xs) Sn T' Hu' D' N) as G.
  assert (G' : admissible v (without u (serve t i j xs))).
  { apply G; [|done]. intros w Hw. apply Hl. by rewrite boards_serve in Hw by lia. }
  assert (FT : forall n (l : list visit), without u (take n l) = take (length (without u (take n l))) (without u l)).
  { intros n l. rewrite <- (take_drop n l) at 3. unfold without at 3. rewrite filter_app. by rewrite take_app. }
  assert (FD : forall n (l : list visit), without u (drop n l) = drop (length (without u (take n l))) (without u l)).
  { intros n l. rewrite <- (take_drop n l) at 3. unfold without at 3. rewrite filter_app. by rewrite drop_app. }
  set (a := length (without u (take (S i) xs))). set (b := length (without u (take j xs))).
  assert (Ha : (1 <= a)%nat).
  { destruct (tour_first _ _ T) as (x0 & rest & E & _ & _ & B0 & A0). subst a. rewrite E. cbn [take]. unfold without.
    rewrite filter_cons_True by (rewrite B0, A0; apply not_elem_of_nil). cbn. lia. }
  assert (Hab : (a <= b)%nat).
  { subst a b. replace (take (S i) xs) with (take (S i) (take j xs)) by (rewrite take_take; f_equal; lia).
    rewrite FT, take_length. lia. }
  assert (Hb : (b < length (without u xs))%nat).
  { subst b. destruct (tour_last _ _ T) as (front & xn & E & _ & Bn & An).
    assert (Hj : (j <= length front)%nat) by (rewrite E, app_length in Hij; cbn in Hij; lia).
    rewrite E, take_app_le by done. unfold without. rewrite filter_app, app_length.
    rewrite (filter_cons_True _ xn []) by (rewrite Bn, An; apply not_elem_of_nil). cbn.
    pose proof (FT j front) as E1. unfold without in E1. rewrite E1, take_length. lia. }
  exists (a - 1)%nat, b. split; [lia|].
  replace (serve t (a - 1) b (without u xs)) with (without u (serve t i j xs)); [done|].
  unfold serve. replace (S (a - 1)) with a by lia. unfold without at 1. rewrite filter_app, filter_cons_True, filter_app, filter_cons_True.
  - fold (without u (take (S i) xs)) (without u (drop (S i) (take j xs))) (without u (drop j xs)).
    rewrite (FT (S i) xs), (FD (S i) (take j xs)), (FD j xs). fold a b.
    replace (take (S i) (take j xs)) with (take (S i) xs) by (rewrite take_take; f_equal; lia). fold a.
    rewrite (FT j xs). fold b. done.
  - cbn. by rewrite elem_of_list_singleton.
  - cbn. by rewrite elem_of_list_singleton.
Qed.
Lemma c73_manhattan `{W : World} : forall n ps, w_metric = Manhattan -> (forall p, p ∈ ps -> length p = n) -> no_shortcuts ps.
Proof. intros n ps M H a b c Ha Hb Hc. unfold dist. rewrite M. apply manhattan_triangle; by rewrite !H. Qed.
