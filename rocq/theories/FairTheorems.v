(** What a route reported feasible by the insertion really satisfies (C06). *)
From Verif Require Import Reads RepresentsProofs StrategyProofs TimeTheorems Choices Plannings.
From Verif Require Import InsertTheorems RankingTheorems.

Section almost.
  Context {W : World}.
  Lemma schedule_early xs : forall l i x T, xs !! i = Some x -> schedule l xs !! i = Some T -> visit_earliest x <= tm_start T.
  Proof.
    induction xs as [|a xs IH]; intros l [|i] x T Hx HT; [done|done| |].
    - cbn in Hx, HT. injection Hx as ->. injection HT as <-. destruct l as [[now here] load]. cbn. lia.
    - by eapply IH; [exact Hx|exact HT].
  Qed.
  Lemma start_early v xs i x T t : xs !! i = Some x -> timetable v xs !! i = Some T ->
    (t ∈ vi_board x -> origin_earliest (w_trip t) <= tm_start T + eb) /\
    (t ∈ vi_alight x -> destination_earliest (w_trip t) <= tm_start T + eb).
  Proof.
    intros Hx HT. pose proof (schedule_early _ _ _ _ _ Hx HT) as He. assert (0 < eb) by done.
    split; intros Hin.
    - apply visit_earliest_le in He as [He _]; [|right; by eapply events_board]. specialize (He t Hin). lia.
    - apply visit_earliest_le in He as [_ He]; [|right; by eapply events_alight]. specialize (He t Hin). lia.
  Qed.
  Lemma almost_nearly v xs : tour v xs -> almost v xs <-> nearly v xs.
  Proof.
    intros T. split.
    - intros [A1 A2 A3 A4]. split; [done|]. intros t i j Hr. pose proof Hr as (x & y & Hx & Hy & _ & _).
      destruct (timetable_some v xs i x Hx) as [Ti HTi]. destruct (timetable_some v xs j y Hy) as [Tj HTj].
      destruct (A4 t i j x y Ti Tj Hr Hx Hy HTi HTj) as (_ & _ & B1 & B2 & B3 & B4 & B5).
      split; [|split].
      + intros x' T'. rewrite Hx, HTi. by intros [= <-] [= <-].
      + intros x' T'. rewrite Hy, HTj. by intros [= <-] [= <-].
      + intros T' T''. rewrite HTi, HTj. by intros [= <-] [= <-].
    - intros [N1 N2]. split.
      + destruct (tour_first _ _ T) as (x0 & rest & -> & _ & E & _). by exists x0.
      + destruct (tour_last _ _ T) as (front & xn & -> & E & _). exists xn. by rewrite last_snoc.
      + done.
      + intros t i j x y Ti Tj Hr Hx Hy HTi HTj. destruct (N2 t i j Hr) as (H1 & H2 & H3).
        destruct (H1 x Ti Hx HTi) as [L1 C1]. destruct (H2 y Tj Hy HTj) as [L2 C2].
        destruct Hr as (x' & y' & Hx' & Hy' & Hb & Ha). rewrite Hx in Hx'. injection Hx' as <-. rewrite Hy in Hy'. injection Hy' as <-.
        split; [by apply (start_early v xs i x Ti t)|]. split; [by apply (start_early v xs j y Tj t)|].
        split; [done|]. split; [done|]. split; [by apply H3|done].
  Qed.
  Lemma empty_fair : fair (MkHeap [] [] [] 0).
  Proof.
    intros r v ids xs R. apply on_tour_RouteOK in R as [R _]. by destruct (rw_cell _ _ _ _ _ R) as (c & Hc & _).
  Qed.
  (** without requested start times nothing is missing but the duration *)
  Lemma almost_admissible v xs : almost v xs -> brief v xs -> calm xs (length xs) -> admissible v xs.
  Proof.
    intros [A1 A2 A3 A4] B C. split; try done.
    intros t i j x y Ti Tj Hr Hx Hy HTi HTj. destruct (A4 t i j x y Ti Tj Hr Hx Hy HTi HTj) as (_ & _ & _ & _ & B3 & B4 & B5).
    assert (Ci : forall k z, xs !! k = Some z -> calm xs k).
    { intros k z Hz m w Hm. apply C. apply lookup_lt_Some in Hz. lia. }
    split; [|split]; [eapply B4, Ci, Hx|eapply B5, Ci, Hy|done].
  Qed.

  Lemma fair_Fair h : HInv h -> fair h <-> Fair h.
  Proof.
    intros I. split.
    - intros F. split.
      + intros r rc i s c Hrc _ Hi Hc Hf. destruct (HInv_route _ _ _ I Hrc) as (L & R & ->).
        apply on_tour_RouteOK in R. by apply (proj1 (F _ _ _ _ R) i s c).
      + intros r rc i j s d c p pc Hrc _ Hi Hj Hc Hp Hpc P1 P2 Hf. destruct (HInv_route _ _ _ I Hrc) as (L & R & ->).
        apply on_tour_RouteOK in R. by apply (proj1 (proj2 (F _ _ _ _ R)) i j s d c p pc).
      + intros r rc Hrc _ Hf. destruct (HInv_route _ _ _ I Hrc) as (L & R & ->).
        apply on_tour_RouteOK in R. by apply (proj2 (proj2 (F _ _ _ _ R)) rc).
    - intros F r v ids xs R. apply on_tour_RouteOK in R. pose proof (RouteW_P _ _ _ _ _ (proj1 R)) as P. split; [|split].
      + intros i s c Hi Hc Hf. by eapply Fair_stop.
      + intros i j s d c p pc Hi Hj Hc Hp Hpc P1 P2 Hf. by eapply (Fair_pt h r v ids xs i j s d c p pc).
      + intros rc Hrc Hf. by eapply Fair_route.
  Qed.
End almost.

(** the shape of routes that the insertion algorithm reports *)
Definition near_shape {W : World} : Shape.
Proof.
  refine {| good v xs := boards xs <> [] -> nearly v xs; trusted := True; relaxed := False |}.
  - intros v xs ys T S H Hb. eapply similar_nearly; [done..|]. apply H. intros E. apply Hb.
    destruct S as [E1 _]. by rewrite <- (boards_anytime ys), <- E1, boards_anytime.
  - intros v Hb. by destruct Hb.
  - intros v t i j xs ys _ _ _ _ H _. by apply H.
Defined.

Lemma c06_answer `{W : World} : forall h r v ids xs h',
  sane -> tidy h -> fair h -> on_tour h r v ids xs ->
  route_feasible r h = (Ok true, h') -> almost v xs /\ tidy h' /\ fair h'.
Proof.
  intros h r v ids xs h' [SD SC] T F R E. apply tidy_HInv in T. apply fair_Fair in F; [|done]. apply on_tour_RouteOK in R.
  pose proof (route_feasible_runs h r v ids xs SD SC (proj1 R) (RouteW_nonempty _ _ _ _ _ R)) as G.
  unfold runs in G. rewrite E in G. destruct G as (S & _ & N & _).
  assert (I' : HInv h') by by eapply HInv_soft. assert (F' : Fair h') by by apply S.
  split; [|split; [by apply tidy_HInv|by apply fair_Fair]].
  apply almost_nearly; [apply R|]. by apply N.
Qed.
Lemma c06_one `{W : World} : forall h r v ids xs t i j,
  sane -> tidy h -> fair h -> on_tour h r v ids xs -> t ∉ boards xs -> (i < j < length ids)%nat ->
  exists rs h', compute true r [t] i j h = (Ok rs, h') /\ tidy h' /\ fair h' /\
    forall r', r' ∈ rs -> exists ids' xs', on_tour h' r' v ids' xs' /\ map anytime xs' = map anytime (serve t i j xs) /\
      almost v xs' /\ brief v xs' /\ (calm xs' (length xs') -> admissible v xs').
Proof.
  intros h r v ids xs t i j [S1 S2] T F R Ht Hij. apply tidy_HInv in T. apply fair_Fair in F; [|done]. apply on_tour_RouteOK in R.
  rewrite (RouteW_length _ _ _ _ _ (proj1 R)) in Hij.
  assert (Ht' : forall u, u ∈ [t] -> u ∉ boards xs) by (by intros u ->%elem_of_list_singleton).
  pose proof (compute_runs true _ _ _ _ _ [t] i j S1 S2 T R Ht' Hij) as G.
  apply runs_eq in G as (rs & h' & E & T' & Ev & rss & Ers & Fa).
  pose proof (compute_single_runs _ _ _ _ _ t i j S1 S2 T R Ht Hij F) as G. unfold runs in G. rewrite E in G.
  destruct G as [F' G]. exists rs, h'. split; [done|]. split; [by apply tidy_HInv|]. split; [by apply fair_Fair|].
  intros r' Hr. destruct (G r' Hr) as (ids' & xs' & R' & N & B).
  assert (A : map anytime xs' = map anytime (serve t i j xs)).
  { subst rs. apply elem_of_list_In, in_concat in Hr as (l & Hl & Hr). apply elem_of_list_In in Hl, Hr.
    apply elem_of_list_lookup in Hl as [k Hk]. destruct (Forall2_lookup_r _ _ _ _ _ Fa Hk) as (u & Hku & H).
    apply elem_of_list_lookup_2, elem_of_list_singleton in Hku as ->.
    destruct H as [[_ ->]|(r1 & -> & _ & (ids2 & xs2 & R2 & A2) & _)]; [by apply elem_of_nil in Hr|].
    apply elem_of_list_singleton in Hr as ->. by destruct (RouteW_det _ _ _ _ _ _ _ _ (proj1 R2) (proj1 R')) as (_ & _ & <-). }
  exists ids', xs'. split; [by apply on_tour_RouteOK|]. split; [done|].
  assert (AL : almost v xs') by (apply almost_nearly; [apply R'|done]).
  split; [done|]. split; [done|]. by apply almost_admissible.
Qed.
Lemma c06_strategy `{W : World} : forall st h r v ids xs ts,
  sane -> tidy h -> fair h -> on_tour h r v ids xs -> (forall t, t ∈ ts -> t ∉ boards xs) ->
  exists rs h', strategy_compute st true r ts h = (Ok rs, h') /\ tidy h' /\ fair h' /\
    forall r', r' ∈ rs -> exists ids' xs', on_tour h' r' v ids' xs' /\ almost v xs' /\
      (brief v xs' -> calm xs' (length xs') -> admissible v xs').
Proof.
  intros st h r v ids xs ts [S1 S2] T F R Ht. apply tidy_HInv in T. apply fair_Fair in F; [|done]. apply on_tour_RouteOK in R.
  pose proof (strategy_compute_runs st true _ _ _ _ _ ts S1 S2 T R Ht) as G.
  apply runs_eq in G as (rs & h' & E & T' & Ev & G). exists rs, h'. split; [done|]. split; [by apply tidy_HInv|].
  split; [apply fair_Fair; [done|]; by apply Ev|].
  intros r' Hr. destruct (G r' Hr) as (_ & (t & i & j & _ & _ & ids' & xs' & R' & _) & N).
  destruct (N eq_refl F) as [(w & ids2 & xs2 & [R2 _] & N2) _].
  destruct (RouteW_det _ _ _ _ _ _ _ _ R2 (proj1 R')) as (-> & -> & ->).
  exists ids', xs'. split; [by apply on_tour_RouteOK|].
  assert (AL : almost v xs') by (apply almost_nearly; [apply R'|done]). split; [done|]. by apply almost_admissible.
Qed.

Lemma c06_algorithm `{W : World} : forall cfg fleet job h,
  sane -> tidy h -> fair h -> ic_only_feasible cfg = true -> NoDup fleet -> NoDup job -> (1 <= ic_random cfg)%nat ->
  exists pl h', insertion_optimize cfg fleet job None h = (Ok pl, h') /\ tidy h' /\ fair h' /\
    valid_planning h' fleet job pl /\
    forall r v ids xs, r ∈ pl -> on_tour h' r v ids xs -> boards xs <> [] ->
      almost v xs /\ (brief v xs -> calm xs (length xs) -> admissible v xs).
Proof.
  intros cfg fleet job h Hs T F Hof Hf Hj Hr. apply tidy_HInv in T. apply fair_Fair in F; [|done].
  pose proof (@insertion_cold_runs _ near_shape cfg fleet job h Hs T (fun _ => conj Hof (conj F (False_ind _))) Hf Hj Hr) as G.
  apply runs_eq in G as (pl & h' & E & Ev & T' & V & G). exists pl, h'. split; [done|]. split; [by apply tidy_HInv|].
  split; [apply fair_Fair; [done|]; by apply Ev|]. split; [done|]. intros r v ids xs Hin R Hb.
  assert (AL : almost v xs). { apply almost_nearly; [by apply on_tour_RouteOK in R as [_ R]|]. by apply (G r v ids xs). }
  split; [done|]. by apply almost_admissible.
Qed.
Lemma c06_algorithm_warm `{W : World} : forall cfg fleet job vs ts rs0 h,
  sane -> tidy h -> fair h -> ic_only_feasible cfg = true -> valid_planning h vs ts rs0 -> NoDup job -> (1 <= ic_random cfg)%nat ->
  (forall r v ids xs, r ∈ rs0 -> on_tour h r v ids xs -> boards xs <> [] -> almost v xs) ->
  exists pl h', insertion_optimize cfg fleet job (Some rs0) h = (Ok pl, h') /\ tidy h' /\ fair h' /\
    valid_planning h' vs (job ++ ts) pl /\
    forall r v ids xs, r ∈ pl -> on_tour h' r v ids xs -> boards xs <> [] ->
      almost v xs /\ (brief v xs -> calm xs (length xs) -> admissible v xs).
Proof.
  intros cfg fleet job vs ts rs0 h Hs T F Hof V Hj Hr H0. apply tidy_HInv in T. apply fair_Fair in F; [|done].
  assert (G0 : @all_good _ near_shape h rs0).
  { intros r v ids xs Hin R Hb. apply almost_nearly; [by apply on_tour_RouteOK in R as [_ R]|]. by apply (H0 r v ids xs). }
  pose proof (@insertion_warm_runs _ near_shape cfg fleet job h vs ts rs0 Hs T V G0 (fun _ => conj Hof (conj F (False_ind _))) Hj Hr) as G.
  apply runs_eq in G as (pl & h' & E & Ev & T' & V' & G & _). exists pl, h'. split; [done|]. split; [by apply tidy_HInv|].
  split; [apply fair_Fair; [done|]; by apply Ev|]. split; [done|]. intros r v ids xs Hin R Hb.
  assert (AL : almost v xs). { apply almost_nearly; [by apply on_tour_RouteOK in R as [_ R]|]. by apply (G r v ids xs). }
  split; [done|]. by apply almost_admissible.
Qed.
