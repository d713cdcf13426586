(** C72: without limits on riding times all limits are kept. *)
From Verif Require Import SpecCalm FairTheorems MissProofs GraspTheorems FairSearchTheorems.

(** tours without requested start times that keep the constraints *)
Definition calm_shape {W : World} : Shape.
Proof.
  refine {| good v xs := calm xs (length xs) /\ (boards xs <> [] -> nearly v xs); trusted := True; relaxed := True |}.
  - intros v xs ys T S [G H]. split; [by apply (calm_similar v xs ys)|]. by apply (@good_same _ near_shape v xs ys).
  - intros v. split; [|apply (@good_idle _ near_shape)]. apply calm_elem. intros x Hx. by apply elem_of_list_singleton in Hx as ->.
  - intros v t i j xs ys T Hij [G H] E N. destruct (N I) as [N1 N2]. split; [by apply N2|done].
Defined.
Definition calm_simple_shape {W : World} : Shape.
Proof.
  refine {| good v xs := simple xs /\ @good _ calm_shape v xs; trusted := True; relaxed := True |}.
  - intros v xs ys T S [G H]. split; [by apply (@good_same _ simple_shape v xs ys)|]. by apply (@good_same _ calm_shape v xs ys).
  - intros v. split; [apply (@good_idle _ simple_shape)|apply (@good_idle _ calm_shape)].
  - intros v t i j xs ys T Hij [G H] E N. split; [by apply (@good_serve _ simple_shape v t i j xs ys T Hij G E)|].
    by apply (@good_serve _ calm_shape v t i j xs ys T Hij H E).
Defined.
Lemma without_calm {W : World} v t xs : tour v xs -> calm xs (length xs) -> calm (without t xs) (length (without t xs)).
Proof.
  intros T. destruct (tour_first _ _ T) as (x0 & rest & -> & _ & _ & HB & HA). rewrite !calm_elem. intros C x Hx. apply C.
  unfold without in Hx. rewrite filter_cons_True in Hx by (rewrite HB, HA; apply not_elem_of_nil). cbn in Hx |- *.
  rewrite drop_0 in *. by apply elem_of_list_filter in Hx as [_ Hx].
Qed.
Global Instance calm_simple_loose {W : World} : @Loose W calm_simple_shape.
Proof.
  split; [by intros v xs [G _]|]. intros v t xs T [G [C H]] Ht N. split; [by apply (@good_without _ simple_shape _ v t xs)|].
  split; [by eapply without_calm|]. intros _. by apply N.
Qed.

Section bridge.
  Context {W : World}.
  Lemma untimed_calm h pl : untimed h pl <-> @all_good _ calm_shape h pl.
  Proof.
    split; intros H r v ids xs Hr R; destruct (H r v ids xs Hr R) as [C N]; (split; [done|]); intros Hb.
    - apply almost_nearly; [by apply on_tour_RouteOK in R as [_ R]|]. by apply N.
    - assert (A : almost v xs). { apply almost_nearly; [by apply on_tour_RouteOK in R as [_ R]|]. by apply N. }
      split; [done|]. intros B. by apply almost_admissible.
  Qed.
  Lemma untimed_calm_simple h pl : single_stops h pl /\ untimed h pl <-> @all_good _ calm_simple_shape h pl.
  Proof.
    rewrite untimed_calm. split.
    - intros [G H] r v ids xs Hr R. split; [by apply (G r v ids xs)|by apply (H r v ids xs)].
    - intros H. split; intros r v ids xs Hr R; by apply (H r v ids xs).
  Qed.
  Lemma untimed_admissible h pl : (forall v, v_timeout v = Inf) -> untimed h pl -> all_admissible h pl.
  Proof.
    intros Hv U r v ids xs Hr R Hb. apply (U r v ids xs Hr R); [done|]. intros T T' _ _. by rewrite Hv.
  Qed.
  Lemma calm_Trust (Sh : Shape) h : limitless -> HInv h -> fair h -> honest h -> Trust h.
  Proof. intros Hl HI F Ho. split; [by apply fair_Fair|]. intros _. split; [done|]. by apply honest_Worth. Qed.
  Lemma calm_Inv h : limitless -> tidy h -> fair h -> honest h -> @Inv _ calm_simple_shape h.
  Proof. intros Hl T F Ho. apply tidy_HInv in T. split; [done|]. intros _. by apply calm_Trust. Qed.
  Lemma Inv_calm h : @Inv _ calm_simple_shape h -> tidy h /\ fair h /\ honest h.
  Proof.
    intros [HI H]. destruct (H I) as [F R]. split; [by apply tidy_HInv|]. split; [by apply fair_Fair|]. by apply honest_Worth, R.
  Qed.
  Lemma evolves_kind h h' : HInv h -> HInv h' -> evolves h h' -> fair h -> honest h -> fair h' /\ honest h'.
  Proof.
    intros HI HI' (_ & _ & E) F Ho. apply fair_Fair in F; [|done]. apply honest_Worth in Ho; [|done].
    split; [apply fair_Fair; [done|by apply (E true)]|apply honest_Worth; [done|by apply E]].
  Qed.
End bridge.

Lemma c72_insertion `{W : World} : forall cfg fleet job h,
  sane -> limitless -> tidy h -> fair h -> honest h -> ic_only_feasible cfg = true ->
  NoDup fleet -> NoDup job -> (1 <= ic_random cfg)%nat ->
  exists pl h', insertion_optimize cfg fleet job None h = (Ok pl, h') /\ tidy h' /\ fair h' /\ honest h' /\
    valid_planning h' fleet job pl /\ untimed h' pl /\ ((forall v, v_timeout v = Inf) -> all_admissible h' pl).
Proof.
  intros cfg fleet job h Hs Hl T F Ho Hof Hf Hj Hr. apply tidy_HInv in T.
  pose proof (insertion_cold_runs (Sh := calm_shape) cfg fleet job h Hs T (fun _ => conj Hof (calm_Trust _ h Hl T F Ho)) Hf Hj Hr) as G.
  apply runs_eq in G as (pl & h' & E & Ev & T' & V & G). exists pl, h'. split; [done|]. split; [by apply tidy_HInv|].
  destruct (evolves_kind _ _ T T' Ev F Ho) as [F' Ho']. split; [done|]. split; [done|]. split; [done|].
  apply untimed_calm in G. split; [done|]. intros Hv. by apply untimed_admissible.
Qed.
Lemma c72_insertion_warm `{W : World} : forall cfg fleet job vs ts rs0 h,
  sane -> limitless -> tidy h -> fair h -> honest h -> ic_only_feasible cfg = true ->
  valid_planning h vs ts rs0 -> untimed h rs0 -> NoDup job -> (1 <= ic_random cfg)%nat ->
  exists pl h', insertion_optimize cfg fleet job (Some rs0) h = (Ok pl, h') /\ tidy h' /\ fair h' /\ honest h' /\
    valid_planning h' vs (job ++ ts) pl /\ untimed h' pl /\ ((forall v, v_timeout v = Inf) -> all_admissible h' pl).
Proof.
  intros cfg fleet job vs ts rs0 h Hs Hl T F Ho Hof V U Hj Hr. apply tidy_HInv in T. apply untimed_calm in U.
  pose proof (insertion_warm_runs (Sh := calm_shape) cfg fleet job h vs ts rs0 Hs T V U (fun _ => conj Hof (calm_Trust _ h Hl T F Ho)) Hj Hr) as G.
  apply runs_eq in G as (pl & h' & E & Ev & T' & V' & G & _). exists pl, h'. split; [done|]. split; [by apply tidy_HInv|].
  destruct (evolves_kind _ _ T T' Ev F Ho) as [F' Ho']. split; [done|]. split; [done|]. split; [done|].
  apply untimed_calm in G. split; [done|]. intros Hv. by apply untimed_admissible.
Qed.
Lemma c72_search `{W : World} : forall fuel o threshold h vs ts initial,
  sane -> limitless -> tidy h -> fair h -> honest h ->
  valid_planning h vs ts initial -> single_stops h initial -> untimed h initial ->
  match local_search_optimize fuel Reallocation o threshold initial h with
  | (Raise e, _) => e = Diverge
  | (Ok pl, h') => tidy h' /\ fair h' /\ honest h' /\ valid_planning h' vs ts pl /\ single_stops h' pl /\
      untimed h' pl /\ ((forall v, v_timeout v = Inf) -> all_admissible h' pl)
  end.
Proof.
  intros fuel o threshold h vs ts initial Hs Hl T F Ho V G U. destruct (calm_Inv h Hl T F Ho) as [HI HT].
  destruct (valid_Plan (Sh := calm_simple_shape) _ _ _ _ V (proj1 (untimed_calm_simple _ _) (conj G U))) as (A & P & EK & EU).
  destruct (Plan_worth (Sh := calm_simple_shape) o h initial A P) as (x & Wx & _).
  pose proof (ls_loop_runs (Sh := calm_simple_shape) o threshold x A h fuel Hs HT 0%nat initial A x h HI) as L. unfold local_search_optimize.
  assert (K0 : routes_kept h h) by by split.
  specialize (L (evolves_refl _) K0 P ltac:(done) ltac:(done) Wx ltac:(by left)).
  destruct (ls_loop _ _ _ _ _ _ _) as [[pl|e] h']; [|done].
  destruct L as (A' & y & HI' & Ev & _ & P' & F1 & F2 & _).
  destruct (Inv_calm h') as (T' & F' & Ho'); [split; [done|]; exact (trust_evolves _ _ Ev HT)|]. do 3 (split; [done|]).
  destruct (Plan_valid (Sh := calm_simple_shape) h' vs ts pl A') as [V' G']; [done|by rewrite F1|intros t; rewrite F2; apply EU|].
  apply untimed_calm_simple in G' as [G' U']. do 3 (split; [done|]). intros Hv. by apply untimed_admissible.
Qed.
Lemma c72_grasp `{W : World} : forall fuel o cfg fleet job episodes first h,
  sane -> limitless -> tidy h -> fair h -> honest h -> ic_only_feasible cfg = true -> NoDup fleet -> fleet <> [] -> NoDup job ->
  (1 <= ic_random cfg)%nat -> (1 <= episodes)%nat -> (1 <= first)%nat ->
  match grasp_optimize fuel o cfg fleet job episodes first h with
  | (Raise e, _) => e = Diverge
  | (Ok pl, h') => tidy h' /\ fair h' /\ honest h' /\ valid_planning h' fleet job pl /\ single_stops h' pl /\
      untimed h' pl /\ ((forall v, v_timeout v = Inf) -> all_admissible h' pl)
  end.
Proof.
  intros fuel o cfg fleet job episodes first h Hs Hl T F Ho Hof Hf Hne Hj Hr He Hfi. pose proof (calm_Inv h Hl T F Ho) as HI.
  pose proof (grasp_fine (Sh := calm_simple_shape) Hs fleet job Hf Hne (eq Diverge) fuel o cfg episodes first h (fun _ => Hof) eq_refl Hj Hr Hfi He HI) as G. unfold fine in G.
  destruct (grasp_optimize _ _ _ _ _ _ _ _) as [[pl|e] h']; [|done]. destruct G as [(_ & HI' & _) Gd].
  apply Inv_calm in HI' as (T' & F' & Ho'). apply Good_valid in Gd as [V G]. do 4 (split; [done|]).
  apply untimed_calm_simple in G as [G' U']. do 2 (split; [done|]). intros Hv. by apply untimed_admissible.
Qed.
