(** C71: reallocation, restarts and GRASP keep the constraints too. *)
From Verif Require Import FairTheorems GraspTheorems.

(** tours with one event per inner stop that keep the constraints *)
Definition near_simple_shape {W : World} : Shape.
Proof.
  refine {| good v xs := simple xs /\ (boards xs <> [] -> nearly v xs); trusted := True; relaxed := False |}.
  - intros v xs ys T S [G H]. split; [by apply (@good_same _ simple_shape v xs ys)|]. by apply (@good_same _ near_shape v xs ys).
  - intros v. split; [apply (@good_idle _ simple_shape)|apply (@good_idle _ near_shape)].
  - intros v t i j xs ys T Hij [G H] E N. split; [|intros _; by apply N].
    by apply (@good_serve _ simple_shape v t i j xs ys T Hij G E).
Defined.
Global Instance near_simple_loose {W : World} : @Loose W near_simple_shape.
Proof.
  split; [by intros v xs [G _]|]. intros v t xs T [G H] Ht N. split; [|intros _; by apply N].
  by apply (@good_without _ simple_shape _ v t xs).
Qed.

Section bridge.
  Context {W : World}.
  Lemma near_simple_good h pl : single_stops h pl ->
    (forall r v ids xs, r ∈ pl -> on_tour h r v ids xs -> boards xs <> [] -> almost v xs) -> @all_good _ near_simple_shape h pl.
  Proof.
    intros G A r v ids xs Hr R. split; [by apply (G r v ids xs)|]. intros Hb.
    apply almost_nearly; [by apply on_tour_RouteOK in R as [_ R]|]. by eapply A.
  Qed.
  Lemma good_near_simple h pl : @all_good _ near_simple_shape h pl -> single_stops h pl /\
    forall r v ids xs, r ∈ pl -> on_tour h r v ids xs -> boards xs <> [] ->
      almost v xs /\ (brief v xs -> calm xs (length xs) -> admissible v xs).
  Proof.
    intros G. split; [intros r v ids xs Hr R; by apply (G r v ids xs)|]. intros r v ids xs Hr R Hb.
    assert (A : almost v xs). { apply almost_nearly; [by apply on_tour_RouteOK in R as [_ R]|]. by apply (G r v ids xs). }
    split; [done|]. by apply almost_admissible.
  Qed.
  Lemma fair_Inv h : tidy h -> fair h -> @Inv _ near_simple_shape h.
  Proof. intros T F. apply tidy_HInv in T. split; [done|]. intros _. split; [by apply fair_Fair|by intros []]. Qed.
  Lemma Inv_fair h : @Inv _ near_simple_shape h -> tidy h /\ fair h.
  Proof. intros [HI F]. split; [by apply tidy_HInv|]. apply fair_Fair; [done|by apply (F I)]. Qed.
End bridge.

Lemma c71_search `{W : World} : forall fuel o threshold h vs ts initial,
  sane -> tidy h -> fair h -> valid_planning h vs ts initial -> single_stops h initial ->
  (forall r v ids xs, r ∈ initial -> on_tour h r v ids xs -> boards xs <> [] -> almost v xs) ->
  match local_search_optimize fuel Reallocation o threshold initial h with
  | (Raise e, _) => e = Diverge
  | (Ok pl, h') => tidy h' /\ fair h' /\ valid_planning h' vs ts pl /\ single_stops h' pl /\
      forall r v ids xs, r ∈ pl -> on_tour h' r v ids xs -> boards xs <> [] ->
        almost v xs /\ (brief v xs -> calm xs (length xs) -> admissible v xs)
  end.
Proof.
  intros fuel o threshold h vs ts initial Hs T F V G N. destruct (fair_Inv h T F) as [HI HT].
  destruct (@valid_Plan _ near_simple_shape _ _ _ _ V (near_simple_good _ _ G N)) as (A & P & EK & EU).
  destruct (@Plan_worth _ near_simple_shape o h initial A P) as (x & Wx & _).
  pose proof (@ls_loop_runs _ near_simple_shape _ o threshold x A h fuel Hs HT 0%nat initial A x h HI) as L. unfold local_search_optimize.
  assert (K0 : routes_kept h h) by by split.
  specialize (L (evolves_refl _) K0 P ltac:(done) ltac:(done) Wx ltac:(by left)).
  destruct (ls_loop _ _ _ _ _ _ _) as [[pl|e] h']; [|done].
  destruct L as (A' & y & HI' & Ev & _ & P' & F1 & F2 & _).
  destruct (Inv_fair h') as [T' F']; [split; [done|]; exact (trust_evolves _ _ Ev HT)|]. split; [done|]. split; [done|].
  destruct (@Plan_valid _ near_simple_shape h' vs ts pl A') as [V' G']; [done|by rewrite F1|intros t; rewrite F2; apply EU|].
  split; [done|]. by apply good_near_simple.
Qed.
Lemma c71_iterative `{W : World} : forall o cfg fleet job restart n h,
  sane -> tidy h -> fair h -> ic_only_feasible cfg = true -> NoDup fleet -> fleet <> [] -> NoDup job ->
  (1 <= ic_random cfg)%nat -> (1 <= n)%nat ->
  exists pl h', iterative_optimize o (insertion_algorithm cfg fleet job) restart n None h = (Ok pl, h') /\
    tidy h' /\ fair h' /\ valid_planning h' fleet job pl /\ single_stops h' pl /\
    forall r v ids xs, r ∈ pl -> on_tour h' r v ids xs -> boards xs <> [] ->
      almost v xs /\ (brief v xs -> calm xs (length xs) -> admissible v xs).
Proof.
  intros o cfg fleet job restart n h Hs T F Hof Hf Hne Hj Hr Hn. pose proof (fair_Inv h T F) as HI.
  pose proof (insertion_fine (Sh := near_simple_shape) Hs fleet job Hf (fun _ => False) cfg (fun _ => Hof) Hj Hr) as Ha.
  pose proof (iterative_fine (Sh := near_simple_shape) Hs fleet job Hne (fun _ => False) True o _ restart n Ha Hn h None HI I) as G. unfold fine in G.
  destruct (iterative_optimize _ _ _ _ _ _) as [[b|e] h']; [|done]. destruct G as [(_ & HI' & _) Gd].
  apply Inv_fair in HI' as [T' F']. apply Good_valid in Gd as [V G]. exists b, h'. do 4 (split; [done|]). by apply good_near_simple.
Qed.
Lemma c71_grasp `{W : World} : forall fuel o cfg fleet job episodes first h,
  sane -> tidy h -> fair h -> ic_only_feasible cfg = true -> NoDup fleet -> fleet <> [] -> NoDup job ->
  (1 <= ic_random cfg)%nat -> (1 <= episodes)%nat -> (1 <= first)%nat ->
  match grasp_optimize fuel o cfg fleet job episodes first h with
  | (Raise e, _) => e = Diverge
  | (Ok pl, h') => tidy h' /\ fair h' /\ valid_planning h' fleet job pl /\ single_stops h' pl /\
      forall r v ids xs, r ∈ pl -> on_tour h' r v ids xs -> boards xs <> [] ->
        almost v xs /\ (brief v xs -> calm xs (length xs) -> admissible v xs)
  end.
Proof.
  intros fuel o cfg fleet job episodes first h Hs T F Hof Hf Hne Hj Hr He Hfi. pose proof (fair_Inv h T F) as HI.
  pose proof (grasp_fine (Sh := near_simple_shape) Hs fleet job Hf Hne (eq Diverge) fuel o cfg episodes first h (fun _ => Hof) eq_refl Hj Hr Hfi He HI) as G. unfold fine in G.
  destruct (grasp_optimize _ _ _ _ _ _ _ _) as [[pl|e] h']; [|done]. destruct G as [(_ & HI' & _) Gd].
  apply Inv_fair in HI' as [T' F']. apply Good_valid in Gd as [V G]. do 3 (split; [done|]). by apply good_near_simple.
Qed.
