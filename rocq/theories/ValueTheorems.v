(** C24-C26, C44, C46, C47: scores, objective values and choices. *)
From Verif Require Import Values WitnessValues Reads TimeTheorems RankingTheorems.
#[local] Existing Instance any_shape.

Section orders.
  Lemma score_ltb_lt x y : score_ltb x y = true <-> score_lt x y.
  Proof.
    split.
    - destruct x, y; cbn; try done; try constructor. apply Qle_bool_false. by apply negb_true_iff.
    - destruct 1; try done. cbn. apply negb_true_iff. by apply Qle_bool_false.
  Qed.
  Lemma score_ltb_nlt x y : score_ltb x y = false <-> ~ score_lt x y.
  Proof. rewrite <- score_ltb_lt. by destruct (score_ltb x y). Qed.
  Lemma tuple_ltb_lex a : forall b, length a = length b -> tuple_ltb a b = true <-> lex_lt a b.
  Proof.
    induction a as [|x a IH]; intros [|y b] Hl; cbn in *; try done.
    - split; [done|inversion 1].
    - rewrite orb_true_iff, andb_true_iff, Z.ltb_lt, Z.eqb_eq, IH by lia. split.
      + intros [H|[-> H]]; by constructor.
      + inversion 1; subst; auto.
  Qed.
  Lemma tuple_irrefl a : tuple_ltb a a = false.
  Proof. induction a as [|x a IH]; [done|]. cbn. by rewrite Z.ltb_irrefl, IH, andb_false_r. Qed.
  Lemma tuple_nlt_trans x : forall y z, tuple_ltb y x = false -> tuple_ltb z y = false -> tuple_ltb z x = false.
  Proof.
    induction x as [|a x IH]; intros [|b y] [|c z]; cbn; try done.
    rewrite !orb_false_iff, !andb_false_iff, !Z.ltb_ge, !Z.eqb_neq. intros [H1 H2] [H3 H4]. split; [lia|].
    destruct (decide (b = a)) as [->|]; [|left; lia]. destruct (decide (c = a)) as [->|]; [|left; lia].
    right. eapply IH; [by destruct H2|by destruct H4].
  Qed.
  Lemma tuple_lt_nlt x : forall y, tuple_ltb x y = true -> tuple_ltb y x = false.
  Proof.
    induction x as [|a x IH]; intros [|b y]; cbn; try done.
    rewrite orb_true_iff, andb_true_iff, orb_false_iff, andb_false_iff, Z.ltb_lt, Z.eqb_eq, Z.ltb_ge, Z.eqb_neq.
    intros [H|[-> H]]; [split; [lia|left; lia]|]. split; [lia|]. right. by apply IH.
  Qed.

  Lemma tuple_add_comm a b : tuple_add a b = tuple_add b a.
  Proof. revert b. induction a as [|x a IH]; intros [|y b]; cbn; try done. unfold tuple_add in IH. by rewrite IH, Z.add_comm. Qed.
  Lemma tuple_add_assoc a b c : tuple_add a (tuple_add b c) = tuple_add (tuple_add a b) c.
  Proof.
    revert b c. induction a as [|x a IH]; intros [|y b] [|z c]; cbn; try done. unfold tuple_add in IH. by rewrite IH, Z.add_assoc.
  Qed.
  Lemma foldl_tuple_add l : forall z x, foldl tuple_add (tuple_add x z) l = tuple_add x (foldl tuple_add z l).
  Proof. induction l as [|y l IH]; intros z x; [done|]. cbn. by rewrite <- tuple_add_assoc, IH. Qed.
  Lemma foldl_tuple_foldr l z : foldl tuple_add z l = foldr tuple_add z l.
  Proof. induction l as [|y l IH]; [done|]. cbn. by rewrite tuple_add_comm, foldl_tuple_add, IH. Qed.
  Lemma foldr_tuple_perm l l' z : l ≡ₚ l' -> foldr tuple_add z l = foldr tuple_add z l'.
  Proof.
    induction 1 as [|x l l' _ IH|x y l|l1 l2 l3 _ IH1 _ IH2]; cbn; [done|by rewrite IH| |congruence].
    rewrite !tuple_add_assoc. by rewrite (tuple_add_comm x).
  Qed.

  Lemma filter_map_snd {K A} (P : A -> bool) (l : list (K * A)) :
    List.filter P (map snd l) = map snd (List.filter (fun x => P x.2) l).
  Proof. induction l as [|x l IH]; [done|]. cbn. destruct (P x.2); cbn; by rewrite IH. Qed.
  Lemma map_snd_zip {K A} (ks : list K) (l : list A) : length ks = length l -> map snd (zip ks l) = l.
  Proof. revert l. induction ks as [|k ks IH]; intros [|x l] H; cbn in *; try done. by rewrite IH by lia. Qed.
  Lemma zip_Forall2 {K A} (P : A -> K -> Prop) ks l x : Forall2 P l ks -> x ∈ zip ks l -> P x.2 x.1.
  Proof.
    intros F. revert x. induction F as [|a k l ks H F IH]; cbn; [intros x Hx; inversion Hx|].
    intros x [->|Hx]%elem_of_cons; [done|by apply IH].
  Qed.
End orders.

(** ** C24, for every key function and both directions *)
Lemma c24_any_best : forall A K (lt : K -> K -> bool) d (l : list (K * A)), weak_order lt ->
  match dir_best lt d l with
  | None => l = []
  | Some a => exists k l1 l2, l = l1 ++ (k, a) :: l2 /\
      (forall x, x ∈ l1 -> ahead lt d k x.1) /\ (forall x, x ∈ l2 -> ~ ahead lt d x.1 k)
  end.
Proof.
  intros A K lt d [|x l] [I S T]; [by destruct d|]. destruct d; cbn.
  - destruct (max_from_spec lt T S l x) as (l1 & l2 & E & H1 & H2). destruct (max_from lt x l) as [k a]. cbn in *.
    exists k, l1, l2. split; [done|]. split; [done|]. intros y Hy. by rewrite (H2 y Hy).
  - destruct (min_from_spec lt T S l x) as (l1 & l2 & E & H1 & H2). destruct (min_from lt x l) as [k a]. cbn in *.
    exists k, l1, l2. split; [done|]. split; [done|]. intros y Hy. by rewrite (H2 y Hy).
Qed.

Lemma ahead_before {K} (lt : K -> K -> bool) d x y :
  ahead lt d x y <-> before lt (match d with Maximization => true | Minimization => false end) x y = true.
Proof. by destruct d. Qed.

Lemma StronglySorted_pair {A} (R : A -> A -> Prop) l : StronglySorted R l <->
  forall i j x y, (i < j)%nat -> l !! i = Some x -> l !! j = Some y -> R x y.
Proof.
  split.
  - induction 1 as [|a l _ IH H]; intros i j x y Hij Hi Hj; [done|].
    destruct j as [|j]; [lia|]. destruct i as [|i]; cbn in Hi, Hj.
    + injection Hi as <-. rewrite Forall_forall in H. apply H. by eapply elem_of_list_lookup_2.
    + eapply IH; [|done|done]. lia.
  - induction l as [|a l IH]; intros H; constructor.
    + apply IH. intros i j x y Hij Hi Hj. apply (H (S i) (S j)); [lia|done|done].
    + apply Forall_forall. intros y Hy. apply elem_of_list_lookup in Hy as [j Hj]. apply (H 0%nat (S j)); [lia|done|done].
Qed.

Lemma c24_any_sorted : forall A K (lt : K -> K -> bool) d (l : list (K * A)), weak_order lt ->
  exists m, dir_sorted lt d l = map snd m /\ m ≡ₚ l /\
    (forall i j x y, (i < j)%nat -> m !! i = Some x -> m !! j = Some y -> ~ ahead lt d y.1 x.1) /\
    (forall P, (forall x y, x ∈ l -> y ∈ l -> P x = true -> P y = true -> ~ ahead lt d x.1 y.1) ->
       List.filter P m = List.filter P l).
Proof.
  intros A K lt d l [I S T]. unfold dir_sorted. eexists. split; [reflexivity|].
  split; [apply sort_keyed_perm|]. split.
  - intros i j x y Hij Hi Hj. rewrite ahead_before.
    pose proof (sort_keyed_sorted lt T S (match d with Maximization => true | Minimization => false end) l) as H.
    rewrite (proj1 (StronglySorted_pair _ _) H i j x y Hij Hi Hj). done.
  - intros P HP. apply sort_keyed_stable. intros x y Hx Hy Px Py.
    pose proof (HP x y Hx Hy Px Py) as H1. pose proof (HP y x Hy Hx Py Px) as H2.
    rewrite ahead_before in H1, H2. split; destruct d; cbn in *; by apply not_true_is_false.
Qed.

Section scores.
  Context {W : World}.
  Lemma scored_Score k h r x : scored k h r x <-> Score k h r x.
  Proof.
    unfold scored, Score, answered, memo.
    split; intros (v & ids & xs & b & R & Hm & E); exists v, ids, xs, b; (split; [by apply on_tour_RouteOK|done]).
  Qed.
  Lemma a_tour_served h r : a_tour h r <-> served h r.
  Proof.
    split.
    - intros (v & ids & xs & R). exists v, (boards xs). exists ids, xs. split; [by apply on_tour_RouteOK|done].
    - intros (v & B & ids & xs & R & _). exists v, ids, xs. by apply on_tour_RouteOK.
  Qed.
  Lemma beats_ahead k x y : beats k x y <-> ahead score_ltb (criterion_direction k) x y.
  Proof. destruct k; cbn; by rewrite score_ltb_lt. Qed.
  Lemma score_order : weak_order score_ltb.
  Proof. split; [apply score_ltb_irrefl|apply score_lt_nlt|apply score_nlt_trans]. Qed.
  Lemma mono_kept h h' : mono h h' -> routes_kept h h'.
  Proof. intros [S _]. by apply soft_kept. Qed.
End scores.

Lemma c24_scoring `{W : World} : forall k h r, sane -> a_tour h r ->
  exists x h', scoring k r h = (Ok x, h') /\ routes_kept h h' /\ scored k h' r x /\
    (forall b, answered h r b -> answered h' r b).
Proof.
  intros k h r [SD SC] (v & ids & xs & R). apply on_tour_RouteOK in R.
  pose proof (scoring_runs k h r v ids xs SD SC R) as H. apply runs_eq in H as (x & h' & E & M & S).
  exists x, h'. split; [done|]. split; [by apply mono_kept|]. split; [by apply scored_Score|]. intros b. apply M.
Qed.

Lemma omap_id_split {A} (l : list (option A)) l1 a l2 : omap id l = l1 ++ a :: l2 ->
  exists m1 m2, l = m1 ++ Some a :: m2 /\ omap id m1 = l1 /\ omap id m2 = l2.
Proof.
  revert l1. induction l as [|[x|] l IH]; intros l1 E; cbn in E.
  - by destruct l1.
  - destruct l1 as [|y l1]; cbn in E; injection E as -> E.
    + by exists [], l.
    + destruct (IH l1 E) as (m1 & m2 & -> & <- & <-). by exists (Some y :: m1), m2.
  - destruct (IH l1 E) as (m1 & m2 & -> & <- & <-). by exists (None :: m1), m2.
Qed.
Lemma elem_of_omap_id {A} (l : list (option A)) a : a ∈ omap id l <-> Some a ∈ l.
Proof.
  rewrite elem_of_list_omap. split; [intros (x & Hx & E); cbn in E; by subst|].
  intros H. by exists (Some a).
Qed.

Lemma c24_best `{W : World} : forall k h (args : list (option nat)), sane ->
  (forall r, Some r ∈ args -> a_tour h r) ->
  exists res h', criterion_best_args k args h = (Ok res, h') /\ routes_kept h h' /\
    (forall r, Some r ∈ args -> exists x, scored k h' r x) /\
    match res with
    | None => forall a, a ∈ args -> a = None
    | Some r => exists l1 l2, args = l1 ++ Some r :: l2 /\
        forall x, scored k h' r x ->
          (forall r1 x1, Some r1 ∈ l1 -> scored k h' r1 x1 -> beats k x x1) /\
          (forall r2 x2, Some r2 ∈ l2 -> scored k h' r2 x2 -> ~ beats k x2 x)
    end.
Proof.
  intros k h args Hs Hl. unfold criterion_best_args.
  pose proof (criterion_best_runs k (omap id args) h Hs) as H.
  apply runs_eq in H as (res & h' & E & M & ks & F & ->).
  2:{ intros r Hr. apply a_tour_served, Hl. by apply elem_of_omap_id. }
  eexists _, h'. split; [exact E|]. split; [by apply mono_kept|]. split.
  { intros r Hr. apply elem_of_omap_id in Hr. apply elem_of_list_lookup in Hr as [i Hi].
    destruct (Forall2_lookup_l _ _ _ _ _ F Hi) as (x & _ & Hx). exists x. by apply scored_Score. }
  pose proof (c24_any_best _ _ score_ltb (criterion_direction k) (zip ks (omap id args)) score_order) as B.
  destruct (dir_best _ _ _) as [r|].
  - destruct B as (x & l1 & l2 & El & H1 & H2).
    assert (E2 : omap id args = map snd l1 ++ r :: map snd l2).
    { rewrite <- (map_snd_zip ks (omap id args)) by (apply Forall2_length in F; lia). by rewrite El, map_app. }
    destruct (omap_id_split _ _ _ _ E2) as (m1 & m2 & -> & Em1 & Em2). exists m1, m2. split; [done|].
    intros y Hy.
    assert (Hx : Score k h' r x). { apply (zip_Forall2 _ _ _ (x, r) F). rewrite El. apply elem_of_app. right. left. }
    apply scored_Score in Hy. rewrite <- (Score_det _ _ _ _ _ Hx Hy). clear y Hy. split.
    + intros r1 x1 Hr1 Hx1. apply elem_of_omap_id in Hr1. rewrite Em1 in Hr1.
      apply elem_of_list_fmap in Hr1 as ([x1' r1'] & -> & Hin). cbn in *.
      assert (Hx1' : Score k h' r1' x1'). { apply (zip_Forall2 _ _ _ (x1', r1') F). rewrite El. apply elem_of_app. by left. }
      apply scored_Score in Hx1. rewrite <- (Score_det _ _ _ _ _ Hx1' Hx1). apply beats_ahead. by apply (H1 (x1', r1')).
    + intros r1 x1 Hr1 Hx1. apply elem_of_omap_id in Hr1. rewrite Em2 in Hr1.
      apply elem_of_list_fmap in Hr1 as ([x1' r1'] & -> & Hin). cbn in *.
      assert (Hx1' : Score k h' r1' x1'). { apply (zip_Forall2 _ _ _ (x1', r1') F). rewrite El. apply elem_of_app. right. by right. }
      apply scored_Score in Hx1. rewrite <- (Score_det _ _ _ _ _ Hx1' Hx1). rewrite beats_ahead. by apply (H2 (x1', r1')).
  - intros [a|] Ha; [|done]. apply elem_of_omap_id in Ha. apply Forall2_length in F.
    assert (omap id args = []) as E0; [|rewrite E0 in Ha; inversion Ha].
    apply (f_equal (map snd)) in B. rewrite map_snd_zip in B by lia. done.
Qed.

Lemma c24_sorted `{W : World} : forall k h l, sane -> (forall r, r ∈ l -> a_tour h r) ->
  exists l' h', criterion_sorted k l h = (Ok l', h') /\ routes_kept h h' /\
    (forall r, r ∈ l -> exists x, scored k h' r x) /\ ordered_by k h' l l'.
Proof.
  intros k h l Hs Hl. pose proof (criterion_sorted_runs k l h Hs) as H.
  apply runs_eq in H as (l' & h' & E & M & Hp & ks & F & El).
  2:{ intros r Hr. by apply a_tour_served, Hl. }
  exists l', h'. split; [done|]. split; [by apply mono_kept|]. split.
  { intros r Hr. apply elem_of_list_lookup in Hr as [i Hi].
    destruct (Forall2_lookup_l _ _ _ _ _ F Hi) as (x & _ & Hx). exists x. by apply scored_Score. }
  destruct (c24_any_sorted _ _ score_ltb (criterion_direction k) (zip ks l) score_order) as (m & Em & Hm & Ho & Hst).
  unfold dir_sorted in Em. change (match criterion_direction k with Maximization => true | Minimization => false end) with (rev_of k) in Em.
  rewrite Em in El. clear Em. subst l'.
  assert (HS : forall e, e ∈ m -> Score k h' e.2 e.1).
  { intros e He. rewrite Hm in He. by apply (zip_Forall2 _ _ _ _ F). }
  split; [done|]. split.
  - intros i j a b x y Hij Ha Hb Sa Sb.
    apply list_lookup_fmap_Some in Ha as ([x' a'] & Ha & ->), Hb as ([y' b'] & Hb & ->). cbn in *.
    apply scored_Score in Sa, Sb.
    assert (Sa' : Score k h' a' x') by (apply (HS (x', a')); by eapply elem_of_list_lookup_2).
    assert (Sb' : Score k h' b' y') by (apply (HS (y', b')); by eapply elem_of_list_lookup_2).
    rewrite (Score_det _ _ _ _ _ Sa Sa'), (Score_det _ _ _ _ _ Sb Sb'). rewrite beats_ahead. by apply (Ho i j (x', a') (y', b')).
  - intros P HP. rewrite filter_map_snd, Hst.
    + rewrite <- filter_map_snd. rewrite map_snd_zip; [done|]. apply Forall2_length in F. lia.
    + intros [x a] [y b] Hx Hy Px Py. cbn in *. rewrite <- beats_ahead.
      assert (Sx : Score k h' a x) by apply (zip_Forall2 _ _ _ _ F Hx).
      assert (Sy : Score k h' b y) by apply (zip_Forall2 _ _ _ _ F Hy).
      apply (HP a b x y); try done; try (by apply scored_Score).
      * apply elem_of_list_lookup in Hx as [i Hi]. apply lookup_zip_with_Some in Hi as (? & ? & [= -> ->] & _ & ?).
        by eapply elem_of_list_lookup_2.
      * apply elem_of_list_lookup in Hy as [i Hi]. apply lookup_zip_with_Some in Hi as (? & ? & [= -> ->] & _ & ?).
        by eapply elem_of_list_lookup_2.
Qed.

Lemma c24_nbest `{W : World} : forall k h n l, sane -> (forall r, r ∈ l -> a_tour h r) ->
  exists best rest h', criterion_nbest k n l h = (Ok best, h') /\ routes_kept h h' /\
    (forall r, r ∈ l -> exists x, scored k h' r x) /\
    length best = Nat.min n (length l) /\ ordered_by k h' l (best ++ rest).
Proof.
  intros k h n l Hs Hl. destruct (c24_sorted k h l Hs Hl) as (l' & h' & E & Hk & Hx & Ho).
  exists (take n l'), (drop n l'), h'. split; [unfold criterion_nbest; by rewrite (bind_ok _ _ _ _ _ E)|].
  split; [done|]. split; [done|]. split; [|by rewrite take_drop].
  rewrite take_length. f_equal. by apply Permutation_length, Ho.
Qed.

(** ** C25 *)
Section planning_values.
  Context {W : World}.
  Lemma worth_quiet o h h' r x : quiet h h' -> worth o h r x -> worth o h' r x.
  Proof.
    intros Q (v & ids & xs & R & E). exists v, ids, xs. split; [|done].
    apply well_formed_RouteW. apply well_formed_RouteW in R. by eapply RouteW_quiet.
  Qed.
  Lemma worth_gives o h r x : worth o h r x -> gives (route_value o r) h x.
  Proof. intros (v & ids & xs & R & ->). eapply route_value_gives. by apply well_formed_RouteW. Qed.
  Lemma worth_det o h r x y : worth o h r x -> worth o h r y -> x = y.
  Proof.
    intros (v & ids & xs & R & ->) (v' & ids' & xs' & R' & ->).
    apply well_formed_RouteW in R, R'. by destruct (RouteW_det _ _ _ _ _ _ _ _ R R') as (<- & <- & <-).
  Qed.
  Lemma total_value_foldr o l : total_value o l = foldr tuple_add (tuple_zero o) l.
  Proof. by destruct o. Qed.
  Lemma planning_value_gives o h pl x : total_worth o h pl x -> gives (planning_value o pl) h x.
  Proof.
    intros (xs & F & ->). unfold gives, planning_value. step. apply runs_set_order. intros l Hl.
    set (h0 := MkHeap _ _ _ _). assert (Q0 : quiet h h0) by (split; [apply soft_tick|done]).
    assert (exists ys, Forall2 (worth o h) l ys /\ ys ≡ₚ xs) as (ys & F' & Hy).
    { symmetry in Hl. destruct (Permutation_Forall2 Hl F) as (ys & Hy & F'). exists ys. split; [done|by symmetry]. }
    rewrite total_value_foldr, <- (foldr_tuple_perm ys xs) by done. clear F Hy xs Hl.
    rewrite <- foldl_tuple_foldr. generalize (tuple_zero o) as z.
    assert (F0 : Forall2 (worth o h0) l ys) by (eapply Forall2_impl; [exact F'|intros ??; by apply worth_quiet]).
    clear F'. clearbody h0. revert h0 Q0 F0. induction l as [|r l IH] in ys |- *; intros h0 Q0 F0 z; inversion F0 as [|? y ? ys' Hy F1]; subst; cbn.
    { by apply runs_ret. }
    step. step. eapply runs_mono; [by apply worth_gives|]. intros ? h1 [-> Q1]. apply runs_ret.
    apply IH; [by eapply quiet_trans|]. eapply Forall2_impl; [exact F1|intros ??; by apply worth_quiet].
  Qed.
  Lemma total_worth_quiet o h h' pl x : quiet h h' -> total_worth o h pl x -> total_worth o h' pl x.
  Proof.
    intros Q (xs & F & ->). exists xs. split; [|done]. eapply Forall2_impl; [exact F|intros ??; by apply worth_quiet].
  Qed.
  Lemma well_planned_worth o h pl : well_planned h pl -> exists x, total_worth o h pl x.
  Proof.
    intros H. assert (exists xs, Forall2 (worth o h) pl xs) as [xs F]; [|by exists (total_value o xs), xs].
    induction pl as [|r pl IH]; [by exists []|].
    destruct IH as [xs F]; [intros q Hq; apply H; by right|]. destruct (H r) as (v & ids & ys & R); [left|].
    exists (value_of o v ys :: xs). constructor; [by exists v, ids, ys|done].
  Qed.
  Lemma total_worth_length o h pl x : total_worth o h pl x -> length x = dimension o.
  Proof.
    intros (xs & F & ->). rewrite total_value_foldr. induction F as [|r y pl xs (v & ids & ys & _ & ->) F IH]; [by destruct o|].
    cbn. unfold tuple_add at 1. rewrite zip_with_length, IH. by destruct o.
  Qed.
  Lemma total_worth_det o h pl x y : total_worth o h pl x -> total_worth o h pl y -> x = y.
  Proof.
    intros (xs & F & ->) (ys & F' & ->). f_equal. revert ys F'. induction F as [|r a pl xs Ha F IH]; intros ys F'.
    - by inversion F'.
    - inversion F' as [|? b ? ys' Hb F2]; subst. f_equal; [by eapply worth_det|by apply IH].
  Qed.
  Lemma total_worth_perm o h pl pl' x : pl ≡ₚ pl' -> total_worth o h pl x -> total_worth o h pl' x.
  Proof.
    intros Hp (xs & F & ->). destruct (Permutation_Forall2 Hp F) as (ys & Hy & F').
    exists ys. split; [done|]. rewrite !total_value_foldr. by apply foldr_tuple_perm.
  Qed.
End planning_values.

Lemma c25_route `{W : World} : forall o h r v ids xs, well_formed h r v ids xs ->
  exists h', route_value o r h = (Ok (value_of o v xs), h') /\ only_memoised h h'.
Proof.
  intros o h r v ids xs R. apply well_formed_RouteW in R.
  pose proof (route_value_gives o h r v ids xs R) as G. apply gives_eq in G as (h' & E & Q).
  exists h'. split; [done|by apply quiet_memoised].
Qed.

Lemma c25_sum `{W : World} : forall o h pl, well_planned h pl ->
  exists x h', planning_value o pl h = (Ok x, h') /\ total_worth o h pl x /\ only_memoised h h'.
Proof.
  intros o h pl H. destruct (well_planned_worth o h pl H) as [x Hx].
  pose proof (planning_value_gives o h pl x Hx) as G. apply gives_eq in G as (h' & E & Q).
  exists x, h'. split; [done|]. split; [done|by apply quiet_memoised].
Qed.

Lemma c25_order `{W : World} : forall o h pl pl', well_planned h pl -> pl ≡ₚ pl' ->
  exists x h1 h2, planning_value o pl h = (Ok x, h1) /\ planning_value o pl' h = (Ok x, h2).
Proof.
  intros o h pl pl' H Hp. destruct (well_planned_worth o h pl H) as [x Hx].
  pose proof (planning_value_gives o h pl x Hx) as G. apply gives_eq in G as (h1 & E1 & _).
  apply (total_worth_perm _ _ _ _ _ Hp) in Hx.
  pose proof (planning_value_gives o h pl' x Hx) as G. apply gives_eq in G as (h2 & E2 & _). eauto.
Qed.

Lemma zip_seq_split {K} (ks : list K) n l1 k i l2 : zip ks (seq n (length ks)) = l1 ++ (k, i) :: l2 ->
  i = (n + length l1)%nat /\ ks !! length l1 = Some k /\
  (forall j x, ks !! j = Some x -> (j < length l1)%nat -> exists y, (x, y) ∈ l1) /\
  (forall j x, ks !! j = Some x -> (length l1 < j)%nat -> exists y, (x, y) ∈ l2).
Proof.
  revert n l1. induction ks as [|a ks IH]; intros n l1 E; cbn in E; [by destruct l1|].
  destruct l1 as [|[b m] l1]; cbn in E; injection E as -> -> E; cbn.
  - split; [lia|]. split; [done|]. split; [lia|]. intros [|j] x Hx Hj; [lia|]. cbn in Hx. subst l2.
    exists (i + S j)%nat. apply elem_of_list_lookup. exists j. apply lookup_zip_with_Some. exists x, (i + S j)%nat.
    split; [done|]. split; [done|]. apply lookup_seq. split; [lia|]. by apply lookup_lt_Some in Hx.
  - destruct (IH _ _ E) as (-> & Hk & H1 & H2). split; [lia|]. split; [done|]. split.
    + intros [|j] x Hx Hj; cbn in Hx.
      * injection Hx as ->. exists m. left.
      * destruct (H1 j x Hx) as [y Hy]; [lia|]. exists y. by right.
    + intros [|j] x Hx Hj; [lia|]. cbn in Hx. apply (H2 j x Hx). lia.
Qed.

Lemma objective_best_eq `{W : World} : forall o h (l : list planning), (forall pl, pl ∈ l -> well_planned h pl) ->
  exists res h', objective_best o l h = (Ok res, h') /\ quiet h h' /\
    match res with
    | None => l = []
    | Some i => exists pl x, l !! i = Some pl /\ total_worth o h pl x /\
        (forall j q y, (j < i)%nat -> l !! j = Some q -> total_worth o h q y -> lex_lt y x) /\
        (forall j q y, (i < j)%nat -> l !! j = Some q -> total_worth o h q y -> ~ lex_lt x y)
    end.
Proof.
  intros o h l H.
  assert (exists ks, Forall2 (total_worth o h) l ks /\ gives (mapM (planning_value o) l) h ks) as (ks & F & G).
  { assert (exists ks, Forall2 (total_worth o h) l ks) as [ks F].
    { clear -H. induction l as [|pl l IH]; [by exists []|]. destruct IH as [ks F]; [intros; apply H; by right|].
      destruct (well_planned_worth o h pl) as [x Hx]; [apply H; left|]. exists (x :: ks). by constructor. }
    exists ks. split; [done|]. clear H. revert h F. induction l as [|pl l IH] in ks |- *; intros h F; inversion F as [|? x ? xs Hx F']; subst; cbn.
    { apply gives_ret. }
    eapply gives_bind; [by apply planning_value_gives|]. intros h1 Q1.
    eapply gives_bind; [apply IH; eapply Forall2_impl; [exact F'|intros ??; by apply total_worth_quiet]|].
    intros h2 Q2. apply gives_ret. }
  apply gives_eq in G as (h' & E & Q). unfold objective_best.
  eexists _, h'. split; [rewrite (bind_ok _ _ _ _ _ E); reflexivity|]. split; [done|].
  pose proof (Forall2_length _ _ _ F) as Hlen. rewrite Hlen.
  pose proof (c24_any_best _ _ tuple_ltb Maximization (zip ks (seq 0 (length ks)))
    ltac:(split; [apply tuple_irrefl|apply tuple_lt_nlt|apply tuple_nlt_trans])) as B. cbn [dir_best] in B.
  destruct (max_keyed _ _) as [i|].
  - destruct B as (x & l1 & l2 & El & H1 & H2). destruct (zip_seq_split _ _ _ _ _ _ El) as (-> & Hx & B1 & B2). cbn.
    destruct (Forall2_lookup_r _ _ _ _ _ F Hx) as (pl & Hpl & Wx). exists pl, x. split; [done|]. split; [done|].
    pose proof (total_worth_length _ _ _ _ Wx) as Lx. split.
    + intros j q y Hj Hq Wy. destruct (Forall2_lookup_l _ _ _ _ _ F Hq) as (y' & Hy & Wy').
      rewrite (total_worth_det _ _ _ _ _ Wy Wy'). destruct (B1 j y' Hy Hj) as [m Hm].
      specialize (H1 _ Hm). cbn in H1. apply tuple_ltb_lex; [|done].
      rewrite (total_worth_length _ _ _ _ Wy'), Lx. done.
    + intros j q y Hj Hq Wy. destruct (Forall2_lookup_l _ _ _ _ _ F Hq) as (y' & Hy & Wy').
      rewrite (total_worth_det _ _ _ _ _ Wy Wy'). destruct (B2 j y' Hy Hj) as [m Hm].
      specialize (H2 _ Hm). cbn in H2. rewrite <- tuple_ltb_lex; [done|].
      rewrite (total_worth_length _ _ _ _ Wy'), Lx. done.
  - destruct ks; [|done]. by destruct l.
Qed.
Lemma c25_best `{W : World} : forall o h (l : list planning), (forall pl, pl ∈ l -> well_planned h pl) ->
  exists res h', objective_best o l h = (Ok res, h') /\ only_memoised h h' /\
    match res with
    | None => l = []
    | Some i => exists pl x, l !! i = Some pl /\ total_worth o h pl x /\
        (forall j q y, (j < i)%nat -> l !! j = Some q -> total_worth o h q y -> lex_lt y x) /\
        (forall j q y, (i < j)%nat -> l !! j = Some q -> total_worth o h q y -> ~ lex_lt x y)
    end.
Proof.
  intros o h l H. destruct (objective_best_eq o h l H) as (res & h' & E & Q & R).
  exists res, h'. split; [done|]. split; [by apply quiet_memoised|done].
Qed.

(** ** C26 *)
Section hashcode.
  Context {W : World}.
  Lemma planned_as_pts h ids p t : planned_as h ids p t -> p ∈ pts_of h ids /\ trip_of h p = t.
  Proof.
    intros (s & c & pc & Hs & Hc & Hp & Hpc & E). split; [apply elem_of_pts_of; eauto|]. unfold trip_of. by rewrite Hpc.
  Qed.
  Lemma visit_duration_zero x :
    (forall t, t ∈ vi_board x -> origin_duration (w_trip t) = 0) ->
    (forall t, t ∈ vi_alight x -> destination_duration (w_trip t) = 0) -> visit_duration x = 0.
  Proof.
    intros H1 H2. unfold visit_duration.
    assert (H : forall z, z ∈ map (fun t => origin_duration (w_trip t)) (vi_board x) ++
      map (fun t => destination_duration (w_trip t)) (vi_alight x) -> z = 0).
    { intros z [Hz|Hz]%elem_of_app; apply elem_of_list_fmap in Hz as (t & -> & Ht); auto. }
    destruct (_ ++ _) as [|z l]; [done|]. cbn. assert (z = 0) as -> by (apply H; left).
    assert (H' : forall y, y ∈ l -> y = 0) by (intros; apply H; by right). clear -H'.
    induction l as [|y l IH]; [done|]. cbn. rewrite IH by (intros; apply H'; by right). rewrite (H' y) by left. done.
  Qed.
End hashcode.

Lemma c26_departure `{W : World} : forall h r v ids xs p t, well_formed h r v ids xs -> planned_as h ids p t ->
  returns (planned_trip_value HashCode p) h [points t (origin_earliest (w_trip t)) (picked_up_at v xs t)].
Proof.
  intros h r v ids xs p t R Hp. apply well_formed_RouteW in R. destruct (planned_as_pts _ _ _ _ Hp) as [Hin <-].
  pose proof (planned_trip_value_gives HashCode h r v ids xs p ltac:(done) R Hin) as G.
  apply gives_returns in G. unfold trip_score, unless_empty, ride_score in G. unfold points. done.
Qed.

Lemma c26_instant `{W : World} : forall h r v ids xs p t i x, well_formed h r v ids xs -> planned_as h ids p t ->
  xs !! i = Some x -> t ∈ vi_board x ->
  (forall u, u ∈ vi_board x -> sv_duration (tr_origin (w_trip u)) = 0) ->
  (forall u, u ∈ vi_alight x -> sv_duration (tr_destination (w_trip u)) = 0) ->
  tr_timeout (w_trip t) = Inf ->
  returns (planned_trip_value HashCode p) h [points t (sv_earliest (tr_origin (w_trip t))) (boarded_at v xs t)].
Proof.
  intros h r v ids xs p t i x R Hp Hx Ht Hb Ha Ho.
  replace (sv_earliest (tr_origin (w_trip t))) with (origin_earliest (w_trip t)) by (unfold origin_earliest; by rewrite Ho).
  replace (boarded_at v xs t) with (picked_up_at v xs t); [by eapply c26_departure|].
  destruct (timetable_some v xs i x Hx) as [T HT]. unfold picked_up_at, boarded_at.
  assert (Hu : forall j y, xs !! j = Some y -> bool_decide (t ∈ vi_board y) = true -> j = i).
  { intros j y Hy Hty%bool_decide_eq_true. eapply (flat_map_NoDup_lookup vi_board xs j i y x t); try done. apply R. }
  rewrite !(moment_unique _ _ v xs i x T) by (try done; by apply bool_decide_eq_true).
  clear Hu R Hp. unfold timetable in HT. revert HT Hx. generalize (ready v) as l. revert i.
  induction xs as [|y xs IH]; intros i l HT Hx; [done|]. destruct i as [|i]; cbn in HT, Hx.
  - injection HT as <-. injection Hx as ->. unfold advance. destruct l as [[now here] load]. cbn.
    rewrite visit_duration_zero by done. lia.
  - exact (IH i _ HT Hx).
Qed.

(** ** C44 *)
Section dedup.
  Context {A : Type} `{EqDecision A} (eqb : A -> A -> bool).
  Hypothesis eqb_eq : forall x y, eqb x y = true <-> x = y.
  Lemma existsb_elem seen x : existsb (eqb x) seen = true <-> x ∈ seen.
  Proof.
    rewrite existsb_exists. split.
    - intros (y & Hy & E). apply eqb_eq in E as ->. by apply elem_of_list_In.
    - intros H. exists x. split; [by apply elem_of_list_In|by apply eqb_eq].
  Qed.
  Lemma remove_duplicates_from_spec l : forall seen, exists idx,
    StronglySorted lt idx /\
    (forall i, i ∈ idx <-> exists x, first_at l i x /\ x ∉ seen) /\
    Forall2 (fun i x => l !! i = Some x) idx (remove_duplicates_from eqb seen l).
  Proof.
    induction l as [|x l IH]; intros seen; cbn.
    - exists []. split; [constructor|]. split; [|constructor]. intros i. split; [intros H; inversion H|].
      intros (x & [H _] & _). done.
    - assert (Hs : forall m, StronglySorted lt m -> StronglySorted lt (map S m)).
      { induction 1 as [|a m _ IHm Hm]; cbn; constructor; [done|]. apply Forall_forall. intros b Hb.
        apply elem_of_list_fmap in Hb as (c & -> & Hc). rewrite Forall_forall in Hm. specialize (Hm c Hc). lia. }
      destruct (existsb (eqb x) seen) eqn:E.
      + apply existsb_elem in E. destruct (IH seen) as (idx & S1 & H1 & F). exists (map S idx). split; [auto|]. split.
        * intros i. rewrite elem_of_list_fmap. split.
          -- intros (j & -> & Hj). apply H1 in Hj as (y & [Hy Hf] & Hn). exists y. split; [|done]. split; [done|].
             intros [|k] Hk; cbn; [congruence|]. apply Hf. lia.
          -- intros (y & [Hy Hf] & Hn). destruct i as [|i]; [cbn in Hy; congruence|]. exists i. split; [done|].
             apply H1. exists y. split; [|done]. split; [done|]. intros k Hk. apply (Hf (S k)). lia.
        * clear -F. induction F; cbn; constructor; done.
      + assert (Hx : x ∉ seen) by (rewrite <- existsb_elem; congruence).
        destruct (IH (seen ++ [x])) as (idx & S1 & H1 & F). exists (0%nat :: map S idx). split; [|split].
        * constructor; [auto|]. apply Forall_forall. intros b Hb. apply elem_of_list_fmap in Hb as (c & -> & _). lia.
        * intros i. rewrite elem_of_cons, elem_of_list_fmap. split.
          -- intros [->|(j & -> & Hj)]; [exists x; split; [split; [done|lia]|done]|].
             apply H1 in Hj as (y & [Hy Hf] & Hn). exists y. split; [|set_solver]. split; [done|].
             intros [|k] Hk; cbn; [set_solver|]. apply Hf. lia.
          -- intros (y & [Hy Hf] & Hn). destruct i as [|i]; [by left|]. right. exists i. split; [done|].
             apply H1. exists y. assert (y <> x) by (specialize (Hf 0%nat); cbn in Hf; intros ->; apply Hf; [lia|done]).
             split; [|set_solver]. split; [done|]. intros k Hk. apply (Hf (S k)). lia.
        * constructor; [done|]. clear -F. induction F; cbn; constructor; done.
  Qed.
End dedup.

Lemma c44_first : forall A (eqb : A -> A -> bool) (l : list A), (forall x y, eqb x y = true <-> x = y) ->
  exists idx, StronglySorted lt idx /\ (forall i, i ∈ idx <-> exists x, first_at l i x) /\
    Forall2 (fun i x => l !! i = Some x) idx (remove_duplicates eqb l).
Proof.
  intros A eqb l H.
  assert (X : EqDecision A) by (intros x y; destruct (eqb x y) eqn:E; [left; by apply H|right; intros ->; by rewrite (proj2 (H y y) eq_refl) in E]).
  destruct (remove_duplicates_from_spec eqb H l []) as (idx & S1 & H1 & F). exists idx. split; [done|]. split; [|done].
  intros i. rewrite H1. split; intros (x & Hx); [exists x; by destruct Hx|]. exists x. split; [done|set_solver].
Qed.

Lemma c44_same : forall A (eqb : A -> A -> bool) (l : list A), (forall x y, eqb x y = true <-> x = y) ->
  NoDup (remove_duplicates eqb l) /\ forall x, x ∈ remove_duplicates eqb l <-> x ∈ l.
Proof.
  intros A eqb l H.
  assert (X : EqDecision A) by (intros x y; destruct (eqb x y) eqn:E; [left; by apply H|right; intros ->; by rewrite (proj2 (H y y) eq_refl) in E]).
  destruct (c44_first A eqb l H) as (idx & S1 & H1 & F).
  assert (Hlk : forall k x, remove_duplicates eqb l !! k = Some x -> exists i, idx !! k = Some i /\ first_at l i x).
  { intros k x Hk. destruct (Forall2_lookup_r _ _ _ _ _ F Hk) as (i & Hi & Hx). exists i. split; [done|].
    destruct (proj1 (H1 i)) as (y & Hy); [by eapply elem_of_list_lookup_2|].
    assert (y = x) as -> by (destruct Hy; congruence). done. }
  split.
  - apply NoDup_alt. intros i j x Hi Hj. destruct (Hlk _ _ Hi) as (a & Ha & [Ax Af]), (Hlk _ _ Hj) as (b & Hb & [Bx Bf]).
    assert (a = b) as ->.
    { destruct (Nat.lt_total a b) as [Hlt|[->|Hlt]]; [by apply Bf in Hlt|done|by apply Af in Hlt]. }
    destruct (Nat.lt_total i j) as [Hlt|[->|Hlt]]; [|done|].
    + pose proof (proj1 (StronglySorted_pair _ _) S1 i j b b Hlt Ha Hb). lia.
    + pose proof (proj1 (StronglySorted_pair _ _) S1 j i b b Hlt Hb Ha). lia.
  - intros x. split.
    + intros Hx. apply elem_of_list_lookup in Hx as [k Hk]. destruct (Hlk _ _ Hk) as (i & _ & [Hi _]).
      by eapply elem_of_list_lookup_2.
    + intros Hx. apply elem_of_list_lookup in Hx as [i Hi].
      assert (exists i0, first_at l i0 x) as [i0 Hf].
      { clear -Hi X. revert i Hi. induction i as [i IH] using lt_wf_ind. intros Hi.
        destruct (decide (Forall (fun j => l !! j <> Some x) (seq 0 i))) as [Hall|Hex].
        - exists i. split; [done|]. intros j Hj. rewrite Forall_forall in Hall. apply Hall. apply elem_of_seq. lia.
        - apply not_Forall_Exists in Hex; [|apply _]. apply Exists_exists in Hex as (j & Hj & Hn).
          apply elem_of_seq in Hj. destruct (decide (l !! j = Some x)) as [E|]; [|done]. apply (IH j); [lia|done]. }
      assert (i0 ∈ idx) as Hin by (apply H1; eauto). apply elem_of_list_lookup in Hin as [k Hk].
      destruct (Forall2_lookup_l _ _ _ _ _ F Hk) as (y & Hy & Ey). destruct Hf as [Hf _].
      assert (y = x) as -> by congruence. by eapply elem_of_list_lookup_2.
Qed.

(** ** C46 *)
Section coverage.
  Context {W : World}.
  Lemma set_union_spec (l m : list nat) : (forall x, x ∈ set_union l m <-> x ∈ l \/ x ∈ m) /\
    (NoDup l -> NoDup m -> NoDup (set_union l m)).
  Proof.
    unfold set_union, set_diff. split.
    - intros x. rewrite elem_of_app, elem_of_list_filter. destruct (decide (x ∈ l)); tauto.
    - intros Hl Hm. apply NoDup_app. split; [done|]. split; [|by apply NoDup_filter].
      intros x Hx Hf. apply elem_of_list_filter in Hf as [? _]. done.
  Qed.
  Lemma Nat_eqb_eq x y : Nat.eqb x y = true <-> x = y.
  Proof. apply Nat.eqb_eq. Qed.
  Lemma completed_runs h pl : well_planned h pl ->
    runs (completed_trips pl) h (fun ts h' => quiet h h' /\ NoDup ts /\
      forall t, t ∈ ts <-> tr_capacity (w_trip t) <> 0 /\ carried h pl t).
  Proof.
    intros H. unfold completed_trips. step. apply runs_set_order. intros l Hl.
    set (h0 := MkHeap _ _ _ _). assert (Q0 : quiet h h0) by (split; [apply soft_tick|done]). clearbody h0.
    assert (G : forall acc h1, quiet h h1 -> NoDup acc -> (forall r, r ∈ l -> r ∈ pl) ->
      runs (foldM (fun acc r => let! ts := route_loaded_trips r in
              ret (set_union acc (remove_duplicates Nat.eqb ts))) acc l) h1
        (fun ts h' => quiet h h' /\ NoDup ts /\
           forall t, t ∈ ts <-> t ∈ acc \/ (tr_capacity (w_trip t) <> 0 /\ carried h l t))).
    { clear h0 Q0 Hl. induction l as [|r l IH]; intros acc h1 Q1 Ha Hin; cbn.
      - apply runs_ret. split; [done|]. split; [done|]. intros t. split; [by left|]. intros [?|[_ (r & ?&?&?&Hr&_)]]; [done|inversion Hr].
      - step. unfold route_loaded_trips. step. step. destruct (H r) as (v & ids & xs & R); [apply Hin; left|].
        pose proof (proj1 (well_formed_RouteW _ _ _ _ _) R) as RW.
        eapply runs_route_trips; [by eapply RouteW_quiet|]. apply runs_ret. apply runs_ret.
        destruct (c44_same nat Nat.eqb (List.filter (fun t => negb (trip_empty (w_trip t))) (boards xs)) Nat_eqb_eq) as [Hn Hs].
        destruct (set_union_spec acc (remove_duplicates Nat.eqb (List.filter (fun t => negb (trip_empty (w_trip t))) (boards xs)))) as [Hu Hun].
        eapply runs_mono; [apply IH; [done|by apply Hun|intros; apply Hin; by right]|].
        cbn. intros ts h2 (Q2 & Hnd & Ht). split; [done|]. split; [done|]. intros t. rewrite Ht, Hu, Hs.
        rewrite <- (elem_of_list_In (List.filter _ _) t) || idtac.
        assert (Hf : t ∈ List.filter (fun t => negb (trip_empty (w_trip t))) (boards xs) <-> tr_capacity (w_trip t) <> 0 /\ t ∈ boards xs).
        { rewrite elem_of_list_In, filter_In, <- elem_of_list_In. unfold trip_empty. rewrite negb_true_iff, Z.eqb_neq. tauto. }
        rewrite Hf. split.
        + intros [[?|[??]]|[? (q & ?&?&?&Hq&?)]]; [by left| |].
          * right. split; [done|]. exists r, v, ids, xs. split; [left|done].
          * right. split; [done|]. exists q. do 3 eexists. split; [by right|done].
        + intros [?|[? (q & v' & ids' & xs' & Hq & Rq & Hb)]]; [by left; left|]. apply elem_of_cons in Hq as [->|Hq].
          * apply well_formed_RouteW in Rq. destruct (RouteW_det _ _ _ _ _ _ _ _ RW Rq) as (<- & <- & <-). left. by right.
          * right. split; [done|]. by exists q, v', ids', xs'. }
    eapply runs_mono; [apply (G [] h0 Q0); [constructor|intros r; by rewrite Hl]|]. cbn.
    intros ts h' (Q & Hn & Ht). split; [done|]. split; [done|]. intros t. rewrite Ht. split.
    - intros [Hx|[? (r & ?&?&?&Hr&?)]]; [inversion Hx|]. split; [done|]. exists r. do 3 eexists. split; [by rewrite <- Hl|done].
    - intros [? (r & ?&?&?&Hr&?)]. right. split; [done|]. exists r. do 3 eexists. split; [by rewrite Hl|done].
  Qed.
End coverage.

Lemma c46_rate `{W : World} : forall h pl job, well_planned h pl -> job <> [] ->
  exists ts h', NoDup ts /\ (forall t, t ∈ ts <-> tr_capacity (w_trip t) <> 0 /\ carried h pl t) /\
    coverage_rate pl job h = (Ok (Z.of_nat (length ts) # Pos.of_nat (length job)), h') /\ only_memoised h h'.
Proof.
  intros h pl job H Hj. pose proof (completed_runs h pl H) as C. apply runs_eq in C as (ts & h' & E & Q & Hn & Ht).
  exists ts, h'. split; [done|]. split; [done|]. split; [|by apply quiet_memoised].
  unfold coverage_rate. rewrite (bind_ok _ _ _ _ _ E). destruct job as [|t job]; [done|]. cbn [length].
  by rewrite Pos.of_nat_succ.
Qed.

Lemma c46_bounds `{W : World} : forall h pl job, well_planned h pl -> job <> [] -> NoDup job ->
  (forall t, carried h pl t -> t ∈ job) ->
  exists q h', coverage_rate pl job h = (Ok q, h') /\ (0 <= q <= 1)%Q /\
    ((forall t, t ∈ job -> tr_capacity (w_trip t) <> 0) -> (q == 1)%Q <-> forall t, t ∈ job -> carried h pl t).
Proof.
  intros h pl job H Hj Hn Hin. destruct (c46_rate h pl job H Hj) as (ts & h' & Hts & Ht & E & _).
  eexists _, h'. split; [exact E|].
  assert (Hsub : ts ⊆+ job). { apply NoDup_submseteq; [done|]. intros t Hx. apply Hin. by apply Ht. }
  pose proof (submseteq_length _ _ Hsub) as Hle.
  assert (Hpos : (0 < length job)%nat) by (destruct job; [done|cbn; lia]).
  assert (Hp : Zpos (Pos.of_nat (length job)) = Z.of_nat (length job)) by lia.
  unfold Qle, Qeq. cbn. rewrite Hp. split; [lia|].
  intros Hcap. split.
  - intros Heq t Htj. assert (Hlen : length ts = length job) by lia.
    assert (Hpm : ts ≡ₚ job) by (apply submseteq_Permutation_length_le; [lia|done]). rewrite <- Hpm in Htj. by apply Ht.
  - intros Hall. assert (Hsup : job ⊆+ ts).
    { apply NoDup_submseteq; [done|]. intros t Htj. apply Ht. auto. }
    pose proof (submseteq_length _ _ Hsup). lia.
Qed.

Lemma c46_empty `{W : World} : forall h pl, well_planned h pl ->
  exists h', coverage_rate pl [] h = (Raise ZeroDivisionError, h').
Proof.
  intros h pl H. pose proof (completed_runs h pl H) as C. apply runs_eq in C as (ts & h' & E & _).
  exists h'. unfold coverage_rate. by rewrite (bind_ok _ _ _ _ _ E).
Qed.

(** ** C47 *)
Lemma c47_naive `{W : World} : forall o h, exists h', optimize o naive_optimize h = (Raise TypeError, h').
Proof.
  intros o h. eexists. unfold optimize, naive_optimize, planning_feasible, set_order, tick, bind, ret. cbn.
  assert (E : forall k, w_shuffle k [] = []) by (intros k; apply Permutation_nil; symmetry; apply w_shuffle_perm).
  by rewrite E.
Qed.

Lemma planning_feasible_nil `{W : World} : forall h, exists h', planning_feasible [] h = (Raise TypeError, h').
Proof.
  intros h. eexists. unfold planning_feasible, set_order, tick, bind, ret. cbn.
  assert (E : forall k, w_shuffle k [] = []) by (intros k; apply Permutation_nil; symmetry; apply w_shuffle_perm).
  by rewrite E.
Qed.
Lemma c47_fleet `{W : World} : forall o cfg job h, sane -> tidy h -> NoDup job -> (1 <= ic_random cfg)%nat ->
  exists h', optimize o (insertion_optimize cfg [] job None) h = (Raise TypeError, h').
Proof.
  intros o cfg job h Hs HT Hj Hr.
  destruct (c17_result cfg [] job h Hs HT ltac:(constructor) Hj Hr) as (pl & h1 & E & _ & V).
  destruct (vp_routes _ _ _ _ V) as (ws & Hw & F). apply Permutation_sym, Permutation_nil in Hw as ->. inversion F; subst.
  destruct (planning_feasible_nil h1) as [h2 E2]. exists h2. unfold optimize. rewrite (bind_ok _ _ _ _ _ E).
  unfold bind. by rewrite E2.
Qed.

Section feasible.
  Context {W : World}.
  Lemma planning_feasible_runs h pl : sane -> pl <> [] -> (forall r, r ∈ pl -> a_tour h r) ->
    runs (planning_feasible pl) h (fun _ h' => mono h h').
  Proof.
    intros [SD SC] Hne Hl. unfold planning_feasible. step. apply runs_set_order. intros l Hp.
    set (h0 := MkHeap _ _ _ _). assert (M0 : mono h h0) by apply mono_tick. clearbody h0.
    assert (Hin : forall r, r ∈ l -> a_tour h r) by (intros r Hr; apply Hl; by rewrite <- Hp).
    assert (H1 : forall r h1, r ∈ l -> mono h h1 -> runs (route_feasible r) h1 (fun _ h' => mono h h')).
    { intros r h1 Hr M1. destruct (Hin r Hr) as (v & ids & xs & R). apply on_tour_RouteOK in R.
      eapply runs_mono; [eapply route_feasible_mono; [done|done|]|].
      - eapply RouteOK_soft; [apply M1|done].
      - intros b h2 (M2 & _). by eapply mono_trans. }
    destruct l as [|r l]; [by apply Permutation_nil in Hp|].
    step. eapply runs_mono; [apply H1; [left|done]|]. intros b h1 M1.
    clear -H1 M1. assert (H2 : forall q h1, q ∈ l -> mono h h1 -> runs (route_feasible q) h1 (fun _ h' => mono h h'))
      by (intros; apply H1; [by right|done]). clear H1.
    revert b h1 M1. induction l as [|q l IH]; intros b h1 M1; cbn; [by apply runs_ret|].
    step. step. eapply runs_mono; [apply H2; [left|done]|]. intros b2 h2 M2. apply runs_ret.
    apply IH; [|done]. intros; apply H2; [by right|done].
  Qed.
End feasible.

Lemma c47_works `{W : World} : forall o m h pl h1, sane -> m h = (Ok pl, h1) -> pl <> [] ->
  (forall r, r ∈ pl -> a_tour h1 r) ->
  exists h', optimize o m h = (Ok pl, h') /\ routes_kept h1 h'.
Proof.
  intros o m h pl h1 Hs E Hne Hl.
  pose proof (planning_feasible_runs h1 pl Hs Hne Hl) as P. apply runs_eq in P as (b & h2 & E2 & M2).
  destruct (c25_sum o h2 pl) as (x & h3 & E3 & _ & Om).
  { intros r Hr. destruct (Hl r Hr) as (v & ids & xs & R). exists v, ids, xs. apply (proj2 (mono_kept _ _ M2)), R. }
  exists h3. split; [|eapply kept_trans; [by apply mono_kept|apply Om]].
  unfold optimize. rewrite (bind_ok _ _ _ _ _ E), (bind_ok _ _ _ _ _ E2), (bind_ok _ _ _ _ _ E3). done.
Qed.

Lemma c26_refuted : exists (W : World) h r v ids xs p t h' z,
  sane /\ tidy h /\ well_formed h r v ids xs /\ planned_as h ids p t /\
  boarded_at v xs t = sv_earliest (tr_origin (w_trip t)) /\
  planned_trip_value HashCode p h = (Ok [z], h') /\
  z <> points t (sv_earliest (tr_origin (w_trip t))) (boarded_at v xs t).
Proof.
  exists meter, meter_town, 2%nat, 0%nat, (meter_stops 2), (meter_visits 2), 1%nat, 0%nat.
  eexists _, _. split; [apply meter_sane|]. split; [apply tidyb_sound; reflexivity|].
  split; [apply well_formedb_sound; reflexivity|]. split.
  { exists 7%nat. do 2 eexists. split; [apply (bool_decide_unpack _); reflexivity|].
    split; [vm_compute; reflexivity|]. split; [apply (bool_decide_unpack _); reflexivity|].
    split; vm_compute; reflexivity. }
  split; [reflexivity|]. split; [vm_compute; reflexivity|]. vm_compute. congruence.
Qed.
