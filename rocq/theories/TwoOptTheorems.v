(** 2-opt: what it keeps and what it improves. *)
From Verif Require Export TwoOptProofs LocalTheorems FairTheorems.

Section offspring.
  Context {W : World}.

  Definition Tours (h : heap) (rs : list nat) : Prop := forall r, r ∈ rs -> exists v ids L, RouteOK h r v ids L.
  Lemma Tours_spreads h h' rs : spreads h h' -> Tours h rs -> Tours h' rs.
  Proof. intros [G _] T r Hr. destruct (T r Hr) as (v & ids & L & R). exists v, ids, L. by eapply RouteOK_grow. Qed.
  Lemma check_tours_runs h rs : Tours h rs -> HInv h -> runs (check_routes rs) h (fun _ h' => soft h h').
  Proof.
    intros P HI. unfold check_routes. step. apply runs_set_order. intros l Hl. set (h0 := MkHeap _ _ _ _).
    assert (S0 : soft h h0) by apply soft_tick.
    apply (runs_iterM _ (fun h' => soft h h')); [done|].
    intros r h1 Hr S1. rewrite Hl in Hr. destruct (P r Hr) as (v & ids & L & R).
    apply (RouteOK_soft _ _ _ _ _ _ S1) in R as [R _]. step.
    eapply runs_mono; [eapply assert_linked_runs, RouteW_P; exact R|]. intros ? ? ->.
    eapply runs_mono; [eapply assert_monotone_runs, RouteW_P; exact R|]. intros ? h2 [S2 _]. by eapply soft_trans.
  Qed.

  Lemma two_opt_improve_runs o h rs : sane -> HInv h -> Tours h rs ->
    runs (two_opt_improve o rs) h (fun pl h' => spreads h h' /\ HInv h' /\
      (forall r', r' ∈ pl -> r' ∈ rs \/ Born o h rs h' r') /\
      (forall r v ids L, r ∈ rs -> RouteOK h r v ids L ->
         r ∈ pl \/ exists r' ids' ys, r' ∈ pl /\ Born o h rs h' r' /\ RouteOK h' r' v ids' ys)).
  Proof.
    intros Hs HI HT. unfold two_opt_improve. step. apply runs_set_order. intros l Hl. set (h0 := MkHeap _ _ _ _).
    assert (S0 : soft h h0) by apply soft_tick. step.
    eapply runs_mono; [apply (runs_foldM _ (fun ov h' => spreads h h' /\ HInv h' /\ (forall r', r' ∈ ov -> Born o h rs h' r')))|].
    - split; [by apply spreads_soft|]. split; [by eapply HInv_soft|]. intros r' Hr'. inversion Hr'.
    - intros ov r h1 Hr (S1 & HI1 & HB1). rewrite Hl in Hr. apply two_opt_route_runs; try done. by apply HT.
    - intros ov h1 (S1 & HI1 & HB1). eapply runs_mono; [apply (update_two_opt_runs o h rs ov h1)|].
      + by apply (Tours_spreads h).
      + done.
      + intros pl ? (-> & H1 & H2). split; [done|]. split; [done|]. split.
        * intros r' Hr'. destruct (H1 r' Hr'); [by left|right; by apply HB1].
        * intros r v ids L Hr R. destruct (H2 r v ids L Hr) as [?|(r' & ids' & ys & Hp & Ho & R')]; [by eapply RouteOK_grow; [apply S1|]|by left|].
          right. exists r', ids', ys. auto.
  Qed.

  (** the visits of [r'] are those of a route of [rs], or those with a stretch
      reversed, which is better *)
  Definition Offspring (o : objective) (h : heap) (rs : list nat) (h' : heap) (r' v : nat) (ids' : list nat) (ys : list visit) : Prop :=
    RouteOK h' r' v ids' ys /\ exists r ids L, r ∈ rs /\ RouteOK h r v ids L /\
      (ys = L \/ turns L ys /\ lex_lt (value_of o v L) (value_of o v ys) /\ (Fair h -> nearly v ys /\ brief v ys)).

  Lemma two_opt_runs o h rs : sane -> HInv h -> Tours h rs ->
    runs (ls_improve TwoOpt o rs) h (fun pl h' => spreads h h' /\ HInv h' /\
      (forall r', r' ∈ pl -> exists v ids' ys, Offspring o h rs h' r' v ids' ys) /\
      (forall r v ids L, r ∈ rs -> RouteOK h r v ids L -> exists r' ids' ys, r' ∈ pl /\ Offspring o h rs h' r' v ids' ys /\
         (ys = L \/ exists r0 ids0 L0, r0 ∈ rs /\ RouteOK h r0 v ids0 L0 /\ turns L0 ys))).
  Proof.
    intros Hs HI HT. unfold ls_improve. step. eapply runs_mono; [apply deepcopy_runs|].
    { intros r Hr. destruct (HT r Hr) as (v & ids & L & R). destruct (rw_cell _ _ _ _ _ (proj1 R)) as (c & Hc & _). eauto. }
    intros rs1 h1 (HC & Ers & F). assert (HI1 : HInv h1) by by eapply Copied_HInv.
    assert (E1 : spreads h h1) by (split; [by apply Copied_grow|intros g; by apply Copied_Worth]).
    assert (Copy1 : forall r, r ∈ rs -> exists r1, r1 ∈ rs1 /\ forall v ids L, RouteOK h r v ids L -> exists ids1, RouteOK h1 r1 v ids1 L).
    { intros r Hr. apply elem_of_list_lookup_1 in Hr as [i Hi]. destruct (Forall2_lookup_l _ _ _ _ _ F Hi) as (r1 & Hr1 & c & Hc & Hc1).
      exists r1. split; [by eapply elem_of_list_lookup_2|]. intros v ids L R. exists (map (up h) ids). by eapply Copied_route. }
    assert (Copy2 : forall r1, r1 ∈ rs1 -> exists r v ids ids1 L, r ∈ rs /\ RouteOK h r v ids L /\ RouteOK h1 r1 v ids1 L).
    { intros r1 Hr1. apply elem_of_list_lookup_1 in Hr1 as [i Hi]. destruct (Forall2_lookup_r _ _ _ _ _ F Hi) as (r & Hr & c & Hc & Hc1).
      apply elem_of_list_lookup_2 in Hr. destruct (HT r Hr) as (v & ids & L & R). exists r, v, ids, (map (up h) ids), L.
      split; [done|]. split; [done|]. by eapply Copied_route. }
    assert (HT1 : Tours h1 rs1).
    { intros r1 Hr1. destruct (Copy2 r1 Hr1) as (r & v & ids & ids1 & L & _ & _ & R). eauto. }
    step. eapply runs_mono; [by apply check_tours_runs|]. intros ? h2 S2.
    assert (HI2 : HInv h2) by exact (HInv_soft _ _ HI1 S2).
    assert (HT2 : Tours h2 rs1) by exact (Tours_spreads _ _ _ (spreads_soft _ _ S2) HT1).
    assert (E2 : spreads h h2) by (eapply spreads_trans; [exact E1|by apply spreads_soft]).
    step. eapply runs_mono; [by apply (two_opt_improve_runs o h2 rs1)|]. cbn [ls_improve_raw].
    intros pl h3 (E3 & HI3 & B1 & B2).
    assert (HT3 : Tours h3 pl).
    { intros r' Hr'. destruct (B1 r' Hr') as [Hin|(r & v & _ & _ & ids' & ys & _ & _ & R & _)]; [|eauto].
      by apply (Tours_spreads h2 h3 rs1). }
    step. eapply runs_mono; [by apply check_tours_runs|]. intros ? h4 S4. apply runs_ret.
    assert (E34 : spreads h3 h4) by by apply spreads_soft.
    assert (E03 : spreads h h3) by by eapply spreads_trans.
    split; [by eapply spreads_trans|]. split; [by eapply HInv_soft|].
    (* the source of a route *)
    assert (Up : forall r1 v ids L, r1 ∈ rs1 -> RouteOK h2 r1 v ids L -> exists r ids0, r ∈ rs /\ RouteOK h r v ids0 L).
    { intros r1 v ids L Hr1 R. destruct (Copy2 r1 Hr1) as (r & v0 & ids0 & ids1 & L0 & Hr & R0 & R1).
      pose proof (RouteOK_soft _ _ _ _ _ _ S2 R1) as R2. destruct (RouteW_det _ _ _ _ _ _ _ _ (proj1 R) (proj1 R2)) as (-> & _ & ->). eauto. }
    assert (OffB : forall r' v ids' ys, Born o h2 rs1 h3 r' -> RouteOK h3 r' v ids' ys -> Offspring o h rs h4 r' v ids' ys /\
       exists r0 ids0 L0, r0 ∈ rs /\ RouteOK h r0 v ids0 L0 /\ turns L0 ys).
    { intros r' v ids' ys (r1 & v1 & ids1 & L & ids2 & ys2 & Hr1 & R1 & R' & Ht & Hv & HF) R.
      destruct (RouteW_det _ _ _ _ _ _ _ _ (proj1 R) (proj1 R')) as (<- & <- & <-).
      destruct (HT2 r1 Hr1) as (v3 & ids3 & L3 & R3). pose proof (RouteOK_grow _ _ _ _ _ _ (proj1 E3) R3) as R3'.
      destruct (RouteW_det _ _ _ _ _ _ _ _ (proj1 R1) (proj1 R3')) as (<- & <- & <-).
      destruct (Up _ _ _ _ Hr1 R3) as (r & ids0 & Hr & R0). split; [|eauto 10]. split; [exact (RouteOK_soft _ _ _ _ _ _ S4 R)|].
      exists r, ids0, L. split; [done|]. split; [done|]. right. split; [done|]. split; [done|]. intros F0. apply HF, E2, F0. }
    assert (OffA : forall r1 v ids L, r1 ∈ rs1 -> RouteOK h2 r1 v ids L -> Offspring o h rs h4 r1 v ids L).
    { intros r1 v ids L Hr1 R. destruct (Up _ _ _ _ Hr1 R) as (r & ids0 & Hr & R0). split.
      - eapply RouteOK_soft; [exact S4|]. by eapply RouteOK_grow; [apply E3|].
      - exists r, ids0, L. auto. }
    split.
    - intros r' Hr'. destruct (B1 r' Hr') as [Hin|HB].
      + destruct (HT2 r' Hin) as (v & ids & L & R). exists v, ids, L. by apply OffA.
      + pose proof HB as (_ & v & _ & _ & ids' & ys & _ & _ & R & _). exists v, ids', ys. by apply OffB.
    - intros r v ids L Hr R. destruct (Copy1 r Hr) as (r1 & Hr1 & HR1). destruct (HR1 v ids L R) as [ids1 R1].
      pose proof (RouteOK_soft _ _ _ _ _ _ S2 R1) as R2. destruct (B2 r1 v ids1 L Hr1 R2) as [Hin|(r' & ids' & ys & Hp & HB & R')].
      + exists r1, ids1, L. split; [done|]. split; [by apply OffA|by left].
      + destruct (OffB _ _ _ _ HB R') as [O1 O2]. exists r', ids', ys. auto.
  Qed.
End offspring.

Lemma c28_step `{W : World} : forall o h initial,
  sane -> tidy h -> (forall r, r ∈ initial -> a_tour h r) ->
  exists pl h', ls_improve TwoOpt o initial h = (Ok pl, h') /\ tidy h' /\ (fair h -> fair h') /\ routes_kept h h' /\
    (forall r', r' ∈ pl -> exists r v ids xs ids' ys, r ∈ initial /\ on_tour h r v ids xs /\ on_tour h' r' v ids' ys /\
       (ys = xs \/ turns xs ys /\ lex_lt (value_of o v xs) (value_of o v ys) /\ (fair h -> almost v ys /\ brief v ys))) /\
    (forall r v ids xs, r ∈ initial -> on_tour h r v ids xs -> exists r' ids' ys, r' ∈ pl /\ on_tour h' r' v ids' ys /\
       (ys = xs \/ exists r0 ids0 xs0, r0 ∈ initial /\ on_tour h r0 v ids0 xs0 /\ turns xs0 ys)).
Proof.
  intros o h initial Hs HT HA. apply tidy_HInv in HT.
  assert (HTo : Tours h initial).
  { intros r Hr. destruct (HA r Hr) as (v & ids & xs & R). exists v, ids, xs. by apply on_tour_RouteOK. }
  pose proof (two_opt_runs o h initial Hs HT HTo) as R. apply runs_eq in R as (pl & h' & E & Sp & HI & H1 & H2).
  exists pl, h'. split; [done|]. split; [by apply tidy_HInv|]. split.
  { intros F. apply fair_Fair; [done|]. apply Sp. by apply fair_Fair in F. }
  split; [apply grow_kept, Sp|]. split.
  - intros r' Hr'. destruct (H1 r' Hr') as (v & ids' & ys & R' & r & ids & L & Hr & R & Hc). exists r, v, ids, L, ids', ys.
    split; [done|]. split; [by apply on_tour_RouteOK|]. split; [by apply on_tour_RouteOK|].
    destruct Hc as [->|(Ht & Hv & HF)]; [by left|]. right. split; [done|]. split; [done|]. intros F.
    destruct HF as [N B]; [by apply fair_Fair|]. split; [|done]. apply almost_nearly; [apply R'|done].
  - intros r v ids xs Hr R. apply on_tour_RouteOK in R. destruct (H2 r v ids xs Hr R) as (r' & ids' & ys & Hp & [R' _] & Hc).
    exists r', ids', ys. split; [done|]. split; [by apply on_tour_RouteOK|]. destruct Hc as [->|(r0 & ids0 & L0 & Hr0 & R0 & Ht)]; [by left|].
    right. exists r0, ids0, L0. split; [done|]. split; [by apply on_tour_RouteOK|done].
Qed.

(** ** The loop *)
Section search.
  Context {W : World}.

  Definition Derived (o : objective) (h0 : heap) (rs : list nat) (h : heap) (pl : list nat) : Prop :=
    (forall r', r' ∈ pl -> exists r v ids L ids' ys, r ∈ rs /\ RouteOK h0 r v ids L /\ RouteOK h r' v ids' ys /\ many_turns L ys /\
       (ys = L \/ lex_lt (value_of o v L) (value_of o v ys) /\ (Fair h0 -> nearly v ys /\ brief v ys))) /\
    (forall r v ids L, r ∈ rs -> RouteOK h0 r v ids L -> exists r' ids' ys, r' ∈ pl /\ RouteOK h r' v ids' ys).
  Lemma Derived_spreads o h0 rs h h' pl : spreads h h' -> Derived o h0 rs h pl -> Derived o h0 rs h' pl.
  Proof.
    intros [G _] [D1 D2]. split.
    - intros r' Hr'. destruct (D1 r' Hr') as (r & v & ids & L & ids' & ys & Hr & R & R' & H). exists r, v, ids, L, ids', ys.
      split; [done|]. split; [done|]. split; [by eapply RouteOK_grow|done].
    - intros r v ids L Hr R. destruct (D2 r v ids L Hr R) as (r' & ids' & ys & Hp & R'). exists r', ids', ys.
      split; [done|]. by eapply RouteOK_grow.
  Qed.
  Lemma Derived_Tours o h0 rs h pl : Derived o h0 rs h pl -> Tours h pl.
  Proof. intros [D _] r' Hr'. destruct (D r' Hr') as (_ & v & _ & _ & ids' & ys & _ & _ & R & _). eauto. Qed.
  Lemma Derived_step o h0 rs h pl h' pl' : spreads h0 h -> Derived o h0 rs h pl ->
    (forall r', r' ∈ pl' -> exists v ids' ys, Offspring o h pl h' r' v ids' ys) ->
    (forall r v ids L, r ∈ pl -> RouteOK h r v ids L -> exists r' ids' ys, r' ∈ pl' /\ Offspring o h pl h' r' v ids' ys /\
         (ys = L \/ exists r0 ids0 L0, r0 ∈ pl /\ RouteOK h r0 v ids0 L0 /\ turns L0 ys)) ->
    Derived o h0 rs h' pl'.
  Proof.
    intros Sp [D1 D2] O1 O2. split.
    - intros r' Hr'. destruct (O1 r' Hr') as (v & ids' & ys & R' & r1 & ids1 & L1 & Hr1 & R1 & Hc).
      destruct (D1 r1 Hr1) as (r & v0 & ids & L & ids2 & L2 & Hr & R & R2 & Ht & Hv).
      destruct (RouteW_det _ _ _ _ _ _ _ _ (proj1 R1) (proj1 R2)) as (<- & <- & <-).
      exists r, v, ids, L, ids', ys. split; [done|]. split; [done|]. split; [done|].
      destruct Hc as [->|(Ht' & Hlt & HF)]; [by split|]. split; [by eapply one_turn_more|]. right. split.
      + destruct Hv as [->|[Hv _]]; [done|]. by eapply lex_trans.
      + intros F0. apply HF, Sp, F0.
    - intros r v ids L Hr R. destruct (D2 r v ids L Hr R) as (r1 & ids1 & L1 & Hr1 & R1).
      destruct (O2 r1 v ids1 L1 Hr1 R1) as (r' & ids' & ys & Hp & [R' _] & _). eauto 10.
  Qed.
  Lemma Tours_planned h pl : Tours h pl -> well_planned h pl.
  Proof. intros T r Hr. destruct (T r Hr) as (v & ids & L & R & _). exists v, ids, L. by apply well_formed_RouteW. Qed.
  Lemma Tours_worth o h pl : Tours h pl -> exists x, total_worth o h pl x.
  Proof.
    intros T. assert (E : exists xs, Forall2 (worth o h) pl xs).
    { induction pl as [|r pl IH]; [by exists []|]. destruct IH as [xs F]; [intros q Hq; apply T; by right|].
      destruct (T r) as (v & ids & L & R & _); [left|]. exists (value_of o v L :: xs). constructor; [|done].
      exists v, ids, L. split; [by apply well_formed_RouteW|done]. }
    destruct E as [xs F]. by exists (total_value o xs), xs.
  Qed.
  Lemma two_opt_loop o threshold x0 rs h0 fuel : sane -> forall count best x h, HInv h -> spreads h0 h ->
    Derived o h0 rs h best -> total_worth o h best x -> at_least x0 x ->
    match ls_loop fuel TwoOpt o threshold count best h with
    | (Raise e, _) => e = Diverge
    | (Ok pl, h') => HInv h' /\ spreads h0 h' /\ Derived o h0 rs h' pl /\ exists y, total_worth o h' pl y /\ at_least x0 y
    end.
  Proof.
    intros Hs. induction fuel as [|fuel IH]; intros count best x h HI Sp D Wx Hx; cbn [ls_loop].
    { destruct (count <? threshold)%nat; [done|]. cbn. eauto 10. }
    destruct (count <? threshold)%nat; [|cbn; eauto 10].
    pose proof (two_opt_runs o h best Hs HI (Derived_Tours _ _ _ _ _ D)) as R.
    apply runs_eq in R as (cur & h1 & R1 & Sp1 & HI1 & O1 & O2).
    pose proof (Derived_step _ _ _ _ _ _ _ Sp D O1 O2) as D1. pose proof (Derived_spreads _ _ _ _ _ _ Sp1 D) as D0.
    assert (Sp01 : spreads h0 h1) by (by eapply spreads_trans).
    pose proof (total_worth_kept _ _ _ _ _ (grow_kept _ _ (proj1 Sp1)) Wx) as W1.
    destruct (objective_best_eq o h1 [best; cur]) as (w & h2 & R2 & Q & Hw).
    { intros pl [->|[->|H]%elem_of_cons]%elem_of_cons; [by eapply Tours_planned, Derived_Tours|by eapply Tours_planned, Derived_Tours|inversion H]. }
    assert (S2 : soft h1 h2) by apply Q. rewrite (bind_ok _ _ _ _ _ R1), (bind_ok _ _ _ _ _ R2).
    pose proof (spreads_soft _ _ S2) as Sp2. assert (Sp02 : spreads h0 h2) by (exact (spreads_trans _ _ _ Sp01 Sp2)).
    pose proof (HInv_soft _ _ HI1 S2) as HI2. pose proof (Derived_spreads _ _ _ _ _ _ Sp2 D0) as D02.
    pose proof (Derived_spreads _ _ _ _ _ _ Sp2 D1) as D12. pose proof (total_worth_kept _ _ _ _ _ (soft_kept _ _ S2) W1) as W2.
    destruct w as [[|[|i]]|].
    - by apply (IH (S count) best x).
    - destruct Hw as (pl & y & [= <-] & Wy & H1 & _). apply (IH 0%nat cur y); [done|done|done| |].
      + by eapply total_worth_kept; [apply soft_kept|].
      + assert (Hlt : lex_lt x y) by (apply (H1 0%nat best x); [lia|done|done]). right.
        destruct Hx as [->|Hx]; [done|by eapply lex_trans].
    - by destruct Hw as (pl & y & ? & _).
    - done.
  Qed.
End search.

Lemma c28_search `{W : World} : forall fuel o threshold h initial,
  sane -> tidy h -> (forall r, r ∈ initial -> a_tour h r) ->
  match local_search_optimize fuel TwoOpt o threshold initial h with
  | (Raise e, _) => e = Diverge
  | (Ok pl, h') => tidy h' /\ (fair h -> fair h') /\ routes_kept h h' /\
      (forall r', r' ∈ pl -> exists r v ids xs ids' ys, r ∈ initial /\ on_tour h r v ids xs /\ on_tour h' r' v ids' ys /\
         many_turns xs ys /\
         (ys = xs \/ lex_lt (value_of o v xs) (value_of o v ys) /\ (fair h -> almost v ys /\ brief v ys))) /\
      (forall r v ids xs, r ∈ initial -> on_tour h r v ids xs -> exists r' ids' ys, r' ∈ pl /\ on_tour h' r' v ids' ys) /\
      (forall x y, total_worth o h initial x -> total_worth o h' pl y -> at_least x y)
  end.
Proof.
  intros fuel o threshold h initial Hs HT HA. apply tidy_HInv in HT.
  assert (HTo : Tours h initial).
  { intros r Hr. destruct (HA r Hr) as (v & ids & xs & R). exists v, ids, xs. by apply on_tour_RouteOK. }
  destruct (Tours_worth o h initial HTo) as [x Wx]. unfold local_search_optimize.
  assert (D0 : Derived o h initial h initial).
  { split.
    - intros r Hr. destruct (HTo r Hr) as (v & ids & L & R). exists r, v, ids, L, ids, L. do 3 (split; [done|]). split; [constructor|by left].
    - intros r v ids L Hr R. eauto. }
  pose proof (two_opt_loop o threshold x initial h fuel Hs 0%nat initial x h HT (spreads_refl _) D0 Wx ltac:(by left)) as L.
  destruct (ls_loop _ _ _ _ _ _ _) as [[pl|e] h']; [|done].
  destruct L as (HI & Sp & [D1 D2] & y & Wy & Hy). split; [by apply tidy_HInv|]. split.
  { intros F. apply fair_Fair; [done|]. apply Sp. by apply fair_Fair in F. }
  split; [apply grow_kept, Sp|]. split; [|split].
  - intros r' Hr'. destruct (D1 r' Hr') as (r & v & ids & L & ids' & ys & Hr & R & R' & Ht & Hc). exists r, v, ids, L, ids', ys.
    split; [done|]. split; [by apply on_tour_RouteOK|]. split; [by apply on_tour_RouteOK|]. split; [done|].
    destruct Hc as [->|(Hv & HF)]; [by left|]. right. split; [done|]. intros F.
    destruct HF as [N B]; [by apply fair_Fair|]. split; [|done]. apply almost_nearly; [apply R'|done].
  - intros r v ids xs Hr R. apply on_tour_RouteOK in R. destruct (D2 r v ids xs Hr R) as (r' & ids' & ys & Hp & R').
    exists r', ids', ys. split; [done|]. by apply on_tour_RouteOK.
  - intros x' y' Wx' Wy'. by rewrite (total_worth_det _ _ _ _ _ Wx' Wx), (total_worth_det _ _ _ _ _ Wy' Wy).
Qed.

(** no passenger is lost, none is added *)
Lemma turns_boards `{W : World} xs ys : turns xs ys -> boards ys ≡ₚ boards xs.
Proof.
  intros (i & k & _ & _ & _ & ->). apply flat_map_perm. unfold turned. rewrite reverse_Permutation.
  rewrite <- drop_drop, take_drop. by rewrite take_drop.
Qed.
Lemma many_turns_boards `{W : World} xs ys : many_turns xs ys -> boards ys ≡ₚ boards xs.
Proof. induction 1 as [x|x y z _ IH H]; [done|]. by rewrite (turns_boards _ _ H), IH. Qed.
Lemma serves_det `{W : World} h r v v' ts ts' : route_serves h r v ts -> route_serves h r v' ts' -> v = v' /\ ts = ts'.
Proof.
  intros (ids & xs & R & <-) (ids' & xs' & R' & <-). apply on_tour_RouteOK in R as [R _]. apply on_tour_RouteOK in R' as [R' _].
  by destruct (RouteW_det _ _ _ _ _ _ _ _ R R') as (-> & _ & ->).
Qed.
Lemma valid_vehicle `{W : World} h vs ts pl r r' v us us' : valid_planning h vs ts pl -> r ∈ pl -> r' ∈ pl ->
  route_serves h r v us -> route_serves h r' v us' -> r = r'.
Proof.
  intros [Hn (ws & Hw & F) _ _] Hr Hr' S S'. apply elem_of_list_lookup_1 in Hr as [i Hi]. apply elem_of_list_lookup_1 in Hr' as [j Hj].
  destruct (Forall2_lookup_l _ _ _ _ _ F Hi) as (a & Ha & u & Sa). destruct (Forall2_lookup_l _ _ _ _ _ F Hj) as (b & Hb & u' & Sb).
  destruct (serves_det _ _ _ _ _ _ Sa S) as [-> _]. destruct (serves_det _ _ _ _ _ _ Sb S') as [-> _].
  assert (NoDup ws) by by rewrite Hw. assert (i = j) as <- by by eapply NoDup_lookup. congruence.
Qed.
Lemma c28_takes `{W : World} : forall fuel o threshold h vs ts initial pl h',
  sane -> tidy h -> valid_planning h vs ts initial ->
  local_search_optimize fuel TwoOpt o threshold initial h = (Ok pl, h') ->
  (forall t, takes h' pl t <-> takes h initial t) /\
  (forall v us', planned_for h' pl v us' -> exists us, planned_for h initial v us /\ us' ≡ₚ us) /\
  (forall v us, planned_for h initial v us -> exists us', planned_for h' pl v us').
Proof.
  intros fuel o threshold h vs ts initial pl h' Hs HT V E.
  assert (HA : forall r, r ∈ initial -> a_tour h r).
  { intros r Hr. destruct V as [_ (ws & _ & F) _ _]. apply elem_of_list_lookup_1 in Hr as [i Hi].
    destruct (Forall2_lookup_l _ _ _ _ _ F Hi) as (v & _ & us & ids & xs & R & _). by exists v, ids, xs. }
  pose proof (c28_search fuel o threshold h initial Hs HT HA) as C. rewrite E in C. destruct C as (HT' & _ & _ & C1 & C2 & _).
  assert (D1 : forall v us', planned_for h' pl v us' -> exists us, planned_for h initial v us /\ us' ≡ₚ us).
  { intros v us' (r' & Hr' & S'). destruct (C1 r' Hr') as (r & v0 & ids & xs & ids' & ys & Hr & R & R' & Ht & _).
    destruct (serves_det h' r' v v0 us' (boards ys)) as [-> ->]; [done|by exists ids', ys|].
    exists (boards xs). split; [exists r; split; [done|]; by exists ids, xs|by apply many_turns_boards]. }
  assert (D2 : forall v us, planned_for h initial v us -> exists us', planned_for h' pl v us').
  { intros v us (r & Hr & ids & xs & R & <-). destruct (C2 r v ids xs Hr R) as (r' & ids' & ys & Hp & R').
    exists (boards ys), r'. split; [done|]. by exists ids', ys. }
  split; [|done]. intros t. split.
  - intros (v & us' & P & Ht). destruct (D1 v us' P) as (us & P' & Ep). exists v, us. split; [done|]. by rewrite <- Ep.
  - intros (v & us & P & Ht). destruct (D2 v us P) as (us' & P'). destruct (D1 v us' P') as (us2 & P2 & Ep).
    exists v, us'. split; [done|]. rewrite Ep. destruct P as (r & Hr & S), P2 as (r2 & Hr2 & S2).
    assert (r = r2) as <- by by eapply valid_vehicle. by destruct (serves_det _ _ _ _ _ _ S S2) as [_ <-].
Qed.

(** without recorded answers there is nothing to distrust *)
Definition never_askedb (h : heap) : bool :=
  forallb (fun c => bool_decide (st_feasible c <> Some true)) (h_stops h) &&
  forallb (fun c => bool_decide (pt_feasible c <> Some true)) (h_pts h) &&
  forallb (fun c => bool_decide (rt_feasible c <> Some true)) (h_routes h).
Lemma never_asked_fair `{W : World} h : never_askedb h = true -> fair h.
Proof.
  unfold never_askedb. intros [[H1 H2]%andb_true_iff H3]%andb_true_iff.
  assert (G : forall A (P : A -> Prop) `{forall x, Decision (P x)} (l : list A) i x,
     forallb (fun c => bool_decide (P c)) l = true -> l !! i = Some x -> P x).
  { intros A P D l i x H Hx. eapply forallb_forall in H; [|apply elem_of_list_In; by eapply elem_of_list_lookup_2]. by apply bool_decide_eq_true in H. }
  intros r v ids xs _. split; [|split].
  - intros i s c _ Hc Hf. exfalso. by apply (G _ _ _ _ _ _ H1 Hc).
  - intros i j s d c p pc _ _ _ _ Hp _ _ Hf. exfalso. by apply (G _ _ _ _ _ _ H2 Hp).
  - intros rc Hc Hf. exfalso. by apply (G _ _ _ _ _ _ H3 Hc).
Qed.
Lemma one_fair `{W : World} h h' r r' t i j v ids xs : sane -> tidy h -> fair h -> on_tour h r v ids xs ->
  t ∉ boards xs -> (i < j < length xs)%nat -> compute_one r t i j h = (Ok r', h') -> fair h'.
Proof.
  intros [SD SC] T F R Ht Hij E'. apply tidy_HInv in T. apply fair_Fair in F; [|done]. apply on_tour_RouteOK in R.
  pose proof (compute_one_runs _ _ _ _ _ _ _ _ SD SC T R Ht Hij) as G.
  apply runs_eq in G as (r2 & h2 & E & _ & HI' & _ & _ & ids' & L' & _ & _ & HF).
  rewrite E in E'. injection E' as <- <-. by apply fair_Fair, HF.
Qed.
