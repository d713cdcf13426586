(** 2-opt: the search ends. *)
From Verif Require Export TwoOptTheorems.

(** ** Counting *)
Section counting.
  Lemma lex_irrefl x : ~ lex_lt x x.
  Proof. induction x as [|a x IH]; intros H; inversion H; subst; [lia|by apply IH]. Qed.
  Global Instance lex_lt_dec x y : Decision (lex_lt x y).
  Proof.
    revert y. induction x as [|a x IH]; intros [|b y]; try (right; intros H; by inversion H).
    destruct (Z_lt_ge_dec a b) as [H|H]; [left; by apply lex_here|]. destruct (decide (a = b)) as [->|Hne].
    - destruct (IH y) as [H1|H1]; [left; by apply lex_later|]. right. intros H2. inversion H2; subst; [lia|done].
    - right. intros H2. inversion H2; subst; lia.
  Defined.
  Lemma filter_fewer {A} (P Q : A -> Prop) `{!forall a, Decision (P a)} `{!forall a, Decision (Q a)} l b :
    (forall a, P a -> Q a) -> b ∈ l -> Q b -> ~ P b -> (length (filter P l) < length (filter Q l))%nat.
  Proof.
    intros HPQ Hb HQ HP.
    assert (Hle : forall l, (length (filter P l) <= length (filter Q l))%nat).
    { intros k. induction k as [|a l' IH]; [cbn; lia|]. rewrite !filter_cons. destruct (decide (P a)) as [Ha|Ha].
      - destruct (decide (Q a)) as [Hq|Hq]; [cbn; lia|]. by destruct Hq; apply HPQ.
      - destruct (decide (Q a)); cbn; lia. }
    induction l as [|a l' IH]; [inversion Hb|]. rewrite !filter_cons. apply elem_of_cons in Hb as [->|Hb].
    - destruct (decide (P a)); [done|]. destruct (decide (Q a)); [|done]. cbn. specialize (Hle l'). lia.
    - specialize (IH Hb). destruct (decide (P a)) as [Ha|Ha].
      + destruct (decide (Q a)) as [Hq|Hq]; [cbn; lia|]. by destruct Hq; apply HPQ.
      + destruct (decide (Q a)); cbn; lia.
  Qed.
  Definition measure (VS : list nat) (m : nat -> nat) : nat := foldr (fun v n => (m v + n)%nat) 0%nat VS.
  Lemma measure_le VS (m m' : nat -> nat) : (forall v, (m' v <= m v)%nat) -> (measure VS m' <= measure VS m)%nat.
  Proof. intros H. induction VS as [|v VS IH]; cbn; [lia|]. specialize (H v). unfold measure in IH. lia. Qed.
  Lemma measure_lt VS (m m' : nat -> nat) v : (forall v, (m' v <= m v)%nat) -> v ∈ VS -> (m' v < m v)%nat ->
    (measure VS m' < measure VS m)%nat.
  Proof.
    intros H Hv Hlt. induction VS as [|u VS IH]; [inversion Hv|]. cbn. apply elem_of_cons in Hv as [->|Hv].
    - pose proof (measure_le VS m m' H) as L. unfold measure in L. lia.
    - specialize (IH Hv). specialize (H u). unfold measure in IH. lia.
  Qed.
End counting.

(** ** A round in full *)
Section rounds.
  Context {W : World}.

  Lemma update_replaces h rs ov : Tours h rs -> Tours h ov ->
    runs (update_routes rs ov) h (fun pl h' => h' = h /\
      ((ov = [] /\ pl = rs) \/ (ov <> [] /\ (forall r', r' ∈ ov -> r' ∈ pl) /\
        forall r', r' ∈ pl -> r' ∈ ov \/ r' ∈ rs /\ forall v ids ys, RouteOK h r' v ids ys ->
          forall q idq yq, q ∈ ov -> ~ RouteOK h q v idq yq))).
  Proof.
    intros HR HO. unfold update_routes. destruct ov as [|a ov0] eqn:Eov.
    { apply runs_ret. split; [done|]. by left. }
    rewrite <- Eov in *. assert (Hne : ov <> []) by (by rewrite Eov). clear Eov a ov0.
    assert (HV : forall l, (forall r, r ∈ l -> exists v ids L, RouteOK h r v ids L) ->
      runs (mapM (fun r => let! c := route_get r in ret (rt_vehicle c)) l) h (fun vs h' => h' = h /\
        Forall2 (fun r v => exists ids L, RouteOK h r v ids L) l vs)).
    { induction l as [|r l IH]; intros Hl; cbn [mapM]; [by apply runs_ret|]. destruct (Hl r) as (v & ids & L & R); [left|].
      destruct (rw_cell _ _ _ _ _ (proj1 R)) as (c & Hc & EV & _). step. step. eapply runs_route_get; [exact Hc|]. apply runs_ret. rewrite EV.
      step. eapply runs_mono; [apply IH; intros; apply Hl; by right|]. intros vs ? [-> F]. apply runs_ret. split; [done|]. constructor; eauto. }
    step. eapply runs_mono; [by apply HV|]. intros vs ? [-> FV]. clear HV.
    step. eapply runs_mono; [apply (runs_filterM _ (fun h' => h' = h) (fun r b => forall v ids L, RouteOK h r v ids L -> b = negb (memb v vs)))|].
    { done. }
    { intros r ? Hr ->. destruct (HR r Hr) as (v & ids & L & R). destruct (rw_cell _ _ _ _ _ (proj1 R)) as (c & Hc & EV & _).
      step. eapply runs_route_get; [exact Hc|]. apply runs_ret. split; [done|]. rewrite EV. intros v' ids' L' R'.
      by destruct (RouteW_det _ _ _ _ _ _ _ _ (proj1 R) (proj1 R')) as (-> & _). }
    intros keep ? (-> & H1 & _ & H2). apply runs_ret.
    split; [done|]. right. destruct (set_union_spec keep ov) as [SU _]. split; [done|]. split; [intros; rewrite SU; by right|].
    intros r' Hr'. rewrite SU in Hr'. destruct Hr' as [Hk|?]; [right|by left].
    apply H1 in Hk as [Hin Hk]. split; [done|]. intros v ids ys R q idq yq Hq Rq. specialize (Hk v ids ys R).
    apply elem_of_list_lookup_1 in Hq as [i Hi]. destruct (Forall2_lookup_l _ _ _ _ _ FV Hi) as (u & Hu & ids2 & L2 & R2).
    destruct (RouteW_det _ _ _ _ _ _ _ _ (proj1 Rq) (proj1 R2)) as (<- & _). apply elem_of_list_lookup_2 in Hu.
    unfold memb in Hk. by rewrite bool_decide_eq_true_2 in Hk.
  Qed.

  (** every route of [pl] comes from one of [rs] with the same vehicle: from
      the vehicles [vs] only better ones are there, from the others the same *)
  Definition Renewed (o : objective) (h : heap) (rs : list nat) (h' : heap) (pl vs : list nat) : Prop :=
    (exists r' v ids' ys, r' ∈ pl /\ RouteOK h' r' v ids' ys /\ v ∈ vs) /\
    forall r', r' ∈ pl -> exists v ids' ys r ids L, RouteOK h' r' v ids' ys /\ r ∈ rs /\ RouteOK h r v ids L /\ ys ≡ₚ L /\
      (v ∈ vs -> lex_lt (value_of o v L) (value_of o v ys)) /\ (v ∉ vs -> ys = L).
  Lemma turns_perm xs ys : turns xs ys -> ys ≡ₚ xs.
  Proof.
    intros (i & k & _ & _ & _ & ->). unfold turned. rewrite reverse_Permutation. rewrite <- drop_drop, take_drop. by rewrite take_drop.
  Qed.
  Lemma many_turns_perm xs ys : many_turns xs ys -> ys ≡ₚ xs.
  Proof. induction 1 as [x|x y z _ IH H]; [done|]. by rewrite (turns_perm _ _ H), IH. Qed.

  Lemma Tours_vehicles h l : Tours h l -> exists vs : list nat, forall v, v ∈ vs <-> exists q ids ys, q ∈ l /\ RouteOK h q v ids ys.
  Proof.
    induction l as [|q l IH]; intros HO.
    { exists []. intros v. split; [intros H; inversion H|]. intros (q & ids & ys & H & _). inversion H. }
    destruct IH as [vs IH]; [intros r Hr; apply HO; by right|]. destruct (HO q) as (v & ids & L & R); [left|].
    exists (v :: vs). intros u. rewrite elem_of_cons, IH. split.
    - intros [->|(r & ids' & ys & Hr & R')]; [exists q, ids, L; split; [left|done]|]. exists r, ids', ys. split; [by right|done].
    - intros (r & ids' & ys & [->|Hr]%elem_of_cons & R'); [left|right; eauto].
      by destruct (RouteW_det _ _ _ _ _ _ _ _ (proj1 R) (proj1 R')) as (<- & _).
  Qed.
  Lemma two_opt_improve_renews o h rs : sane -> HInv h -> Tours h rs ->
    runs (two_opt_improve o rs) h (fun pl h' => spreads h h' /\ HInv h' /\ Tours h' pl /\
      (pl = rs \/ exists vs, Renewed o h rs h' pl vs)).
  Proof.
    intros Hs HI HT. unfold two_opt_improve. step. apply runs_set_order. intros l Hl. set (h0 := MkHeap _ _ _ _).
    assert (S0 : soft h h0) by apply soft_tick. step.
    eapply runs_mono; [apply (runs_foldM _ (fun ov h' => spreads h h' /\ HInv h' /\ (forall r', r' ∈ ov -> Born o h rs h' r')))|].
    - split; [by apply spreads_soft|]. split; [by eapply HInv_soft|]. intros r' Hr'. inversion Hr'.
    - intros ov r h1 Hr (S1 & HI1 & HB1). rewrite Hl in Hr. apply two_opt_route_runs; try done. by apply HT.
    - intros ov h1 (S1 & HI1 & HB1). pose proof (Tours_spreads _ _ _ S1 HT) as HT1.
      assert (HO : Tours h1 ov). { intros r' Hr'. destruct (HB1 r' Hr') as (_ & v & _ & _ & ids & L & _ & _ & R & _). eauto. }
      destruct (Tours_vehicles h1 ov HO) as [vs HVS].
      eapply runs_mono; [by apply (update_replaces h1 rs ov)|]. intros pl ? (-> & [[-> ->]|(Hne & H1 & H2)]).
      { split; [done|]. split; [done|]. split; [done|]. by left. }
      assert (HP : forall r', r' ∈ pl -> exists v ids' ys r ids L, RouteOK h1 r' v ids' ys /\ r ∈ rs /\ RouteOK h r v ids L /\ ys ≡ₚ L /\
        (v ∈ vs -> lex_lt (value_of o v L) (value_of o v ys)) /\ (v ∉ vs -> ys = L)).
      { intros r' Hr'. destruct (H2 r' Hr') as [Ho|[Hin Hno]].
        - destruct (HB1 r' Ho) as (r & v & ids & L & ids' & ys & Hr & R & R' & Ht & Hv & _).
          destruct (HT r Hr) as (v0 & ids0 & L0 & R0). pose proof (RouteOK_grow _ _ _ _ _ _ (proj1 S1) R0) as R0'.
          destruct (RouteW_det _ _ _ _ _ _ _ _ (proj1 R) (proj1 R0')) as (<- & <- & <-).
          exists v, ids', ys, r, ids, L. do 3 (split; [done|]). split; [by apply turns_perm|]. split; [done|].
          intros Hn. destruct Hn. apply HVS. eauto.
        - destruct (HT r' Hin) as (v & ids & L & R). pose proof (RouteOK_grow _ _ _ _ _ _ (proj1 S1) R) as R'.
          exists v, ids, L, r', ids, L. do 4 (split; [done|]). split; [|done].
          intros Hv. apply HVS in Hv as (q & idq & yq & Hq & Rq). by destruct (Hno v ids L R' q idq yq Hq). }
      split; [done|]. split; [done|]. split; [intros r' Hr'; destruct (HP r' Hr') as (v & ids' & ys & _ & _ & _ & R & _); eauto|].
      right. exists vs. split; [|done]. destruct ov as [|q ov]; [done|]. destruct (HO q) as (v & ids & ys & R); [left|].
      exists q, v, ids, ys. split; [apply H1; left|]. split; [done|]. apply HVS. exists q, ids, ys. split; [left|done].
  Qed.

  Lemma two_opt_renews o h rs : sane -> HInv h -> Tours h rs ->
    runs (ls_improve TwoOpt o rs) h (fun pl h' =>
      (forall x y, total_worth o h rs x -> total_worth o h' pl y -> x = y) \/ exists vs, Renewed o h rs h' pl vs).
  Proof.
    intros Hs HI HT. unfold ls_improve. step. eapply runs_mono; [apply deepcopy_runs|].
    { intros r Hr. destruct (HT r Hr) as (v & ids & L & R). destruct (rw_cell _ _ _ _ _ (proj1 R)) as (c & Hc & _). eauto. }
    intros rs1 h1 (HC & Ers & F). assert (HI1 : HInv h1) by by eapply Copied_HInv.
    assert (FC : Forall2 (fun r r1 => exists v ids ids1 L, RouteOK h r v ids L /\ RouteOK h1 r1 v ids1 L) rs rs1).
    { apply Forall2_same_length_lookup. split; [by eapply Forall2_length|]. intros i r r1 Hr Hr1.
      destruct (Forall2_lookup_l _ _ _ _ _ F Hr) as (r2 & Hr2 & c & Hc & Hc1). rewrite Hr1 in Hr2. injection Hr2 as <-.
      apply elem_of_list_lookup_2 in Hr. destruct (HT r Hr) as (v & ids & L & R). exists v, ids, (map (up h) ids), L.
      split; [done|]. by eapply Copied_route. }
    assert (Copy2 : forall r1, r1 ∈ rs1 -> exists r v ids ids1 L, r ∈ rs /\ RouteOK h r v ids L /\ RouteOK h1 r1 v ids1 L).
    { intros r1 Hr1. apply elem_of_list_lookup_1 in Hr1 as [i Hi]. destruct (Forall2_lookup_r _ _ _ _ _ FC Hi) as (r & Hr & v & ids & ids1 & L & R).
      apply elem_of_list_lookup_2 in Hr. eauto 10. }
    assert (HT1 : Tours h1 rs1).
    { intros r1 Hr1. destruct (Copy2 r1 Hr1) as (r & v & ids & ids1 & L & _ & _ & R). eauto. }
    step. eapply runs_mono; [by apply check_tours_runs|]. intros ? h2 S2.
    assert (HI2 : HInv h2) by exact (HInv_soft _ _ HI1 S2).
    assert (HT2 : Tours h2 rs1) by exact (Tours_spreads _ _ _ (spreads_soft _ _ S2) HT1).
    step. eapply runs_mono; [by apply (two_opt_improve_renews o h2 rs1)|]. cbn [ls_improve_raw].
    intros pl h3 (E3 & HI3 & HT3 & B).
    step. eapply runs_mono; [by apply check_tours_runs|]. intros ? h4 S4. apply runs_ret.
    destruct B as [->|(vs & (q & v & ids & ys & Hq & Rq & Hv) & B)].
    - left. intros x y (xs & FX & ->) (zs & FZ & ->). f_equal. clear -FC FX FZ E3 S2 S4. revert rs1 zs FC FZ.
      induction FX as [|r x rs xs Wx FX IH]; intros rs1 zs FC FZ; inversion FC as [|? r1 ? rs2 HR FC']; subst; inversion FZ as [|? z ? zs' Wz FZ']; subst; [done|].
      f_equal; [|by eapply IH]. destruct HR as (v & ids & ids1 & L & R & R1). destruct Wx as (v' & ids' & L' & R' & ->).
      apply well_formed_RouteW in R'. destruct (RouteW_det _ _ _ _ _ _ _ _ (proj1 R) R') as (<- & <- & <-).
      destruct Wz as (v2 & ids2 & L2 & R2 & ->). apply well_formed_RouteW in R2.
      pose proof (RouteOK_soft _ _ _ _ _ _ S4 (RouteOK_grow _ _ _ _ _ _ (proj1 E3) (RouteOK_soft _ _ _ _ _ _ S2 R1))) as R3.
      by destruct (RouteW_det _ _ _ _ _ _ _ _ (proj1 R3) R2) as (<- & <- & <-).
    - right. exists vs. split; [exists q, v, ids, ys; split; [done|]; split; [exact (RouteOK_soft _ _ _ _ _ _ S4 Rq)|done]|].
      intros r' Hr'. destruct (B r' Hr') as (v' & ids' & ys' & r1 & ids1 & L & R' & Hr1 & R1 & HP).
      destruct (Copy2 r1 Hr1) as (r & v0 & ids0 & ids2 & L0 & Hr & R0 & R2). pose proof (RouteOK_soft _ _ _ _ _ _ S2 R2) as R3.
      destruct (RouteW_det _ _ _ _ _ _ _ _ (proj1 R1) (proj1 R3)) as (<- & <- & <-).
      exists v', ids', ys', r, ids0, L. split; [exact (RouteOK_soft _ _ _ _ _ _ S4 R')|]. done.
  Qed.
End rounds.

(** ** The search *)
Section ending.
  Context {W : World}.

  (** how many of the visit lists in [U] are better than [ys] *)
  Definition better_ones (o : objective) (U : list (list visit)) (v : nat) (ys : list visit) : nat :=
    length (filter (fun zs => lex_lt (value_of o v ys) (value_of o v zs)) U).
  Lemma better_ones_lt o U v xs ys : ys ∈ U -> lex_lt (value_of o v xs) (value_of o v ys) ->
    (better_ones o U v ys < better_ones o U v xs)%nat.
  Proof.
    intros Hin Hlt. apply (filter_fewer _ _ _ ys); [|done|done|apply lex_irrefl]. intros zs Hz. by eapply lex_trans.
  Qed.
  (** [U] holds every order of the visits of every route *)
  Definition Within (o : objective) (U : list (list visit)) (VS : list nat) (m : nat -> nat) (h : heap) (pl : list nat) : Prop :=
    forall r, r ∈ pl -> exists v ids L, RouteOK h r v ids L /\ v ∈ VS /\ (better_ones o U v L <= m v)%nat /\ (forall ys, ys ≡ₚ L -> ys ∈ U).
  Lemma Within_spreads o U VS m h h' pl : spreads h h' -> Within o U VS m h pl -> Within o U VS m h' pl.
  Proof.
    intros [G _] I r Hr. destruct (I r Hr) as (v & ids & L & R & H). exists v, ids, L. split; [by eapply RouteOK_grow|done].
  Qed.
  Lemma Within_Tours o U VS m h pl : Within o U VS m h pl -> Tours h pl.
  Proof. intros I r Hr. destruct (I r Hr) as (v & ids & L & R & _). eauto. Qed.
  Lemma Within_renewed o U VS m h pl h' pl' vs : Within o U VS m h pl -> Renewed o h pl h' pl' vs ->
    exists m', Within o U VS m' h' pl' /\ (measure VS m' < measure VS m)%nat.
  Proof.
    intros I [(q & u & idq & yq & Hq & Rq & Hu) HR].
    set (m' := fun v => if decide (v ∈ vs) then (m v - 1)%nat else m v).
    assert (Hle : forall v, (m' v <= m v)%nat) by (intros v; unfold m'; destruct (decide _); lia).
    assert (Step : forall r', r' ∈ pl' -> exists v ids L, RouteOK h' r' v ids L /\ v ∈ VS /\ (better_ones o U v L <= m' v)%nat /\
      (forall ys, ys ≡ₚ L -> ys ∈ U) /\ (v ∈ vs -> (m' v < m v)%nat)).
    { intros r' Hr'. destruct (HR r' Hr') as (v & ids' & ys & r & ids & L & R' & Hr & R & HP & Hb & Hn).
      destruct (I r Hr) as (v0 & ids0 & L0 & R0 & Hv & Hm & HU). destruct (RouteW_det _ _ _ _ _ _ _ _ (proj1 R) (proj1 R0)) as (<- & <- & <-).
      exists v, ids', ys. split; [done|]. split; [done|]. unfold m'. destruct (decide (v ∈ vs)) as [Hin|Hin].
      - pose proof (better_ones_lt o U v L ys (HU ys HP) (Hb Hin)) as Hlt. split; [lia|]. split; [|lia]. intros zs Hz. apply HU. by rewrite Hz.
      - rewrite (Hn Hin). done. }
    exists m'. split.
    - intros r' Hr'. destruct (Step r' Hr') as (v & ids & L & H1 & H2 & H3 & H4 & _). eauto 10.
    - destruct (Step q Hq) as (v & ids & L & H1 & H2 & _ & _ & H5).
      destruct (RouteW_det _ _ _ _ _ _ _ _ (proj1 H1) (proj1 Rq)) as (-> & _). apply (measure_lt VS m m' u); auto.
  Qed.
  Lemma Tours_Within o h rs : Tours h rs -> exists U VS m, Within o U VS m h rs.
  Proof.
    intros T. assert (E : exists (U : list (list visit)) (VS : list nat), forall r, r ∈ rs -> exists v ids L, RouteOK h r v ids L /\ v ∈ VS /\ (forall ys, ys ≡ₚ L -> ys ∈ U)).
    { induction rs as [|r rs IH]; [exists [], []; intros r Hr; inversion Hr|].
      destruct IH as (U & VS & IH); [intros q Hq; apply T; by right|]. destruct (T r) as (v & ids & L & R); [left|].
      exists (permutations L ++ U), (v :: VS). intros q [->|Hq]%elem_of_cons.
      - exists v, ids, L. split; [done|]. split; [left|]. intros ys Hy. apply elem_of_app. left. by apply permutations_Permutation.
      - destruct (IH q Hq) as (v' & ids' & L' & R' & Hv & HU). exists v', ids', L'. split; [done|]. split; [by right|].
        intros ys Hy. apply elem_of_app. right. by apply HU. }
    destruct E as (U & VS & E). exists U, VS, (fun _ => length U). intros r Hr. destruct (E r Hr) as (v & ids & L & R & Hv & HU).
    exists v, ids, L. split; [done|]. split; [done|]. split; [|done]. apply filter_length.
  Qed.

  Lemma two_opt_loop_ends o threshold U VS fuel : sane -> forall count m best h, HInv h -> Within o U VS m h best ->
    (measure VS m * threshold + (threshold - count) <= fuel)%nat ->
    exists pl h', ls_loop fuel TwoOpt o threshold count best h = (Ok pl, h').
  Proof.
    intros Hs. induction fuel as [|fuel IH]; intros count m best h HI HB Hf; cbn [ls_loop].
    { destruct (Nat.ltb_spec count threshold) as [Hc|Hc]; [lia|]. eexists _, _. reflexivity. }
    destruct (Nat.ltb_spec count threshold) as [Hc|Hc]; [|eexists _, _; reflexivity].
    pose proof (Within_Tours _ _ _ _ _ _ HB) as T.
    pose proof (two_opt_runs o h best Hs HI T) as R. apply runs_eq in R as (cur & h1 & R1 & Sp1 & HI1 & O1 & _).
    pose proof (two_opt_renews o h best Hs HI T) as R'. apply runs_eq in R' as (cur' & h1' & R1' & HN). rewrite R1 in R1'. injection R1' as <- <-.
    assert (T1 : Tours h1 cur). { intros r' Hr'. destruct (O1 r' Hr') as (v & ids' & ys & [R' _]). eauto. }
    pose proof (Within_spreads _ _ _ _ _ _ _ Sp1 HB) as HB1. pose proof (Within_Tours _ _ _ _ _ _ HB1) as TB1.
    destruct (objective_best_eq o h1 [best; cur]) as (w & h2 & R2 & Q & Hw).
    { intros pl [->|[->|H]%elem_of_cons]%elem_of_cons; [by apply Tours_planned|by apply Tours_planned|inversion H]. }
    assert (S2 : soft h1 h2) by apply Q. rewrite (bind_ok _ _ _ _ _ R1), (bind_ok _ _ _ _ _ R2).
    pose proof (spreads_soft _ _ S2) as Sp2. pose proof (HInv_soft _ _ HI1 S2) as HI2.
    destruct w as [[|[|i]]|].
    - apply (IH (S count) m best); [done|by eapply Within_spreads|lia].
    - destruct Hw as (pl & y & [= <-] & Wy & H1 & _). destruct (Tours_worth o h best T) as [x Wx].
      pose proof (total_worth_kept _ _ _ _ _ (grow_kept _ _ (proj1 Sp1)) Wx) as Wx1.
      assert (Hlt : lex_lt x y) by (apply (H1 0%nat best x); [lia|done|done]).
      destruct HN as [HN|[vs HN]]; [rewrite (HN x y Wx Wy) in Hlt; by apply lex_irrefl in Hlt|].
      destruct (Within_renewed _ _ _ _ _ _ _ _ _ HB HN) as (m' & HB' & Hm).
      apply (IH 0%nat m' cur); [done|by eapply Within_spreads|]. nia.
    - by destruct Hw as (pl & y & ? & _).
    - done.
  Qed.
End ending.

Lemma c28_ends `{W : World} : forall o threshold h initial,
  sane -> tidy h -> (forall r, r ∈ initial -> a_tour h r) ->
  exists n, forall fuel, (n <= fuel)%nat ->
    exists pl h', local_search_optimize fuel TwoOpt o threshold initial h = (Ok pl, h').
Proof.
  intros o threshold h initial Hs HT HA. apply tidy_HInv in HT.
  assert (HTo : Tours h initial).
  { intros r Hr. destruct (HA r Hr) as (v & ids & xs & R). exists v, ids, xs. by apply on_tour_RouteOK. }
  destruct (Tours_Within o h initial HTo) as (U & VS & m & HB). eexists. intros fuel Hf.
  eapply (two_opt_loop_ends o threshold U VS fuel Hs 0%nat m); [done|done|exact Hf].
Qed.
