(** The exhaustive strategy leaves no trip over that fits behind the first
    visit of a busy vehicle: the ranking of candidates is complete (C67). *)
From Verif Require Export RankedTheorems MissProofs.

Section full.
  Context {W : World}.
  #[local] Existing Instance any_shape.

  Lemma runs_both {S A} (m : ST S A) h (P Q : A -> S -> Prop) : runs m h P -> runs m h Q -> runs m h (fun x h' => P x h' /\ Q x h').
  Proof. unfold runs. destruct (m h) as [[x|e] h']; [|done]. done. Qed.

  (** ** Complete sub-rankings *)
  Definition Complete (h : heap) (d : list (nat * nat)) (pend : list nat) (v : nat) (sub : list nat) : Prop :=
    forall r ids L t i j, dict_get v d = Some r -> RouteOK h r v ids L -> t ∈ pend -> (1 <= i)%nat -> (i < j < length L)%nat ->
      fits v (serve t i j L) -> exists c B, c ∈ sub /\ Serves h c v B /\ t ∈ B.
  Definition Marked (h : heap) (v : nat) (sub : list nat) : Prop :=
    forall c, c ∈ sub -> exists rc, h_routes h !! c = Some rc /\ rt_vehicle rc = v /\ rt_feasible rc = Some true.
  Lemma Complete_evolves h h' U i v sub : ItInv h U i -> evolves h h' ->
    Complete h (it_routes i) (it_pending i) v sub -> Complete h' (it_routes i) (it_pending i) v sub.
  Proof.
    intros I E C r ids L t a b G R Ht Ha Hab Hf.
    destruct (ii_routes _ _ _ I v r G) as (B & ids0 & L0 & R0 & _ & EB).
    destruct (lt_routes _ _ (proj1 E) _ _ _ _ R0) as (L1 & R1 & S1).
    destruct (RouteW_det _ _ _ _ _ _ _ _ (proj1 R1) (proj1 R)) as (_ & -> & ->).
    pose proof (similar_tour _ _ _ (proj2 R) S1) as El.
    assert (Hab0 : (a < b < length L0)%nat) by lia.
    assert (T0 : tour v (serve t a b L0)).
    { apply tour_serve; [apply R0| |done]. intros Hb. apply (ii_free _ _ _ I v (boards L0) t); [|done|done].
      exists r. split; [done|]. by exists ids, L0. }
    destruct (C r ids L0 t a b G R0 Ht Ha Hab0) as (c & B' & Hc & S & HB).
    { eapply similar_fits; [exact T0| |exact Hf]. apply similar_sym. by apply serve_similar. }
    exists c, B'. split; [done|]. split; [by eapply Serves_evolves|done].
  Qed.
  Lemma Complete_less h d pend pend' v sub : (forall t, t ∈ pend' -> t ∈ pend) -> Complete h d pend v sub -> Complete h d pend' v sub.
  Proof. intros H C r ids L t i j G R Ht. apply (C r ids); auto. Qed.
  Lemma Marked_mono h h' v sub : HInv h -> mono h h' -> Marked h v sub -> Marked h' v sub.
  Proof.
    intros HI M Mk c Hc. destruct (Mk c Hc) as (rc & Hrc & Hv & Hf). destruct (HInv_route _ _ _ HI Hrc) as (L & R & _).
    destruct (proj2 M c true) as (rc' & Hrc' & Hf'); [by exists rc|]. exists rc'. split; [done|]. split; [|done].
    apply (RouteOK_soft _ _ _ _ _ _ (mono_soft _ _ M)) in R. destruct (rw_cell _ _ _ _ _ (proj1 R)) as (rc2 & Hrc2 & E & _). congruence.
  Qed.
  Lemma Marked_aside h h' v w sub : aside v h h' -> w <> v -> Marked h w sub -> Marked h' w sub.
  Proof.
    intros A Hne Mk c Hc. destruct (Mk c Hc) as (rc & Hrc & Hv & Hf). exists rc. split; [|done]. apply (as_route _ _ _ A); [done|congruence].
  Qed.

  (** everything is tried *)
  Definition keen (k : ranking) : Prop :=
    it_strategy (rk_it k) = Intensive /\ it_only_feasible (rk_it k) = true /\ (length (it_pending (rk_it k)) <= rk_size k)%nat.
  Lemma create_sub_full h U k v r : sane -> ItInv h U (rk_it k) -> dict_get v (it_routes (rk_it k)) = Some r -> keen k -> Worth false h ->
    runs (create_sub_ranking k r) h (fun sub h' => Complete h' (it_routes (rk_it k)) (it_pending (rk_it k)) v sub /\ Marked h' v sub).
  Proof.
    intros Hs I Hr (K1 & K2 & K3) Wf. unfold create_sub_ranking. step. apply runs_set_order. intros pend Hp. set (h1 := MkHeap _ _ _ _).
    assert (E1 : evolves h h1) by apply evolves_tick.
    pose proof (ItInv_evolves _ _ _ _ I E1 (HInv_tick _ _ (ii_heap _ _ _ I))) as I1.
    destruct (ii_routes _ _ _ I1 v r Hr) as [B S]. pose proof S as (ids & L & R & GL & EB).
    rewrite K1, K2. rewrite take_ge by (by rewrite Hp).
    assert (Hfree : forall t, t ∈ pend -> t ∉ boards L).
    { intros t Ht Hb. rewrite Hp in Ht. apply (ii_free _ _ _ I1 v (boards L) t); [|done|done]. exists r. by subst. }
    assert (Wf1 : Worth false h1) by by apply E1.
    step. eapply runs_mono.
    { apply runs_both; [apply (strategy_compute_runs Intensive true h1 r v ids L pend); try done; [apply Hs|apply Hs|apply I1]|].
      apply (intensive_runs h1 r v ids L pend); try done; [apply Hs|apply Hs|apply I1]. }
    intros raw h2 ((HI2 & E2 & Hraw) & _ & _ & Mk & Fd).
    assert (I2 : ItInv h2 U (rk_it k)) by by eapply ItInv_evolves.
    assert (Hrt : forall c, c ∈ raw -> exists ids' L', RouteOK h2 c v ids' L').
    { intros c Hc. destruct (Hraw c Hc) as (_ & (t & i & j & _ & _ & ids' & L' & R' & _) & _). by exists ids', L'. }
    assert (C2 : Complete h2 (it_routes (rk_it k)) (it_pending (rk_it k)) v raw).
    { intros r' ids' L' t i j G R' Ht Hi Hij Hf. rewrite Hr in G. injection G as <-.
      destruct (lt_routes _ _ (proj1 E2) _ _ _ _ R) as (L1 & R1 & S1).
      destruct (RouteW_det _ _ _ _ _ _ _ _ (proj1 R1) (proj1 R')) as (_ & -> & ->).
      pose proof (similar_tour _ _ _ (proj2 R') S1) as El. rewrite <- Hp in Ht.
      assert (Hij0 : (i < j < length L)%nat) by lia.
      assert (T0 : tour v (serve t i j L)) by (apply tour_serve; [apply R|by apply Hfree|done]).
      destruct (Fd t i j Ht Hi Hij0) as (c & Hc & ids2 & ys & R2 & S2).
      { eapply similar_fits; [exact T0| |exact Hf]. apply similar_sym. by apply serve_similar. }
      exists c, (boards ys). split; [done|]. split; [by exists ids2, ys|].
      rewrite <- (boards_anytime ys), <- (proj1 S2), boards_anytime, (boards_serve t i j L) by lia. left. }
    assert (M2 : Marked h2 v raw).
    { intros c Hc. destruct (Mk c Hc) as (rc & Hrc & Hf). destruct (Hrt c Hc) as (ids' & L' & R').
      destruct (rw_cell _ _ _ _ _ (proj1 R')) as (rc' & Hrc' & Ev & _). exists rc. split; [done|]. split; [congruence|done]. }
    eapply runs_mono; [apply criterion_sorted_runs; [done|]|].
    { intros c Hc. destruct (Hrt c Hc) as (ids' & L' & R'). exists v, (boards L'). by exists ids', L'. }
    intros sub h3 (M & Hperm & _). pose proof (evolves_soft _ _ (mono_soft _ _ M)) as E3. split.
    - intros r' ids' L' t i j G R' Ht Hi Hij Hf.
      destruct (Complete_evolves _ _ _ _ _ _ I2 E3 C2 r' ids' L' t i j G R' Ht Hi Hij Hf) as (c & B' & Hc & SB).
      exists c, B'. split; [by rewrite Hperm|done].
    - intros c Hc. rewrite Hperm in Hc. by apply (Marked_mono h2 h3 v raw).
  Qed.

  (** ** Accepting a candidate *)
  Lemma update_vehicle_full h U k p v t v' B0 :
    sane -> ItInv h U (rk_it k) -> keen k -> Worth false h -> pt_is h p v t ->
    is_Some (dict_get v' (it_routes (rk_it k))) ->
    assigned h (it_routes (rk_it k)) v B0 -> t ∈ B0 -> t ∉ it_pending (rk_it k) ->
    (forall sub, v' <> v -> dict_get v' (rk_table k) = Some sub ->
       OldSub h (it_routes (rk_it k)) (it_pending (rk_it k)) t v' sub /\
       Complete h (it_routes (rk_it k)) (it_pending (rk_it k)) v' sub /\ Marked h v' sub) ->
    runs (update_vehicle_ranking k p v') h (fun k' h' => exists sub', k' = set_rk_table (dict_set v' sub' (rk_table k)) k /\
      Complete h' (it_routes (rk_it k)) (it_pending (rk_it k)) v' sub' /\ Marked h' v' sub').
  Proof.
    intros Hs I Kn Wf (pc & Hpc & Hv & Ht) [r Hr] A0 Ht0 Htp Hold. unfold update_vehicle_ranking. step.
    eapply runs_pt_get; [done|]. rewrite Hv, Ht.
    assert (Hcreate : runs (let! sub' := create_sub_ranking k r in ret (set_rk_table (dict_set v' sub' (rk_table k)) k)) h
      (fun k' h' => exists sub', k' = set_rk_table (dict_set v' sub' (rk_table k)) k /\
        Complete h' (it_routes (rk_it k)) (it_pending (rk_it k)) v' sub' /\ Marked h' v' sub')).
    { step. eapply runs_mono; [by apply (create_sub_full h U k v' r)|].
      intros sub h1 (? & ?). apply runs_ret. by exists sub. }
    destruct (dict_get v' (rk_table k)) as [sub|] eqn:Esub; [|by rewrite Hr].
    destruct (Nat.eqb_spec v' v) as [->|Hne]; [by rewrite Hr|].
    destruct (Hold sub Hne eq_refl) as (O & C & Mk). step. eapply runs_mono.
    { apply (runs_filterM _ (fun h1 => h1 = h) (fun c b => forall w B', Serves h c w B' -> b = true <-> t ∉ B')); [done|].
      intros c h1 Hc ->. destruct (O c Hc) as (B & u & B' & A & Hu & S & P). step.
      eapply runs_serves_trips; [exact S|]. apply runs_ret. split; [done|].
      intros w B'' S''. destruct (Serves_det _ _ _ _ _ _ S S'') as [_ <-]. unfold memb. case_bool_decide; cbn; split; done. }
    intros sub' h1 (-> & Hin & _ & Hout). apply runs_ret. exists sub'. split; [done|]. split.
    - intros r' ids' L' u i j G R' Hu Hi Hij Hf. destruct (C r' ids' L' u i j G R' Hu Hi Hij Hf) as (c & B' & Hc & S & HuB).
      exists c, B'. split; [|done]. destruct (decide (c ∈ sub')) as [|Hn]; [done|exfalso].
      destruct (O c Hc) as (B & u' & B1 & A & Hu' & S1 & P1). destruct (Serves_det _ _ _ _ _ _ S S1) as [_ ->].
      assert (HtB : t ∈ B1).
      { destruct (decide (t ∈ B1)) as [|HnB]; [done|]. exfalso. apply (proj2 (Hout c Hc Hn v' B1 S)) in HnB. done. }
      assert (HtB' : t ∉ B).
      { intros HB. apply Hne. by apply (ii_once _ _ _ I v' v B B0 t). }
      assert (HuB' : u ∉ B) by (intros HB; by apply (ii_free _ _ _ I v' B u)).
      rewrite P1 in HtB, HuB. apply elem_of_cons in HtB as [->|?]; [|done]. apply elem_of_cons in HuB as [->|?]; done.
    - intros c Hc. apply Mk. by apply Hin.
  Qed.
  Lemma update_loop_full U p v t l B0 : forall h k,
    sane -> ItInv h U (rk_it k) -> NoDup (map fst (rk_table k)) -> pt_is h p v t -> keen k -> Worth false h ->
    assigned h (it_routes (rk_it k)) v B0 -> t ∈ B0 -> t ∉ it_pending (rk_it k) ->
    (forall r, r ∈ l -> exists v' B, Serves h r v' B /\ is_Some (dict_get v' (it_routes (rk_it k)))) ->
    (forall v' sub, dict_get v' (rk_table k) = Some sub ->
       (v' <> v -> OldSub h (it_routes (rk_it k)) (it_pending (rk_it k)) t v' sub) /\
       (Complete h (it_routes (rk_it k)) (it_pending (rk_it k)) v' sub /\ Marked h v' sub \/
        v' = v /\ exists r B, r ∈ l /\ Serves h r v B)) ->
    (forall v sub, dict_get v (rk_table k) = Some sub -> Ordered (it_criterion (rk_it k)) h v sub) ->
    runs (foldM (fun k r => let! c := route_get r in update_vehicle_ranking k p (rt_vehicle c)) k l) h
      (fun k' h' =>
        (forall v' sub, dict_get v' (rk_table k') = Some sub ->
           Complete h' (it_routes (rk_it k)) (it_pending (rk_it k)) v' sub /\ Marked h' v' sub) /\
        (forall v', is_Some (dict_get v' (rk_table k)) -> is_Some (dict_get v' (rk_table k')))).
  Proof.
    induction l as [|r l IH]; intros h k Hs I Hn Hp Kn Wf A0 Ht0 Htp Hl Ht Hord.
    { apply runs_ret. split; [|done]. intros v' sub G. destruct (Ht v' sub G) as [_ [?|[_ (r & B & Hr & _)]]]; [done|inversion Hr]. }
    cbn [foldM]. destruct (Hl r) as (v1 & B1 & S1 & Hv1); [left|]. step. step.
    eapply runs_serves_get; [exact S1|]. intros c ->.
    eapply runs_mono.
    { apply runs_both; [apply (update_vehicle_runs h U k p v t v1); try done|apply (update_vehicle_full h U k p v t v1 B0); try done].
      - intros sub Hne G. by apply (Ht v1 sub G).
      - intros sub Hne G. destruct (Ht v1 sub G) as [HO [?|[? _]]]; [|done]. split; [by apply HO|done]. }
    intros k1 h1 ((E1 & HI1 & sub1 & -> & G1 & K1 & O1) & sub1' & Ek & C1 & M1).
    assert (sub1' = sub1) as ->.
    { apply (f_equal (fun k => dict_get v1 (rk_table k))) in Ek. cbn in Ek. rewrite !dict_get_set_eq in Ek. by injection Ek. }
    clear Ek. assert (I1 : ItInv h1 U (rk_it k)) by by eapply ItInv_evolves.
    eapply runs_mono; [apply (IH h1 (set_rk_table (dict_set v1 sub1 (rk_table k)) k))|].
    - done.
    - exact I1.
    - by apply dict_set_NoDup.
    - by eapply pt_is_evolves.
    - exact Kn.
    - by apply E1.
    - by eapply assigned_evolves.
    - done.
    - done.
    - intros q Hq. destruct (Hl q) as (v' & B & S & ?); [by right|]. exists v', B. split; [|done]. by eapply Serves_evolves.
    - cbn. intros v' sub. rewrite dict_get_set. destruct (decide (v' = v1)) as [->|Hne].
      + intros [= <-]. split; [|by left]. intros _ x Hx. destruct (G1 x Hx) as (B & u & B' & ? & ? & ? & ?). exists B, u, B'. tauto.
      + intros G. destruct (Ht v' sub G) as [HO Hc]. split; [intros Hv; eapply OldSub_evolves; [exact E1|by apply HO]|].
        destruct Hc as [[Hc Hm]|[-> (q & B & Hq & S)]].
        * left. split; [exact (Complete_evolves _ _ _ _ _ _ I E1 Hc)|exact (Marked_aside _ _ _ _ _ K1 Hne Hm)].
        * right. split; [done|]. apply elem_of_cons in Hq as [->|Hq].
          { by destruct (Serves_det _ _ _ _ _ _ S S1) as [-> _]. }
          exists q, B. split; [done|]. by eapply Serves_evolves.
    - cbn. intros v' sub. rewrite dict_get_set. destruct (decide (v' = v1)) as [->|Hne].
      + by intros [= <-].
      + intros G. eapply Ordered_aside; [exact K1|exact E1|done|by eapply Hord].
    - cbn. intros k2 h2 (Hg & Hd). split; [done|]. intros v' Hv'. apply Hd. rewrite dict_get_set. destruct (decide (v' = v1)); [eauto|done].
  Qed.

  Record FullInv (h : heap) (k : ranking) : Prop := {
    fi_keen : keen k;
    fi_worth : Worth false h;
    fi_busy : forall v B, assigned h (it_routes (rk_it k)) v B -> B <> [] -> is_Some (dict_get v (rk_table k));
    fi_table : forall v sub, dict_get v (rk_table k) = Some sub ->
      Complete h (it_routes (rk_it k)) (it_pending (rk_it k)) v sub /\ Marked h v sub
  }.
  Lemma ranking_mark_full h U k k0 p v t B r B' :
    sane -> RankInv h U k0 -> FullInv h k0 -> assigned h (it_routes (rk_it k0)) v B -> t ∈ it_pending (rk_it k0) ->
    is_Some (dict_get v (rk_table k0)) ->
    Serves h r v B' -> B' ≡ₚ t :: B -> pt_is h p v t ->
    k = set_rk_it (set_routes (dict_set v r (it_routes (rk_it k0))) (rk_it k0)) k0 ->
    runs (ranking_mark k p) h (fun k' h' => FullInv h' k').
  Proof.
    intros Hs RI FI A Ht Htab S P Hp Ek. unfold ranking_mark. pose proof Hp as (pc & Hpc & _ & Htp). step.
    eapply runs_pt_get; [done|]. step. rewrite Htp. unfold mark_trip_as_done.
    replace (it_pending (rk_it k)) with (it_pending (rk_it k0)) by (by subst k).
    unfold memb. rewrite bool_decide_eq_true_2 by done. apply runs_ret.
    pose proof (ItInv_accept h U (rk_it k0) v r B t B' (ri_it _ _ _ RI) A Ht S P) as I1.
    replace (rk_it k) with (set_routes (dict_set v r (it_routes (rk_it k0))) (rk_it k0)) by (by subst k).
    set (i1 := set_pending _ _) in *. unfold update_ranking.
    set (k1 := set_rk_it i1 k). change (rk_it k1) with i1.
    assert (Hless : forall u, u ∈ it_pending i1 -> u ∈ it_pending (rk_it k0)) by (by intros u [Hu _]%elem_of_filter_out).
    assert (Hold : forall w sub, w <> v -> dict_get w (rk_table k0) = Some sub ->
       OldSub h (it_routes i1) (it_pending i1) t w sub /\ Complete h (it_routes i1) (it_pending i1) w sub /\ Marked h w sub).
    { intros w sub Hne G. split.
      - intros c Hc. destruct (ri_table _ _ _ RI w sub G c Hc) as (C & u & C' & AC & Hu & SC & PC).
        exists C, u, C'. split.
        { destruct AC as (q & Hq & ?). exists q. split; [|done]. cbn. by rewrite dict_get_set_ne. }
        split; [|done]. destruct (decide (u = t)) as [->|]; [by right|left]. apply elem_of_filter_out. done.
      - destruct (fi_table _ _ FI w sub G) as [C Mk]. split; [|done].
        intros q ids L u i j Hq. cbn in Hq. rewrite dict_get_set_ne in Hq by done. intros R Hu. apply (C q ids); auto. }
    assert (Tk : rk_table k = rk_table k0 /\ rk_random k = rk_random k0 /\ rk_size k = rk_size k0) by (by subst k). destruct Tk as (Tk & Rk & Sk).
    step. eapply runs_mono; [apply runs_keeps; [apply keeps_attractive|apply (attractive_runs h U i1 I1)]|].
    intros [attr i2] h1 ((So1 & I2 & -> & Hsup & _ & Hsame & _) & K1). step. apply runs_set_order. intros l Hl. set (h2 := MkHeap _ _ _ _).
    assert (M02 : mono h h2).
    { eapply mono_trans; [exact (conj So1 K1)|]. split; [apply soft_tick|done]. }
    assert (E2 : evolves h1 h2) by apply evolves_tick.
    assert (E02 : evolves h h2) by (by apply evolves_soft, mono_soft).
    assert (I3 : ItInv h2 U (set_attractive (Some attr) i1)).
    { eapply ItInv_evolves; [exact I2|done|apply HInv_tick, (ii_heap _ _ _ I2)]. }
    set (k2 := set_rk_it _ k1).
    assert (Kn2 : keen k2).
    { destruct (fi_keen _ _ FI) as (H1 & H2 & H3). split; [exact H1|]. split; [exact H2|].
      change (rk_size k2) with (rk_size k). rewrite Sk.
      pose proof (filter_out_length t (it_pending (rk_it k0)) (ii_pending _ _ _ (ri_it _ _ _ RI)) Ht).
      change (it_pending (rk_it k2)) with (List.filter (fun x => negb (x =? t)%nat) (it_pending (rk_it k0))). lia. }
    assert (Wf2 : Worth false h2) by (apply E02, (fi_worth _ _ FI)).
    assert (HtB' : t ∈ B') by (rewrite P; left).
    assert (A2 : assigned h2 (it_routes (rk_it k2)) v B').
    { exists r. split; [apply dict_get_set_eq|by eapply Serves_evolves]. }
    assert (Htp2 : t ∉ it_pending (rk_it k2)).
    { intros Hin. by apply (elem_of_filter_out t t (it_pending (rk_it k0))) in Hin as [_ Hin]. }
    assert (Hl2 : forall q, q ∈ l -> exists v' B, Serves h2 q v' B /\ is_Some (dict_get v' (it_routes (rk_it k2)))).
    { intros q Hq. rewrite Hl in Hq. apply (ii_attractive _ _ _ I3 attr q eq_refl Hq). }
    assert (Hin2 : forall w sub, dict_get w (rk_table k2) = Some sub -> exists q C, q ∈ l /\ Serves h2 q w C).
    { change (rk_table k2) with (rk_table k). rewrite Tk. intros w sub G.
      destruct (ri_seen _ _ _ RI w ltac:(eauto)) as (l0 & q & C & El0 & Hq & SC). exists q, C. split.
      - rewrite Hl. apply (Hsup l0); done.
      - by eapply Serves_evolves. }
    assert (Hord2 : forall w sub, dict_get w (rk_table k2) = Some sub -> Ordered (it_criterion (rk_it k2)) h2 w sub).
    { change (rk_table k2) with (rk_table k). rewrite Tk. change (it_criterion (rk_it k2)) with (it_criterion (rk_it k0)).
      intros w sub G. eapply Ordered_mono; [exact M02|by apply (ri_order _ _ _ RI)]. }
    assert (Hn2 : NoDup (map fst (rk_table k2))).
    { change (rk_table k2) with (rk_table k). rewrite Tk. apply (ri_keys _ _ _ RI). }
    assert (Hp2 : pt_is h2 p v t) by by eapply pt_is_evolves.
    eapply runs_mono; [apply runs_both; [apply (update_loop_runs U p v t l h2 k2)|apply (update_loop_full U p v t l B' h2 k2)]|]; try done.
    - intros w sub G. right. split; [by eapply Hin2|]. change (rk_table k2) with (rk_table k) in G. rewrite Tk in G.
      intros Hne. eapply OldSub_evolves; [exact E02|]. by apply Hold.
    - intros w sub G. pose proof (Hin2 w sub G) as Hq. change (rk_table k2) with (rk_table k) in G. rewrite Tk in G.
      split; [intros Hne; eapply OldSub_evolves; [exact E02|]; by apply Hold|].
      destruct (decide (w = v)) as [->|Hne]; [by right|left]. destruct (Hold w sub Hne G) as (_ & C & Mk).
      split; [by eapply (Complete_evolves h h2 U i1)|]. apply (Marked_mono h h2); [apply (ii_heap _ _ _ I1)|done|done].
    - intros k3 h3 ((E3 & HI3 & Ei & Er & Es & _) & Hg & Hd). split.
      + unfold keen. rewrite Ei, Es. exact Kn2.
      + by apply E3.
      + intros w C AC HC. apply Hd. change (rk_table k2) with (rk_table k). rewrite Tk. rewrite Ei in AC.
        destruct (decide (w = v)) as [->|Hne]; [done|]. apply (fi_busy _ _ FI w C); [|done].
        apply (assigned_evolves_inv h h3 U); [apply RI|by eapply evolves_trans|].
        destruct AC as (q & Hq & SC). exists q. split; [|done]. cbn in Hq. by rewrite dict_get_set_ne in Hq.
      + rewrite Ei. exact Hg.
  Qed.
  Lemma ranking_set_route_full h U k v sub r :
    sane -> RankInv h U k -> FullInv h k -> dict_get v (rk_table k) = Some sub -> r ∈ sub ->
    runs (ranking_set_route k r) h (fun k' h' => FullInv h' k').
  Proof.
    intros Hs RI FI G Hr. destruct (ri_table _ _ _ RI v sub G r Hr) as (B & t & B' & A & Ht & S & P).
    unfold ranking_set_route. step. eapply runs_serves_get; [exact S|]. intros c ->.
    pose proof A as (old & Hold & SB). rewrite Hold. step.
    eapply runs_serves_trips; [exact SB|]. step. eapply runs_serves_planned; [exact S|].
    intros ps Eps Hps.
    assert (HtB' : t ∈ B') by (rewrite P; left). pose proof HtB' as Hin. rewrite <- Eps in Hin.
    apply elem_of_list_fmap in Hin as (p & Etp & Hp). apply elem_of_list_split in Hp as (ps1 & ps2 & ->).
    assert (Hnd := Serves_NoDup _ _ _ _ S). rewrite <- Eps in Hnd.
    assert (Hother : forall q, q ∈ ps1 ++ ps2 -> trip_of h q ∈ B).
    { intros q Hq. rewrite map_app in Hnd, Eps. cbn [map] in Hnd, Eps.
      assert (Hne : trip_of h q <> t).
      { rewrite <- Permutation_middle in Hnd. apply NoDup_cons in Hnd as [Hn _]. rewrite <- Etp, <- map_app in Hn.
        intros E. apply Hn. rewrite <- E. by apply elem_of_list_fmap_1. }
      assert (Hq' : trip_of h q ∈ B').
      { rewrite <- Eps, <- Permutation_middle, <- map_app. right. by apply elem_of_list_fmap_1. }
      rewrite P in Hq'. apply elem_of_cons in Hq' as [?|?]; done. }
    apply runs_foldM_app. eapply runs_mono; [apply skip_loop_runs|].
    { intros q Hq. destruct (Hps q) as (pc & ? & _ & E); [apply elem_of_app; by left|]. exists pc. split; [done|].
      rewrite E. apply Hother. apply elem_of_app; by left. }
    intros ? ? [-> ->]. cbn [foldM]. step. step.
    destruct (Hps p) as (pc & Hpc & Hpv & Hpt); [apply elem_of_app; right; left|]. eapply runs_pt_get; [done|].
    assert (Ept : pt_trip pc = t) by congruence.
    unfold memb at 1. rewrite bool_decide_eq_false_2.
    2:{ rewrite Ept. intros HB. by apply (ii_free _ _ _ (ri_it _ _ _ RI) v B t). }
    assert (Hpi : pt_is h p v t) by (by exists pc).
    eapply runs_mono; [apply runs_both; [eapply (ranking_mark_runs h U _ k p v t B r B'); done|eapply (ranking_mark_full h U _ k p v t B r B'); try done; by eauto]|].
    intros k' h' ((E & _) & FI').
    eapply runs_mono; [apply skip_loop_runs|].
    { intros q Hq. destruct (Hps q) as (qc & Hqc & _ & Eq); [apply elem_of_app; right; by right|].
      destruct E as [E _]. destruct (lt_pts _ _ E q qc Hqc) as (qc' & Hq' & Sk). apply sk_pt_eq in Sk as (_ & Sk & _).
      exists qc'. split; [done|]. rewrite Sk, Eq. apply Hother. apply elem_of_app; by right. }
    by intros ? ? [-> ->].
  Qed.
  Lemma FullInv_mono h h' U k : RankInv h U k -> mono h h' -> FullInv h k -> FullInv h' k.
  Proof.
    intros RI M [F1 F2 F3 F4]. pose proof (evolves_soft _ _ (mono_soft _ _ M)) as E. split.
    - done.
    - by apply E.
    - intros v B A. apply F3. eapply assigned_evolves_inv; [apply RI|done|done].
    - intros v sub G. destruct (F4 v sub G) as [C Mk]. split; [by eapply Complete_evolves; [apply RI|..]|].
      apply (Marked_mono h); [apply (ri_it _ _ _ RI)|done|done].
  Qed.
  Lemma ranking_loop_full U n : forall k h, sane -> RankInv h U k -> FullInv h k -> (length (it_pending (rk_it k)) < n)%nat ->
    runs (ranking_loop n k) h (fun k' h' => RankInv h' U k' /\ FullInv h' k' /\
      forall v sub, dict_get v (rk_table k') = Some sub -> sub = []).
  Proof.
    induction n as [|n IH]; intros k h Hs RI FI Hlen; [lia|]. cbn [ranking_loop]. step.
    eapply runs_mono; [by apply (ranking_next_runs h U k)|]. intros o h1 (E1 & K1 & HI1 & Ho).
    assert (RI1 : RankInv h1 U k) by by eapply RankInv_mono.
    assert (FI1 : FullInv h1 k) by exact (FullInv_mono _ _ _ _ RI K1 FI).
    destruct o as [r|].
    2:{ apply runs_ret. done. }
    destruct Ho as (v & sub & G & Hr). step.
    destruct (ri_table _ _ _ RI1 v sub G r Hr) as (? & ? & B' & _ & _ & (ids & L & R & _) & _).
    eapply runs_mono; [apply (route_feasible_mono h1 r v ids L); [apply Hs|apply Hs|done]|].
    intros b h2 (M2 & _ & Hb). assert (RI2 : RankInv h2 U k) by (eapply RankInv_mono; [exact RI1|exact M2]).
    assert (FI2 : FullInv h2 k) by exact (FullInv_mono _ _ _ _ RI1 M2 FI1).
    destruct (fi_table _ _ FI1 v sub G) as [_ Mk]. destruct (Mk r Hr) as (rc & Hrc & _ & Hf).
    rewrite (Hb true) by (by exists rc). cbn [negb].
    step. eapply runs_mono; [apply runs_both; [by eapply (accept_step h2 U k v sub r)|by eapply (ranking_set_route_full h2 U k v sub r)]|].
    intros k' h3 ((RI3 & _ & El) & FI3). apply IH; [done|done|done|lia].
  Qed.

  (** ** Starting *)
  Lemma initialize_full h U k :
    sane -> ItInv h U (rk_it k) -> (1 <= rk_random k)%nat -> rk_table k = [] -> it_attractive (rk_it k) = None ->
    keen k -> Worth false h ->
    runs (initialize_ranking k) h (fun k' h' => FullInv h' k').
  Proof.
    intros Hs I Hrd Et Ea Kn Wf. unfold initialize_ranking. step.
    eapply runs_mono; [by apply attractive_runs|]. intros [attr i'] h1 (E1%evolves_soft & I1 & -> & _ & Hcur & _ & _ & Hall).
    specialize (Hcur Ea). specialize (Hall Ea).
    set (k1 := set_rk_it _ k). cbv zeta. step. apply runs_set_order. intros l Hl. step. set (h2 := MkHeap _ _ _ _).
    assert (E2 : evolves h1 h2) by apply evolves_tick.
    assert (I2 : ItInv h2 U (rk_it k1)) by (eapply ItInv_evolves; [exact I1|done|apply HInv_tick, (ii_heap _ _ _ I1)]).
    assert (Kn1 : keen k1) by exact Kn.
    assert (Wf2 : Worth false h2) by by apply E2, E1.
    assert (Loop : forall l0 tb h3, (forall r, r ∈ l0 -> r ∈ attr) -> evolves h2 h3 -> HInv h3 ->
      (forall v sub, dict_get v tb = Some sub -> Complete h3 (it_routes (rk_it k1)) (it_pending (rk_it k1)) v sub /\ Marked h3 v sub) ->
      runs (foldM (fun tb r => let! c := route_get r in let! sub := create_sub_ranking k1 r in ret (dict_set (rt_vehicle c) sub tb)) tb l0) h3
        (fun tb' h' => evolves h2 h' /\ HInv h' /\
          (forall v sub, dict_get v tb' = Some sub -> Complete h' (it_routes (rk_it k1)) (it_pending (rk_it k1)) v sub /\ Marked h' v sub) /\
          (forall v, is_Some (dict_get v tb) -> is_Some (dict_get v tb')) /\
          forall r v B, r ∈ l0 -> Serves h2 r v B -> is_Some (dict_get v tb'))).
    { induction l0 as [|r l0 IH]; intros tb h3 Hl0 E3 HI3 Htb.
      { apply runs_ret. split; [done|]. split; [done|]. split; [done|]. split; [done|]. intros r v B Hr. inversion Hr. }
      pose proof (ItInv_evolves _ _ _ _ I2 E3 HI3) as I3.
      assert (Hr : r ∈ attr) by (apply Hl0; left).
      destruct (ii_attractive _ _ _ I3 attr r eq_refl Hr) as (v & B & S & _).
      assert (Hg : dict_get v (it_routes (rk_it k1)) = Some r).
      { pose proof (Hcur r Hr) as Hin. unfold it_route_set in Hin. apply elem_of_list_fmap in Hin as ([v' r0] & -> & Hin).
        apply (dict_in_get _ _ _ (ii_nodup _ _ _ I)) in Hin.
        destruct (ii_routes _ _ _ I3 v' r0 Hin) as [B' S']. destruct (Serves_det _ _ _ _ _ _ S S') as [-> _]. done. }
      cbn [foldM]. step. step. eapply runs_serves_get; [exact S|]. intros c Hv. step.
      eapply runs_mono; [apply runs_both; [by apply (create_sub_ranking_runs h3 U k1 v r)|apply (create_sub_full h3 U k1 v r); try done; by apply E3]|].
      intros sub h4 ((E4 & HI4 & G4 & K4 & O4) & C4 & M4). apply runs_ret. rewrite Hv.
      assert (E24 : evolves h2 h4) by by eapply evolves_trans.
      eapply runs_mono; [apply (IH (dict_set v sub tb) h4); try done|].
      - intros q Hq. apply Hl0. by right.
      - intros w sub'. rewrite dict_get_set. destruct (decide (w = v)) as [->|Hne].
        + by intros [= <-].
        + intros G. destruct (Htb w sub' G) as [C Mk]. split; [exact (Complete_evolves _ _ _ _ _ _ I3 E4 C)|exact (Marked_aside _ _ _ _ _ K4 Hne Mk)].
      - intros tb' h5 (E5 & HI5 & H5 & Hd & Hin). split; [done|]. split; [done|]. split; [done|]. split.
        + intros w Hw. apply Hd. rewrite dict_get_set. destruct (decide (w = v)); [eauto|done].
        + intros q w C [->|Hq]%elem_of_cons SC; [|by eapply Hin].
          destruct (Serves_det _ _ _ _ _ _ S (Serves_evolves _ _ _ _ _ E3 SC)) as [<- _].
          apply Hd. rewrite dict_get_set_eq. eauto. }
    eapply runs_mono; [apply (Loop l (rk_table k1) h2)|].
    - intros r Hr. by rewrite Hl in Hr.
    - apply evolves_refl.
    - apply I2.
    - intros v sub. change (rk_table k1) with (rk_table k). rewrite Et. done.
    - intros tb h3 (E3 & HI3 & H3 & _ & Hin). apply runs_ret. split; cbn.
      + exact Kn1.
      + by apply E3.
      + intros v B A HB. apply (assigned_evolves_inv h2 h3 U (rk_it k1)) in A; [|done|done]. destruct A as (r & Hr & S).
        apply (Hin r v B); [|done]. rewrite Hl. apply Hall.
        * unfold it_route_set. apply elem_of_list_fmap. exists (v, r). split; [done|]. by apply dict_get_in.
        * destruct (ii_routes _ _ _ I v r Hr) as [B1 SB1]. exists v, B1. split; [done|].
          assert (E02 : evolves h h2) by by eapply evolves_trans.
          by destruct (Serves_det _ _ _ _ _ _ S (Serves_evolves _ _ _ _ _ E02 SB1)) as [_ <-].
      + exact H3.
  Qed.
  Lemma init_gives st of kr fleet job initial : RankedTheorems.gives (iterator_init st of kr fleet job initial) (fun i => it_strategy i = st /\ it_only_feasible i = of).
  Proof.
    unfold iterator_init. destruct initial.
    - do 5 (apply RankedTheorems.gives_then; intros ?). by apply RankedTheorems.gives_ret.
    - do 4 (apply RankedTheorems.gives_then; intros ?). by apply RankedTheorems.gives_ret.
  Qed.
  Lemma runs_gives {A} (m : M A) h P Q : runs m h Q -> RankedTheorems.gives m P -> runs m h (fun x h' => Q x h' /\ P x).
  Proof. intros R G. unfold runs in *. specialize (G h). destruct (m h) as [[x|e] h']; [|done]. split; [done|]. by eapply G. Qed.
  Definition thorough (cfg : insertion_config) (job : list nat) : Prop :=
    ic_strategy cfg = Intensive /\ ic_only_feasible cfg = true /\
    match ic_size cfg with None => True | Some n => (length job <= n)%nat end.
  Lemma start_cold_full cfg fleet job h :
    sane -> HInv h -> Worth false h -> thorough cfg job -> NoDup fleet -> NoDup job -> (1 <= ic_random cfg)%nat ->
    runs (start cfg fleet job None) h (fun k h' => FullInv h' k).
  Proof.
    intros Hs HI Wf (T1 & T2 & T3) Hf Hj Hr. unfold start, ranking_init. step.
    eapply runs_mono; [apply runs_gives; [|apply init_gives]|].
    { by apply init_cold_runs. }
    intros i h1 ((E1 & I1 & Hk & Ha & Hjob & Hp) & Es & Eo). cbv zeta.
    apply (initialize_full h1 job (MkRanking i _ (ic_random cfg) [])); try done.
    - split; [cbn; congruence|]. split; [cbn; congruence|]. cbn. rewrite Hp. destruct (ic_size cfg); lia.
    - by apply E1.
  Qed.
  Lemma start_warm_full cfg fleet job rs0 vs ts h :
    sane -> HInv h -> Worth false h -> thorough cfg job -> valid_planning h vs ts rs0 -> NoDup job -> (1 <= ic_random cfg)%nat ->
    runs (start cfg fleet job (Some rs0)) h (fun k h' => FullInv h' k).
  Proof.
    intros Hs HI Wf (T1 & T2 & T3) V Hj Hr. unfold start, ranking_init. destruct V as [V1 (ws & Hws & V2) V3 V4].
    pose proof (all_good_any h rs0) as Hgood.
    assert (Hnd : NoDup ws) by by rewrite Hws.
    assert (Hw : forall i r v B, rs0 !! i = Some r -> Serves h r v B -> ws !! i = Some v).
    { intros i r v B Hi S. destruct (Forall2_lookup_l _ _ _ _ _ V2 Hi) as (w & Hi' & C & SC).
      by destruct (route_serves_eq _ _ _ _ _ _ S SC) as [-> _]. }
    step. eapply runs_mono; [apply runs_gives; [apply (init_warm_runs _ _ _ fleet job rs0 (job ++ ts) h)|apply init_gives]|].
    - done.
    - done.
    - done.
    - intros r Hin. apply elem_of_list_lookup_1 in Hin as [i Hi].
      destruct (Forall2_lookup_l _ _ _ _ _ V2 Hi) as (w & Hi' & C & SC). exists w, C.
      eapply route_Serves; [done|by eapply elem_of_list_lookup_2|done].
    - intros i j r r' v B B' Hi Hj' S S'. pose proof (Hw i r v B Hi S). pose proof (Hw j r' v B' Hj' S').
      by eapply NoDup_lookup_eq.
    - intros r r' v v' B B' t Hr1 Hr2 S S' Ht Ht'.
      assert (r = r') as <-.
      { apply (V4 r r' v v' B B' t); try done; by apply Serves_route. }
      by destruct (Serves_det _ _ _ _ _ _ S S').
    - intros t Ht. apply elem_of_app. by left.
    - intros r v B t Hr1 S Ht. apply elem_of_app. right. apply (V3 r v B t); [done|by apply Serves_route|done].
    - intros i h1 ((E1 & I1 & Ha & Hjob & Hp & _) & Es & Eo). cbv zeta.
      apply (initialize_full h1 (job ++ ts) (MkRanking i _ (ic_random cfg) [])); try done.
      + split; [cbn; congruence|]. split; [cbn; congruence|]. cbn. apply sublist_length in Hp. destruct (ic_size cfg); lia.
      + by apply E1.
  Qed.

  (** what the end of the loop means *)
  Lemma full_end h U k r v ids L t i j : ItInv h U (rk_it k) -> FullInv h k ->
    (forall v sub, dict_get v (rk_table k) = Some sub -> sub = []) ->
    r ∈ current k -> RouteOK h r v ids L -> boards L <> [] -> t ∈ it_pending (rk_it k) ->
    (1 <= i)%nat -> (i < j < length L)%nat -> ~ fits v (serve t i j L).
  Proof.
    intros I FI He Hr R HB Ht Hi Hij Hf. apply (current_get h U) in Hr as (w & G); [|done].
    destruct (ii_routes _ _ _ I w r G) as (B & ids0 & L0 & R0 & _).
    destruct (RouteW_det _ _ _ _ _ _ _ _ (proj1 R0) (proj1 R)) as (-> & _).
    destruct (fi_busy _ _ FI v (boards L)) as [sub Hsub]; [|done|].
    { exists r. split; [done|]. by exists ids, L. }
    destruct (fi_table _ _ FI v sub Hsub) as [C _]. rewrite (He v sub Hsub) in C.
    destruct (C r ids L t i j G R Ht Hi Hij Hf) as (c & B' & Hc & _). inversion Hc.
  Qed.
  Lemma full_pending h U k t : ItInv h U (rk_it k) -> t ∈ it_job (rk_it k) ->
    (forall r v us, r ∈ current k -> route_serves h r v us -> t ∉ us) -> t ∈ it_pending (rk_it k).
  Proof.
    intros I Ht Hn. destruct (ii_all _ _ _ I t Ht) as [?|(v & B & A & HB)]; [done|]. exfalso.
    destruct A as (r & G & S). apply (Hn r v B); [|by apply Serves_route|done]. apply (current_get h U); [done|]. by exists v.
  Qed.
End full.
