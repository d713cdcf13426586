(** Proofs about the feasibility of plannings (C59). *)
From Verif Require Import SpecPlan FeasibleProofs CloneProofs TimeTheorems ValueTheorems Witness.

Section verdicts.
  Context {W : World}.
  Lemma own_route h r v ids L : RouteW h r v ids L -> own (fun s => s ∈ ids) (fun p => p ∈ pts_of h ids) r h.
  Proof.
    intros R c s sc p Hc Hs Hsc Hp. destruct (rw_cell _ _ _ _ _ R) as (c' & Hc' & _ & E). rewrite Hc in Hc'. injection Hc' as <-.
    rewrite E in Hs. assert (Hpp : p ∈ pts_of h ids) by (apply elem_of_pts_of; eauto). split; [done|].
    intros pc q Hpc Hq. destruct (pts_of_known _ _ _ _ _ _ R Hpp) as (s' & c' & d & dc & pc' & Hs' & _ & _ & Hsub & _ & _ & Hpc' & _ & E1 & E2).
    rewrite Hpc in Hpc'. injection Hpc' as <-. rewrite E1, E2 in Hq.
    destruct Hq as [[= <-]|[= <-]]; [done|]. eapply elem_of_submseteq; [|by apply sublist_submseteq]. right. left.
  Qed.
  Lemma verdict_det h r b b' : verdict h r b -> verdict h r b' -> b = b'.
  Proof.
    intros (v & ids & xs & T & H) (v' & ids' & xs' & T' & H').
    apply on_tour_RouteOK in T. apply on_tour_RouteOK in T'.
    destruct (RouteW_det _ _ _ _ _ _ _ _ (proj1 T) (proj1 T')) as (<- & <- & <-).
    destruct H as [(c & Hc & Hb)|[U H]], H' as [(c' & Hc' & Hb')|[U' H']].
    - congruence.
    - destruct U' as [U' _]. rewrite (U' c Hc) in Hb. done.
    - destruct U as [U _]. rewrite (U c' Hc') in Hb'. done.
    - apply Bool.eq_iff_eq_true. tauto.
  Qed.
  (** what asking one route changes about the others *)
  Lemma verdict_other h h' pl r v ids L r' b : separate h pl -> r ∈ pl -> r' ∈ pl -> r' <> r ->
    RouteW h r v ids L -> mono h h' -> beyond (fun s => s ∈ ids) (fun p => p ∈ pts_of h ids) h h' ->
    (forall q, q <> r -> h_routes h' !! q = h_routes h !! q) -> verdict h r' b -> verdict h' r' b.
  Proof.
    intros Hsep Hr Hr' Hne R [S Mm] [B1 B2] Hq (v' & ids' & xs & T & H). exists v', ids', xs.
    pose proof T as T1. apply on_tour_RouteOK in T1. split; [apply on_tour_RouteOK; by eapply RouteOK_soft|].
    destruct H as [Ha|[(U1 & U2 & U3) H]]; [left; by apply Mm|right]. split; [|done]. destruct T1 as [T1 _].
    assert (Hids : forall s, s ∈ ids' -> s ∉ ids).
    { intros s Hs' Hs. apply Hne. eapply (Hsep r' r); [done|done|by apply well_formed_RouteW|by apply well_formed_RouteW|done|done]. }
    split; [|split].
    - intros c Hc. rewrite Hq in Hc by done. by apply U1.
    - intros s c Hs Hc. specialize (B1 s (Hids s Hs)). rewrite Hc in B1. destruct (h_stops h !! s) as [c0|] eqn:Hc0; [|done].
      cbn in B1. injection B1 as B1. rewrite B1. by eapply U2.
    - intros s c p pc Hs Hc Hp Hpc.
      assert (Hpi : p ∈ pts_of h ids').
      { rewrite <- (pts_of_soft _ _ _ _ _ _ T1 S). apply elem_of_pts_of. eauto. }
      assert (Hpo : p ∉ pts_of h ids).
      { intros Hpo. destruct (pts_of_known _ _ _ _ _ _ R Hpo) as (s1 & c1 & _ & _ & pc1 & Hs1 & _ & _ & _ & _ & _ & Hpc1 & _ & E1 & _).
        destruct (pts_of_known _ _ _ _ _ _ T1 Hpi) as (s2 & c2 & _ & _ & pc2 & Hs2 & _ & _ & _ & _ & _ & Hpc2 & _ & E2 & _).
        rewrite Hpc1 in Hpc2. injection Hpc2 as <-. rewrite E1 in E2. injection E2 as <-. by apply (Hids s1). }
      specialize (B2 p Hpo). rewrite Hpc in B2. destruct (h_pts h !! p) as [pc0|] eqn:Hpc0; [|done]. cbn in B2. injection B2 as B2.
      rewrite B2. apply elem_of_pts_of in Hpi as (s0 & c0 & Hs0 & Hc0 & Hp0). by eapply U3.
  Qed.
  Lemma route_verdict h pl r b : sane -> separate h pl -> r ∈ pl -> verdict h r b ->
    runs (route_feasible r) h (fun b' h' => b' = b /\ mono h h' /\ answered h' r b /\
      forall r' b0, r' ∈ pl -> verdict h r' b0 -> verdict h' r' b0).
  Proof.
    intros [SD SC] Hsep Hr V. pose proof V as (v & ids & xs & T & H). apply on_tour_RouteOK in T.
    pose proof (RouteW_nonempty _ _ _ _ _ T) as Hne.
    pose proof (route_feasible_mono h r v ids xs SD SC T) as G. apply runs_eq in G as (b' & h' & E & M & Mb & Mo).
    pose proof (route_feasible_runs h r v ids xs SD SC (proj1 T) Hne) as G. apply runs_eq in G as (b2 & h2 & E' & _ & F & _).
    rewrite E in E'. injection E' as <- <-.
    pose proof (sp_route_feasible _ _ r h (own_route _ _ _ _ _ (proj1 T))) as B. rewrite E in B. cbn [snd] in B.
    destruct (route_feasible_memo _ _ _ _ E) as [Er _].
    assert (Eb : b' = b).
    { destruct H as [Ha|[U Hb]]; [by apply Mo|]. destruct (unasked_Flags _ _ _ _ _ (proj1 T) U) as [F1 F2].
      destruct (F F1 F2) as [_ Hb']. assert (Hx : xs <> []). { intros ->. pose proof (RouteW_length _ _ _ _ _ (proj1 T)). by destruct ids. }
      rewrite (route_okb_admissible _ _ Hx) in Hb'. apply Bool.eq_iff_eq_true. tauto. }
    subst b'. apply runs_eq. exists b, h'. split; [done|]. split; [done|]. split; [done|]. split; [done|].
    intros r' b0 Hr' V'. destruct (decide (r' = r)) as [->|Hn].
    - rewrite (verdict_det _ _ _ _ V' V). exists v, ids, xs. split; [|by left]. apply on_tour_RouteOK. eapply RouteOK_soft; [apply M|done].
    - eapply (verdict_other h h' pl r v ids xs); [done..|apply T|done|done| |done].
      intros q Hq. by rewrite Er, list_lookup_alter_ne.
  Qed.
  Lemma separate_mono h h' pl : (forall r, r ∈ pl -> a_tour h r) -> mono h h' -> separate h pl -> separate h' pl.
  Proof.
    intros Hl M Hs r r' v v' ids ids' xs xs' s Hr Hr' R R' Hi Hi'.
    destruct (Hl r Hr) as (v1 & ids1 & xs1 & [R1 _]). destruct (Hl r' Hr') as (v2 & ids2 & xs2 & [R2 _]).
    pose proof (proj2 (mono_kept _ _ M) _ _ _ _ R1) as R1'. pose proof (proj2 (mono_kept _ _ M) _ _ _ _ R2) as R2'.
    apply well_formed_RouteW in R, R', R1', R2'.
    destruct (RouteW_det _ _ _ _ _ _ _ _ R R1') as (_ & -> & _). destruct (RouteW_det _ _ _ _ _ _ _ _ R' R2') as (_ & -> & _).
    by eapply (Hs r r').
  Qed.
  Lemma planning_verdicts h pl (f : nat -> bool) : sane -> pl <> [] -> separate h pl ->
    (forall r, r ∈ pl -> verdict h r (f r)) ->
    runs (planning_feasible pl) h (fun b h' => (b = true <-> forall r, r ∈ pl -> f r = true) /\ mono h h' /\
      forall r, r ∈ pl -> answered h' r (f r)).
  Proof.
    intros Hs Hne Hsep HV. unfold planning_feasible. step. apply runs_set_order. intros l Hp.
    set (h0 := MkHeap _ _ _ _). assert (M0 : mono h h0) by apply mono_tick.
    assert (V0 : forall r, r ∈ pl -> verdict h0 r (f r)). { intros r Hr. destruct (HV r Hr) as (v & ids & xs & T & H). exists v, ids, xs. split; [|exact H].
      apply on_tour_RouteOK. apply on_tour_RouteOK in T. eapply RouteOK_soft; [apply M0|exact T]. }
    assert (Hl : forall r, r ∈ pl -> a_tour h r). { intros r Hr. destruct (HV r Hr) as (v & ids & xs & T & _). by exists v, ids, xs. }
    pose proof (separate_mono _ _ _ Hl M0 Hsep) as Sep0. clearbody h0.
    assert (Hin : forall r, r ∈ l <-> r ∈ pl) by (intros r; by rewrite Hp).
    set (Inv := fun (done : list nat) h1 => mono h h1 /\ separate h1 pl /\ (forall r, r ∈ pl -> verdict h1 r (f r)) /\
      forall r, r ∈ done -> answered h1 r (f r)).
    assert (Hstep : forall r done h1, r ∈ pl -> Inv done h1 -> runs (route_feasible r) h1 (fun b h2 => b = f r /\ Inv (r :: done) h2)).
    { intros r dn h1 Hr (M1 & S1 & V1 & A1). eapply runs_mono; [apply (route_verdict h1 pl r (f r) Hs S1 Hr (V1 r Hr))|].
      cbn. intros b h2 (-> & M2 & A2 & V2). split; [done|]. split; [by eapply mono_trans|]. split.
      - eapply separate_mono; [|exact M2|exact S1]. intros q Hq. destruct (V1 q Hq) as (v & ids & xs & T & _). by exists v, ids, xs.
      - split; [intros q Hq; apply V2; auto|]. intros q [->|Hq]%elem_of_cons; [done|]. apply M2. by apply A1. }
    assert (Hloop : forall l' b0 done h1, (forall r, r ∈ l' -> r ∈ pl) -> Inv done h1 ->
      runs (foldM (fun acc r => let! b := route_feasible r in ret (acc && b)) b0 l') h1
        (fun b h2 => (b = true <-> b0 = true /\ forall r, r ∈ l' -> f r = true) /\ Inv (reverse l' ++ done) h2)).
    { induction l' as [|r l' IH]; intros b0 dn h1 Hi HI; cbn [foldM].
      - apply runs_ret. split; [|done]. split; [|tauto]. intros ->. split; [done|]. intros r Hr. inversion Hr.
      - step. step. eapply runs_mono; [apply (Hstep r dn h1); [apply Hi; left|done]|]. cbn. intros b h2 [-> I2]. apply runs_ret.
        eapply runs_mono; [apply IH; [intros q Hq; apply Hi; by right|exact I2]|]. cbn. intros b h3 [Hb I3]. split.
        + rewrite Hb, andb_true_iff. split.
          * intros [[-> Hf] H]. split; [done|]. intros q [->|Hq]%elem_of_cons; auto.
          * intros [-> H]. split; [split; [done|apply H; left]|]. intros q Hq. apply H. by right.
        + assert (Er : reverse (r :: l') ++ dn = reverse l' ++ r :: dn) by (by rewrite reverse_cons, <- app_assoc).
          rewrite <- Er in I3. exact I3. }
    destruct l as [|r l]; [by apply Permutation_nil in Hp|].
    step. eapply runs_mono; [apply (Hstep r [] h0); [apply Hin; left|]|].
    { split; [done|]. split; [done|]. split; [done|]. intros q Hq. inversion Hq. }
    cbn. intros b h1 [-> I1]. eapply runs_mono; [apply Hloop; [|exact I1]|].
    { intros q Hq. apply Hin. by right. }
    cbn. intros b h2 [Hb (M2 & _ & _ & A2)]. split; [|split; [done|]].
    - rewrite Hb. split.
      + intros [H1 H2] q Hq. apply Hin in Hq. apply elem_of_cons in Hq as [->|Hq]; auto.
      + intros H. split; [apply H, Hin; left|]. intros q Hq. apply H, Hin. by right.
    - intros q Hq. apply A2. apply elem_of_app. apply Hin in Hq. apply elem_of_cons in Hq as [->|Hq]; [right; left|left; by apply elem_of_reverse].
  Qed.
  (** routes of different vehicles have no stop in common *)
  Lemma valid_separate h vs ts pl : valid_planning h vs ts pl -> separate h pl.
  Proof.
    intros V r r' v v' ids ids' xs xs' s Hr Hr' R R' Hs Hs'.
    apply well_formed_RouteW in R, R'. 
    assert (v = v') as <-.
    { apply elem_of_list_lookup in Hs as [i Hi]. apply elem_of_list_lookup in Hs' as [i' Hi'].
      destruct (RouteW_lookup _ _ _ _ _ _ _ R Hi) as (c & _ & Hc & _ & _ & _ & E & _).
      destruct (RouteW_lookup _ _ _ _ _ _ _ R' Hi') as (c' & _ & Hc' & _ & _ & _ & E' & _). congruence. }
    destruct (vp_routes _ _ _ _ V) as (ws & Hw & F).
    apply elem_of_list_lookup in Hr as [k Hk]. apply elem_of_list_lookup in Hr' as [k' Hk'].
    destruct (Forall2_lookup_l _ _ _ _ _ F Hk) as (w & Hwk & ts1 & ids1 & xs1 & T1 & _).
    destruct (Forall2_lookup_l _ _ _ _ _ F Hk') as (w' & Hwk' & ts2 & ids2 & xs2 & T2 & _).
    apply on_tour_RouteOK in T1, T2.
    destruct (RouteW_det _ _ _ _ _ _ _ _ R (proj1 T1)) as (<- & _ & _). destruct (RouteW_det _ _ _ _ _ _ _ _ R' (proj1 T2)) as (<- & _ & _).
    assert (k = k') as <-. { eapply NoDup_lookup; [|exact Hwk|exact Hwk']. rewrite Hw. apply V. }
    congruence.
  Qed.
End verdicts.

(** ** C59 *)
Lemma c59_recorded `{W : World} : forall h pl, sane -> pl <> [] -> separate h pl ->
  (forall r, r ∈ pl -> exists b, verdict h r b) ->
  exists b h', planning_feasible pl h = (Ok b, h') /\ routes_kept h h' /\
    (b = true <-> forall r, r ∈ pl -> verdict h r true) /\
    (forall r b, r ∈ pl -> verdict h r b -> answered h' r b).
Proof.
  intros h pl Hs Hne Hsep HV.
  set (f := fun r => match (route_feasible r h).1 with Ok b => b | Raise _ => false end).
  assert (Hf : forall r b, r ∈ pl -> verdict h r b -> f r = b).
  { intros r b Hr V. pose proof (route_verdict h pl r b Hs Hsep Hr V) as G. apply runs_eq in G as (b' & h' & E & -> & _).
    unfold f. by rewrite E. }
  assert (Vf : forall r, r ∈ pl -> verdict h r (f r)). { intros r Hr. destruct (HV r Hr) as [b V]. by rewrite (Hf r b Hr V). }
  pose proof (planning_verdicts h pl f Hs Hne Hsep Vf) as G. apply runs_eq in G as (b & h' & E & Hb & M & A).
  exists b, h'. split; [done|]. split; [by apply mono_kept|]. split.
  - rewrite Hb. split; intros H r Hr; [specialize (Vf r Hr); by rewrite (H r Hr) in Vf|]. by apply Hf, H.
  - intros r b' Hr V. rewrite <- (Hf r b' Hr V). by apply A.
Qed.
Lemma verdict_total `{W : World} h r v ids xs : sane -> on_tour h r v ids xs -> unasked h r ids -> exists b, verdict h r b.
Proof.
  intros [SD SC] T U. destruct (c05_feasible h r v ids xs SD SC (proj1 T)) as (b & h' & _ & Hb & _); [|done|].
  - apply on_tour_RouteOK in T. by apply RouteW_nonempty in T.
  - exists b, v, ids, xs. split; [done|]. by right.
Qed.
Lemma c59_exact `{W : World} : forall h vs ts pl, sane -> valid_planning h vs ts pl -> pl <> [] ->
  (forall r v ids xs, r ∈ pl -> on_tour h r v ids xs -> unasked h r ids) ->
  exists b h', planning_feasible pl h = (Ok b, h') /\ routes_kept h h' /\
    (b = true <-> forall r v ids xs, r ∈ pl -> on_tour h r v ids xs -> admissible v xs).
Proof.
  intros h vs ts pl Hs V Hne U.
  assert (Hl : forall r, r ∈ pl -> a_tour h r).
  { intros r Hr. destruct (vp_routes _ _ _ _ V) as (ws & _ & F). apply elem_of_list_lookup in Hr as [k Hk].
    destruct (Forall2_lookup_l _ _ _ _ _ F Hk) as (w & _ & ts1 & ids & xs & T & _). by exists w, ids, xs. }
  destruct (c59_recorded h pl Hs Hne (valid_separate _ _ _ _ V)) as (b & h' & E & K & Hb & _).
  { intros r Hr. destruct (Hl r Hr) as (v & ids & xs & T). by eapply verdict_total, U. }
  exists b, h'. split; [done|]. split; [done|]. rewrite Hb. split.
  - intros H r v ids xs Hr T. destruct (H r Hr) as (v' & ids' & xs' & T' & H').
    pose proof T as T1. pose proof T' as T2. apply on_tour_RouteOK in T1, T2.
    destruct (RouteW_det _ _ _ _ _ _ _ _ (proj1 T1) (proj1 T2)) as (<- & <- & <-).
    destruct H' as [(c & Hc & Hc')|[_ H']]; [|by apply H'].
    destruct (U r v ids xs Hr T) as [U1 _]. rewrite (U1 c Hc) in Hc'. done.
  - intros H r Hr. destruct (Hl r Hr) as (v & ids & xs & T). exists v, ids, xs. split; [done|]. right. split; [by eapply U|].
    split; [|done]. intros _. by eapply H.
Qed.
(** asked once more, the planning gives the same answer *)
Lemma c59_again `{W : World} : forall h pl b h', sane -> separate h pl -> (forall r, r ∈ pl -> exists b, verdict h r b) ->
  planning_feasible pl h = (Ok b, h') -> returns (planning_feasible pl) h' b.
Proof.
  intros h pl b h' Hs Hsep HV E.
  assert (Hne : pl <> []). { intros ->. destruct (planning_feasible_nil h) as [h1 E1]. by rewrite E in E1. }
  set (f := fun r => match (route_feasible r h).1 with Ok b => b | Raise _ => false end).
  assert (Vf : forall r, r ∈ pl -> verdict h r (f r)).
  { intros r Hr. destruct (HV r Hr) as [b' V]. pose proof (route_verdict h pl r b' Hs Hsep Hr V) as G.
    apply runs_eq in G as (b'' & h1 & E1 & -> & _). unfold f. by rewrite E1. }
  pose proof (planning_verdicts h pl f Hs Hne Hsep Vf) as G. apply runs_eq in G as (b1 & h1 & E1 & Hb & M & A).
  rewrite E in E1. injection E1 as <- <-.
  assert (Hl : forall r, r ∈ pl -> a_tour h r). { intros r Hr. destruct (Vf r Hr) as (v & ids & xs & T & _). by exists v, ids, xs. }
  pose proof (planning_verdicts h' pl f Hs Hne (separate_mono _ _ _ Hl M Hsep)) as G.
  assert (Vf' : forall r, r ∈ pl -> verdict h' r (f r)).
  { intros r Hr. destruct (Vf r Hr) as (v & ids & xs & T & _). exists v, ids, xs. split; [|left; by apply A].
    split; [apply (proj2 (mono_kept _ _ M)), T|apply T]. }
  specialize (G Vf'). apply runs_eq in G as (b2 & h2 & E2 & Hb2 & _). exists h2. rewrite E2. f_equal. f_equal.
  apply Bool.eq_iff_eq_true. by rewrite Hb, Hb2.
Qed.
Lemma c59_empty `{W : World} : forall h, exists h', planning_feasible [] h = (Raise TypeError, h').
Proof. exact planning_feasible_nil. Qed.
