(** Values of plannings before and after a warm start. *)
From Verif Require Import LocalTheorems FullProofs.
From Verif Require Export Searches Plannings.

#[local] Existing Instance any_shape.
Section warm.
  Context {W : World}.
  Definition Priced_alike (h h' : heap) (r r' : nat) : Prop := forall o z, Priced o h r z -> Priced o h' r' z.
  Lemma alike_evolves h h1 h2 r r' : evolves h1 h2 -> Priced_alike h h1 r r' -> Priced_alike h h2 r r'.
  Proof. intros E H o z Hz. exact (@Priced_evolves W simple_shape simple_loose _ _ _ _ _ E (H o z Hz)). Qed.
  Definition Same_values (h : heap) (rs0 : list nat) (h' : heap) (pl : list nat) : Prop :=
    exists rs, pl ≡ₚ rs /\ Forall2 (Priced_alike h h') rs0 rs.
  Lemma Same_values_evolves h rs0 h1 h2 pl : evolves h1 h2 -> Same_values h rs0 h1 pl -> Same_values h rs0 h2 pl.
  Proof. intros E (rs & P & F). exists rs. split; [done|]. eapply Forall2_impl; [exact F|]. intros r r'. by apply alike_evolves. Qed.
  Lemma Same_values_sold o h rs0 h' pl z : Same_values h rs0 h' pl -> Sold o h rs0 z -> Sold o h' pl z.
  Proof.
    intros (rs & P & F) (zs & FZ & ->). apply (Sold_perm o h' rs pl); [by rewrite P|]. exists zs. split; [|done].
    clear P. revert zs FZ. induction F as [|r r' rs0 rs H F IH]; intros zs FZ; inversion FZ; subst; constructor; [by apply H|by apply IH].
  Qed.

  Lemma init_warm_same st of kr fleet job rs0 h :
    HInv h -> NoDup job -> (forall r, r ∈ rs0 -> served h r) ->
    (forall i j r r' v B B', rs0 !! i = Some r -> rs0 !! j = Some r' -> Serves h r v B -> Serves h r' v B' -> i = j) ->
    runs (iterator_init st of kr fleet job (Some rs0)) h (fun i h' => Same_values h rs0 h' (it_route_set i)).
  Proof.
    intros HI Hj Hrs Hveh. unfold iterator_init. step.
    eapply runs_mono; [apply deepcopy_runs|].
    { intros r Hr. destruct (Hrs r Hr) as (v & B & S). destruct (Serves_cell _ _ _ _ S) as (c & Hc & _). eauto. }
    intros rs h1 (HC & Ers & F).
    assert (F1 : Forall2 (fun r r' => forall v B, Serves h r v B -> Serves h1 r' v B) rs0 rs).
    { eapply Forall2_impl; [exact F|]. intros r r' (c & Hc & Hc') v B (ids & L & R & GL & <-).
      exists (map (up h) ids), L. split; [|done]. by eapply Copied_route. }
    assert (F2 : Forall2 (Priced_alike h h1) rs0 rs).
    { eapply Forall2_impl; [exact F|]. intros r r' (c & Hc & Hc') o z (v & ids & L & R & Hz).
      exists v, (map (up h) ids), L. split; [|done]. by eapply Copied_route. }
    assert (HN : NoDup rs) by (rewrite Ers; apply NoDup_seq). clear Ers F.
    step. apply runs_set_order. intros rs1 Hrs1. set (h2 := MkHeap _ _ _ _).
    assert (E2 : evolves h1 h2) by apply evolves_tick.
    assert (Hback : forall hh r', evolves h1 hh -> r' ∈ rs -> exists i r, rs0 !! i = Some r /\ rs !! i = Some r' /\
        exists v B, Serves h r v B /\ Serves hh r' v B).
    { intros hh r' E Hr'. apply elem_of_list_lookup_1 in Hr' as [i Hi].
      destruct (Forall2_lookup_r _ _ _ _ _ F1 Hi) as (r & Hr & HS). exists i, r. split; [done|]. split; [done|].
      destruct (Hrs r) as (v & B & S); [by eapply elem_of_list_lookup_2|]. exists v, B. split; [done|].
      eapply Serves_evolves; [exact E|]. by apply HS. }
    step. eapply runs_mono; [apply (pend_loop_runs h2 rs1 job Hj)|].
    { intros r Hr. rewrite Hrs1 in Hr. destruct (Hback h2 r E2 Hr) as (_ & _ & _ & _ & v & B & _ & S). by exists v, B. }
    intros pend ? (-> & _). step. apply runs_set_order. intros rs2 Hrs2. set (h3 := MkHeap _ _ _ _).
    assert (E3 : evolves h2 h3) by apply evolves_tick.
    assert (E13 : evolves h1 h3) by by eapply evolves_trans.
    step. eapply runs_mono; [apply routes_dict_runs|].
    { intros r Hr. rewrite Hrs2 in Hr. destruct (Hback h3 r E13 Hr) as (_ & _ & _ & _ & v & B & _ & S). by exists v, B. }
    { intros r r' v B B' Hr Hr' S S'. rewrite Hrs2 in Hr, Hr'.
      destruct (Hback h3 r E13 Hr) as (i & q & Hi & Hi' & w & C & SC & SC').
      destruct (Hback h3 r' E13 Hr') as (j & q' & Hj' & Hj'' & w' & C' & SC1 & SC1').
      destruct (Serves_det _ _ _ _ _ _ S SC') as [-> ->]. destruct (Serves_det _ _ _ _ _ _ S' SC1') as [-> ->].
      assert (i = j) as -> by (by eapply Hveh). congruence. }
    intros d ? (-> & Hk & Hd). apply runs_ret. unfold it_route_set. cbn [it_routes].
    exists rs. split; [|eapply Forall2_impl; [exact F2|]; intros r r'; by apply alike_evolves].
    apply NoDup_Permutation; [|done|].
    - assert (Hin : forall v r, (v, r) ∈ d -> exists B, Serves h3 r v B).
      { intros v r H%(dict_in_get _ _ _ Hk). apply Hd in H. apply H. }
      clear -Hk Hin. induction d as [|[v r] d IH]; [constructor|]. cbn in *. apply NoDup_cons in Hk as [Hv Hk]. apply NoDup_cons. split.
      + intros Hr. apply elem_of_list_fmap in Hr as ([v' r'] & E & Hr). cbn in E. subst r'. apply Hv.
        destruct (Hin v r) as [B S]; [left|]. destruct (Hin v' r) as [B' S']; [by right|].
        destruct (Serves_det _ _ _ _ _ _ S S') as [-> _]. by apply (elem_of_list_fmap_1 fst _ (v', r)).
      + apply IH; [done|]. intros v' r' H. apply Hin. by right.
    - intros r. rewrite <- Hrs2. split.
      + intros Hr. apply elem_of_list_fmap in Hr as ([v' r'] & -> & Hr). apply (dict_in_get _ _ _ Hk) in Hr. apply Hd in Hr. apply Hr.
      + intros Hr. rewrite Hrs2 in Hr. destruct (Hback h3 r E13 Hr) as (_ & _ & _ & _ & v & B & _ & S).
        assert (G : dict_get v d = Some r) by (apply Hd; split; [by rewrite Hrs2|eauto]).
        apply dict_get_in in G. by apply (elem_of_list_fmap_1 snd _ (v, r)).
  Qed.

  Lemma start_warm_same cfg fleet job rs0 vs ts h :
    sane -> HInv h -> valid_planning h vs ts rs0 -> NoDup job -> (1 <= ic_random cfg)%nat ->
    runs (start cfg fleet job (Some rs0)) h (fun k h' => Same_values h rs0 h' (current k)).
  Proof.
    intros Hs HI V Hj Hr. unfold start, ranking_init. pose proof (all_good_any h rs0) as Hgood. destruct V as [V1 (ws & Hws & V2) V3 V4].
    assert (Hnd : NoDup ws) by by rewrite Hws.
    assert (Hw : forall i r v B, rs0 !! i = Some r -> Serves h r v B -> ws !! i = Some v).
    { intros i r v B Hi S. destruct (Forall2_lookup_l _ _ _ _ _ V2 Hi) as (w & Hi' & C & SC).
      by destruct (route_serves_eq _ _ _ _ _ _ S SC) as [-> _]. }
    assert (Hserved : forall r, r ∈ rs0 -> served h r).
    { intros r Hin. apply elem_of_list_lookup_1 in Hin as [i Hi].
      destruct (Forall2_lookup_l _ _ _ _ _ V2 Hi) as (w & Hi' & C & SC). exists w, C.
      eapply route_Serves; [done|by eapply elem_of_list_lookup_2|done]. }
    assert (Hveh : forall i j r r' v B B', rs0 !! i = Some r -> rs0 !! j = Some r' -> Serves h r v B -> Serves h r' v B' -> i = j).
    { intros i j r r' v B B' Hi Hj' S S'. pose proof (Hw i r v B Hi S). pose proof (Hw j r' v B' Hj' S'). by eapply NoDup_lookup_eq. }
    step. eapply runs_mono; [apply runs_both; [apply (init_warm_runs _ _ _ fleet job rs0 (job ++ ts) h); try done|by apply init_warm_same]|].
    - intros r r' v v' B B' t Hr1 Hr2 S S' Ht Ht'.
      assert (r = r') as <-.
      { apply (V4 r r' v v' B B' t); try done; by apply Serves_route. }
      by destruct (Serves_det _ _ _ _ _ _ S S').
    - intros t Ht. apply elem_of_app. by left.
    - intros r v B t Hr1 S Ht. apply elem_of_app. right. apply (V3 r v B t); [done|by apply Serves_route|done].
    - intros i h1 [(E1 & I1 & Ha & Hjob & Hp & Has) SV]. cbv zeta.
      eapply runs_mono; [by apply (initialize_runs h1 (job ++ ts) (MkRanking i _ (ic_random cfg) []))|].
      cbn. intros k h2 (E2 & RI & Er & _). unfold current, it_route_set. rewrite Er.
      by apply (Same_values_evolves _ _ _ _ _ E2).
  Qed.
End warm.

Lemma takes_concat `{W : World} h pl A t : Plan h pl A -> takes h pl t <-> t ∈ concat (map snd A).
Proof.
  intros (F & _ & _). rewrite LocalTheorems.elem_of_concat. split.
  - intros (v & us & (r & Hr & S) & Ht). apply elem_of_list_lookup_1 in Hr as [i Hi].
    destruct (Forall2_lookup_l _ _ _ _ _ F Hi) as (a & Ha & Sa). apply route_serves_Serves in S.
    destruct (Serves_det _ _ _ _ _ _ Sa S) as [_ E]. exists i, a.2. split; [by rewrite list_lookup_fmap, Ha|by rewrite E].
  - intros (i & l & Hi & Ht). rewrite list_lookup_fmap in Hi. destruct (A !! i) as [a|] eqn:Ha; [|done]. injection Hi as <-.
    destruct (Forall2_lookup_r _ _ _ _ _ F Ha) as (r & Hr & Sa). exists a.1, a.2. split; [|done]. exists r.
    split; [by eapply elem_of_list_lookup_2|by apply route_serves_Serves].
Qed.

(** ** C82 *)
Lemma c82_warm `{W : World} : forall cfg fleet job h vs ts rs0,
  sane -> tidy h -> valid_planning h vs ts rs0 -> NoDup job -> (1 <= ic_random cfg)%nat ->
  exists pl h', insertion_optimize cfg fleet job (Some rs0) h = (Ok pl, h') /\
    (forall o x y, total_worth o h rs0 x -> total_worth o h' pl y -> (forall t, takes h' pl t -> takes h rs0 t) -> y = x) /\
    (forall x y, total_worth DialARide h rs0 x -> total_worth DialARide h' pl y -> at_least x y /\
       ((exists t, takes h' pl t /\ ~ takes h rs0 t) -> lex_lt x y)).
Proof.
  intros cfg fleet job h vs ts rs0 Hs HT V Hj Hr. apply tidy_HInv in HT as HI.
  pose proof (runs_both _ _ _ _ (start_warm_runs cfg fleet job rs0 vs ts h Hs HI V (all_good_any _ _) (False_ind _) Hj Hr)
    (start_warm_same cfg fleet job rs0 vs ts h Hs HI V Hj Hr)) as R.
  apply runs_eq in R as (k & h0 & E & (Ev & RI & Hk & Ej & Ep & Has & _) & SV).
  unfold insertion_optimize. change (ranking_init _ _ _ _ _ _ _ _) with (start cfg fleet job (Some rs0)).
  destruct (ranking_loop_rounds (job ++ ts) (S (length job)) k h0 Hs RI) as (n & k1 & h1 & h' & HR & EL & E1 & _);
    [apply sublist_length in Ep; lia|].
  destruct (rounds_inv (job ++ ts) n k h0 k1 h1 Hs HR RI) as (RI1 & (E01 & _ & K1 & G1) & El).
  exists (current k1), h'. rewrite (bind_ok _ _ _ _ _ E), (bind_ok _ _ _ _ _ EL). split; [done|].
  (* plans *)
  destruct (valid_Plan h vs ts rs0 V (all_good_any _ _)) as (A & PA & _ & _).
  assert (V1 : valid_planning h1 vs (job ++ ts) (current k1)) by (apply ItInv_valid; [apply RI1|by rewrite K1]).
  destruct (valid_Plan h1 vs (job ++ ts) (current k1) V1 (all_good_any _ _)) as (A1 & PA1 & _ & _).
  pose proof (Plan_evolves _ _ _ _ E1 PA1) as PA'.
  assert (Hsub : forall t, t ∈ concat (map snd A) -> t ∈ concat (map snd A1)).
  { intros t Ht. apply (takes_concat _ _ _ _ PA) in Ht as (v & us & Hp & Ht). apply Has in Hp.
    destruct (G1 v us Hp) as (us' & A' & Hsub). apply (takes_concat _ _ _ _ PA1). exists v, us'. split; [|by apply Hsub].
    apply (planned_for_assigned h1 (job ++ ts)); [apply RI1|done]. }
  pose proof PA as (_ & _ & N2). pose proof PA1 as (_ & _ & N12).
  assert (Hmore : forall t, t ∈ concat (map snd A1) -> t ∉ concat (map snd A) -> (length (concat (map snd A)) < length (concat (map snd A1)))%nat).
  { intros t H1 H2. change (length (t :: concat (map snd A)) <= length (concat (map snd A1)))%nat.
    apply submseteq_length, NoDup_submseteq; [by apply NoDup_cons|]. intros u [->|Hu]%elem_of_cons; [done|by apply Hsub]. }
  assert (Hnone : n = 0%nat -> k1 = k /\ h1 = h0) by (intros ->; by inversion HR).
  assert (Hsome : n <> 0%nat -> exists t, t ∈ concat (map snd A1) /\ t ∉ concat (map snd A)).
  { intros Hn. assert (exists t, t ∈ it_pending (rk_it k) /\ t ∉ it_pending (rk_it k1)) as (t & Ht & Ht1).
    { destruct (decide (Exists (fun t => t ∉ it_pending (rk_it k1)) (it_pending (rk_it k)))) as [(t & ? & ?)%Exists_exists|H]; [eauto|].
      exfalso. apply not_Exists_Forall in H; [|apply _]. assert (it_pending (rk_it k) ⊆+ it_pending (rk_it k1)) as S%submseteq_length; [|lia].
      apply NoDup_submseteq; [apply (ii_pending _ _ _ (ri_it _ _ _ RI))|]. intros t Ht. rewrite Forall_forall in H. specialize (H t Ht). by apply dec_stable in H. }
    exists t. split.
    - assert (Hin : t ∈ it_job (rk_it k1)).
      { destruct (rounds_inv (job ++ ts) n k h0 k1 h1 Hs HR RI) as (_ & (_ & -> & _) & _). rewrite Ej.
        eapply elem_of_submseteq; [exact Ht|]. by apply sublist_submseteq. }
      destruct (ii_all _ _ _ (ri_it _ _ _ RI1) t Hin) as [?|(v & B & HA & HB)]; [done|].
      apply (takes_concat _ _ _ _ PA1). exists v, B. split; [|done]. apply (planned_for_assigned h1 (job ++ ts)); [apply RI1|done].
    - intros Hb. apply (takes_concat _ _ _ _ PA) in Hb as (v & us & Hp & Hu). apply Has in Hp.
      by apply (ii_free _ _ _ (ri_it _ _ _ RI) v us t). }
  assert (Heq : n = 0%nat -> forall o x y, total_worth o h rs0 x -> total_worth o h' (current k1) y -> y = x).
  { intros Hn o x y Wx Wy. destruct (Hnone Hn) as [-> ->].
    destruct (Plan_sold o h rs0 A PA) as (z & Z & Wz). destruct (Plan_sold o h' (current k) A1 PA') as (z' & Z' & Wz').
    rewrite (total_worth_det _ _ _ _ _ Wx Wz), (total_worth_det _ _ _ _ _ Wy Wz').
    pose proof (Same_values_sold o _ _ _ _ _ (Same_values_evolves _ _ _ _ _ E1 SV) Z) as Z2. rewrite (Sold_det _ _ _ _ _ Z' Z2).
    destruct o; [|done|done]. do 2 f_equal. apply Permutation_length, NoDup_Permutation; [done|done|]. intros t. split; [|apply Hsub].
    intros Ht. apply (takes_concat _ _ _ _ PA). apply (takes_concat _ _ _ _ PA1) in Ht as (v & us & Hp & Hu). exists v, us. split; [|done].
    apply Has. apply (planned_for_assigned h0 (job ++ ts)); [apply RI|done]. }
  split.
  - intros o x y Wx Wy Hall. destruct (decide (n = 0%nat)) as [Hn|Hn]; [by apply (Heq Hn o)|]. destruct (Hsome Hn) as (t & H1 & H2).
    exfalso. apply H2. apply (takes_concat _ _ _ _ PA), Hall. by apply (takes_concat _ _ _ _ PA').
  - assert (Hlt : forall x y, total_worth DialARide h rs0 x -> total_worth DialARide h' (current k1) y ->
      (length (concat (map snd A)) < length (concat (map snd A1)))%nat -> lex_lt x y).
    { intros x y Wx Wy Hl. destruct (Plan_sold DialARide h rs0 A PA) as (z & Z & Wz). destruct (Plan_sold DialARide h' (current k1) A1 PA') as (z' & Z' & Wz').
      rewrite (total_worth_det _ _ _ _ _ Wx Wz), (total_worth_det _ _ _ _ _ Wy Wz'). apply lex_here. lia. }
    intros x y Wx Wy. split.
    + destruct (decide (n = 0%nat)) as [Hn|Hn]; [left; by apply (Heq Hn DialARide)|right]. destruct (Hsome Hn) as (t & H1 & H2).
      apply Hlt; [done|done|]. by apply (Hmore t).
    + intros (t & H1 & H2). apply Hlt; [done|done|]. apply (Hmore t).
      * by apply (takes_concat _ _ _ _ PA').
      * intros H. apply H2. by apply (takes_concat _ _ _ _ PA).
Qed.
