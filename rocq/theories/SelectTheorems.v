(** Which candidate the ranking iterator picks. *)
From Verif Require Export Values WitnessSelect ValueTheorems StatelessProofs.
#[local] Existing Instance any_shape.

Section select.
  Context {W : World}.
  Context (k : criterion).

  (** candidate [a] does not beat candidate [b] *)
  Definition NB (h : heap) (a b : nat) : Prop :=
    forall x y, Score k h a x -> Score k h b y -> ~ ahead score_ltb (criterion_direction k) x y.
  Definition BT (h : heap) (a b : nat) : Prop :=
    exists x y, Score k h a x /\ Score k h b y /\ ahead score_ltb (criterion_direction k) x y.
  Definition Scored (h : heap) (l : list nat) : Prop := forall r, r ∈ l -> exists x, Score k h r x.

  Lemma ahead_dec d x y : {ahead score_ltb d x y} + {~ ahead score_ltb d x y}.
  Proof. destruct d; cbn; apply bool_dec. Qed.
  Lemma ahead_trans d x y z : ahead score_ltb d x y -> ~ ahead score_ltb d z y -> ahead score_ltb d x z.
  Proof.
    assert (T : forall a b c, score_ltb a b = true -> score_ltb c b = false -> score_ltb a c = true).
    { intros a b c Hab Hcb. destruct (score_ltb a c) eqn:E; [done|].
      pose proof (score_nlt_trans _ _ _ Hcb E). congruence. }
    destruct d; cbn; rewrite ?not_true_iff_false; intros H1 H2.
    - destruct (score_ltb z x) eqn:E; [done|]. pose proof (score_nlt_trans _ _ _ E H2). congruence.
    - by apply (T x y z).
  Qed.
  Lemma nahead_trans d x y z : ~ ahead score_ltb d y x -> ~ ahead score_ltb d z y -> ~ ahead score_ltb d z x.
  Proof. intros H1 H2 H3. apply H2. by apply (ahead_trans d z x y). Qed.
  Lemma ahead_nahead d x y : ahead score_ltb d x y -> ~ ahead score_ltb d y x.
  Proof. destruct d; cbn; intros H; rewrite (score_lt_nlt _ _ H); done. Qed.
  Lemma nahead_refl d x : ~ ahead score_ltb d x x.
  Proof. destruct d; cbn; by rewrite score_ltb_irrefl. Qed.

  Lemma Score_back h h' r x y : mono h h' -> Score k h r x -> Score k h' r y -> y = x.
  Proof. intros M S S'. eapply Score_det; [exact S'|]. by eapply Score_mono. Qed.
  Lemma Scored_mono h h' l : mono h h' -> Scored h l -> Scored h' l.
  Proof. intros M H r Hr. destruct (H r Hr) as [x S]. exists x. by eapply Score_mono. Qed.
  Lemma NB_mono h h' a b : mono h h' -> Scored h [a; b] -> NB h a b <-> NB h' a b.
  Proof.
    intros M H. destruct (H a) as [x Sa]; [left|]. destruct (H b) as [y Sb]; [right; left|]. split; intros N x' y' S1 S2.
    - rewrite (Score_back _ _ _ _ _ M Sa S1), (Score_back _ _ _ _ _ M Sb S2). by apply N.
    - apply N; by eapply Score_mono.
  Qed.
  Lemma NB_refl h a : NB h a a.
  Proof. intros x y S S'. rewrite (Score_det _ _ _ _ _ S S'). apply nahead_refl. Qed.
  Lemma NB_trans h a b c : (exists y, Score k h b y) -> NB h b a -> NB h c b -> NB h c a.
  Proof. intros [y Sb] H1 H2 x z Sc Sa. eapply nahead_trans; [by apply H1|by apply H2]. Qed.
  Lemma BT_NB h a b : BT h a b -> NB h b a.
  Proof.
    intros (x & y & Sa & Sb & H) y' x' Sb' Sa'. rewrite (Score_det _ _ _ _ _ Sa' Sa), (Score_det _ _ _ _ _ Sb' Sb).
    by apply ahead_nahead.
  Qed.
  Lemma BT_dec h a b : Scored h [a; b] -> BT h a b \/ NB h a b.
  Proof.
    intros H. destruct (H a) as [x Sa]; [left|]. destruct (H b) as [y Sb]; [right; left|].
    destruct (ahead_dec (criterion_direction k) x y) as [Hy|Hn]; [left; by exists x, y|right].
    intros x' y' Sa' Sb'. by rewrite (Score_det _ _ _ _ _ Sa' Sa), (Score_det _ _ _ _ _ Sb' Sb).
  Qed.
  Lemma NB_BT h a b : NB h a b -> ~ BT h a b.
  Proof. intros N (x & y & Sa & Sb & H). by apply (N x y). Qed.
  Lemma Score_served h r x : Score k h r x -> served h r.
  Proof. intros (v & ids & L & b & R & _). by exists v, (boards L), ids, L. Qed.
  Lemma Scored_served h l : Scored h l -> forall r, r ∈ l -> served h r.
  Proof. intros H r Hr. destruct (H r Hr) as [x S]. by eapply Score_served. Qed.
  Lemma Scored_sub h l l' : Scored h l -> (forall r, r ∈ l' -> r ∈ l) -> Scored h l'.
  Proof. intros H Hs r Hr. by apply H, Hs. Qed.

  (** [best(c, cur)] is [cur] exactly when [cur] beats [c] *)
  Lemma best_pair_runs h c cur : sane -> Scored h [c; cur] ->
    runs (criterion_best k [c; cur]) h (fun o h' => mono h h' /\
      (BT h cur c -> o = Some cur) /\ (NB h cur c -> o = Some c)).
  Proof.
    intros Hs H. eapply runs_mono; [apply (criterion_best_runs k [c; cur] h Hs)|].
    { by apply Scored_served. }
    intros o h' (M & ks & F & Eo). split; [done|].
    inversion F as [|? x ? ks' Sx F']; subst. inversion F' as [|? y ? ks'' Sy F'']; subst. inversion F''; subst. cbn [zip zip_with].
    assert (D : dir_best score_ltb (criterion_direction k) [(x, c); (y, cur)] =
      Some (if ahead_dec (criterion_direction k) y x then cur else c)).
    { unfold dir_best, max_keyed, min_keyed. destruct (criterion_direction k); cbn; destruct (ahead_dec _ y x) as [Ha|Ha]; cbn in Ha;
        rewrite ?not_true_iff_false in Ha; by rewrite Ha. }
    destruct (H c) as [x0 Sc]; [left|]. destruct (H cur) as [y0 Scur]; [right; left|].
    rewrite (Score_back _ _ _ _ _ M Sc Sx), (Score_back _ _ _ _ _ M Scur Sy) in D. cbn in D |- *.
    rewrite (Score_back _ _ _ _ _ M Sc Sx), (Score_back _ _ _ _ _ M Scur Sy).
    rewrite D. split.
    - intros (y1 & x1 & S1 & S2 & Ha). rewrite (Score_det _ _ _ _ _ S1 Scur), (Score_det _ _ _ _ _ S2 Sc) in Ha.
      by destruct (ahead_dec _ y0 x0).
    - intros N. specialize (N y0 x0 Scur Sc). by destruct (ahead_dec _ y0 x0).
  Qed.

  (** a list in the order of the criterion *)
  Definition InOrder (h : heap) (l : list nat) : Prop :=
    forall i j a b, (i < j)%nat -> l !! i = Some a -> l !! j = Some b -> NB h b a.
  Lemma InOrder_tail h a l : InOrder h (a :: l) -> InOrder h l.
  Proof. intros H i j x y Hij Hi Hj. apply (H (S i) (S j)); [lia|done|done]. Qed.
  Lemma InOrder_head h a l b : InOrder h (a :: l) -> b ∈ l -> NB h b a.
  Proof. intros H Hb. apply elem_of_list_lookup in Hb as [i Hi]. apply (H 0%nat (S i)); [lia|done|done]. Qed.
  Lemma InOrder_mono h h' l : mono h h' -> Scored h l -> InOrder h l -> InOrder h' l.
  Proof.
    intros M Hs H i j a b Hij Hi Hj. apply (NB_mono h h' b a M).
    - eapply Scored_sub; [exact Hs|]. intros r Hr. apply elem_of_cons in Hr as [->|Hr]; [by eapply elem_of_list_lookup_2|].
      apply elem_of_list_singleton in Hr as ->. by eapply elem_of_list_lookup_2.
    - by apply (H i j).
  Qed.
  Lemma InOrder_back h h' l : mono h h' -> Scored h l -> InOrder h' l -> InOrder h l.
  Proof.
    intros M Hs H i j a b Hij Hi Hj. apply (NB_mono h h' b a M).
    - eapply Scored_sub; [exact Hs|]. intros r Hr. apply elem_of_cons in Hr as [->|Hr]; [by eapply elem_of_list_lookup_2|].
      apply elem_of_list_singleton in Hr as ->. by eapply elem_of_list_lookup_2.
    - by apply (H i j).
  Qed.

  (** what the inner loop leaves *)
  Inductive picks (h : heap) (rs : nat) (cands sub : list nat) : list nat -> Prop :=
  | picks_room : (length cands < rs)%nat -> picks h rs cands sub (cands ++ take (rs - length cands) sub)
  | picks_none : length cands = rs -> sub = [] -> picks h rs cands sub cands
  | picks_stop c cur sub' : length cands = rs -> last cands = Some c -> sub = cur :: sub' -> NB h cur c ->
      picks h rs cands sub cands
  | picks_swap c cur sub' : length cands = rs -> last cands = Some c -> sub = cur :: sub' -> BT h cur c ->
      picks h rs cands sub (removelast cands ++ [cur]).

  Lemma loop_stop h rs cands sub c : sane -> Scored h (cands ++ sub) -> length cands = rs -> last cands = Some c ->
    (forall cur, head sub = Some cur -> NB h cur c) ->
    runs (candidates_loop k rs cands sub) h (fun cs h' => mono h h' /\ cs = cands).
  Proof.
    intros Hs HS Hl Hc Hn. destruct sub as [|cur sub]; [apply runs_ret; split; [apply mono_refl|done]|].
    cbn [candidates_loop]. rewrite Hl, Nat.eqb_refl, Hc. step. step.
    eapply runs_mono; [apply (best_pair_runs h c cur Hs)|].
    { eapply Scored_sub; [exact HS|]. intros r Hr. apply elem_of_app. apply elem_of_cons in Hr as [->|Hr].
      - left. by apply last_Some_elem_of.
      - apply elem_of_list_singleton in Hr as ->. right. left. }
    intros o h' (M & _ & H2). rewrite (H2 (Hn cur eq_refl)). apply runs_ret. rewrite bool_decide_eq_true_2 by done.
    by apply runs_ret.
  Qed.
  Lemma loop_picks h rs sub : sane -> (1 <= rs)%nat -> forall cands, (length cands <= rs)%nat -> Scored h (cands ++ sub) -> InOrder h sub ->
    runs (candidates_loop k rs cands sub) h (fun cs h' => mono h h' /\ picks h rs cands sub cs).
  Proof.
    intros Hs Hrs. induction sub as [|cur sub IH]; intros cands Hlen HS Ho.
    { apply runs_ret. split; [apply mono_refl|]. destruct (decide (length cands = rs)) as [E|E].
      - by apply picks_none.
      - pose proof (picks_room h rs cands []) as P. rewrite take_nil, app_nil_r in P. apply P. lia. }
    destruct (decide (length cands = rs)) as [E|E].
    - destruct (last cands) as [c|] eqn:El.
      2:{ apply last_None in El. subst cands. cbn in E. lia. }
      assert (HS2 : Scored h [c; cur]).
      { eapply Scored_sub; [exact HS|]. intros r Hr. apply elem_of_app. apply elem_of_cons in Hr as [->|Hr].
        - left. by apply last_Some_elem_of.
        - apply elem_of_list_singleton in Hr as ->. right. left. }
      destruct (BT_dec h cur c) as [Hb|Hn].
      { eapply Scored_sub; [exact HS2|]. intros r Hr. set_solver. }
      + cbn [candidates_loop]. rewrite E, Nat.eqb_refl, El. step. step.
        eapply runs_mono; [apply (best_pair_runs h c cur Hs HS2)|].
        intros o h1 (M & H1 & _). rewrite (H1 Hb). apply runs_ret.
        assert (Hne : cur <> c). { intros ->. by apply (NB_BT h c c (NB_refl h c)). }
        rewrite bool_decide_eq_false_2 by congruence. rewrite Nat.leb_refl.
        assert (HSw : Scored h ((removelast cands ++ [cur]) ++ sub)).
        { eapply Scored_sub; [exact HS|]. intros r. rewrite !elem_of_app, elem_of_list_singleton, elem_of_cons.
          intros [[Hr|Hr]|Hr]; [left; by apply removelast_elem|tauto|tauto]. }
        eapply runs_mono; [apply (loop_stop h1 rs (removelast cands ++ [cur]) sub cur Hs)|].
        * by eapply Scored_mono.
        * rewrite app_length, removelast_length. cbn. lia.
        * by rewrite last_snoc.
        * intros cur' Hc'. destruct sub as [|cur'' sub]; [done|]. injection Hc' as ->.
          apply (NB_mono h h1 _ _ M).
          -- eapply Scored_sub; [exact HSw|]. intros r Hr. set_solver.
          -- apply (InOrder_head h cur (cur' :: sub)); [done|left].
        * intros cs h2 [M2 ->]. split; [by eapply mono_trans|]. by eapply picks_swap.
      + eapply runs_mono; [apply (loop_stop h rs cands (cur :: sub) c Hs HS E El)|].
        * by intros ? [= <-].
        * intros cs h' [M ->]. split; [done|]. by eapply picks_stop.
    - cbn [candidates_loop]. rewrite (proj2 (Nat.eqb_neq _ _) E). step. apply runs_ret. cbn.
      rewrite (proj2 (Nat.leb_gt _ _)) by lia.
      assert (HS' : Scored h ((cands ++ [cur]) ++ sub)) by by rewrite <- app_assoc.
      destruct (decide (length (cands ++ [cur]) = rs)) as [E'|E'].
      + eapply runs_mono; [apply (loop_stop h rs (cands ++ [cur]) sub cur Hs HS' E')|].
        * by rewrite last_snoc.
        * intros cur' Hc'. destruct sub as [|cur'' sub]; [done|]. injection Hc' as ->.
          apply (InOrder_head h cur (cur' :: sub)); [done|left].
        * intros cs h' [M ->]. split; [done|]. rewrite app_length in E'. cbn in E'.
          pose proof (picks_room h rs cands (cur :: sub)) as P. replace (rs - length cands)%nat with 1%nat in P by lia.
          cbn [take] in P. apply P. lia.
      + rewrite app_length in E'. cbn in E'. eapply runs_mono; [apply (IH (cands ++ [cur]))|].
        * rewrite app_length. cbn. lia.
        * done.
        * by eapply InOrder_tail.
        * intros cs h' [M Hp]. split; [done|].
          assert (Hcs : cs = (cands ++ [cur]) ++ take (rs - length (cands ++ [cur])) sub).
          { destruct Hp as [|HE|? ? ? HE|? ? ? HE]; [done|..]; rewrite app_length in HE; cbn in HE; lia. }
          rewrite Hcs, <- app_assoc, app_length. cbn.
          pose proof (picks_room h rs cands (cur :: sub)) as P.
          replace (rs - length cands)%nat with (S (rs - (length cands + 1)))%nat in P by lia. cbn [take] in P. apply P. lia.
  Qed.

  (** a best element *)
  Definition Top (h : heap) (l : list nat) (x : nat) : Prop := x ∈ l /\ forall y, y ∈ l -> NB h y x.
  Lemma Top_head h x l : InOrder h (x :: l) -> Top h (x :: l) x.
  Proof.
    intros H. split; [left|]. intros y Hy. apply elem_of_cons in Hy as [->|Hy]; [apply NB_refl|].
    by eapply InOrder_head.
  Qed.
  Lemma Top_app h l l' x y : Scored h (l ++ l') -> Top h l x -> Top h l' y -> Top h (l ++ l') x \/ Top h (l ++ l') y.
  Proof.
    intros HS [Hx Tx] [Hy Ty].
    assert (Hxy : Scored h [x; y]).
    { eapply Scored_sub; [exact HS|]. intros r Hr. rewrite elem_of_app. set_solver. }
    destruct (BT_dec h y x) as [B|N].
    { eapply Scored_sub; [exact Hxy|]. intros r Hr. set_solver. }
    - right. split; [apply elem_of_app; by right|]. intros z Hz. apply elem_of_app in Hz as [Hz|Hz]; [|by apply Ty].
      eapply NB_trans; [|by apply BT_NB|by apply Tx]. apply Hxy. left.
    - left. split; [apply elem_of_app; by left|]. intros z Hz. apply elem_of_app in Hz as [Hz|Hz]; [by apply Tx|].
      eapply NB_trans; [|exact N|by apply Ty]. apply Hxy. right; left.
  Qed.
  Lemma Top_widen h l l' x y : Scored h (l ++ l') -> Top h l x -> Top h l' y -> Top h l' y -> (forall z, z ∈ l -> NB h z y) -> Top h (l ++ l') y.
  Proof. intros HS _ [Hy Ty] _ Hz. split; [apply elem_of_app; by right|]. intros z [?|?]%elem_of_app; auto. Qed.

  (** the candidates kept after some sub-rankings [seen] *)
  Record Kept (h : heap) (rs : nat) (seen cands : list nat) : Prop := {
    kp_len : (length cands <= rs)%nat;
    kp_sub : forall r, r ∈ cands -> r ∈ seen;
    kp_order : InOrder h cands;
    kp_top : seen <> [] -> exists x, x ∈ cands /\ Top h seen x
  }.
  Lemma picks_kept h rs seen cands sub cs :
    (1 <= rs)%nat -> Scored h (seen ++ sub) -> Kept h rs seen cands -> InOrder h sub -> picks h rs cands sub cs -> sub <> [] ->
    (length cs <= rs)%nat /\ (forall r, r ∈ cs -> r ∈ seen ++ sub) /\ exists x, x ∈ cs /\ Top h (seen ++ sub) x.
  Proof.
    intros Hrs HS [K1 K2 K3 K4] Ho P Hne.
    destruct sub as [|s0 sub0] eqn:Es; [done|]. rewrite <- Es in *.
    assert (Ts : Top h sub s0) by (rewrite Es; rewrite Es in Ho; by apply Top_head).
    assert (Hseen0 : seen = [] -> cands = []).
    { intros E. destruct cands as [|c cands]; [done|]. specialize (K2 c). rewrite E in K2.
      exfalso. eapply not_elem_of_nil. apply K2. left. }
    destruct P as [Hl|Hl E|c cur sub' Hl Hc E N|c cur sub' Hl Hc E B].
    - split; [rewrite app_length, take_length; lia|]. split.
      { intros r [Hr|Hr]%elem_of_app; apply elem_of_app; [left; by apply K2|right].
        rewrite <- (take_drop (rs - length cands) sub). apply elem_of_app. by left. }
      assert (Hin : s0 ∈ take (rs - length cands) sub).
      { rewrite Es. replace (rs - length cands)%nat with (S (rs - length cands - 1)) by lia. cbn. left. }
      destruct (decide (seen = [])) as [->|Hsn].
      + exists s0. split; [apply elem_of_app; by right|done].
      + destruct (K4 Hsn) as (x & Hx & Tx). destruct (Top_app h seen sub x s0 HS Tx Ts) as [T|T].
        * exists x. split; [apply elem_of_app; by left|done].
        * exists s0. split; [apply elem_of_app; by right|done].
    - by rewrite E in Es.
    - assert (cur = s0) as -> by congruence.
      assert (Hsn : seen <> []). { intros Hsn. rewrite (Hseen0 Hsn) in Hl. cbn in Hl. lia. }
      split; [done|]. split; [intros r Hr; apply elem_of_app; left; by apply K2|].
      destruct (K4 Hsn) as (x & Hx & Tx). exists x. split; [done|]. split; [apply elem_of_app; left; by apply Tx|].
      assert (Hsc : forall r, r ∈ seen ++ sub -> exists y, Score k h r y) by exact HS.
      assert (Hcs : c ∈ seen) by (apply K2; by apply last_Some_elem_of).
      intros z [Hz|Hz]%elem_of_app; [by apply Tx|].
      eapply NB_trans; [|apply Tx, Hcs|].
      { apply Hsc, elem_of_app. by left. }
      eapply NB_trans; [|exact N|by apply Ts]. apply Hsc, elem_of_app. right. apply Ts.
    - assert (cur = s0) as -> by congruence.
      assert (Hsn : seen <> []). { intros Hsn. rewrite (Hseen0 Hsn) in Hl. cbn in Hl. lia. }
      split; [rewrite app_length, removelast_length; cbn; lia|]. split.
      { intros r [Hr|Hr]%elem_of_app; apply elem_of_app; [left; by apply K2, removelast_elem|right].
        apply elem_of_list_singleton in Hr as ->. rewrite Es. left. }
      destruct (K4 Hsn) as (x & Hx & Tx).
      assert (HSx : forall r, r ∈ seen ++ sub -> exists y, Score k h r y) by exact HS.
      assert (Hx' : x ∈ removelast cands \/ NB h x c).
      { assert (Ec : cands = removelast cands ++ [c]).
        { clear -Hc. apply last_Some in Hc as [l ->]. by rewrite removelast_last. }
        rewrite Ec in Hx. apply elem_of_app in Hx as [?|Hx]; [by left|right].
        apply elem_of_list_singleton in Hx as ->. apply NB_refl. }
      destruct (Top_app h seen sub x s0 HS Tx Ts) as [T|T].
      + destruct Hx' as [Hx'|Hn].
        * exists x. split; [apply elem_of_app; by left|done].
        * exists s0. split; [apply elem_of_app; right; left|]. split; [apply elem_of_app; right; apply Ts|].
          intros z Hz. eapply NB_trans; [|exact (BT_NB _ _ _ B)|].
          { apply HSx, elem_of_app. left. apply K2. by apply last_Some_elem_of. }
          eapply NB_trans; [|exact Hn|by apply T]. apply HSx, elem_of_app. left. by apply K2.
      + exists s0. split; [apply elem_of_app; right; left|done].
  Qed.
  Lemma sorted_order_runs h l : sane -> Scored h l ->
    runs (criterion_sorted k l) h (fun l' h' => mono h h' /\ l' ≡ₚ l /\ InOrder h l').
  Proof.
    intros Hs HS. destruct (c24_sorted k h l Hs) as (l' & h' & E & _ & _ & Hp & Hord & _).
    { intros r Hr. apply a_tour_served. by apply (Scored_served h l). }
    pose proof (criterion_sorted_runs k l h Hs (Scored_served h l HS)) as H. unfold runs in H |- *. rewrite E in *.
    destruct H as (M & _). split; [done|]. split; [done|]. eapply InOrder_back; [exact M| |].
    - eapply Scored_sub; [exact HS|]. intros r. by rewrite Hp.
    - intros i j a b Hij Hi Hj y x Sb Sa. rewrite <- beats_ahead. apply (Hord i j a b); try done; by apply scored_Score.
  Qed.
  Lemma sub_kept h rs seen cands sub : sane -> (1 <= rs)%nat -> Scored h (seen ++ sub) -> Kept h rs seen cands -> InOrder h sub -> sub <> [] ->
    runs (let! cs := candidates_loop k rs cands sub in criterion_sorted k cs) h
      (fun cs h' => mono h h' /\ Kept h rs (seen ++ sub) cs /\ exists cs0, cs ≡ₚ cs0 /\ picks h rs cands sub cs0).
  Proof.
    intros Hs Hrs HS Kp Ho Hne. step. eapply runs_mono; [apply (loop_picks h rs sub Hs Hrs cands); [apply Kp| |done]|].
    { eapply Scored_sub; [exact HS|]. intros r [Hr|Hr]%elem_of_app; apply elem_of_app; [left; by apply Kp|by right]. }
    intros cs h1 [M P]. destruct (picks_kept h rs seen cands sub cs Hrs HS Kp Ho P Hne) as (Hl & Hsub & x & Hx & T).
    assert (HSc : Scored h cs) by by eapply Scored_sub.
    eapply runs_mono; [apply (sorted_order_runs h1 cs Hs); by eapply Scored_mono|].
    intros cs' h2 (M2 & Hp & Hord). split; [by eapply mono_trans|]. split; [|by exists cs]. split.
    - by rewrite Hp.
    - intros r. rewrite Hp. apply Hsub.
    - eapply InOrder_back; [exact M| |done]. eapply Scored_sub; [exact HSc|]. intros r. by rewrite Hp.
    - intros _. exists x. split; [by rewrite Hp|done].
  Qed.
  Lemma Kept_mono h h' rs seen cands : mono h h' -> Scored h seen -> Kept h rs seen cands -> Kept h' rs seen cands.
  Proof.
    intros M HS [K1 K2 K3 K4]. split; [done|done| |].
    - eapply InOrder_mono; [done| |done]. by eapply Scored_sub.
    - intros Hn. destruct (K4 Hn) as (x & Hx & [Hxs T]). exists x. split; [done|]. split; [done|].
      intros y Hy. apply (NB_mono h h' y x M); [|by apply T]. eapply Scored_sub; [exact HS|]. intros r Hr. set_solver.
  Qed.
  Lemma Kept_back h h' rs seen cands : mono h h' -> Scored h seen -> Kept h' rs seen cands -> Kept h rs seen cands.
  Proof.
    intros M HS [K1 K2 K3 K4]. split; [done|done| |].
    - eapply InOrder_back; [done| |done]. by eapply Scored_sub.
    - intros Hn. destruct (K4 Hn) as (x & Hx & [Hxs T]). exists x. split; [done|]. split; [done|].
      intros y Hy. apply (NB_mono h h' y x M); [|by apply T]. eapply Scored_sub; [exact HS|]. intros r Hr. set_solver.
  Qed.
  Lemma subs_kept rs subs : sane -> (1 <= rs)%nat -> forall h seen cands,
    Scored h (seen ++ concat subs) -> Kept h rs seen cands -> (forall sub, sub ∈ subs -> InOrder h sub) ->
    runs (foldM (fun cands sub =>
            match sub with
            | [] => ret cands
            | _ => let! cs := candidates_loop k rs cands sub in criterion_sorted k cs
            end) cands subs) h
      (fun cs h' => mono h h' /\ Kept h rs (seen ++ concat subs) cs).
  Proof.
    intros Hs Hrs. induction subs as [|sub subs IH]; intros h seen cands HS Kp Ho.
    { apply runs_ret. cbn. rewrite app_nil_r. split; [apply mono_refl|done]. }
    cbn [foldM concat] in *. step.
    eapply (runs_mono _ _ (fun cs h' => mono h h' /\ Kept h rs (seen ++ sub) cs)).
    { destruct sub as [|s0 sub].
      - apply runs_ret. rewrite app_nil_r. split; [apply mono_refl|done].
      - eapply runs_mono; [apply (sub_kept h rs seen cands (s0 :: sub) Hs Hrs)|].
        + eapply Scored_sub; [exact HS|]. intros r. rewrite !elem_of_app. tauto.
        + done.
        + apply Ho. left.
        + done.
        + intros cs h' (M & K & _). done. }
    intros cs h1 [M K1]. rewrite app_assoc in HS.
    eapply runs_mono; [apply (IH h1 (seen ++ sub) cs)|].
    - by eapply Scored_mono.
    - eapply Kept_mono; [done| |done]. eapply Scored_sub; [exact HS|]. intros r. rewrite !elem_of_app. tauto.
    - intros sub' Hs'. eapply InOrder_mono; [done| |apply Ho; by right].
      eapply Scored_sub; [exact HS|]. intros r Hr. apply elem_of_app. right. apply elem_of_concat. by exists sub'.
    - intros cs' h2 [M2 K2]. rewrite app_assoc. split; [by eapply mono_trans|]. by eapply Kept_back.
  Qed.
End select.

Lemma order_InOrder `{W : World} k h l : (forall i j a b x y, (i < j)%nat -> l !! i = Some a -> l !! j = Some b ->
  scored k h a x -> scored k h b y -> ~ beats k y x) <-> InOrder k h l.
Proof.
  split.
  - intros H i j a b Hij Hi Hj y x Sb Sa. rewrite <- beats_ahead. apply (H i j a b); try done; by apply scored_Score.
  - intros H i j a b x y Hij Hi Hj Sa Sb. rewrite beats_ahead. apply (H i j a b); try done; by apply scored_Score.
Qed.
Section ranked.
  Context {W : World}.
  Lemma candidate_concat k r : candidate k r <-> r ∈ concat (map snd (rk_table k)).
  Proof.
    rewrite elem_of_concat. split.
    - intros (v & sub & Hin & Hr). exists sub. split; [done|]. by apply (elem_of_list_fmap_1 snd _ (v, sub)).
    - intros (sub & Hr & Hin). apply elem_of_list_fmap in Hin as ([v sub'] & -> & Hin). by exists v, sub'.
  Qed.
  Lemma ranked_scored k h : ranked k h -> Scored (chosen_by k) h (concat (map snd (rk_table k))).
  Proof. intros [H _] r Hr. apply candidate_concat in Hr. destruct (H r Hr) as [x S]. exists x. by apply scored_Score. Qed.
  Lemma ranked_order k h sub : ranked k h -> sub ∈ map snd (rk_table k) -> InOrder (chosen_by k) h sub.
  Proof.
    intros [_ H] Hin. apply elem_of_list_fmap in Hin as ([v sub'] & -> & Hin). apply order_InOrder. by apply (H v).
  Qed.
  Lemma Top_unbeaten k h r : Top (chosen_by k) h (concat (map snd (rk_table k))) r -> unbeaten k h r.
  Proof.
    intros [Hr T]. split; [by apply candidate_concat|]. intros r' x x' Hr' S S'. rewrite beats_ahead.
    apply candidate_concat in Hr'. apply (T r' Hr'); by apply scored_Score.
  Qed.
  (** the candidates that remain when all sub-rankings have been visited *)
  Lemma kept_runs k h : sane -> (1 <= rk_random k)%nat -> ranked k h ->
    exists cs h1, mono h h1 /\ Kept (chosen_by k) h (rk_random k) (concat (map snd (rk_table k))) cs /\
      ranking_next k h = match cs with
        | [] => (Ok None, h1)
        | _ => (let! n := tick in let! b := py_nth cs (w_choice n (length cs)) in ret (Some b)) h1
        end.
  Proof.
    intros Hs Hr Hk. unfold ranking_next. destruct (rk_table k) as [|e tb] eqn:Et.
    { exists [], h. split; [apply mono_refl|]. split; [|done]. split; try done. cbn. lia. }
    rewrite <- Et.
    pose proof (subs_kept (chosen_by k) (rk_random k) (map snd (rk_table k)) Hs Hr h [] []) as R.
    apply runs_eq in R as (cs & h1 & E & M & K).
    - cbn [app] in K. exists cs, h1. split; [done|]. split; [done|]. unfold chosen_by in E. rewrite (bind_ok _ _ _ _ _ E). by destruct cs.
    - cbn [app]. by apply ranked_scored.
    - split; try done. cbn. lia.
    - intros sub Hin. by apply ranked_order.
  Qed.
  Lemma Kept_nil k h rs seen : Kept k h rs seen [] -> seen = [].
  Proof.
    intros [_ _ _ K4]. destruct seen as [|r seen]; [done|]. destruct K4 as (x & Hx & _); [done|]. by apply elem_of_nil in Hx.
  Qed.
  Lemma drawn_runs (cs : list nat) h1 : cs <> [] ->
    exists r, cs !! w_choice (h_tick h1) (length cs) = Some r /\
      (let! n := tick in let! b := py_nth cs (w_choice n (length cs)) in ret (Some b)) h1
        = (Ok (Some r), MkHeap (h_stops h1) (h_pts h1) (h_routes h1) (S (h_tick h1))).
  Proof.
    intros Hne. destruct (lookup_lt_is_Some_2 cs (w_choice (h_tick h1) (length cs))) as [r Hr].
    { apply w_choice_lt. destruct cs; [done|cbn; lia]. }
    exists r. split; [done|]. unfold bind at 1, tick. cbn. unfold bind, py_nth. by rewrite Hr.
  Qed.
  Lemma kept_tick h h1 : mono h h1 -> routes_kept h (MkHeap (h_stops h1) (h_pts h1) (h_routes h1) (S (h_tick h1))).
  Proof. intros M. apply mono_kept. eapply mono_trans; [exact M|]. apply mono_tick. Qed.
  Lemma no_candidate k : concat (map snd (rk_table k)) = [] -> forall r, ~ candidate k r.
  Proof. intros E r Hr. apply candidate_concat in Hr. rewrite E in Hr. by apply elem_of_nil in Hr. Qed.
End ranked.

Lemma c22_best `{W : World} : forall k h, sane -> rk_random k = 1%nat -> ranked k h ->
  exists o h', ranking_next k h = (Ok o, h') /\ routes_kept h h' /\
    match o with Some r => unbeaten k h r | None => forall r, ~ candidate k r end.
Proof.
  intros k h Hs H1 Hk. destruct (kept_runs k h Hs) as (cs & h1 & M & K & E); [lia|done|]. rewrite E.
  destruct cs as [|c cs]; [exists None, h1; split; [done|]; split; [by apply mono_kept|apply no_candidate; by eapply Kept_nil]|].
  destruct (drawn_runs (c :: cs) h1) as (r & Hr & ->); [done|]. exists (Some r). eexists. split; [done|]. split; [by apply kept_tick|].
  destruct K as [K1 K2 K3 K4]. rewrite H1 in K1. destruct cs; [|cbn in K1; lia].
  assert (r = c) as ->. { apply elem_of_list_lookup_2 in Hr. by apply elem_of_list_singleton in Hr. }
  apply Top_unbeaten. destruct K4 as (x & Hx & T).
  - intros E0. specialize (K2 c ltac:(left)). rewrite E0 in K2. by apply elem_of_nil in K2.
  - by apply elem_of_list_singleton in Hx as ->.
Qed.

(** any [randomized_size], when the draw takes the first position *)
Lemma c23_first `{W : World} : forall k h, sane -> (1 <= rk_random k)%nat -> ranked k h -> (forall n m, w_choice n m = 0%nat) ->
  exists o h', ranking_next k h = (Ok o, h') /\ routes_kept h h' /\
    match o with Some r => unbeaten k h r | None => forall r, ~ candidate k r end.
Proof.
  intros k h Hs H1 Hk Hw. destruct (kept_runs k h Hs H1 Hk) as (cs & h1 & M & K & E). rewrite E.
  destruct cs as [|c cs]; [exists None, h1; split; [done|]; split; [by apply mono_kept|apply no_candidate; by eapply Kept_nil]|].
  destruct (drawn_runs (c :: cs) h1) as (r & Hr & ->); [done|]. exists (Some r). eexists. split; [done|]. split; [by apply kept_tick|].
  rewrite Hw in Hr. injection Hr as <-. destruct K as [K1 K2 K3 K4]. apply Top_unbeaten.
  destruct K4 as (x & Hx & [Hxs T]).
  - intros E0. specialize (K2 c ltac:(left)). rewrite E0 in K2. by apply elem_of_nil in K2.
  - split; [apply K2; left|]. intros y Hy. apply elem_of_cons in Hx as [->|Hx]; [by apply T|].
    eapply (NB_trans _ h c x y); [|by eapply InOrder_head|by apply T].
    by apply (ranked_scored k h Hk).
Qed.

(** any [randomized_size]: the pick, and the number of candidates it is drawn from *)
Lemma c23_single `{W : World} : forall k h v sub, sane -> (1 <= rk_random k)%nat -> ranked k h -> rk_table k = [(v, sub)] -> sub <> [] ->
  exists i r h', ranking_next k h = (Ok (Some r), h') /\ routes_kept h h' /\ (i < rk_random k)%nat /\ sub !! i = Some r.
Proof.
  intros k h v sub Hs H1 Hk Et Hne. unfold ranking_next. rewrite Et. cbn [map snd foldM].
  assert (HS : Scored (chosen_by k) h sub).
  { pose proof (ranked_scored k h Hk) as H. rewrite Et in H. cbn in H. by rewrite app_nil_r in H. }
  assert (Ho : InOrder (chosen_by k) h sub) by (apply (ranked_order k h); [done|rewrite Et; left]).
  pose proof (sub_kept (chosen_by k) h (rk_random k) [] [] sub Hs H1 HS) as R.
  apply runs_eq in R as (cs & h1 & E & M & K & cs0 & Hp & P); [|split; try done; cbn; lia|done|done].
  assert (Ecs : cs0 = take (rk_random k) sub).
  { destruct P as [Hl|Hl|? ? ? Hl|? ? ? Hl]; cbn in Hl; [|lia..]. cbn. by rewrite Nat.sub_0_r. }
  subst cs0. destruct sub as [|s0 sub]; [done|]. unfold chosen_by in E.
  assert (Hcs : cs <> []).
  { intros ->. symmetry in Hp. apply Permutation_nil_r in Hp. destruct (rk_random k); [lia|done]. }
  destruct (drawn_runs cs h1 Hcs) as (r & Hr & Er).
  apply elem_of_list_lookup_2 in Hr. rewrite Hp in Hr. apply elem_of_list_lookup in Hr as [i Hi].
  apply lookup_take_Some in Hi as [Hi Hlt].
  exists i, r. eexists. split; [|split; [by apply kept_tick|done]].
  match goal with |- bind (bind ?m ?f) ?g h = _ => assert (Eb : bind m f h = (Ok cs, h1)) end.
  { rewrite (bind_ok _ _ _ _ _ E). done. }
  rewrite (bind_ok _ _ _ _ _ Eb). destruct cs; [done|exact Er].
Qed.

Section drawn.
  #[local] Existing Instance drawn.
  Lemma drawn_scored r : r ∈ [4; 5; 1; 2]%nat -> scored EarliestLastDeparture drawn_town r (SFin (drawn_score r)).
  Proof.
    intros Hr. exists (if (r <? 3)%nat then 0%nat else 1%nat), (drawn_stops r), (drawn_visits r), true.
    repeat (apply elem_of_cons in Hr as [->|Hr];
      [split; [apply on_tourb_sound; vm_compute; reflexivity|];
       split; [eexists; split; [vm_compute; reflexivity|reflexivity]|vm_compute; reflexivity]|]).
    by apply elem_of_nil in Hr.
  Qed.
  Lemma drawn_candidate n r : candidate (drawn_ranking n) r <-> r ∈ [4; 5; 1; 2]%nat.
  Proof. rewrite candidate_concat. done. Qed.
  Lemma drawn_ranked n : ranked (drawn_ranking n) drawn_town.
  Proof.
    split.
    - intros r Hr. eexists. apply drawn_scored. by apply (drawn_candidate n).
    - assert (H : forall a b, a ∈ [4; 5; 1; 2]%nat -> b ∈ [4; 5; 1; 2]%nat -> Qle_bool (drawn_score a) (drawn_score b) = true ->
        best_first EarliestLastDeparture drawn_town [a; b]).
      { intros a b Ha Hb Hq i j a' b' x y Hij Hi Hj Sa Sb.
        destruct i as [|i]; [|destruct j as [|[|j]]; [lia|lia|done]].
        destruct j as [|[|j]]; [lia| |done]. injection Hi as <-. injection Hj as <-.
        apply scored_Score in Sa, Sb. pose proof (drawn_scored a Ha) as Da. pose proof (drawn_scored b Hb) as Db.
        apply scored_Score in Da, Db. rewrite (Score_det _ _ _ _ _ Sa Da), (Score_det _ _ _ _ _ Sb Db).
        intros B. inversion B as [| |? ? Hlt|]; subst. apply Qle_bool_iff in Hq. by apply (Qlt_not_le _ _ Hlt). }
      intros v sub Hin. repeat (apply elem_of_cons in Hin as [[= -> ->]|Hin]; [apply H; [set_solver|set_solver|reflexivity]|]).
      by apply elem_of_nil in Hin.
  Qed.
End drawn.

Lemma c23_refuted : exists (W : World) k h r h' r1 r2 x x1 x2,
  sane /\ rk_random k = 2%nat /\ ranked k h /\ ranking_next k h = (Ok (Some r), h') /\
  candidate k r1 /\ candidate k r2 /\ r1 <> r2 /\
  scored (chosen_by k) h r x /\ scored (chosen_by k) h r1 x1 /\ scored (chosen_by k) h r2 x2 /\
  beats (chosen_by k) x1 x /\ beats (chosen_by k) x2 x.
Proof.
  exists drawn, (drawn_ranking 2), drawn_town, 4%nat. eexists. exists 1%nat, 2%nat. do 3 eexists.
  split; [apply drawn_sane|]. split; [done|]. split; [apply drawn_ranked|]. split; [vm_compute; reflexivity|].
  split; [apply drawn_candidate; set_solver|]. split; [apply drawn_candidate; set_solver|]. split; [done|].
  split; [apply drawn_scored; set_solver|]. split; [apply drawn_scored; set_solver|]. split; [apply drawn_scored; set_solver|].
  split; apply lt_fin; reflexivity.
Qed.
