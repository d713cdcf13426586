(** C31-C33: iterative, sequential and GRASP. *)
From Verif Require Export Searches LocalTheorems.

(** ** C31 *)
Section iterative.
  Context {W : World} (o : objective) (alg : algorithm) (restart : bool) (init : option planning).

  Lemma leads_kept h h' l b : routes_kept h h' -> (forall pl, pl ∈ l -> well_planned h pl) -> leads o h l b -> leads o h' l b.
  Proof.
    intros K Hw (i & x & Hi & Wx & H1 & H2). exists i, x. split; [done|]. split; [by eapply total_worth_kept|].
    assert (Hb : forall q y, q ∈ l -> total_worth o h' q y -> total_worth o h q y).
    { intros q y Hq Wy. destruct (well_planned_worth o h q (Hw q Hq)) as [z Wz].
      rewrite (total_worth_det _ _ _ _ _ Wy (total_worth_kept _ _ _ _ _ K Wz)). done. }
    split.
    - intros j q y Hj Hq Wy. apply (H1 j q y Hj Hq), Hb; [by eapply elem_of_list_lookup_2|done].
    - intros j q y Hq Wy. apply (H2 j q y Hq), Hb; [by eapply elem_of_list_lookup_2|done].
  Qed.
  Lemma well_planned_kept h h' pl : routes_kept h h' -> well_planned h pl -> well_planned h' pl.
  Proof. intros [_ K] H r Hr. destruct (H r Hr) as (v & ids & xs & R). exists v, ids, xs. by apply K. Qed.
  Lemma leads_first h pl : well_planned h pl -> leads o h [pl] pl.
  Proof.
    intros H. destruct (well_planned_worth o h pl H) as [x Wx]. exists 0%nat, x. split; [done|]. split; [done|].
    split; [lia|]. intros [|j] q y Hq Wy; [|done]. injection Hq as <-. left. by eapply total_worth_det.
  Qed.
  Lemma not_lex_at_least x y : length x = length y -> ~ lex_lt x y -> at_least y x.
  Proof.
    revert y. induction x as [|a x IH]; intros [|b y] Hl Hn; try done; [by left|].
    destruct (Z.lt_trichotomy a b) as [?|[->|?]].
    - exfalso. apply Hn. by apply lex_here.
    - destruct (IH y) as [->|?]; [by injection Hl|intros ?; apply Hn; by apply lex_later|by left|right; by apply lex_later].
    - right. by apply lex_here.
  Qed.
  Lemma at_least_trans x y z : at_least x y -> at_least y z -> at_least x z.
  Proof. intros [->|H1] [->|H2]; [by left|by right|by right|right; by eapply lex_trans]. Qed.
  Lemma leads_next h l b pl w h' : (forall q, q ∈ l -> well_planned h q) -> well_planned h b -> well_planned h pl -> leads o h l b ->
    objective_best o [b; pl] h = (Ok w, h') ->
    only_memoised h h' /\ leads o h' (l ++ [pl]) (match w with Some 1%nat => pl | _ => b end).
  Proof.
    intros Hl Hb Hp Hlead E.
    destruct (objective_best_eq o h [b; pl]) as (w' & h1 & E1 & Q & Hw).
    { intros q [->|[->|H]%elem_of_cons]%elem_of_cons; [done|done|inversion H]. }
    rewrite E in E1. injection E1 as <- <-. split; [by apply quiet_memoised|].
    assert (K : routes_kept h h') by (apply soft_kept, Q).
    apply (leads_kept h h'); [done| |].
    { intros q [Hq|Hq]%elem_of_app; [by apply Hl|]. by apply elem_of_list_singleton in Hq as ->. }
    destruct Hlead as (i & x & Hi & Wx & H1 & H2). destruct (well_planned_worth o h pl Hp) as [y Wy].
    pose proof (lookup_lt_Some _ _ _ Hi) as Hlt.
    assert (Hlook : forall j q, (l ++ [pl]) !! j = Some q -> l !! j = Some q \/ j = length l /\ q = pl).
    { intros j q Hq. destruct (decide (j < length l)%nat); [left; by rewrite lookup_app_l in Hq|].
      rewrite lookup_app_r in Hq by lia. destruct (j - length l)%nat eqn:Ej; [|done]. injection Hq as <-. right. split; [lia|done]. }
    assert (Hcase : w = Some 1%nat \/ w = Some 0%nat).
    { destruct w as [[|[|k]]|]; [by right|by left| |done]. destruct Hw as (q & ? & Hq & _). done. }
    destruct Hcase as [->| ->].
    - destruct Hw as (q & y' & [= <-] & Wy' & B & _). assert (y' = y) as -> by by eapply total_worth_det.
      assert (Hxy : lex_lt x y) by (apply (B 0%nat b x); [lia|done|done]).
      exists (length l), y. split; [by rewrite list_lookup_middle|]. split; [done|]. split.
      + intros j q z Hj Hq Wz. rewrite lookup_app_l in Hq by done. destruct (H2 j q z Hq Wz) as [->|?]; [done|by eapply lex_trans].
      + intros j q z Hq Wz. destruct (Hlook j q Hq) as [Hq'|[-> ->]].
        * eapply at_least_trans; [by eapply H2|by right].
        * left. by eapply total_worth_det.
    - destruct Hw as (q & x' & [= <-] & Wx' & _ & B). assert (x' = x) as -> by by eapply total_worth_det.
      exists i, x. split; [by rewrite lookup_app_l|]. split; [done|]. split.
      + intros j q z Hj Hq Wz. rewrite lookup_app_l in Hq by lia. by eapply H1.
      + intros j q z Hq Wz. destruct (Hlook j q Hq) as [Hq'|[-> ->]]; [by eapply H2|].
        assert (z = y) as -> by by eapply total_worth_det. apply not_lex_at_least.
        * rewrite (total_worth_length _ _ _ _ Wx), (total_worth_length _ _ _ _ Wy). done.
        * by apply (B 1%nat pl y); [lia| |].
  Qed.

  Context (I : heap -> Prop) (G : heap -> planning -> Prop) (St : steady o alg init I G).
  Definition Ep (h0 : heap) (l : list planning) (best : option planning) (h : heap) : Prop :=
    episodes o alg restart init h0 l h /\ I h /\ (forall pl, pl ∈ l -> G h pl) /\
    match best with None => l = [] | Some b => b ∈ l /\ leads o h l b end.
  Lemma iterative_loop_spec h0 n : forall l best h, Ep h0 l best h ->
    match iterative_loop o alg restart init n best h with
    | (Ok best', h') => exists l', length l' = (length l + n)%nat /\ Ep h0 l' best' h'
    | (Raise e, h') => exists l' h1 start, (length l <= length l' < length l + n)%nat /\ episodes o alg restart init h0 l' h1 /\
        begins o restart init h1 l' start /\ optimize o (alg start) h1 = (Raise e, h')
    end.
  Proof.
    induction n as [|n IH]; intros l best h HE; cbn [iterative_loop].
    { cbn. exists l. split; [lia|done]. }
    destruct HE as (HE & HI & Hl & Hb). set (start := match best with Some b => if restart then init else Some b | None => init end).
    assert (Hbeg : begins o restart init h l start).
    { unfold begins, start. destruct best as [b|]; [|left; auto]. destruct restart; [left; auto|]. right. split; [done|]. exists b. by destruct Hb. }
    assert (Hst : start = init \/ (exists b, start = Some b /\ G h b)).
    { unfold start. destruct best as [b|]; [|by left]. destruct restart; [by left|]. right. exists b. split; [done|]. apply Hl, Hb. }
    unfold bind at 1. destruct (optimize o (alg start) h) as [[pl|e] h1] eqn:E.
    2:{ exists l, h, start. split; [lia|]. done. }
    destruct (sd_episode _ _ _ _ _ St h start pl h1 HI Hst E) as (HI1 & Hp & K & GK).
    assert (Gl1 : forall q, q ∈ l -> G h1 q) by (intros q Hq; by apply GK, Hl).
    assert (WP : forall q, G h1 q -> well_planned h1 q) by (intros q Hq; by eapply sd_planned).
    assert (Hl1 : forall q, q ∈ l -> well_planned h1 q) by (intros q Hq; by apply WP, Gl1).
    assert (HW : forall q h', (forall b, G h1 b -> G h' b) -> q ∈ l ++ [pl] -> G h' q).
    { intros q h' K' [Hq|Hq]%elem_of_app; apply K'; [by apply Gl1|].
      by apply elem_of_list_singleton in Hq as ->. }
    assert (Hstep : exists b' h2, (match best with
        | None => let! _ := objective_best o [pl] in ret (Some pl)
        | Some b => let! w := objective_best o [b; pl] in ret (Some (match w with Some 1%nat => pl | _ => b end))
        end) h1 = (Ok (Some b'), h2) /\ Ep h0 (l ++ [pl]) (Some b') h2).
    { destruct best as [b|].
      - destruct Hb as [Hbl Hlead].
        destruct (objective_best_eq o h1 [b; pl]) as (w & h2 & E2 & Q & Hw).
        { intros q [->|[->|H]%elem_of_cons]%elem_of_cons; [by apply Hl1|by apply WP|inversion H]. }
        exists (match w with Some 1%nat => pl | _ => b end), h2. rewrite (bind_ok _ _ _ _ _ E2). split; [done|].
        assert (Hlead1 : leads o h1 l b).
        { eapply leads_kept; [exact K| |done]. intros q Hq. by eapply sd_planned; [|exact HI|apply Hl]. }
        destruct (leads_next h1 l b pl w h2 Hl1 (Hl1 b Hbl) (WP pl Hp) Hlead1 E2) as [Om Hl2].
        destruct (sd_compare _ _ _ _ _ St h1 [b; pl] w h2 HI1) as [HI2 G2]; [|done|].
        { intros q [->|[->|H]%elem_of_cons]%elem_of_cons; [by apply Gl1|done|inversion H]. }
        split; [by eapply next_episode|]. split; [done|]. split; [intros q Hq; by apply HW|].
        split; [|done]. destruct w as [[|[|k]]|]; apply elem_of_app; [by left|right; left|by left|by left].
      - subst l. destruct (objective_best_eq o h1 [pl]) as (w & h2 & E2 & Q & Hw).
        { intros q ->%elem_of_list_singleton. by apply WP. }
        exists pl, h2. rewrite (bind_ok _ _ _ _ _ E2). split; [done|]. apply quiet_memoised in Q as Om.
        destruct (sd_compare _ _ _ _ _ St h1 [pl] w h2 HI1) as [HI2 G2]; [|done|].
        { by intros q ->%elem_of_list_singleton. }
        split; [by eapply (next_episode _ _ _ _ _ [])|]. split; [done|]. split; [intros q Hq; by apply HW|].
        split; [left|]. apply leads_first. eapply well_planned_kept; [apply Om|by apply WP]. }
    destruct Hstep as (b' & h2 & Es & HE2). rewrite (bind_ok _ _ _ _ _ Es).
    specialize (IH (l ++ [pl]) (Some b') h2 HE2). destruct (iterative_loop _ _ _ _ _ _ _) as [[best'|e] h'].
    - destruct IH as (l' & Hlen & HE'). exists l'. split; [|done]. rewrite app_length in Hlen. cbn in Hlen. lia.
    - destruct IH as (l' & h3 & s & Hlen & R). exists l', h3, s. split; [|done]. rewrite app_length in Hlen. cbn in Hlen. lia.
  Qed.
End iterative.

Lemma c31_best `{W : World} : forall o alg restart n init (I : heap -> Prop) G h b h',
  I h -> steady o alg init I G ->
  iterative_optimize o alg restart n init h = (Ok b, h') ->
  exists l, length l = n /\ episodes o alg restart init h l h' /\ leads o h' l b.
Proof.
  intros o alg restart n init I G h b h' HI St E. unfold iterative_optimize, bind in E.
  pose proof (iterative_loop_spec o alg restart init I G St h n [] None h) as L.
  destruct (iterative_loop _ _ _ _ _ _ _) as [[best|e] h1]; [|done].
  destruct L as (l & Hlen & HE & _ & _ & Hb).
  { split; [constructor|]. split; [done|]. split; [|done]. intros ? H; inversion H. }
  destruct best as [b'|]; [|done]. injection E as <- <-. exists l. split; [done|]. split; [done|]. apply Hb.
Qed.
Lemma c31_fails `{W : World} : forall o alg restart n init (I : heap -> Prop) G h e h',
  I h -> steady o alg init I G ->
  iterative_optimize o alg restart n init h = (Raise e, h') ->
  (n = 0%nat /\ e = AssertionError /\ h' = h) \/
  exists l h1 start, (length l < n)%nat /\ episodes o alg restart init h l h1 /\ begins o restart init h1 l start /\
    optimize o (alg start) h1 = (Raise e, h').
Proof.
  intros o alg restart n init I G h e h' HI St E. unfold iterative_optimize, bind in E.
  pose proof (iterative_loop_spec o alg restart init I G St h n [] None h) as L.
  destruct (iterative_loop _ _ _ _ _ _ _) as [[best|e1] h1] eqn:El.
  - destruct L as (l & Hlen & HE & _ & _ & Hb).
    { split; [constructor|]. split; [done|]. split; [|done]. intros ? H; inversion H. }
    destruct best as [b'|]; [done|]. subst l. cbn in Hlen. subst n. left. cbn in El. injection El as <-. by injection E as <- <-.
  - injection E as <- <-. right. destruct L as (l & h2 & start & Hlen & R).
    { split; [constructor|]. split; [done|]. split; [|done]. intros ? H; inversion H. }
    exists l, h2, start. split; [cbn in Hlen; lia|done].
Qed.
Lemma c31_none `{W : World} : forall o alg restart init h,
  iterative_optimize o alg restart 0 init h = (Raise AssertionError, h).
Proof. done. Qed.

(** ** C32 *)
Lemma sequential_trail `{W : World} o algs : forall init h,
  match sequential_loop o algs init h with
  | (Ok c, h') => exists ps hs, trail o algs init h ps hs /\ length ps = length algs /\ last hs = Some h' /\
      c = given init ps (length algs)
  | (Raise e, h') => exists ps hs a hk, trail o algs init h ps hs /\ algs !! length ps = Some a /\ last hs = Some hk /\
      optimize o (a (given init ps (length ps))) hk = (Raise e, h')
  end.
Proof.
  induction algs as [|a algs IH]; intros init h; cbn [sequential_loop].
  { cbn. exists [], [h]. split; [split; [done|done|done|]|done]. intros i ? ? ? ? H; done. }
  unfold bind. destruct (optimize o (a init) h) as [[pl|e] h1] eqn:E.
  2:{ exists [], [h], a, h. split; [split; [cbn; lia|done|done|]|]; [|done]. intros i ? ? ? ? _ H; done. }
  assert (Hcons : forall ps hs, trail o algs (Some pl) h1 ps hs -> trail o (a :: algs) init h (pl :: ps) (h :: hs)).
  { intros ps hs [T1 T2 T3 T4]. split; [cbn; lia|cbn; lia|done|]. intros [|i] b p k1 k2 Hb Hp H1 H2; cbn in Hb, Hp, H1, H2.
    - injection Hb as <-. injection Hp as <-. injection H1 as <-. change (hs !! 0%nat = Some k2) in H2. rewrite T3 in H2. by injection H2 as <-.
    - specialize (T4 i b p k1 k2 Hb Hp H1 H2). by destruct i. }
  specialize (IH (Some pl) h1). destruct (sequential_loop o algs (Some pl) h1) as [[c|e] h'].
  - destruct IH as (ps & hs & T & Hl & Hh & Ec). exists (pl :: ps), (h :: hs). split; [by apply Hcons|].
    split; [cbn; lia|]. split; [by destruct hs|]. rewrite Ec. change (length (a :: algs)) with (S (length algs)). cbn [given]. by destruct (length algs).
  - destruct IH as (ps & hs & b & hk & T & Hb & Hh & Ek). exists (pl :: ps), (h :: hs), b, hk. split; [by apply Hcons|].
    split; [done|]. split; [by destruct hs|]. rewrite <- Ek. cbn. by destruct (length ps).
Qed.
Lemma c32_chain `{W : World} : forall o algs init h pl h',
  sequential_optimize o algs init h = (Ok pl, h') ->
  exists ps hs, trail o algs init h ps hs /\ length ps = length algs /\ last hs = Some h' /\
    given init ps (length algs) = Some pl.
Proof.
  intros o algs init h pl h' E. unfold sequential_optimize, bind in E. pose proof (sequential_trail o algs init h) as T.
  destruct (sequential_loop o algs init h) as [[c|e] h1]; [|done]. destruct T as (ps & hs & T & Hl & Hh & Ec).
  destruct c as [c|]; [|done]. injection E as <- <-. by exists ps, hs.
Qed.
Lemma c32_runs `{W : World} : forall o algs init h ps hs pl h',
  trail o algs init h ps hs -> length ps = length algs -> last hs = Some h' -> given init ps (length algs) = Some pl ->
  sequential_optimize o algs init h = (Ok pl, h').
Proof.
  intros o algs. induction algs as [|a algs IH]; intros init h ps hs pl h' [T1 T2 T3 T4] Hl Hh Hg.
  - destruct ps; [|done]. destruct hs as [|h0 [|]]; try done. cbn in *. injection T3 as ->. injection Hh as ->. by rewrite Hg.
  - destruct ps as [|p ps]; [done|]. destruct hs as [|h0 [|h1 hs]]; try done. cbn in T3. injection T3 as ->.
    pose proof (T4 0%nat a p h h1 eq_refl eq_refl eq_refl eq_refl) as E. cbn in E.
    specialize (IH (Some p) h1 ps (h1 :: hs) pl h'). unfold sequential_optimize in *. cbn [sequential_loop].
    unfold bind at 1 2. rewrite E. apply IH.
    + split; [cbn in Hl; lia|cbn in T2 |- *; lia|done|]. intros i b q k1 k2 Hb Hq H1 H2.
      pose proof (T4 (S i) b q k1 k2 Hb Hq H1 H2) as E'. by destruct i.
    + cbn in Hl. lia.
    + done.
    + cbn [length] in Hg. rewrite <- Hg. by destruct (length algs).
Qed.
Lemma sequential_prefix `{W : World} o algs : forall init h e h' k hk ps hs a later,
  trail o algs init h ps hs -> length ps = k -> algs !! k = Some a -> last hs = Some hk ->
  optimize o (a (given init ps k)) hk = (Raise e, h') ->
  sequential_loop o (take (S k) algs ++ later) init h = (Raise e, h').
Proof.
  induction algs as [|a0 algs IH]; intros init h e h' k hk ps hs a later [T1 T2 T3 T4] Hk Ha Hh E; [done|].
  destruct ps as [|p ps]; cbn in Hk; subst k.
  - cbn in Ha. injection Ha as ->. destruct hs as [|h0 [|]]; try done. cbn in T3, Hh. injection T3 as ->. injection Hh as <-.
    cbn [take app sequential_loop]. unfold bind. cbn in E. by rewrite E.
  - destruct hs as [|h0 [|h1 hs]]; try done. cbn in T3. injection T3 as ->.
    pose proof (T4 0%nat a0 p h h1 eq_refl eq_refl eq_refl eq_refl) as E0. cbn in E0.
    change (take (S (S (length ps))) (a0 :: algs) ++ later) with (a0 :: take (S (length ps)) algs ++ later). cbn [sequential_loop]. unfold bind. rewrite E0.
    apply (IH (Some p) h1 e h' (length ps) hk ps (h1 :: hs) a).
    + split; [cbn in T1; lia|cbn in T2 |- *; lia|done|]. intros i b q k1 k2 Hb Hq H1 H2.
      pose proof (T4 (S i) b q k1 k2 Hb Hq H1 H2) as E'. by destruct i.
    + done.
    + done.
    + done.
    + rewrite <- E. by destruct (length ps).
Qed.
Lemma c32_stops `{W : World} : forall o algs init h e h',
  sequential_optimize o algs init h = (Raise e, h') ->
  (algs = [] /\ init = None /\ h' = h) \/
  exists k a ps hs hk, algs !! k = Some a /\ length ps = k /\ trail o algs init h ps hs /\ last hs = Some hk /\
    optimize o (a (given init ps k)) hk = (Raise e, h') /\
    forall later, sequential_optimize o (take (S k) algs ++ later) init h = (Raise e, h').
Proof.
  intros o algs init h e h' E. unfold sequential_optimize, bind in E. pose proof (sequential_trail o algs init h) as T.
  destruct (sequential_loop o algs init h) as [[c|e1] h1] eqn:El.
  - destruct c as [c|]; [done|]. destruct T as (ps & hs & [T1 T2 T3 T4] & Hl & Hh & Ec).
    destruct algs as [|a algs].
    + left. cbn in Ec, El. injection El as -> <-. by injection E as _ <-.
    + exfalso. cbn in Ec. symmetry in Ec. apply lookup_ge_None in Ec. cbn in Hl. lia.
  - injection E as <- <-. right. destruct T as (ps & hs & a & hk & T & Ha & Hh & Ek).
    exists (length ps), a, ps, hs, hk. do 5 (split; [done|]). intros later. unfold sequential_optimize, bind.
    by rewrite (sequential_prefix o algs init h e1 h1 (length ps) hk ps hs a later).
Qed.
