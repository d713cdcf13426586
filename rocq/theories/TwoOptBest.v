(** 2-opt: what it leaves undone. *)
From Verif Require Export SpecTurns TwoOptEnds OneShiftTheorems RepresentsProofs MissProofs Checker.

(** ** Sums in lexicographic order *)
Section sums.
  Lemma lex_add_l x : forall y z, length z = length x -> lex_lt x y -> lex_lt (tuple_add x z) (tuple_add y z).
  Proof.
    intros y z Hl H. revert z Hl. induction H as [a b l l' Hab|a l l' H IH]; intros [|c z] Hl; try done; cbn.
    - apply lex_here. lia.
    - apply lex_later. apply IH. cbn in Hl. lia.
  Qed.
  Lemma tuple_comm x : forall y, tuple_add x y = tuple_add y x.
  Proof. induction x as [|a x IH]; intros [|b y]; cbn; try done. f_equal; [lia|apply IH]. Qed.
  Lemma tuple_assoc x : forall y z, tuple_add x (tuple_add y z) = tuple_add (tuple_add x y) z.
  Proof. induction x as [|a x IH]; intros [|b y] [|c z]; cbn; try done. f_equal; [lia|apply IH]. Qed.
  Lemma lex_add_r z x y : length z = length x -> length y = length x -> lex_lt x y -> lex_lt (tuple_add z x) (tuple_add z y).
  Proof. intros Hl Hl' H. rewrite !(tuple_comm z). by apply lex_add_l. Qed.

  Lemma split_perm (P : nat -> Prop) `{!forall x, Decision (P x)} (l : list nat) : l ≡ₚ filter P l ++ filter (fun x => ~ P x) l.
  Proof.
    induction l as [|a l IH]; [done|]. destruct (decide (P a)) as [Ha|Ha].
    - rewrite filter_cons_True, filter_cons_False by tauto. cbn. by constructor.
    - rewrite filter_cons_False, filter_cons_True by done. rewrite <- Permutation_middle. by constructor.
  Qed.

  Lemma NoDup_filter_map (f : nat -> nat) (P : nat -> Prop) `{!forall x, Decision (P x)} (l : list nat) : NoDup (map f l) -> NoDup (map f (filter P l)).
  Proof.
    induction l as [|a l IH]; cbn [map]; [intros; constructor|]. intros [Ha Hn]%NoDup_cons. rewrite filter_cons. destruct (decide (P a)); [|by apply IH].
    cbn [map]. constructor; [|by apply IH]. intros Hin. apply Ha. apply elem_of_list_fmap in Hin as (b & E & [_ Hb]%elem_of_list_filter).
    rewrite E. apply elem_of_list_fmap. eauto.
  Qed.

  Context (o : objective) (veh : nat -> nat) (val : nat -> list Z).
  Definition total (l : list nat) : list Z := foldr tuple_add (tuple_zero o) (map val l).
  Context (Hval : forall r, length (val r) = dimension o).
  Lemma total_length l : length (total l) = dimension o.
  Proof.
    unfold total. induction l as [|r l IH]; [cbn; clear Hval; by destruct o|]. cbn. unfold tuple_add at 1. rewrite zip_with_length, IH, Hval. lia.
  Qed.
  Lemma tuple_zero_l x : length x = dimension o -> tuple_add (tuple_zero o) x = x.
  Proof. destruct o; destruct x as [|a [|b [|c x]]]; intros H; try (cbn in H; lia); done. Qed.
  Lemma total_app l l' : total (l ++ l') = tuple_add (total l) (total l').
  Proof.
    induction l as [|r l IH]; [symmetry; apply tuple_zero_l, total_length|]. unfold total in *. cbn. rewrite IH. apply tuple_assoc.
  Qed.
  Lemma total_perm l l' : l ≡ₚ l' -> total l = total l'.
  Proof. intros H. unfold total. apply foldr_tuple_perm. by apply fmap_Permutation. Qed.
  Lemma at_least_trans x y z : at_least x y -> at_least y z -> at_least x z.
  Proof. intros [->|H1] [->|H2]; [by left|by right|by right|right; by eapply lex_trans]. Qed.

  (** values of at least zero, all better than [a] *)
  Lemma group_gain a l : length a = dimension o -> l <> [] -> (forall q, q ∈ l -> lex_lt a (val q)) -> (forall q, q ∈ l -> at_least (tuple_zero o) (val q)) ->
    lex_lt a (total l).
  Proof.
    intros Ha Hne Hl Hz. destruct l as [|q l]; [done|].
    assert (Hge : at_least (val q) (total (q :: l))).
    { assert (Hg : at_least (tuple_zero o) (total l)).
      { assert (Hz' : forall p, p ∈ l -> at_least (tuple_zero o) (val p)) by (intros p Hp; apply Hz; by right). clear -Hz' Hval.
        induction l as [|p l IH]; [by left|]. eapply at_least_trans; [apply IH; intros; apply Hz'; by right|].
        change (p :: l) with ([p] ++ l). rewrite total_app. replace (total [p]) with (val p).
        2: { unfold total. cbn. rewrite tuple_comm. symmetry. by apply tuple_zero_l. }
        destruct (Hz' p) as [->|H]; [left|left; by rewrite tuple_zero_l by apply total_length|].
        right. rewrite <- (tuple_zero_l (total l)) at 1 by apply total_length. apply lex_add_l; [|done]. rewrite total_length. by destruct o. }
      change (q :: l) with ([q] ++ l). rewrite total_app. replace (total [q]) with (val q).
      2: { unfold total. cbn. rewrite tuple_comm. symmetry. by apply tuple_zero_l. }
      destruct Hg as [->|H]; [left; rewrite tuple_comm; by apply tuple_zero_l|].
      right. rewrite <- (tuple_zero_l (val q)) at 1 by done. rewrite (tuple_comm (tuple_zero o)). apply lex_add_r; [|rewrite total_length|done].
      - rewrite Hval. by destruct o.
      - by destruct o. }
    assert (Hq : lex_lt a (val q)) by (apply Hl; left). destruct Hge as [->|H]; [done|by eapply lex_trans].
  Qed.
  Lemma sum_gain over : forall ov, NoDup (map veh over) -> over <> [] ->
    (forall q, q ∈ ov -> exists r, r ∈ over /\ veh r = veh q /\ lex_lt (val r) (val q)) ->
    (forall q, q ∈ ov -> at_least (tuple_zero o) (val q)) ->
    (forall r, r ∈ over -> exists q, q ∈ ov /\ veh q = veh r) ->
    lex_lt (total over) (total ov).
  Proof.
    induction over as [|r over IH]; intros ov Hn Hne H1 H2 H3; [done|]. cbn in Hn. apply NoDup_cons in Hn as [Hr Hn].
    rewrite (total_perm ov _ (split_perm (fun q => veh q = veh r) ov)), total_app.
    change (r :: over) with ([r] ++ over). rewrite total_app. replace (total [r]) with (val r).
    2: { unfold total. cbn. rewrite tuple_comm. symmetry. by apply tuple_zero_l. }
    set (B1 := filter (fun q => veh q = veh r) ov). set (B2 := filter (fun q => ~ veh q = veh r) ov).
    assert (G1 : lex_lt (val r) (total B1)).
    { apply group_gain; [done| | |].
      - destruct (H3 r) as (q & Hq & E); [left|]. intros E'. assert (q ∈ B1) by (apply elem_of_list_filter; done). rewrite E' in H. inversion H.
      - intros q [E Hq]%elem_of_list_filter. destruct (H1 q Hq) as (r0 & Hr0 & E0 & Hlt). apply elem_of_cons in Hr0 as [->|Hr0]; [done|].
        destruct Hr. rewrite <- E, <- E0. apply elem_of_list_fmap. eauto.
      - intros q [E Hq]%elem_of_list_filter. auto. }
    destruct (decide (over = [])) as [->|Hne'].
    - assert (B2 = []) as ->.
      { destruct B2 as [|q B2'] eqn:E; [done|]. assert (Hq : q ∈ B2) by (rewrite E; left). apply elem_of_list_filter in Hq as [Hx Hq].
        destruct (H1 q Hq) as (r0 & [->|Hr0]%elem_of_cons & E0 & _); [by destruct Hx|inversion Hr0]. }
      apply lex_add_l; [|done]. by rewrite total_length, Hval.
    - assert (G2 : lex_lt (total over) (total B2)).
      { apply IH; [done|done| | |].
        - intros q [E Hq]%elem_of_list_filter. destruct (H1 q Hq) as (r0 & [->|Hr0]%elem_of_cons & E0 & Hlt); [by destruct E|eauto].
        - intros q [E Hq]%elem_of_list_filter. auto.
        - intros p Hp. destruct (H3 p) as (q & Hq & E); [by right|]. exists q. split; [|done]. apply elem_of_list_filter. split; [|done].
          intros E'. destruct Hr. rewrite <- E', E. apply elem_of_list_fmap. eauto. }
      eapply lex_trans; [apply lex_add_l; [|exact G1]|apply lex_add_r; [| |exact G2]]; rewrite ?total_length, ?Hval; done.
  Qed.
End sums.

Section best.
  Context {W : World}.

  (** ** Vehicle and visits of a route, read off the state *)
  Definition veh (h : heap) (r : nat) : nat := match h_routes h !! r with Some c => rt_vehicle c | None => 0%nat end.
  Definition val (o : objective) (h : heap) (r : nat) : list Z := value_of o (veh h r) (visits_of h r).
  Lemma val_length o h r : length (val o h r) = dimension o.
  Proof. by destruct o. Qed.
  Lemma RouteW_seen h r v ids L : RouteW h r v ids L -> veh h r = v /\ visits_of h r = L.
  Proof.
    intros R. destruct (rw_cell _ _ _ _ _ R) as (c & Hc & EV & EI). unfold veh, visits_of. rewrite Hc. split; [done|]. rewrite EI.
    assert (F : Forall2 (fun s x => exists c, h_stops h !! s = Some c /\ x = abs h c) ids L).
    { apply Forall2_same_length_lookup. split; [by eapply RouteW_length|]. intros k s x Hs Hx.
      destruct (RouteW_lookup _ _ _ _ _ _ _ R Hs) as (c' & x' & Hc' & Hx' & -> & _). rewrite Hx in Hx'. injection Hx' as ->. eauto. }
    clear -F. induction F as [|s x ids L (c & Hc & ->) F IH]; [done|]. cbn. rewrite Hc. cbn. by f_equal.
  Qed.
  Lemma RouteW_val o h r v ids L : RouteW h r v ids L -> val o h r = value_of o v L.
  Proof. intros R. unfold val. by destruct (RouteW_seen _ _ _ _ _ R) as [-> ->]. Qed.
  Lemma Tours_total o h l x : Tours h l -> total_worth o h l x -> x = total o (val o h) l.
  Proof.
    intros T (xs & F & ->). rewrite total_value_foldr. unfold total. f_equal. clear T.
    induction F as [|r y l xs (v & ids & L & R & ->) F IH]; [done|]. cbn. f_equal; [|done].
    apply well_formed_RouteW in R. by rewrite (RouteW_val _ _ _ _ _ _ R).
  Qed.

  (** ** Which stretches are tried *)
  Lemma turn_apart v L i k : tour v L -> tour v (turned i k L) -> (i + k < length L)%nat ->
    forall t, t ∈ boards (take k (drop i L)) -> t ∉ alights (take k (drop i L)).
  Proof.
    intros T T' Hk t Hb Ha. apply elem_of_boards in Hb as (x & Hx & Bx). apply elem_of_alights in Ha as (y & Hy & Ay).
    apply elem_of_list_lookup_1 in Hx as [a Hx]. apply elem_of_list_lookup_1 in Hy as [b Hy].
    assert (Hlen : length (take k (drop i L)) = k) by (rewrite take_length, drop_length; lia).
    assert (Hla : (a < k)%nat) by (apply lookup_lt_Some in Hx; lia). assert (Hlb : (b < k)%nat) by (apply lookup_lt_Some in Hy; lia).
    assert (Hr : forall c z, (c < k)%nat -> take k (drop i L) !! c = Some z -> turned i k L !! (i + (k - S c))%nat = Some z).
    { intros c z Hc Hz. unfold turned. rewrite lookup_app_r by (rewrite take_length; lia). rewrite take_length.
      replace (i + (k - S c) - i `min` length L)%nat with (k - S c)%nat by lia. rewrite lookup_app_l by (rewrite reverse_length; lia).
      rewrite reverse_lookup by lia. rewrite Hlen. by replace (k - S (k - S c))%nat with c by lia. }
    pose proof (Hr a x Hla Hx) as Hx2. pose proof (Hr b y Hlb Hy) as Hy2.
    pose proof (rides_before _ _ _ _ _ _ (tour_rides _ _ T') Hx2 Hy2 Bx Ay) as H2.
    rewrite lookup_take, lookup_drop in Hx, Hy by done.
    pose proof (rides_before _ _ _ _ _ _ (tour_rides _ _ T) Hx Hy Bx Ay) as H1. lia.
  Qed.
  Lemma tried_pair i k n : (1 <= i)%nat -> (2 <= k)%nat -> (i + k < n)%nat -> tried i k n ->
    exists j, (i, j) ∈ combinations2 (seq 1 (n - 2)) /\ min (S (S j) - i) (n - 1 - i) = k.
  Proof.
    intros Hi Hk Hn Ht.
    assert (Hin : forall (l : list nat) a b, (exists x y, l !! x = Some a /\ l !! y = Some b /\ (x < y)%nat) -> (a, b) ∈ combinations2 l).
    { clear. induction l as [|c l IH]; intros a b (x & y & Hx & Hy & Hlt); [done|]. cbn. apply elem_of_app. destruct x as [|x].
      - left. cbn in Hx. injection Hx as ->. destruct y as [|y]; [lia|]. cbn in Hy. apply elem_of_list_fmap. exists b. split; [done|]. by eapply elem_of_list_lookup_2.
      - right. destruct y as [|y]; [lia|]. apply IH. exists x, y. split; [done|]. split; [done|lia]. }
    destruct (decide (k = 2%nat)) as [->|Hk2].
    - destruct Ht as [?|Ht]; [done|]. exists (S i). split; [|lia]. apply Hin. exists (i - 1)%nat, i.
      split; [apply lookup_seq; lia|]. split; [apply lookup_seq; lia|lia].
    - exists (i + k - 2)%nat. split; [|lia]. apply Hin. exists (i - 1)%nat, (i + k - 3)%nat.
      split; [apply lookup_seq; lia|]. split; [apply lookup_seq; lia|lia].
  Qed.

  (** ** Pairs, routes *)
  Lemma set_add_keeps q x l : q ∈ l -> q ∈ set_add x l.
  Proof. intros H. unfold set_add. destruct (memb x l); [done|]. apply elem_of_app. by left. Qed.
  Lemma set_add_in x l : x ∈ set_add x l.
  Proof. unfold set_add. destruct (memb x l) eqn:E; [by apply bool_decide_eq_true in E|]. apply elem_of_app. right. by left. Qed.
  Lemma set_add_NoDup x l : NoDup l -> NoDup (set_add x l).
  Proof.
    intros H. unfold set_add. destruct (memb x l) eqn:E; [done|]. apply bool_decide_eq_false in E. apply NoDup_app. split; [done|].
    split; [|apply NoDup_singleton]. intros y Hy ->%elem_of_list_singleton. done.
  Qed.
  Lemma two_opt_pairs o h0 rs r v ids L : sane -> r ∈ rs -> RouteOK h0 r v ids L -> forall l st h,
    (forall i j, (i, j) ∈ l -> (1 <= i < j)%nat /\ (j < length L - 1)%nat) -> Pending o h0 rs v L st h -> NoDup st.2 ->
    runs (foldM (two_opt_step o r) st l) h (fun st' h' => Pending o h0 rs v L st' h' /\ spreads h h' /\ NoDup st'.2 /\ (forall q, q ∈ st.2 -> q ∈ st'.2) /\
      (st'.1 = st.1 \/ lex_lt st.1 st'.1 /\ exists r' ids' ys, r' ∈ st'.2 /\ RouteOK h' r' v ids' ys /\ st'.1 = value_of o v ys) /\
      (forall i j, (i, j) ∈ l -> let k := min (S (S j) - i) (length L - 1 - i) in
         Worth false h0 -> (forall t, t ∈ boards (take k (drop i L)) -> t ∉ alights (take k (drop i L))) ->
         route_okb v (turned i k L) -> at_least (value_of o v (turned i k L)) st'.1)).
  Proof.
    intros Hs Hr R0. induction l as [|[i j] l IH]; intros st h Hl P Hn; cbn [foldM].
    { apply runs_ret. split; [done|]. split; [apply spreads_refl|]. split; [done|]. split; [done|]. split; [by left|]. intros i j H. inversion H. }
    destruct (Hl i j) as [Hij Hj]; [left|]. step.
    eapply runs_mono; [by apply (two_opt_step_runs o h0 rs r v ids L)|]. intros st1 h1 [P1 (S1 & T1 & T2)].
    assert (Hn1 : NoDup st1.2). { destruct T1 as [->|(_ & r' & ids' & ys & -> & _)]; [done|]. by apply set_add_NoDup. }
    assert (K1 : forall q, q ∈ st.2 -> q ∈ st1.2). { destruct T1 as [->|(_ & r' & ids' & ys & -> & _)]; [done|]. intros q. apply set_add_keeps. }
    assert (A1 : at_least st.1 st1.1). { destruct T1 as [->|[H _]]; [by left|by right]. }
    eapply runs_mono; [apply IH; [intros; apply Hl; by right|done|done]|]. intros st2 h2 (P2 & S2 & Hn2 & K2 & B2 & C2).
    split; [done|]. split; [by eapply spreads_trans|]. split; [done|]. split; [auto|].
    assert (A2 : at_least st1.1 st2.1). { destruct B2 as [->|[H _]]; [by left|by right]. }
    split.
    - destruct B2 as [E|[H H']].
      + rewrite E. destruct T1 as [->|(H & r' & ids' & ys & E1 & R1 & E2)]; [by left|]. right. split; [done|].
        exists r', ids', ys. split; [apply K2; rewrite E1; apply set_add_in|]. split; [|done].
        by eapply RouteOK_grow; [apply S2|].
      + right. split; [|done]. destruct A1 as [<-|A1]; [done|by eapply lex_trans].
    - intros a b [[= -> ->]|Hin]%elem_of_cons; [|by apply C2]. cbv zeta in T2 |- *. intros Wf Hc Ho. eapply at_least_trans; [by apply T2|done].
  Qed.
  (** what is known of the routes found so far *)
  Definition Found (o : objective) (h0 : heap) (rs : list nat) (ov : list nat) (h : heap) : Prop :=
    spreads h0 h /\ HInv h /\ (forall r', r' ∈ ov -> Born o h0 rs h r') /\ NoDup ov.
  Definition Hit (o : objective) (h0 : heap) (r : nat) (ov : list nat) (h : heap) : Prop :=
    Worth false h0 -> forall v ids L i k ys, RouteOK h0 r v ids L -> better_turn o v L ys i k -> tried i k (length L) ->
      exists r' ids' zs, r' ∈ ov /\ RouteOK h r' v ids' zs /\ at_least (value_of o v ys) (value_of o v zs).
  Lemma Hit_more o h0 r ov h ov' h' : Hit o h0 r ov h -> (forall q, q ∈ ov -> q ∈ ov') -> spreads h h' -> Hit o h0 r ov' h'.
  Proof.
    intros H K [G _] Wf v ids L i k ys R Hb Ht. destruct (H Wf v ids L i k ys R Hb Ht) as (r' & ids' & zs & Hin & R' & Ha).
    exists r', ids', zs. split; [auto|]. split; [by eapply RouteOK_grow|done].
  Qed.
  Lemma two_opt_route_finds o h0 rs r ov h :
    sane -> r ∈ rs -> (exists v ids L, RouteOK h0 r v ids L) -> Found o h0 rs ov h ->
    runs (two_opt_route o ov r) h (fun ov' h' => Found o h0 rs ov' h' /\ spreads h h' /\ (forall q, q ∈ ov -> q ∈ ov') /\ Hit o h0 r ov' h').
  Proof.
    intros Hs Hr (v & ids & L & R0) (S0 & HI & HB & Hn). pose proof (RouteOK_grow _ _ _ _ _ _ (proj1 S0) R0) as R.
    unfold two_opt_route. step. eapply gives_det_runs; [eapply route_value_gives; apply R|]. intros h1 [S1 _].
    pose proof (RouteOK_soft _ _ _ _ _ _ S1 R) as R1. assert (HI1 : HInv h1) by by eapply HInv_soft.
    step. eapply runs_route_stops; [apply R1|]. step. rewrite (RouteW_length _ _ _ _ _ (proj1 R1)).
    eapply runs_mono; [apply (two_opt_pairs o h0 rs r v ids L Hs Hr R0)|].
    - intros i j Hin. apply combinations2_seq in Hin. lia.
    - split; [eapply spreads_trans; [exact S0|by apply spreads_soft]|]. split; [done|]. split; [by eexists|]. split; [by left|].
      intros r' Hr'. eapply Born_spreads; [by apply spreads_soft|by apply HB].
    - done.
    - cbn [fst snd]. intros st h2 ((A1 & A2 & _ & _ & A5) & S2 & Hn2 & K & B & C). apply runs_ret.
      split; [done|]. split; [eapply spreads_trans; [by apply spreads_soft|done]|]. split; [done|].
      intros Wf v' ids' L' i k ys R' (Hi & Hk & Hl & -> & T & Ad & Hlt) Ht.
      destruct (RouteW_det _ _ _ _ _ _ _ _ (proj1 R0) (proj1 R')) as (<- & <- & <-).
      destruct (tried_pair i k (length L) Hi Hk Hl Ht) as (j & Hin & Ek). specialize (C i j Hin). cbv zeta in C. rewrite Ek in C.
      assert (Ha : at_least (value_of o v (turned i k L)) st.1).
      { apply C; [done|by eapply turn_apart; [apply R0|..]|]. apply route_okb_admissible; [|done].
        destruct (tour_first _ _ T) as (? & ? & -> & _). done. }
      destruct B as [E|(_ & r' & ids' & zs & Hin' & Rz & E)].
      + exfalso. rewrite E in Ha. destruct Ha as [Ha|Ha]; [rewrite Ha in Hlt; by apply lex_irrefl in Hlt|].
        apply (lex_irrefl (value_of o v L)). by eapply lex_trans.
      + exists r', ids', zs. rewrite <- E. done.
  Qed.
  Lemma two_opt_routes_find o h0 rs : sane -> Tours h0 rs -> forall l ov h, (forall r, r ∈ l -> r ∈ rs) -> Found o h0 rs ov h ->
    runs (foldM (two_opt_route o) ov l) h (fun ov' h' => Found o h0 rs ov' h' /\ spreads h h' /\ (forall q, q ∈ ov -> q ∈ ov') /\
      forall r, r ∈ l -> Hit o h0 r ov' h').
  Proof.
    intros Hs T. induction l as [|r l IH]; intros ov h Hl F; cbn [foldM].
    { apply runs_ret. split; [done|]. split; [apply spreads_refl|]. split; [done|]. intros r H. inversion H. }
    step. eapply runs_mono; [apply (two_opt_route_finds o h0 rs r ov h); [done|apply Hl; left|apply T, Hl; left|done]|].
    intros ov1 h1 (F1 & S1 & K1 & H1). eapply runs_mono; [apply IH; [intros; apply Hl; by right|done]|].
    intros ov2 h2 (F2 & S2 & K2 & H2). split; [done|]. split; [by eapply spreads_trans|]. split; [auto|].
    intros q [->|Hq]%elem_of_cons; [by eapply Hit_more|auto].
  Qed.

  (** ** What is kept *)
  Lemma update_exact h rs ov : Tours h rs -> Tours h ov ->
    runs (update_routes rs ov) h (fun pl h' => h' = h /\
      (ov = [] /\ pl = rs \/ ov <> [] /\ pl = set_union (filter (fun r => veh h r ∉ map (veh h) ov) rs) ov)).
  Proof.
    intros HR HO. unfold update_routes. destruct ov as [|a ov0] eqn:Eov.
    { apply runs_ret. split; [done|]. by left. }
    rewrite <- Eov in *. assert (Hne : ov <> []) by (by rewrite Eov). clear Eov a ov0.
    assert (HV : forall l, Tours h l -> runs (mapM (fun r => let! c := route_get r in ret (rt_vehicle c)) l) h (fun vs h' => h' = h /\ vs = map (veh h) l)).
    { induction l as [|r l IH]; intros Hl; cbn [mapM]; [by apply runs_ret|]. destruct (Hl r) as (v & ids & L & R); [left|].
      destruct (rw_cell _ _ _ _ _ (proj1 R)) as (c & Hc & EV & _). step. step. eapply runs_route_get; [exact Hc|]. apply runs_ret.
      step. eapply runs_mono; [apply IH; intros q Hq; apply Hl; by right|]. intros vs ? [-> ->]. apply runs_ret. split; [done|]. cbn.
      unfold veh at 2. by rewrite Hc. }
    step. eapply runs_mono; [by apply HV|]. intros vs ? [-> ->]. clear HV.
    assert (HF : forall l, Tours h l -> runs (filterM (fun r => let! c := route_get r in ret (negb (memb (rt_vehicle c) (map (veh h) ov)))) l) h
      (fun ks h' => h' = h /\ ks = filter (fun r => veh h r ∉ map (veh h) ov) l)).
    { induction l as [|r l IH]; intros Hl; cbn [filterM]; [by apply runs_ret|]. destruct (Hl r) as (v & ids & L & R); [left|].
      destruct (rw_cell _ _ _ _ _ (proj1 R)) as (c & Hc & EV & _). step. step. eapply runs_route_get; [exact Hc|]. apply runs_ret.
      step. eapply runs_mono; [apply IH; intros q Hq; apply Hl; by right|]. intros ks ? [-> ->]. apply runs_ret. split; [done|].
      assert (E : veh h r = rt_vehicle c) by (unfold veh; by rewrite Hc). rewrite filter_cons, E.
      unfold memb. destruct (decide (rt_vehicle c ∉ map (veh h) ov)) as [Hd|Hd].
      - by rewrite bool_decide_eq_false_2.
      - apply dec_stable in Hd. by rewrite bool_decide_eq_true_2. }
    step. eapply runs_mono; [by apply HF|]. intros ks ? [-> ->]. apply runs_ret. split; [done|]. by right.
  Qed.
  Lemma Born_tour o h0 rs h r' : Born o h0 rs h r' -> exists v ids L, RouteOK h r' v ids L.
  Proof. intros (_ & v & _ & _ & ids & L & _ & _ & R & _). eauto. Qed.

  (** reversed routes are not worth less than nothing *)
  Definition Dear (o : objective) (h : heap) (rs : list nat) : Prop :=
    forall r v ids L ys, r ∈ rs -> RouteOK h r v ids L -> turns L ys -> tour v ys -> at_least (tuple_zero o) (value_of o v ys).
  Lemma updated_gain o h rs ov h' pl : Tours h rs -> Found o h rs ov h' -> ov <> [] ->
    pl = set_union (filter (fun r => veh h' r ∉ map (veh h') ov) rs) ov -> NoDup (map (veh h) rs) -> Dear o h rs ->
    forall x y, total_worth o h rs x -> total_worth o h' pl y -> lex_lt x y.
  Proof.
    intros T (S & HI & HB & Hn) Hne Epl Hnd HD x y Wx Wy.
    assert (Hq0 : exists q, q ∈ ov) by (destruct ov as [|q ov0]; [done|exists q; left]).
    pose proof (Tours_spreads _ _ _ S T) as T'.
    pose proof (total_worth_kept _ _ _ _ _ (grow_kept _ _ (proj1 S)) Wx) as Wx'.
    set (P := fun r => veh h' r ∉ map (veh h') ov) in *. set (keep := filter P rs) in *. set (over := filter (fun r => ~ P r) rs).
    assert (Hd : set_diff ov keep = ov).
    { unfold set_diff. assert (Hall : Forall (fun q => q ∉ keep) ov).
      { apply Forall_forall. intros q Hq [Hp _]%elem_of_list_filter. apply Hp. apply elem_of_list_fmap. eauto. }
      clearbody keep. clear -Hall. induction Hall as [|q l Hq F IH]; [done|]. rewrite filter_cons_True by done. by f_equal. }
    unfold set_union in Epl. rewrite Hd in Epl.
    assert (Tpl : Tours h' pl).
    { intros r Hr. rewrite Epl in Hr. apply elem_of_app in Hr as [Hr|Hr]; [apply T'; by apply elem_of_list_filter in Hr as [_ ?]|].
      by eapply Born_tour, HB. }
    rewrite (Tours_total _ _ _ _ T' Wx'), (Tours_total _ _ _ _ Tpl Wy), Epl. clear Wx Wx' Wy x y.
    pose proof (val_length o h') as Hv.
    rewrite (total_perm o (val o h') rs _ (split_perm P rs)). fold keep over. rewrite !total_app by done.
    assert (Ev : forall r, r ∈ rs -> veh h' r = veh h r).
    { intros r Hr. destruct (T r Hr) as (v & ids & L & R). pose proof (RouteOK_grow _ _ _ _ _ _ (proj1 S) R) as R'.
      destruct (RouteW_seen _ _ _ _ _ (proj1 R)) as [-> _]. by destruct (RouteW_seen _ _ _ _ _ (proj1 R')) as [-> _]. }
    assert (Hsrc : forall q, q ∈ ov -> exists r, r ∈ rs /\ veh h' r = veh h' q /\ lex_lt (val o h' r) (val o h' q) /\ at_least (tuple_zero o) (val o h' q)).
    { intros q Hq. destruct (HB q Hq) as (r & v & ids & L & ids' & ys & Hr & R & R' & Ht & Hlt & _). exists r. split; [done|].
      rewrite (RouteW_val o _ _ _ _ _ (proj1 R)), (RouteW_val o _ _ _ _ _ (proj1 R')).
      destruct (RouteW_seen _ _ _ _ _ (proj1 R)) as [-> _]. destruct (RouteW_seen _ _ _ _ _ (proj1 R')) as [-> _].
      split; [done|]. split; [done|]. destruct (T r Hr) as (v0 & ids0 & L0 & R0). pose proof (RouteOK_grow _ _ _ _ _ _ (proj1 S) R0) as R0'.
      destruct (RouteW_det _ _ _ _ _ _ _ _ (proj1 R) (proj1 R0')) as (<- & <- & <-). eapply HD; [done|done|done|apply R']. }
    assert (Hover : forall r, r ∈ over <-> r ∈ rs /\ veh h' r ∈ map (veh h') ov).
    { intros r. unfold over. rewrite elem_of_list_filter. unfold P. split; [intros [H1 H2]|intros [H1 H2]].
      - split; [done|]. by apply dec_stable.
      - split; [|done]. intros H3. by apply H3. }
    apply lex_add_r; [by rewrite !total_length|by rewrite !total_length|].
    apply (sum_gain o (veh h') (val o h') Hv).
    - assert (E : map (veh h') over = map (veh h) over).
      { apply map_ext_in. intros r Hr. apply Ev. apply elem_of_list_In in Hr. by apply Hover in Hr as [? _]. }
      rewrite E. apply (NoDup_filter_map (veh h) (fun r => ~ P r) rs Hnd).
    - destruct Hq0 as [q Hq]. destruct (Hsrc q Hq) as (r & Hr & E & _). intros E0.
      assert (Hin : r ∈ over) by (apply Hover; split; [done|]; rewrite E; apply elem_of_list_fmap; eauto). rewrite E0 in Hin. inversion Hin.
    - intros q Hq. destruct (Hsrc q Hq) as (r & Hr & E & Hlt & _). exists r. split; [|done]. apply Hover. split; [done|].
      rewrite E. apply elem_of_list_fmap. eauto.
    - intros q Hq. by destruct (Hsrc q Hq) as (r & _ & _ & _ & ?).
    - intros r [_ Hr]%Hover. apply elem_of_list_fmap in Hr as (q & E & Hq). eauto.
  Qed.

  Definition Gains (o : objective) (h : heap) (rs : list nat) (pl : list nat) (h' : heap) : Prop :=
    Worth false h -> forall r v ids L i k ys, r ∈ rs -> RouteOK h r v ids L -> better_turn o v L ys i k -> tried i k (length L) ->
      (exists r' ids' zs, r' ∈ pl /\ RouteOK h' r' v ids' zs /\ at_least (value_of o v ys) (value_of o v zs)) /\
      (NoDup (map (veh h) rs) -> Dear o h rs -> forall x y, total_worth o h rs x -> total_worth o h' pl y -> lex_lt x y).
  Lemma two_opt_improve_gains o h rs : sane -> HInv h -> Tours h rs ->
    runs (two_opt_improve o rs) h (fun pl h' => spreads h h' /\ HInv h' /\ Tours h' pl /\ Gains o h rs pl h').
  Proof.
    intros Hs HI HT. unfold two_opt_improve. step. apply runs_set_order. intros l Hl. set (h0 := MkHeap _ _ _ _).
    assert (S0 : soft h h0) by apply soft_tick. step.
    eapply runs_mono; [apply (two_opt_routes_find o h rs Hs HT l [] h0)|].
    - intros r Hr. by rewrite Hl in Hr.
    - split; [by apply spreads_soft|]. split; [by eapply HInv_soft|]. split; [intros r' Hr'; inversion Hr'|constructor].
    - intros ov h1 (F & _ & _ & H). pose proof F as (S1 & HI1 & HB & Hn). pose proof (Tours_spreads _ _ _ S1 HT) as HT1.
      assert (HO : Tours h1 ov). { intros r' Hr'. by eapply Born_tour, HB. }
      eapply runs_mono; [by apply (update_exact h1 rs ov)|]. intros pl ? (-> & Hu). split; [done|]. split; [done|]. split.
      { destruct Hu as [[_ ->]|[_ ->]]; [done|]. intros r Hr. destruct (set_union_spec (filter (fun r => veh h1 r ∉ map (veh h1) ov) rs) ov) as [SU _].
        apply SU in Hr as [Hr|Hr]; [|by apply HO]. apply HT1. by apply elem_of_list_filter in Hr as [_ ?]. }
      intros Wf r v ids L i k ys Hr R Hb Ht. destruct (H r ltac:(by rewrite Hl) Wf v ids L i k ys R Hb Ht) as (r' & ids' & zs & Hin & R' & Ha).
      destruct Hu as [[-> ->]|[Hne Epl]]; [inversion Hin|]. split; [|by eapply updated_gain].
      exists r', ids', zs. split; [|done]. rewrite Epl. apply set_union_spec. by right.
  Qed.
  Lemma two_opt_gains o h rs : sane -> HInv h -> Tours h rs ->
    runs (ls_improve TwoOpt o rs) h (fun pl h' => Gains o h rs pl h').
  Proof.
    intros Hs HI HT. unfold ls_improve. step. eapply runs_mono; [apply deepcopy_runs|].
    { intros r Hr. destruct (HT r Hr) as (v & ids & L & R). destruct (rw_cell _ _ _ _ _ (proj1 R)) as (c & Hc & _). eauto. }
    intros rs1 h1 (HC & Ers & F). assert (HI1 : HInv h1) by by eapply Copied_HInv.
    assert (E1 : spreads h h1) by (split; [by apply Copied_grow|intros g; by apply Copied_Worth]).
    assert (FC : Forall2 (fun r r1 => exists v ids ids1 L, RouteOK h r v ids L /\ RouteOK h1 r1 v ids1 L) rs rs1).
    { apply Forall2_same_length_lookup. split; [by eapply Forall2_length|]. intros i r r1 Hr Hr1.
      destruct (Forall2_lookup_l _ _ _ _ _ F Hr) as (r2 & Hr2 & c & Hc & Hc1). rewrite Hr1 in Hr2. injection Hr2 as <-.
      apply elem_of_list_lookup_2 in Hr. destruct (HT r Hr) as (v & ids & L & R). exists v, ids, (map (up h) ids), L.
      split; [done|]. by eapply Copied_route. }
    assert (HT1 : Tours h1 rs1).
    { intros r1 Hr1. apply elem_of_list_lookup_1 in Hr1 as [i Hi]. destruct (Forall2_lookup_r _ _ _ _ _ FC Hi) as (r & Hr & v & ids & ids1 & L & _ & R). eauto. }
    step. eapply runs_mono; [by apply check_tours_runs|]. intros ? h2 S2.
    assert (HI2 : HInv h2) by exact (HInv_soft _ _ HI1 S2).
    assert (HT2 : Tours h2 rs1) by exact (Tours_spreads _ _ _ (spreads_soft _ _ S2) HT1).
    assert (E2 : spreads h h2) by (eapply spreads_trans; [exact E1|by apply spreads_soft]).
    assert (FC2 : Forall2 (fun r r1 => exists v ids ids1 L, RouteOK h r v ids L /\ RouteOK h2 r1 v ids1 L) rs rs1).
    { eapply Forall2_impl; [exact FC|]. intros r r1 (v & ids & ids1 & L & R & R1). exists v, ids, ids1, L. split; [done|]. exact (RouteOK_soft _ _ _ _ _ _ S2 R1). }
    step. eapply runs_mono; [by apply (two_opt_improve_gains o h2 rs1)|]. cbn [ls_improve_raw].
    intros pl h3 (E3 & HI3 & HT3 & G).
    step. eapply runs_mono; [by apply check_tours_runs|]. intros ? h4 S4. apply runs_ret.
    intros Wf r v ids L i k ys Hr R Hb Ht.
    apply elem_of_list_lookup_1 in Hr as [m Hm]. destruct (Forall2_lookup_l _ _ _ _ _ FC2 Hm) as (r1 & Hr1 & v0 & ids0 & ids1 & L0 & R0 & R1).
    destruct (RouteW_det _ _ _ _ _ _ _ _ (proj1 R) (proj1 R0)) as (<- & <- & <-). apply elem_of_list_lookup_2 in Hr1.
    destruct (G (proj2 E2 false Wf) r1 v ids1 L i k ys Hr1 R1 Hb Ht) as [(r' & ids' & zs & Hin & R' & Hz) G2].
    split; [exists r', ids', zs; split; [done|]; split; [exact (RouteOK_soft _ _ _ _ _ _ S4 R')|done]|].
    intros Hnd HD x y Wx Wy.
    assert (T4 : Tours h4 pl) by exact (Tours_spreads _ _ _ (spreads_soft _ _ S4) HT3).
    destruct (Tours_worth o h3 pl HT3) as [y' Wy'].
    pose proof (total_worth_kept _ _ _ _ _ (soft_kept _ _ S4) Wy') as Wy4. rewrite (total_worth_det _ _ _ _ _ Wy Wy4).
    apply (G2).
    - assert (E : map (veh h2) rs1 = map (veh h) rs); [|by rewrite E]. clear -FC2.
      induction FC2 as [|r r1 rs rs1 (v & ids & ids1 & L & R & R1) F IH]; [done|]. cbn. f_equal; [|done].
      destruct (RouteW_seen _ _ _ _ _ (proj1 R)) as [-> _]. by destruct (RouteW_seen _ _ _ _ _ (proj1 R1)) as [-> _].
    - intros q u idq Lq zq Hq Rq. apply elem_of_list_lookup_1 in Hq as [b Hq]. destruct (Forall2_lookup_r _ _ _ _ _ FC2 Hq) as (p & Hp & v2 & ids2 & ids3 & L2 & R2 & R3).
      destruct (RouteW_det _ _ _ _ _ _ _ _ (proj1 Rq) (proj1 R3)) as (<- & <- & <-). eapply (HD p); [by eapply elem_of_list_lookup_2|done].
    - destruct Wx as (xs & FX & ->). exists xs. split; [|done]. clear -FC2 FX. revert rs1 FC2.
      induction FX as [|r x rs xs (v & ids & L & R & ->) FX IH]; intros rs1 FC; inversion FC as [|? r1 ? rs2 (v1 & ids1 & ids2 & L1 & R1 & R2) FC']; subst; constructor; [|auto].
      apply well_formed_RouteW in R. destruct (RouteW_det _ _ _ _ _ _ _ _ R (proj1 R1)) as (-> & -> & ->).
      exists v1, ids2, L1. split; [|done]. apply well_formed_RouteW, R2.
    - done.
  Qed.
End best.
