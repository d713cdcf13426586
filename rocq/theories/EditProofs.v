(** Editing routes: routes.py:234-297. *)
From Verif Require Export RouteProofs.

Section edit.
  Context {W : World}.

  (** ** Forward chains *)
  Fixpoint chain (h : heap) (v : nat) (prev : option nat) (ids : list nat) (L : list visit) : Prop :=
    match ids, L with
    | [], [] => True
    | s :: ids, x :: L =>
        (exists c, h_stops h !! s = Some c /\ st_vehicle c = v /\ st_previous c = prev /\
                   known h c /\ x = abs h c) /\ chain h v (Some s) ids L
    | _, _ => False
    end.
  Definition last_or (o : option nat) (l : list nat) : option nat :=
    match last l with Some s => Some s | None => o end.
  Lemma last_or_cons o s l : last_or o (s :: l) = last_or (Some s) l.
  Proof. unfold last_or. rewrite last_cons. by destruct (last l). Qed.
  Lemma last_or_snoc o s l : last_or o (l ++ [s]) = Some s.
  Proof. unfold last_or. by rewrite last_snoc. Qed.

  Lemma chain_length h v prev ids L : chain h v prev ids L -> length ids = length L.
  Proof.
    revert prev L. induction ids as [|s ids IH]; intros prev [|x L]; cbn; try done.
    intros [_ H]. f_equal. eauto.
  Qed.
  Lemma chain_app h v prev X Y A B :
    length X = length A ->
    chain h v prev (X ++ Y) (A ++ B) <-> chain h v prev X A /\ chain h v (last_or prev X) Y B.
  Proof.
    revert prev A. induction X as [|s X IH]; intros prev [|x A] Hl; cbn in Hl; try done.
    - cbn. tauto.
    - cbn [app chain]. rewrite last_or_cons, IH by lia. tauto.
  Qed.
  Lemma chain_app_inv h v prev X Y L :
    chain h v prev (X ++ Y) L ->
    exists A B, L = A ++ B /\ length X = length A /\ chain h v prev X A /\ chain h v (last_or prev X) Y B.
  Proof.
    intros H. exists (take (length X) L), (drop (length X) L).
    pose proof (chain_length _ _ _ _ _ H) as Hl. rewrite app_length in Hl.
    assert (Hl' : length X = length (take (length X) L)) by (rewrite take_length; lia).
    split; [by rewrite take_drop|]. split; [done|].
    rewrite <- (take_drop (length X) L) in H at 1. by apply chain_app in H.
  Qed.
  Lemma chain_SPath h v ids L : SPath h v (reverse ids) (reverse L) <-> chain h v None ids L.
  Proof.
    split.
    - revert L. induction ids as [|s ids IH] using rev_ind; intros L H.
      + apply SPath_length in H. rewrite !reverse_length in H. by destruct L.
      + destruct L as [|x L _] using rev_ind.
        { apply SPath_length in H. rewrite reverse_snoc in H. done. }
        rewrite !reverse_snoc in H. apply SPath_cons_inv' in H as (c & A & [= -> <-] & Hc & V & Pr & K & H).
        apply IH in H. pose proof (chain_length _ _ _ _ _ H) as Hl.
        apply chain_app; [done|]. split; [done|]. cbn. split; [|done].
        exists c. rewrite head_reverse in Pr. split; [done|]. split; [done|]. split; [|done].
        rewrite Pr. unfold last_or. by destruct (last ids).
    - revert L. induction ids as [|s ids IH] using rev_ind; intros L H.
      + destruct L; [constructor|done].
      + apply chain_app_inv in H as (A & B & -> & Hl & H1 & H2).
        destruct B as [|x B]; [done|]. destruct H2 as [(c & Hc & V & Pr & K & ->) H2].
        destruct B; [|done]. rewrite !reverse_snoc. econstructor; eauto.
        rewrite head_reverse, Pr. unfold last_or. by destruct (last ids).
  Qed.
  Lemma chain_frame h h' v prev ids L :
    chain h v prev ids L ->
    (forall s c, s ∈ ids -> h_stops h !! s = Some c ->
        exists c', h_stops h' !! s = Some c' /\ sk_stop c' = sk_stop c) ->
    pts_ext h h' -> chain h' v prev ids L.
  Proof.
    intros H Hs Hp. revert prev L H. induction ids as [|s ids IH]; intros prev [|x L] H; try done.
    cbn in *. destruct H as [(c & Hc & V & Pr & K & ->) H]. split.
    - destruct (Hs s c) as (c' & Hc' & E); [left|done|]. exists c'. split; [done|].
      pose proof E as E'. apply sk_stop_eq in E' as (-> & _ & _ & _ & -> & _).
      split; [done|]. split; [done|]. split; [by eapply known_grow|]. symmetry. by eapply abs_grow.
    - apply IH; [|done]. intros q d Hq. apply Hs. by right.
  Qed.
  Lemma chain_lookup h v prev ids L s : chain h v prev ids L -> s ∈ ids -> is_Some (h_stops h !! s).
  Proof.
    revert prev L. induction ids as [|q ids IH]; intros prev [|x L] H Hs; try done; [inversion Hs|].
    destruct H as [(c & Hc & _) H]. apply elem_of_cons in Hs as [->|Hs]; eauto.
  Qed.
  Lemma Path_chain h v ids L : Path h v (reverse ids) (reverse L) -> chain h v None ids L.
  Proof. intros H. by apply chain_SPath, Path_SPath. Qed.
  Lemma chain_Path h v X Y L B :
    chain h v None (X ++ Y) L -> Path h v (reverse X) B ->
    (forall s c, s ∈ Y -> h_stops h !! s = Some c -> cleared c) ->
    Path h v (reverse (X ++ Y)) (reverse L).
  Proof.
    intros H HP Hc. apply chain_SPath in H. rewrite reverse_app in *.
    eapply Path_fresh; eauto. intros s c Hs. apply Hc. by apply elem_of_reverse.
  Qed.

  (** ** Pointwise changes of stops *)
  Definition touch (h h' : heap) (F : nat -> stop -> stop) : Prop :=
    (forall q, h_stops h' !! q = F q <$> h_stops h !! q) /\
    (forall p, sk_pt <$> h_pts h' !! p = sk_pt <$> h_pts h !! p).
  Lemma touch_pts h h' F p c : touch h h' F -> h_pts h !! p = Some c ->
    exists c', h_pts h' !! p = Some c' /\ sk_pt c' = sk_pt c.
  Proof.
    intros [_ H] Hc. specialize (H p). rewrite Hc in H. cbn in H.
    destruct (h_pts h' !! p) as [c'|]; [|done]. exists c'. split; [done|]. by apply (inj Some).
  Qed.
  Lemma touch_pts_inv h h' F p c' : touch h h' F -> h_pts h' !! p = Some c' ->
    exists c, h_pts h !! p = Some c /\ sk_pt c' = sk_pt c.
  Proof.
    intros [_ H] Hc. specialize (H p). rewrite Hc in H. cbn in H.
    destruct (h_pts h !! p) as [c|]; [|done]. exists c. split; [done|]. by apply (inj Some).
  Qed.
  Lemma touch_ext h h' F : touch h h' F -> pts_ext h h'.
  Proof. intros T. apply pts_ext_sk. intros p c Hc. by eapply touch_pts. Qed.
  Lemma touch_trans h1 h2 h3 F G : touch h1 h2 F -> touch h2 h3 G -> touch h1 h3 (fun q c => G q (F q c)).
  Proof.
    intros [A1 A2] [B1 B2]. split.
    - intros q. rewrite B1, A1. by destruct (h_stops h1 !! q).
    - intros p. by rewrite B2, A2.
  Qed.
  Lemma touch_len h h' F : touch h h' F -> length (h_stops h') = length (h_stops h) /\ length (h_pts h') = length (h_pts h).
  Proof.
    intros [H1 H2].
    assert (aux : forall A B (l : list A) (l' : list B), (forall q, is_Some (l !! q) <-> is_Some (l' !! q)) -> length l = length l').
    { intros A B l l' H. destruct (Nat.lt_trichotomy (length l) (length l')) as [Hlt|[?|Hlt]]; [|done|].
      - apply lookup_lt_is_Some_2, H, lookup_lt_is_Some_1 in Hlt. lia.
      - apply lookup_lt_is_Some_2, H, lookup_lt_is_Some_1 in Hlt. lia. }
    split; apply aux; intros q.
    - rewrite H1. by rewrite fmap_is_Some.
    - rewrite <- (fmap_is_Some sk_pt), H2, fmap_is_Some. done.
  Qed.

  Definition clear_if (l : list nat) (q : nat) (c : stop) : stop :=
    if bool_decide (q ∈ l) then clear_caches c else c.
  Lemma clear_if_sk l q c : sk_stop (clear_if l q c) = sk_stop c.
  Proof. unfold clear_if. by case_bool_decide. Qed.
  Lemma clear_if_weaker l q c : weaker (clear_if l q c) c.
  Proof. unfold clear_if. case_bool_decide; [|apply weaker_refl]. unfold weaker. cbn. auto. Qed.
  Lemma clear_if_in l q c : q ∈ l -> cleared (clear_if l q c).
  Proof. intros H. unfold clear_if. by rewrite bool_decide_eq_true_2. Qed.
  Lemma clear_if_out l q c : q ∉ l -> clear_if l q c = c.
  Proof. intros H. unfold clear_if. by rewrite bool_decide_eq_false_2. Qed.

  Lemma iter_pt_flush l h :
    runs (iterM pt_flush l) h (fun _ h' => h_stops h' = h_stops h /\ h_routes h' = h_routes h /\
      h_tick h' = h_tick h /\ (forall p, sk_pt <$> h_pts h' !! p = sk_pt <$> h_pts h !! p)).
  Proof.
    revert h. induction l as [|p l IH]; intros h; [done|]. cbn [iterM]. step. apply runs_pt_upd.
    eapply runs_mono; [apply IH|]. cbn. intros ? h' (E1 & E2 & E3 & E4).
    split; [done|]. split; [done|]. split; [done|]. intros q. rewrite E4.
    destruct (decide (q = p)) as [->|Hne].
    - rewrite list_lookup_alter. by destruct (h_pts h !! p) as [[]|].
    - by rewrite list_lookup_alter_ne.
  Qed.
  Lemma iter_stop_flush l h :
    (forall s, s ∈ l -> is_Some (h_stops h !! s)) ->
    runs (iterM stop_flush l) h (fun _ h' => touch h h' (clear_if l) /\
      h_routes h' = h_routes h /\ h_tick h' = h_tick h).
  Proof.
    revert h. induction l as [|s l IH]; intros h Ha.
    { apply runs_ret. split; [|done]. split; [|done]. intros q.
      destruct (h_stops h !! q); [|done]. cbn. by rewrite clear_if_out by apply not_elem_of_nil. }
    cbn [iterM]. destruct (Ha s) as [c Hc]; [left|].
    step. unfold stop_flush at 1. step. apply runs_stop_upd. step.
    eapply runs_stop_get; [cbn; rewrite list_lookup_alter, Hc; done|].
    eapply runs_mono; [apply iter_pt_flush|]. cbn [h_stops h_routes h_tick h_pts with_stops].
    intros ? h1 (E1 & E2 & E3 & E4).
    assert (T1 : touch h h1 (clear_if [s])).
    { split; [|done]. intros q. rewrite E1. destruct (decide (q = s)) as [->|Hne].
      - rewrite list_lookup_alter, Hc. cbn. unfold clear_if. by rewrite bool_decide_eq_true_2 by left.
      - rewrite list_lookup_alter_ne by done. destruct (h_stops h !! q); [|done]. cbn.
        rewrite clear_if_out; [done|]. by intros ->%elem_of_list_singleton. }
    eapply runs_mono; [apply IH|].
    - intros q Hq. destruct T1 as [T1 _]. rewrite T1, fmap_is_Some. apply Ha. by right.
    - cbn. intros ? h2 (T2 & E2' & E3'). split; [|split; congruence].
      pose proof (touch_trans _ _ _ _ _ T1 T2) as [T3 T4]. split; [|done].
      intros q. rewrite T3. destruct (h_stops h !! q) as [d|]; [|done]. cbn. f_equal.
      unfold clear_if. destruct (decide (q = s)) as [->|Hne].
      + rewrite (bool_decide_eq_true_2 (s ∈ s :: l)) by left.
        rewrite (bool_decide_eq_true_2 (s ∈ [s])) by left. by case_bool_decide.
      + rewrite (bool_decide_eq_false_2 (q ∈ [s])) by (by intros ->%elem_of_list_singleton).
        rewrite (bool_decide_ext (q ∈ s :: l) (q ∈ l)); [done|]. rewrite elem_of_cons. tauto.
  Qed.

  (** ** Lists *)
  Lemma insert_at_split {A} (X Y : list A) x n : length X = n -> list_insert_at n x (X ++ Y) = X ++ x :: Y.
  Proof. intros <-. unfold list_insert_at. by rewrite take_app, drop_app. Qed.
  Lemma remove_at_split {A} (X Y : list A) x n : length X = n -> list_remove_at n (X ++ x :: Y) = X ++ Y.
  Proof.
    intros <-. unfold list_remove_at. rewrite take_app. f_equal.
    replace (S (length X)) with (length (X ++ [x])) by (rewrite app_length; cbn; lia).
    replace (X ++ x :: Y) with ((X ++ [x]) ++ Y) by (by rewrite <- app_assoc). by rewrite drop_app.
  Qed.
  Lemma insert_at_length {A} n (x : A) l : length (list_insert_at n x l) = S (length l).
  Proof. unfold list_insert_at. rewrite app_length. cbn. rewrite take_length, drop_length. lia. Qed.
  Lemma insert_at_perm {A} n (x : A) l : list_insert_at n x l ≡ₚ x :: l.
  Proof. unfold list_insert_at. rewrite <- Permutation_middle. by rewrite take_drop. Qed.
  Lemma insert_at_sublist {A} n (x : A) l : l `sublist_of` list_insert_at n x l.
  Proof.
    unfold list_insert_at. rewrite <- (take_drop n l) at 1. apply sublist_app; [done|]. by constructor.
  Qed.
  Lemma elem_of_insert_at {A} n (x y : A) l : y ∈ list_insert_at n x l <-> y = x \/ y ∈ l.
  Proof. rewrite insert_at_perm. by rewrite elem_of_cons. Qed.
  Lemma lookup_split {A} (l : list A) k q : l !! k = Some q -> exists X Y, l = X ++ q :: Y /\ length X = k.
  Proof.
    intros H. exists (take k l), (drop (S k) l). split; [by rewrite take_drop_middle|].
    rewrite take_length. apply lookup_lt_Some in H. lia.
  Qed.
  Lemma lookup_split2 {A} (l : list A) k q f : l !! k = Some q -> l !! S k = Some f ->
    exists X Y, l = X ++ q :: f :: Y /\ length X = k.
  Proof.
    intros H1 H2. apply lookup_split in H1 as (X & Y & -> & Hl). exists X.
    rewrite lookup_app_r in H2 by lia. replace (S k - length X)%nat with 1%nat in H2 by lia.
    destruct Y as [|f' Y]; [done|]. injection H2 as ->. eauto.
  Qed.

  (** ** insert_stop_at *)
  Definition relink (f s : nat) (l : list nat) (q : nat) (c : stop) : stop :=
    clear_if l q (if decide (q = f) then set_previous (Some s) c else c).
  Lemma relink_other f s l q c : q <> f -> relink f s l q c = clear_if l q c.
  Proof. intros H. unfold relink. by rewrite decide_False. Qed.
  Lemma relink_at f s l c : relink f s l f c = clear_if l f (set_previous (Some s) c).
  Proof. unfold relink. by rewrite decide_True. Qed.

  Lemma insert_stop_at_runs h r v ids L k q f s cs :
    RouteP h r v ids L -> ids !! k = Some q -> ids !! S k = Some f -> s ∉ ids ->
    h_stops h !! s = Some cs -> st_vehicle cs = v -> st_previous cs = Some q -> known h cs ->
    (forall p, p ∈ st_pickups cs -> p ∉ st_deliveries cs) ->
    runs (insert_stop_at r (S k) s) h (fun x h' =>
      RouteP h' r v (list_insert_at (S k) s ids) (list_insert_at (S k) (abs h cs) L) /\
      touch h h' (relink f s (s :: drop (S k) ids)) /\
      h_routes h' = alter (set_route_stops (list_insert_at (S k) s ids)) r (h_routes h) /\
      h_tick h' = h_tick h /\ last ids = Some x).
  Proof.
    intros R Hq Hf Hs Hcs V Pr K Hdis.
    pose proof R as [(c & Hc & E1 & E2) HP].
    unfold insert_stop_at, route_stops. step. step. eapply runs_route_get; [exact Hc|]. apply runs_ret.
    rewrite E2. step. eapply runs_nth; [exact Hf|]. step. eapply runs_stop_get; [exact Hcs|].
    step. apply runs_assert.
    { apply bool_decide_eq_true. unfold set_diff. clear -Hdis.
      induction (st_pickups cs) as [|p l IH]; [done|]. rewrite filter_cons_True by (apply Hdis; left).
      f_equal. apply IH. intros p' Hp'. apply Hdis. by right. }
    step. apply runs_stop_upd. step. apply runs_route_upd. step.
    destruct (lookup_split2 _ _ _ _ Hq Hf) as (X & Y & -> & HX).
    assert (Eins : list_insert_at (S k) s (X ++ q :: f :: Y) = X ++ q :: s :: f :: Y).
    { replace (X ++ q :: f :: Y) with ((X ++ [q]) ++ f :: Y) by (by rewrite <- app_assoc).
      rewrite insert_at_split by (rewrite app_length; cbn; lia). by rewrite <- app_assoc. }
    assert (Edrop : drop (S k) (X ++ q :: s :: f :: Y) = s :: f :: Y).
    { replace (X ++ q :: s :: f :: Y) with ((X ++ [q]) ++ s :: f :: Y) by (by rewrite <- app_assoc).
      replace (S k) with (length (X ++ [q])) by (rewrite app_length; cbn; lia). by rewrite drop_app. }
    assert (Edrop0 : drop (S k) (X ++ q :: f :: Y) = f :: Y).
    { replace (X ++ q :: f :: Y) with ((X ++ [q]) ++ f :: Y) by (by rewrite <- app_assoc).
      replace (S k) with (length (X ++ [q])) by (rewrite app_length; cbn; lia). by rewrite drop_app. }
    rewrite Eins, Edrop, Edrop0.
    pose proof (RouteP_NoDup _ _ _ _ _ R) as Hnd.
    set (h1 := with_routes _ (with_stops _ h)).
    assert (Hst1 : forall p, h_stops h1 !! p = (fun c => if decide (p = f) then set_previous (Some s) c else c) <$> h_stops h !! p).
    { intros p. cbn. destruct (decide (p = f)) as [->|Hne].
      - rewrite list_lookup_alter. by destruct (h_stops h !! f).
      - rewrite list_lookup_alter_ne by done. by destruct (h_stops h !! p). }
    eapply runs_mono; [apply iter_stop_flush|].
    { intros p Hp. rewrite Hst1, fmap_is_Some. apply elem_of_cons in Hp as [->|Hp]; [by rewrite Hcs|].
      eapply RouteP_alloc; [exact R|]. set_solver. }
    intros ? h2 (T & ER & ET).
    assert (T' : touch h h2 (relink f s (s :: f :: Y))).
    { destruct T as [T1 T2]. split.
      - intros p. rewrite T1, Hst1. by destruct (h_stops h !! p).
      - intros p. by rewrite T2. }
    apply runs_ret. split; [|split; [done|split; [done|split; [done|]]]].
    2:{ rewrite !last_app_cons, !last_cons. by destruct (last Y). }
    assert (Hlen : length (X ++ q :: f :: Y) = length L) by (by eapply RouteP_length).
    apply Path_chain in HP.
    split.
    { exists (set_route_stops (X ++ q :: s :: f :: Y) c). split; [|done].
      rewrite ER. cbn. by rewrite list_lookup_alter, Hc. }
    replace (X ++ q :: f :: Y) with ((X ++ [q]) ++ f :: Y) in HP by (by rewrite <- app_assoc).
    apply chain_app_inv in HP as (A & B & -> & HlA & C1 & C2).
    rewrite last_or_snoc in C2. rewrite app_length in HlA. cbn in HlA.
    rewrite insert_at_split by lia.
    replace (X ++ q :: s :: f :: Y) with ((X ++ [q]) ++ s :: f :: Y) by (by rewrite <- app_assoc).
    apply NoDup_app in Hnd as (Hnd1 & Hnd2 & Hnd3).
    apply NoDup_cons in Hnd3 as [Hq3 Hnd3]. apply NoDup_cons in Hnd3 as [Hf3 Hnd3].
    assert (Hpre : forall p, p ∈ X ++ [q] -> p ∉ s :: f :: Y).
    { intros p Hp Hp'. rewrite elem_of_app, elem_of_list_singleton in Hp.
      apply elem_of_cons in Hp' as [->|Hp'].
      - apply Hs. set_solver.
      - destruct Hp as [Hp| ->]; [apply (Hnd2 p Hp); set_solver|done]. }
    pose proof (touch_ext _ _ _ T') as Hext. destruct T' as [T1 T2].
    apply chain_Path with (B := reverse A).
    - apply chain_app; [rewrite app_length; cbn; lia|]. rewrite last_or_snoc. split; [|cbn [chain]; split].
      + eapply chain_frame; [exact C1| |done]. intros p d Hp Hd. rewrite T1, Hd. cbn. eexists. split; [done|].
        specialize (Hpre p Hp). rewrite relink_other by set_solver. by rewrite clear_if_sk.
      + exists (clear_caches cs). rewrite T1, Hcs. cbn.
        rewrite relink_other by (intros ->; apply Hs; set_solver).
        unfold clear_if. rewrite bool_decide_eq_true_2 by left.
        split; [done|]. split; [done|]. split; [done|]. split; [eapply (known_grow h); eauto|].
        symmetry. by eapply abs_grow.
      + destruct B as [|xf B]; [done|]. cbn in C2. destruct C2 as [(cf & Hcf & Vf & Pf & Kf & ->) C2]. split.
        * exists (clear_caches (set_previous (Some s) cf)).
          split; [rewrite T1, Hcf; cbn; rewrite relink_at; unfold clear_if; by rewrite bool_decide_eq_true_2 by (right; left)|]. split; [done|]. split; [done|].
          split; [intros p Hp; eapply (known_grow h h2 cf cf Hext); eauto|].
          symmetry. transitivity (abs h2 cf); [done|]. by eapply abs_grow.
        * eapply chain_frame; [exact C2| |done]. intros p d Hp Hd. rewrite T1, Hd. cbn. eexists. split; [done|].
          rewrite relink_other by (intros ->; done). by rewrite clear_if_sk.
    - destruct R as [_ HP]. replace (X ++ q :: f :: Y) with ((X ++ [q]) ++ f :: Y) in HP by (by rewrite <- app_assoc).
      rewrite reverse_app in HP. apply Path_app_inv in HP as (A1 & A2 & E & Hl1 & HP).
      rewrite reverse_app in E. rewrite reverse_length in Hl1.
      apply app_inj_1 in E as [_ <-].
      2:{ rewrite reverse_length. rewrite !app_length in Hlen. cbn in *. lia. }
      eapply Path_frame; [exact HP| |done]. intros p d Hp Hd. rewrite T1, Hd. cbn. eexists. split; [done|].
      rewrite elem_of_reverse in Hp. specialize (Hpre p Hp). rewrite relink_other by set_solver.
      rewrite clear_if_out by done. split; [done|apply weaker_refl].
    - intros p d Hp Hd. rewrite T1 in Hd. destruct (h_stops h !! p); [|done]. injection Hd as <-.
      unfold relink. by apply clear_if_in.
  Qed.

  (** ** remove_stop_at *)
  Lemma relink_chain_sk f s l p d : p <> f -> sk_stop (relink f s l p d) = sk_stop d.
  Proof. intros H. by rewrite relink_other, clear_if_sk. Qed.
  Lemma remove_stop_at_runs h r v ids L k q s f :
    RouteP h r v ids L -> ids !! k = Some q -> ids !! S k = Some s -> ids !! S (S k) = Some f ->
    runs (remove_stop_at r (S k)) h (fun x h' =>
      RouteP h' r v (list_remove_at (S k) ids) (list_remove_at (S k) L) /\
      touch h h' (relink f q (drop (S (S k)) ids)) /\
      h_routes h' = alter (set_route_stops (list_remove_at (S k) ids)) r (h_routes h) /\
      h_tick h' = h_tick h /\ x = s).
  Proof.
    intros R Hq Hs Hf.
    pose proof R as [(c & Hc & E1 & E2) HP].
    unfold remove_stop_at, route_stops. step. step. eapply runs_route_get; [exact Hc|]. apply runs_ret.
    rewrite E2. step. eapply runs_nth; [exact Hq|]. step. eapply runs_nth; [exact Hf|].
    step. apply runs_stop_upd. step. eapply runs_nth; [exact Hs|]. step. apply runs_route_upd. step.
    destruct (lookup_split2 _ _ _ _ Hq Hs) as (X & Y0 & -> & HX).
    rewrite lookup_app_r in Hf by lia. replace (S (S k) - length X)%nat with 2%nat in Hf by lia.
    destruct Y0 as [|f' Y]; [done|]. cbn in Hf. injection Hf as ->.
    assert (Erem : list_remove_at (S k) (X ++ q :: s :: f :: Y) = X ++ q :: f :: Y).
    { replace (X ++ q :: s :: f :: Y) with ((X ++ [q]) ++ s :: f :: Y) by (by rewrite <- app_assoc).
      rewrite remove_at_split by (rewrite app_length; cbn; lia). by rewrite <- app_assoc. }
    assert (Edrop : drop (S k) (X ++ q :: f :: Y) = f :: Y).
    { replace (X ++ q :: f :: Y) with ((X ++ [q]) ++ f :: Y) by (by rewrite <- app_assoc).
      replace (S k) with (length (X ++ [q])) by (rewrite app_length; cbn; lia). by rewrite drop_app. }
    assert (Edrop0 : drop (S (S k)) (X ++ q :: s :: f :: Y) = f :: Y).
    { replace (X ++ q :: s :: f :: Y) with ((X ++ [q; s]) ++ f :: Y) by (by rewrite <- app_assoc).
      replace (S (S k)) with (length (X ++ [q; s])) by (rewrite app_length; cbn; lia). by rewrite drop_app. }
    rewrite Erem, Edrop, Edrop0.
    pose proof (RouteP_NoDup _ _ _ _ _ R) as Hnd.
    set (h1 := with_routes _ (with_stops _ h)).
    assert (Hst1 : forall p, h_stops h1 !! p = (fun c => if decide (p = f) then set_previous (Some q) c else c) <$> h_stops h !! p).
    { intros p. cbn. destruct (decide (p = f)) as [->|Hne].
      - rewrite list_lookup_alter. by destruct (h_stops h !! f).
      - rewrite list_lookup_alter_ne by done. by destruct (h_stops h !! p). }
    eapply runs_mono; [apply iter_stop_flush|].
    { intros p Hp. rewrite Hst1, fmap_is_Some. eapply RouteP_alloc; [exact R|]. set_solver. }
    intros ? h2 (T & ER & ET).
    assert (T' : touch h h2 (relink f q (f :: Y))).
    { destruct T as [T1 T2]. split.
      - intros p. rewrite T1, Hst1. by destruct (h_stops h !! p).
      - intros p. by rewrite T2. }
    apply runs_ret. split; [|split; [done|split; [done|split; [done|done]]]].
    assert (Hlen : length (X ++ q :: s :: f :: Y) = length L) by (by eapply RouteP_length).
    apply Path_chain in HP.
    split.
    { exists (set_route_stops (X ++ q :: f :: Y) c). split; [|done].
      rewrite ER. cbn. by rewrite list_lookup_alter, Hc. }
    replace (X ++ q :: s :: f :: Y) with ((X ++ [q]) ++ s :: f :: Y) in HP by (by rewrite <- app_assoc).
    apply chain_app_inv in HP as (A & B & -> & HlA & C1 & C2).
    rewrite last_or_snoc in C2. rewrite app_length in HlA. cbn in HlA.
    destruct B as [|xs B]; [done|]. rewrite remove_at_split by lia.
    destruct C2 as [_ C2].
    replace (X ++ q :: f :: Y) with ((X ++ [q]) ++ f :: Y) by (by rewrite <- app_assoc).
    apply NoDup_app in Hnd as (Hnd1 & Hnd2 & Hnd3).
    apply NoDup_cons in Hnd3 as [Hq3 Hnd3]. apply NoDup_cons in Hnd3 as [Hs3 Hnd3].
    apply NoDup_cons in Hnd3 as [Hf3 Hnd3].
    assert (Hpre : forall p, p ∈ X ++ [q] -> p ∉ f :: Y).
    { intros p Hp Hp'. rewrite elem_of_app, elem_of_list_singleton in Hp.
      destruct Hp as [Hp| ->]; [apply (Hnd2 p Hp); set_solver|set_solver]. }
    pose proof (touch_ext _ _ _ T') as Hext. destruct T' as [T1 T2].
    apply chain_Path with (B := reverse A).
    - apply chain_app; [rewrite app_length; cbn; lia|]. rewrite last_or_snoc. split.
      + eapply chain_frame; [exact C1| |done]. intros p d Hp Hd. rewrite T1, Hd. cbn. eexists. split; [done|].
        specialize (Hpre p Hp). apply relink_chain_sk. set_solver.
      + destruct B as [|xf B]; [done|]. cbn in C2. destruct C2 as [(cf & Hcf & Vf & Pf & Kf & ->) C2]. split.
        * exists (clear_caches (set_previous (Some q) cf)).
          split; [rewrite T1, Hcf; cbn; rewrite relink_at; unfold clear_if; by rewrite bool_decide_eq_true_2 by left|].
          split; [done|]. split; [done|].
          split; [intros p Hp; eapply (known_grow h h2 cf cf Hext); eauto|].
          symmetry. transitivity (abs h2 cf); [done|]. by eapply abs_grow.
        * eapply chain_frame; [exact C2| |done]. intros p d Hp Hd. rewrite T1, Hd. cbn. eexists. split; [done|].
          apply relink_chain_sk. by intros ->.
    - destruct R as [_ HP]. replace (X ++ q :: s :: f :: Y) with ((X ++ [q]) ++ s :: f :: Y) in HP by (by rewrite <- app_assoc).
      rewrite reverse_app in HP. apply Path_app_inv in HP as (A1 & A2 & E & Hl1 & HP).
      rewrite reverse_app in E. rewrite reverse_length in Hl1.
      apply app_inj_1 in E as [_ <-].
      2:{ rewrite reverse_length. rewrite !app_length in Hlen. cbn in *. lia. }
      eapply Path_frame; [exact HP| |done]. intros p d Hp Hd. rewrite T1, Hd. cbn. eexists. split; [done|].
      rewrite elem_of_reverse in Hp. specialize (Hpre p Hp). rewrite relink_other by set_solver.
      rewrite clear_if_out by done. split; [done|apply weaker_refl].
    - intros p d Hp Hd. rewrite T1 in Hd. destruct (h_stops h !! p); [|done]. injection Hd as <-.
      unfold relink. by apply clear_if_in.
  Qed.
  Lemma remove_last_raises h r v ids L :
    RouteP h r v ids L -> ids <> [] ->
    raises (remove_stop_at r (length ids - 1)) h IndexError (fun h' => h' = h).
  Proof.
    intros [(c & Hc & _ & E2) _] Hne. unfold remove_stop_at.
    apply raises_bind. unfold route_stops. step. eapply runs_route_get; [exact Hc|]. apply runs_ret. rewrite E2.
    assert (Hend : forall i (k : nat -> M nat), (length ids <= i)%nat -> raises (let! x := py_nth ids i in k x) h IndexError (fun h' => h' = h)).
    { intros i k Hi. apply raises_bind_l. unfold py_nth. by rewrite lookup_ge_None_2. }
    destruct (length ids - 1)%nat as [|j] eqn:Hj.
    - destruct ids as [|s ids]; [done|]. apply raises_bind. rewrite last_cons.
      destruct (last ids); apply runs_ret; apply Hend; cbn in *; lia.
    - apply raises_bind. destruct (lookup_lt_is_Some_2 ids j) as [q Hq]; [lia|].
      eapply runs_nth; [exact Hq|]. apply Hend. lia.
  Qed.

  (** ** insert_stop *)
  Lemma index_of_Some s l k : NoDup l -> l !! k = Some s -> index_of s l = Some k.
  Proof.
    revert k. induction l as [|x l IH]; intros k Hnd Hk; [done|]. apply NoDup_cons in Hnd as [Hx Hnd].
    cbn. destruct k as [|k]; cbn in Hk.
    - injection Hk as ->. by rewrite decide_True.
    - rewrite decide_False; [by rewrite (IH k)|]. intros ->. apply Hx. by eapply elem_of_list_lookup_2.
  Qed.
  Lemma index_of_None s l : s ∉ l -> index_of s l = None.
  Proof.
    induction l as [|x l IH]; intros Hs; [done|]. cbn. rewrite decide_False by set_solver.
    rewrite IH; [done|set_solver].
  Qed.
  Lemma insert_stop_runs h r v ids L k q f s cs :
    RouteP h r v ids L -> ids !! k = Some q -> ids !! S k = Some f -> s ∉ ids ->
    h_stops h !! s = Some cs -> st_vehicle cs = v -> st_previous cs = Some q -> known h cs ->
    (forall p, p ∈ st_pickups cs -> p ∉ st_deliveries cs) ->
    runs (insert_stop r s) h (fun x h' =>
      RouteP h' r v (list_insert_at (S k) s ids) (list_insert_at (S k) (abs h cs) L) /\
      touch h h' (relink f s (s :: drop (S k) ids)) /\
      h_routes h' = alter (set_route_stops (list_insert_at (S k) s ids)) r (h_routes h) /\
      h_tick h' = h_tick h /\ last ids = Some x).
  Proof.
    intros R Hq Hf Hs Hcs V Pr K Hdis. unfold insert_stop. step. eapply runs_stop_get; [exact Hcs|].
    rewrite Pr. step. pose proof R as [(c & Hc & E1 & E2) HP]. unfold route_stops. step.
    eapply runs_route_get; [exact Hc|]. apply runs_ret. rewrite E2.
    rewrite (index_of_Some q ids k); [|by eapply RouteP_NoDup|done].
    by eapply insert_stop_at_runs.
  Qed.
  Lemma insert_stop_unknown h r v ids L q s cs :
    RouteP h r v ids L -> h_stops h !! s = Some cs -> st_previous cs = Some q -> q ∉ ids ->
    raises (insert_stop r s) h PreviousStopNotInRouteException (fun h' => h' = h).
  Proof.
    intros [(c & Hc & E1 & E2) _] Hcs Pr Hq. unfold insert_stop.
    apply raises_bind. eapply runs_stop_get; [exact Hcs|]. rewrite Pr.
    apply raises_bind. unfold route_stops. step. eapply runs_route_get; [exact Hc|]. apply runs_ret.
    by rewrite E2, index_of_None.
  Qed.
  Lemma insert_stop_after_last h r v ids L q s cs :
    RouteP h r v ids L -> h_stops h !! s = Some cs -> st_previous cs = Some q -> last ids = Some q ->
    raises (insert_stop r s) h IndexError (fun h' => h' = h).
  Proof.
    intros R Hcs Pr Hq. pose proof R as [(c & Hc & E1 & E2) _]. unfold insert_stop.
    apply raises_bind. eapply runs_stop_get; [exact Hcs|]. rewrite Pr.
    apply raises_bind. unfold route_stops. step. eapply runs_route_get; [exact Hc|]. apply runs_ret.
    rewrite last_lookup in Hq.
    rewrite E2, (index_of_Some q ids (pred (length ids))); [|by eapply RouteP_NoDup|done].
    unfold insert_stop_at. apply raises_bind. unfold route_stops. step. eapply runs_route_get; [exact Hc|]. apply runs_ret.
    apply raises_bind_l. unfold py_nth. rewrite E2, lookup_ge_None_2; [done|]. lia.
  Qed.

  (** ** The sanity assertions *)
  Lemma consecutive_lookup ids i a b :
    consecutive ids !! i = Some (a, b) -> ids !! i = Some a /\ ids !! S i = Some b.
  Proof.
    unfold consecutive. intros H. apply lookup_zip_with_Some in H as (x & y & [= -> ->] & Hx & Hy).
    split; [done|]. destruct ids; [done|]. done.
  Qed.
  Lemma assert_linked_runs h r v ids L :
    RouteP h r v ids L -> runs (assert_linked r) h (fun _ h' => h' = h).
  Proof.
    intros R. pose proof R as [(c & Hc & E1 & E2) _]. unfold assert_linked. step.
    unfold route_stops. step. eapply runs_route_get; [exact Hc|]. apply runs_ret. rewrite E2. step.
    eapply runs_mono; [apply (runs_allM _ (fun h' => h' = h)); [done|]|].
    - intros [a b] h' Hin ->. apply elem_of_list_lookup in Hin as [i Hi].
      apply consecutive_lookup in Hi as [Ha Hb].
      destruct (RouteP_lookup _ _ _ _ _ _ _ R Hb) as (d & x & Hd & _ & _ & _ & _ & Pr & _).
      step. eapply runs_stop_get; [exact Hd|]. apply runs_ret. split; [done|].
      apply bool_decide_eq_true. rewrite Pr. cbn. by rewrite (take_S_r _ _ _ Ha), last_snoc.
    - intros b h' [-> ->]. done.
  Qed.
  Lemma timetable_next v L i Ti Tj :
    timetable v L !! i = Some Ti -> timetable v L !! S i = Some Tj -> tm_departure Ti <= tm_arrival Tj.
  Proof.
    intros HTi HTj.
    assert (Hj : is_Some (L !! S i)).
    { apply lookup_lt_is_Some. apply lookup_lt_Some in HTj. unfold timetable in HTj.
      by rewrite schedule_length in HTj. }
    assert (Hi : is_Some (L !! i)).
    { apply lookup_lt_is_Some. apply lookup_lt_is_Some in Hj. lia. }
    destruct Hi as [x Hx]. destruct Hj as [y Hy].
    rewrite (timetable_lookup v L i x Hx) in HTi. rewrite (timetable_lookup v L (S i) y Hy) in HTj.
    injection HTi as <-. injection HTj as <-. rewrite (take_S_r _ _ _ Hx), reverse_snoc.
    apply (back_le_arrival v y (x :: reverse (take i L))).
  Qed.
  Lemma assert_monotone_runs h r v ids L :
    RouteP h r v ids L -> runs (assert_monotone r) h (fun _ h' => quiet h h').
  Proof.
    intros R. pose proof R as [(c & Hc & E1 & E2) _]. unfold assert_monotone. step.
    unfold route_stops. step. eapply runs_route_get; [exact Hc|]. apply runs_ret. rewrite E2. step.
    eapply runs_mono; [apply (runs_allM _ (fun h' => quiet h h')); [apply quiet_refl|]|].
    - intros [a b] h1 Hin Q1. apply elem_of_list_lookup in Hin as [i Hi].
      apply consecutive_lookup in Hi as [Ha Hb]. cbn [fst snd].
      pose proof (RouteP_soft _ _ _ _ _ _ (quiet_soft _ _ Q1) R) as R1.
      destruct (RouteP_times _ _ _ _ _ _ _ R1 Ha) as (x & Tx & Hx & HTx & _ & _ & Gd & _).
      eapply gives_seq; [exact Gd|]. intros h2 Q2.
      pose proof (RouteP_soft _ _ _ _ _ _ (quiet_soft _ _ Q2) R1) as R2.
      destruct (RouteP_times _ _ _ _ _ _ _ R2 Hb) as (y & Ty & Hy & HTy & Ga & _).
      eapply gives_seq; [exact Ga|]. intros h3 Q3. apply runs_ret. split.
      + eapply quiet_trans; [exact Q1|]. eapply quiet_trans; eauto.
      + apply Z.leb_le. by eapply timetable_next.
    - intros b h' [Q ->]. by apply runs_ret.
  Qed.
End edit.
