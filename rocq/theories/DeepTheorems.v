(** Theorems about copying object by object (C90). *)
From Verif Require Export DeepProofs.

(** ** Within the limit (C90) *)
Section within.
  Context {W : World}.
  Lemma left_nil U : left_in U [] = length U.
  Proof. induction U; cbn; [done|by rewrite IHU]. Qed.
  Lemma deep_copies n h rs k : objects_of h rs k -> (k <= n)%nat ->
    exists rs' h', deepcopy_within n rs h = (Ok rs', h') /\ all_there h h' /\ NoDup rs' /\ Forall2 (own_copy h h') rs rs' /\ same_sharing h h' rs rs'.
  Proof.
    intros O Hk. destruct (objects_closed h rs k O) as (U & C & L & HU).
    assert (I0 : Inv h U h []).
    { split; [done|done|by intros x [y Hy]|done|done]. }
    assert (D0 : AllDone h h []) by (by intros z [y Hy]).
    edestruct (proj1 (runs_eq _ _ _) (copy_all_runs h U C n rs [] h I0 D0 ltac:(done) HU ltac:(rewrite left_nil; lia))) as (rs' & h' & E & m & I & D & _ & T & N & G & F).
    exists rs', h'. split; [done|]. split; [done|]. split; [done|]. split; cycle 1.
    { intros i j r q r' q' c d c' d' Hr Hq Hr' Hq' Hc Hd Hc' Hd' a b s t s' t' Hs Ht Hs' Ht'.
      destruct (Forall2_lookup_lr _ _ _ _ _ _ F Hr Hr') as (c1 & Hc1 & M1 & Hcell1). destruct (Forall2_lookup_lr _ _ _ _ _ _ F Hq Hq') as (d1 & Hd1 & M2 & Hcell2).
      rewrite Hc in Hc1. injection Hc1 as <-. rewrite Hd in Hd1. injection Hd1 as <-. rewrite Hc' in Hcell1. injection Hcell1 as ->.
      rewrite Hd' in Hcell2. injection Hcell2 as ->. cbn [rt_stops] in Hs', Ht'. unfold copied in Hs', Ht'.
      rewrite list_lookup_fmap, Hs in Hs'. rewrite list_lookup_fmap, Ht in Ht'. injection Hs' as <-. injection Ht' as <-.
      split; [|by intros ->]. destruct (M1 s) as [x Hx]; [by eapply elem_of_list_lookup_2|]. destruct (M2 t) as [y Hy]; [by eapply elem_of_list_lookup_2|].
      rewrite (image_get _ _ _ Hx), (image_get _ _ _ Hy). intros ->.
      assert (E1 : AtStop s = AtStop t) by (eapply (iv_inj _ _ _ _ I); [|exact Hx|exact Hy]; done). by injection E1. }
    apply Forall2_same_length_lookup_2; [by eapply Forall2_length|]. intros i r r' Hr Hr'.
    destruct (Forall2_lookup_lr _ _ _ _ _ _ F Hr Hr') as (c & Hc & M & Hcell).
    eapply copied_own; [exact C|exact I|exact D|done|done|done|]. apply G. by eapply elem_of_list_lookup_2.
  Qed.

  Lemma Copied_own h h' r r' c : Copied h h' -> h_routes h !! r = Some c -> h_routes h' !! r' = Some (CopyProofs.copy_cell h c) ->
    (length (h_routes h) <= r')%nat -> own_copy h h' r r'.
  Proof.
    intros HC Hc Hr' Hl. pose proof HC as (E1 & E2 & _). split; [by apply lookup_ge_None|].
    split; [intros c' Hc'; rewrite Hr' in Hc'; by injection Hc' as <-|].
    intros v ids xs R. apply well_formed_RouteW in R. exists (map (up h) ids).
    assert (Cell : forall s, s ∈ ids -> exists cs, h_stops h !! s = Some cs /\ h_stops h' !! up h s = Some (shift_stop (length (h_stops h)) (length (h_pts h)) cs)).
    { intros s Hs. destruct (RouteW_ids_alloc _ _ _ _ _ s R Hs) as [cs Hcs]. exists cs. split; [done|]. by rewrite E1, doubled_stop, Hcs. }
    split; [|split; [|split]].
    - apply well_formed_RouteW. destruct R as [(c' & Hc' & Hv & Hids) HP HR HL]. assert (c' = c) as -> by congruence. split.
      + exists (CopyProofs.copy_cell h c). cbn. by rewrite Hv, Hids.
      + rewrite <- fmap_reverse. eapply Path_frame; [by apply doubled_path| |].
        * intros s cs _ Hs. exists cs. rewrite E1. split; [done|]. split; [done|apply weaker_refl].
        * by apply pts_ext_eq.
      + done.
      + intros s cs Hs Hcs. rewrite E1 in Hcs. rewrite E1, E2. by apply (doubled_links h v ids HL).
    - apply Forall2_same_length_lookup_2; [by rewrite map_length|]. intros i s s' Hs Hs'. rewrite list_lookup_fmap, Hs in Hs'. injection Hs' as <-.
      apply elem_of_list_lookup_2 in Hs. destruct (Cell s Hs) as (cs & H1 & H2). eexists _, _. split; [exact H1|]. split; [exact H2|].
      do 5 (split; [done|]). apply Forall2_same_length_lookup_2; [cbn; by rewrite map_length|].
      intros k p p' Hp Hp'. cbn [shift_stop st_pickups] in Hp'. rewrite list_lookup_fmap, Hp in Hp'. injection Hp' as <-. apply elem_of_list_lookup_2 in Hp.
      destruct (rw_links _ _ _ _ _ R s cs Hs H1) as [HL _]. destruct (HL p Hp) as (_ & _ & pc & _ & _ & _ & Hpc & _).
      exists pc, (shift_pt (length (h_stops h)) pc). split; [done|]. split; [by rewrite E2, doubled_pt, Hpc|done].
    - intros s' (s & -> & _)%elem_of_list_fmap. apply lookup_ge_None. unfold up. lia.
    - intros s' c' p (s & -> & Hs)%elem_of_list_fmap Hc' Hp. destruct (Cell s Hs) as (cs & H1 & H2). rewrite H2 in Hc'. injection Hc' as <-.
      cbn [shift_stop st_pickups st_deliveries] in Hp. rewrite <- map_app in Hp. apply elem_of_list_fmap in Hp as (q & -> & _). apply lookup_ge_None. lia.
  Qed.
  Lemma deep_at_once h rs : (forall r, r ∈ rs -> is_Some (h_routes h !! r)) ->
    exists rs' h', deepcopy_routes rs h = (Ok rs', h') /\ all_there h h' /\ NoDup rs' /\ Forall2 (own_copy h h') rs rs' /\ same_sharing h h' rs rs'.
  Proof.
    intros Hr. destruct (proj1 (runs_eq _ _ _) (deepcopy_runs h rs Hr)) as (rs' & h' & E & HC & -> & F). eexists _, h'. split; [exact E|].
    split; [|split; [apply NoDup_seq|split]].
    - destruct HC as (E1 & E2 & _ & N & E3 & _). split; [|split].
      + intros s c Hs. rewrite E1. by apply doubled_old_stop.
      + intros s c Hs. rewrite E2. by apply doubled_old_pt.
      + intros s c Hs. rewrite E3. by apply lookup_app_l_Some.
    - apply Forall2_same_length_lookup_2; [by eapply Forall2_length|]. intros i r r' Hi Hi'.
      destruct (Forall2_lookup_lr _ _ _ _ _ _ F Hi Hi') as (c & Hc & Hcell). eapply Copied_own; [done|done|done|].
      apply lookup_seq in Hi' as [-> _]. lia.
    - intros i j r q r' q' c d c' d' Hi Hj Hi' Hj' Hc Hd Hc' Hd' a b s t s' t' Hs Ht Hs' Ht'.
      destruct (Forall2_lookup_lr _ _ _ _ _ _ F Hi Hi') as (c1 & Hc1 & Hcell1). destruct (Forall2_lookup_lr _ _ _ _ _ _ F Hj Hj') as (d1 & Hd1 & Hcell2).
      rewrite Hc in Hc1. injection Hc1 as <-. rewrite Hd in Hd1. injection Hd1 as <-. rewrite Hc' in Hcell1. injection Hcell1 as ->.
      rewrite Hd' in Hcell2. injection Hcell2 as ->. cbn [CopyProofs.copy_cell rt_stops] in Hs', Ht'.
      rewrite list_lookup_fmap, Hs in Hs'. rewrite list_lookup_fmap, Ht in Ht'. injection Hs' as <-. injection Ht' as <-. unfold up. lia.
  Qed.
End within.

(** ** A higher limit (C90) *)
Definition lower {A} (a b : res A * heap) : Prop := fst a = Raise RecursionError \/ a = b.
Lemma lower_bind {A B} (a b : M A) (k k' : A -> M B) h : lower (a h) (b h) -> (forall x h', lower (k x h') (k' x h')) ->
  lower (bind a k h) (bind b k' h).
Proof.
  intros [E|E] H; unfold bind.
  - destruct (a h) as [x h1]. cbn in E. subst x. by left.
  - rewrite E. destruct (b h) as [[x|e] h1]; [apply H|by right].
Qed.
Lemma lower_foldM {A B} (f g : B -> A -> M B) l : (forall b x h, lower (f b x h) (g b x h)) -> forall b h, lower (foldM f b l h) (foldM g b l h).
Proof.
  intros H. induction l as [|x l IH]; intros b h; [by right|]. cbn [foldM]. apply lower_bind; [apply H|]. intros y h'. apply IH.
Qed.
Lemma lower_object n : forall k m x h, (n <= k)%nat -> lower (copy_object n m x h) (copy_object k m x h).
Proof.
  induction n as [|n IH]; intros k m x h Hk.
  - destruct k; cbn [copy_object]; destruct (memo_get x m); try (by right); by left.
  - destruct k as [|k]; [lia|]. cbn [copy_object]. destruct (memo_get x m); [by right|].
    destruct x as [s|p]; (apply lower_bind; [by right|]); intros c h1; (apply lower_bind; [by right|]); intros y h2;
      (apply lower_bind; [apply lower_foldM; intros; apply IH; lia|]); intros; by right.
Qed.
Section limit.
  Context {W : World}.
  Lemma lower_all n k : (n <= k)%nat -> forall rs m h, lower (copy_all n m rs h) (copy_all k m rs h).
  Proof.
    intros Hk. induction rs as [|r rs IH]; intros m h; [by right|]. cbn [copy_all]. apply lower_bind.
    - unfold copy_route. apply lower_bind; [by right|]. intros c h1. apply lower_bind; [by right|]. intros r' h2.
      apply lower_bind; [apply lower_foldM; intros; by apply lower_object|]. intros; by right.
    - intros [r' m'] h'. apply lower_bind; [apply IH|]. intros; by right.
  Qed.
  Lemma deep_limit n k h rs : (n <= k)%nat ->
    fst (deepcopy_within n rs h) = Raise RecursionError \/ deepcopy_within n rs h = deepcopy_within k rs h.
  Proof. intros Hk. apply (lower_all n k Hk). Qed.

  (** ** Too deep (C90) *)
  Lemma refers_stop h s l : refers h (AtStop s) l <-> exists c, h_stops h !! s = Some c /\ l = stop_refs c.
  Proof. unfold refers, stop_refs. split; intros (c & Hc & ->); exists c; (split; [done|]); by destruct (st_previous c). Qed.
  Lemma refers_pt h p l : refers h (AtPlanned p) l <-> exists c, h_pts h !! p = Some c /\ l = pt_refs c.
  Proof. unfold refers, pt_refs. split; intros (c & Hc & ->); exists c; (split; [done|]); by destruct (pt_pickup c), (pt_delivery c). Qed.
  Lemma refers_more h h' x l : (forall s c, h_stops h !! s = Some c -> h_stops h' !! s = Some c) ->
    (forall s c, h_pts h !! s = Some c -> h_pts h' !! s = Some c) -> refers h x l -> refers h' x l.
  Proof. intros H1 H2. destruct x; intros (c & Hc & ->); exists c; auto. Qed.
  Lemma trail_more h h' : (forall s c, h_stops h !! s = Some c -> h_stops h' !! s = Some c) ->
    (forall s c, h_pts h !! s = Some c -> h_pts h' !! s = Some c) -> forall seen x l, trail h seen x l -> trail h' seen x l.
  Proof.
    intros H1 H2. induction 1 as [seen x l Hx Hr|seen x l1 y l2 l Hx Hr Hl T IH].
    - eapply trail_end; [done|]. by eapply refers_more.
    - eapply trail_on; [done|by eapply refers_more|done|done].
  Qed.
  Lemma foldM_met n m l : (forall z, z ∈ l -> met m z) -> forall h l2, foldM (copy_object n) m (l ++ l2) h = foldM (copy_object n) m l2 h.
  Proof.
    induction l as [|z l IH]; intros H h l2; [done|]. cbn [app foldM]. destruct (H z) as [w Hw]; [left|].
    unfold bind at 1. destruct n; cbn [copy_object]; rewrite Hw; cbn; (rewrite IH; [done|]); intros q Hq; apply H; by right.
  Qed.
  Lemma trail_fails l : forall n m seen x h, trail h seen x l -> (forall z, met m z <-> z ∈ seen) -> (n < length l)%nat ->
    fst (copy_object n m x h) = Raise RecursionError.
  Proof.
    induction l as [|x0 l IH]; intros n m seen x h T Hm Hn; [cbn in Hn; lia|].
    assert (Hx : memo_get x m = None).
    { destruct (memo_get x m) eqn:E; [|done]. exfalso. assert (x ∈ seen) by (apply Hm; eexists; exact E). inversion T; by subst. }
    destruct n as [|n]; cbn [copy_object]; rewrite Hx; [done|]. cbn in Hn.
    inversion T as [? ? ? ? ?|? ? l1 y l2 ? Hx1 Hr Hl T1]; subst; [cbn in Hn; lia|].
    assert (Hm' : forall y', (forall z, met ((x0, y') :: m) z <-> z ∈ x0 :: seen)).
    { intros y' z. rewrite elem_of_cons, <- Hm. unfold met. destruct (decide (z = x0)) as [->|N].
      - rewrite memo_get_here. split; [by left|by eexists].
      - rewrite memo_get_other by done. split; [by right|by intros [?|?]]. }
    destruct x0 as [s|p].
    - apply refers_stop in Hr as (c & Hc & E). unfold bind at 1, stop_get. rewrite Hc. unfold bind at 1. cbn [alloc_stop fst snd].
      unfold bind at 1. rewrite <- E, foldM_met; [|intros z Hz; apply Hm'; by apply Hl]. cbn [foldM].
      match goal with |- context [bind (copy_object n ?m1 y) ?k ?h1] => assert (F : fst (copy_object n m1 y h1) = Raise RecursionError) end.
      { eapply IH; [|apply Hm'|lia]. eapply trail_more; [| |exact T1]; cbn; [|done]. intros q d Hq. by apply lookup_app_l_Some. }
      unfold bind at 1. destruct (copy_object n _ y _) as [a h1]. cbn in F. by subst a.
    - apply refers_pt in Hr as (c & Hc & E). unfold bind at 1, pt_get. rewrite Hc. unfold bind at 1. cbn [alloc_pt fst snd].
      unfold bind at 1. rewrite <- E, foldM_met; [|intros z Hz; apply Hm'; by apply Hl]. cbn [foldM].
      match goal with |- context [bind (copy_object n ?m1 y) ?k ?h1] => assert (F : fst (copy_object n m1 y h1) = Raise RecursionError) end.
      { eapply IH; [|apply Hm'|lia]. eapply trail_more; [| |exact T1]; cbn; [done|]. intros q d Hq. by apply lookup_app_l_Some. }
      unfold bind at 1. destruct (copy_object n _ y _) as [a h1]. cbn in F. by subst a.
  Qed.
  Lemma deep_deep n h r rs c a s ids l : h_routes h !! r = Some c -> rt_stops c = a :: s :: ids ->
    refers h (AtStop a) [] -> trail h [AtStop a] (AtStop s) l -> (n < length l)%nat ->
    fst (deepcopy_within n (r :: rs) h) = Raise RecursionError.
  Proof.
    intros Hc Hs Ha T Hn. unfold deepcopy_within. cbn [copy_all]. unfold bind at 1, copy_route, bind at 1, route_get. rewrite Hc.
    destruct (proj1 (runs_eq _ _ _) (new_route_runs (rt_vehicle c) h)) as (r' & h1 & E & -> & _ & Eh & _). unfold bind at 1. rewrite E. unfold bind at 1. rewrite Hs. cbn [map foldM].
    assert (S1 : forall q d, h_stops h !! q = Some d -> h_stops h1 !! q = Some d) by (rewrite Eh; cbn; intros q d Hq; by apply lookup_app_l_Some).
    assert (P1 : forall q d, h_pts h !! q = Some d -> h_pts h1 !! q = Some d) by (by rewrite Eh).
    destruct n as [|n]; [done|]. apply refers_stop in Ha as (ca & Hca & Ea).
    pose (m1 := [(AtStop a, length (h_stops h1))] : memo).
    pose (h2 := with_stops (alter (fun _ => renamed_stop m1 ca) (length (h_stops h1))) (with_stops (fun l => l ++ [blank_stop]) h1)).
    assert (E1 : copy_object (S n) [] (AtStop a) h1 = (Ok m1, h2)).
    { cbn [copy_object memo_get]. unfold bind at 1, stop_get at 1. rewrite (S1 _ _ Hca). by rewrite <- Ea. }
    unfold bind at 1. rewrite E1. unfold bind at 1.
    assert (F : fst (copy_object (S n) m1 (AtStop s) h2) = Raise RecursionError).
    { eapply (trail_fails l); [| |exact Hn].
      - eapply trail_more; [| |exact T]; cbn.
        + intros q d Hq. apply S1 in Hq. rewrite list_lookup_alter_ne; [by apply lookup_app_l_Some|]. apply lookup_lt_Some in Hq. lia.
        + exact P1.
      - intros z. rewrite elem_of_list_singleton. unfold met, m1. destruct (decide (z = AtStop a)) as [->|N].
        + rewrite memo_get_here. split; [done|by eexists].
        + rewrite memo_get_other by done. split; [by intros [? ?]|done]. }
    destruct (copy_object (S n) m1 (AtStop s) h2) as [x h3]. cbn [fst] in F. by subst x.
  Qed.
End limit.

Lemma c90_copies : forall (W : World) n h rs k,
  objects_of h rs k -> (k <= n)%nat ->
  exists rs' h', deepcopy_within n rs h = (Ok rs', h') /\ all_there h h' /\ NoDup rs' /\ Forall2 (own_copy h h') rs rs' /\ same_sharing h h' rs rs'.
Proof. exact (@deep_copies). Qed.
Lemma c90_at_once : forall (W : World) h rs,
  (forall r, r ∈ rs -> is_Some (h_routes h !! r)) ->
  exists rs' h', deepcopy_routes rs h = (Ok rs', h') /\ all_there h h' /\ NoDup rs' /\ Forall2 (own_copy h h') rs rs' /\ same_sharing h h' rs rs'.
Proof. exact (@deep_at_once). Qed.
Lemma c90_limit : forall (W : World) n k h rs,
  (n <= k)%nat ->
  fst (deepcopy_within n rs h) = Raise RecursionError \/ deepcopy_within n rs h = deepcopy_within k rs h.
Proof. exact (@deep_limit). Qed.
Lemma c90_deep : forall (W : World) n h r rs c a s ids l,
  h_routes h !! r = Some c -> rt_stops c = a :: s :: ids ->
  refers h (AtStop a) [] -> trail h [AtStop a] (AtStop s) l -> (n < length l)%nat ->
  fst (deepcopy_within n (r :: rs) h) = Raise RecursionError.
Proof. exact (@deep_deep). Qed.
