(** Copies of routes part by part: the vehicle is empty between the parts (C90). *)
From Verif Require Import RankingProofs.
From Verif Require Export DeepTheorems.

Lemma met_listed m x : met m x <-> x ∈ map fst m.
Proof.
  induction m as [|[z y] m IH]; cbn.
  - split; [by intros [? ?]|by intros ?%elem_of_nil].
  - rewrite elem_of_cons, <- IH. unfold met. destruct (decide (x = z)) as [->|N].
    + rewrite memo_get_here. split; [by left|by eexists].
    + rewrite memo_get_other by done. split; [by right|by intros [?|?]].
Qed.
Lemma left_app l1 l2 m : left_in (l1 ++ l2) m = (left_in l1 m + left_in l2 m)%nat.
Proof. induction l1 as [|x l1 IH]; cbn; [done|]. rewrite IH. lia. Qed.
Lemma left_le l m : (left_in l m <= length l)%nat.
Proof. induction l as [|x l IH]; cbn; [done|]. destruct (memo_get x m); lia. Qed.
Lemma left_met l m : (forall x, x ∈ l -> met m x) -> left_in l m = 0%nat.
Proof.
  induction l as [|x l IH]; intros H; [done|]. cbn. destruct (H x) as [y ->]; [left|]. rewrite IH; [done|]. intros z Hz. apply H. by right.
Qed.

Section parts.
  Context {W : World} (h0 : heap).
  (** objects met are finished; what is met is all that counts *)
  Definition Good (h : heap) (m : memo) : Prop := Inv h0 (map fst m) h m /\ AllDone h0 h m.
  Lemma Inv_any U V h m : Inv h0 U h m -> (forall x, met m x -> x ∈ V) -> Inv h0 V h m.
  Proof. intros I H. split; try apply I. exact H. Qed.
  Lemma Inv_Good U h m : Inv h0 U h m -> AllDone h0 h m -> Good h m.
  Proof. intros I D. split; [|done]. eapply Inv_any; [exact I|]. intros x. apply met_listed. Qed.
  Lemma Good_closed h m : Good h m -> closed h0 (map fst m).
  Proof.
    intros [_ D] x Hx. apply met_listed in Hx. destruct (D x Hx) as (y & Hy & H).
    destruct x; destruct H as (c & Hc & _ & Hr); exists c; (split; [done|]); intros z Hz; by apply met_listed, Hr.
  Qed.
  Lemma Good_there h h' m : all_there h h' -> Good h m -> Good h' m.
  Proof. intros T [I D]. split; [by eapply Inv_there|]. intros z Hz. eapply Done_there; [exact T|]. by apply D. Qed.

  Lemma part_runs n S l m h : Good h m -> (forall x, x ∈ S -> refs_in h0 x (fun z => z ∈ S \/ met m z)) ->
    (forall z, z ∈ l -> z ∈ S) -> (length S <= n)%nat ->
    runs (foldM (copy_object n) m l) h (fun m' h' => Good h' m' /\ Ext h h' /\ wider m m' /\ forall z, z ∈ l -> met m' z).
  Proof.
    intros G HS Hl Hn. pose (U := S ++ map fst m). pose proof G as [I D].
    assert (C : closed h0 U).
    { intros x [Hx|Hx]%elem_of_app.
      - eapply refs_in_mono; [|by apply HS]. cbn. intros z [Hz|Hz]; apply elem_of_app; [by left|right; by apply met_listed].
      - eapply refs_in_mono; [|by apply (Good_closed _ _ G)]. cbn. intros z Hz. apply elem_of_app. by right. }
    assert (I' : Inv h0 U h m) by (eapply Inv_any; [exact I|]; intros x Hx; apply elem_of_app; right; by apply met_listed).
    eapply runs_mono; [apply (copy_list_runs h0 U n (copy_object_runs h0 U C n) l m h I')|].
    - intros z Hz. apply elem_of_app. left. by apply Hl.
    - unfold U. rewrite left_app, (left_met (map fst m)) by (intros x; apply met_listed). pose proof (left_le S m). lia.
    - cbn beta. intros m' h' (I2 & E2 & W2 & M2 & D2). split; [|done]. eapply Inv_Good; [exact I2|].
      intros z Hz. destruct (D2 z Hz) as [H|H]; [|done]. eapply Done_later; [exact E2|exact W2|by apply D].
  Qed.

  (** a part of a route: passengers board and alight within *)
  Definition objects (seg : list nat) : list object := map AtStop seg ++ map AtPlanned (pts_of h0 seg).
  Definition part_ok (n : nat) (before seg : list nat) : Prop :=
    (forall x, x ∈ objects seg -> refs_in h0 x (fun z => z ∈ objects seg \/ z ∈ map AtStop before)) /\ (length (objects seg) <= n)%nat.
  Lemma parts_run n segs : forall before m h, Good h m -> (forall s, s ∈ before -> met m (AtStop s)) ->
    (forall pre seg post, segs = pre ++ seg :: post -> part_ok n (before ++ concat pre) seg) ->
    runs (foldM (copy_object n) m (map AtStop (concat segs))) h (fun m' h' => Good h' m' /\ Ext h h' /\ wider m m' /\ forall s, s ∈ concat segs -> met m' (AtStop s)).
  Proof.
    induction segs as [|seg segs IH]; intros before m h G B P; cbn [concat].
    - cbn. apply runs_ret. split; [done|]. split; [done|]. split; [apply wider_refl|by intros s ?%elem_of_nil].
    - rewrite map_app. apply runs_foldM_app. destruct (P [] seg segs eq_refl) as [C L]. cbn [concat] in C. rewrite app_nil_r in C.
      eapply runs_mono; [apply (part_runs n (objects seg) (map AtStop seg) m h G)|].
      + intros x Hx. eapply refs_in_mono; [|by apply C]. cbn. intros z [Hz|(s & -> & Hs)%elem_of_list_fmap]; [by left|right; by apply B].
      + intros z Hz. apply elem_of_app. by left.
      + done.
      + cbn beta. intros m1 h1 (G1 & E1 & W1 & M1). eapply runs_mono; [apply (IH (before ++ seg) m1 h1 G1)|].
        * intros s [Hs|Hs]%elem_of_app; [eapply wider_met; [exact W1|by apply B]|]. apply M1. by apply elem_of_list_fmap_1.
        * intros pre seg' post E. rewrite <- app_assoc. apply (P (seg :: pre) seg' post). by rewrite E.
        * cbn beta. intros m2 h2 (G2 & E2 & W2 & M2). split; [done|]. split; [by eapply Ext_trans|]. split; [by eapply wider_trans|].
          intros s [Hs|Hs]%elem_of_app; [|by apply M2]. eapply wider_met; [exact W2|]. apply M1. by apply elem_of_list_fmap_1.
  Qed.
  Definition route_ok (n : nat) (c : route) : Prop :=
    exists segs, rt_stops c = concat segs /\ forall pre seg post, segs = pre ++ seg :: post -> part_ok n (concat pre) seg.

  Lemma copy_route_parts n r c m h : Good h m -> h_routes h !! r = Some c -> route_ok n c ->
    runs (copy_route n m r) h (fun p h' => Good h' p.2 /\ wider m p.2 /\ all_there h h' /\
      p.1 = length (h_routes h) /\ (length (h_routes h) < length (h_routes h'))%nat /\ (forall s, s ∈ rt_stops c -> met p.2 (AtStop s)) /\
      h_routes h' !! p.1 = Some (MkRoute (rt_vehicle c) (copied p.2 (rt_stops c)) None)).
  Proof.
    intros G Hc (segs & Es & P). unfold copy_route. step. eapply runs_route_get; [exact Hc|]. step.
    eapply runs_mono; [apply new_route_runs|]. cbn beta. intros r' h1 (-> & _ & E1 & _).
    assert (U1 : all_there h h1).
    { rewrite E1. split; [|split]; cbn; [|done|]; intros z d Hz; by apply lookup_app_l_Some. }
    step. rewrite Es. eapply runs_mono; [apply (parts_run n segs [] m h1)|].
    { by eapply Good_there. }
    { by intros s ?%elem_of_nil. }
    { exact P. }
    cbn beta. intros m2 h2 (G2 & E2 & W2 & M2). unfold route_upd, bind, ret, runs. cbn [fst snd].
    set (h3 := with_routes _ h2). pose proof E2 as (E2s & E2p & E2r & _).
    assert (L2 : h_routes h2 = h_routes h ++ [MkRoute (rt_vehicle c) [length (h_stops h); S (length (h_stops h))] None]) by (rewrite E2r, E1; done).
    split; [destruct G2 as [I2 D2]; split; [split; [apply I2|apply I2|apply I2|intros x y Hy; exact (iv_new _ _ _ _ I2 _ _ Hy)|apply I2]|exact D2]|].
    split; [done|]. split.
    { split; [|split]; cbn.
      - intros z d Hz. by apply E2s, U1.
      - intros z d Hz. by apply E2p, U1.
      - intros z d Hz. assert (z < length (h_routes h))%nat by (by eapply lookup_lt_Some). rewrite list_lookup_alter_ne by lia.
        rewrite L2. by apply lookup_app_l_Some. }
    split; [done|]. split; [cbn; rewrite alter_length, L2, app_length; cbn; lia|].
    split; [done|]. cbn. rewrite list_lookup_alter, L2, lookup_app_r, Nat.sub_diag by lia. done.
  Qed.
  Lemma copy_all_parts n rs : forall m h, Good h m ->
    (forall r c, h_routes h0 !! r = Some c -> h_routes h !! r = Some c) ->
    (forall r, r ∈ rs -> exists c, h_routes h0 !! r = Some c /\ route_ok n c) ->
    runs (copy_all n m rs) h (fun rs' h' => exists m', Good h' m' /\ wider m m' /\ all_there h h' /\ NoDup rs' /\
      (forall r', r' ∈ rs' -> (length (h_routes h) <= r')%nat) /\
      Forall2 (fun r r' => exists c, h_routes h0 !! r = Some c /\ (forall s, s ∈ rt_stops c -> met m' (AtStop s)) /\
        h_routes h' !! r' = Some (MkRoute (rt_vehicle c) (copied m' (rt_stops c)) None)) rs rs').
  Proof.
    induction rs as [|r rs IH]; intros m h G HR Hr; cbn [copy_all].
    { apply runs_ret. exists m. split; [done|]. split; [apply wider_refl|]. split; [done|]. split; [constructor|]. split; [by intros r' ?%elem_of_nil|constructor]. }
    destruct (Hr r) as (c & Hc & Hs); [left|]. step. eapply runs_mono; [apply (copy_route_parts n r c m h G); [by apply HR|done]|]. cbn beta.
    intros [r' m1] h1. cbn [fst snd]. intros (G1 & W1 & U1 & -> & Lt & M1 & C1).
    step. eapply runs_mono; [apply (IH m1 h1 G1); [intros q d Hd; by apply U1, HR|intros q Hq; apply Hr; by right]|].
    cbn beta. intros rs' h2 (m2 & G2 & W2 & U2 & N2 & L2 & F2). apply runs_ret. exists m2.
    split; [done|]. split; [by eapply wider_trans|]. split; [by eapply there_trans|].
    split; [constructor; [|done]; intros Hin; specialize (L2 _ Hin); lia|].
    split; [intros r' [->|Hin]%elem_of_cons; [done|]; specialize (L2 _ Hin); lia|]. constructor; [|done].
    exists c. split; [done|]. split; [intros s Hin; eapply wider_met; [exact W2|by apply M1]|].
    assert (E : copied m2 (rt_stops c) = copied m1 (rt_stops c)) by (apply map_ext_in; intros s Hin%elem_of_list_In; apply image_wider; [done|by apply M1]).
    rewrite E. by apply U2.
  Qed.

  (** ** Parts of the visits are parts of the stops *)
  Definition stands (s : nat) (x : visit) : Prop := exists c, h_stops h0 !! s = Some c /\ x = abs h0 c.
  Lemma split_concat ids yss : Forall2 stands ids (concat yss) -> exists segs, ids = concat segs /\ Forall2 (Forall2 stands) segs yss.
  Proof.
    revert ids. induction yss as [|ys yss IH]; cbn; intros ids F.
    - apply Forall2_nil_inv_r in F as ->. exists []. split; [done|constructor].
    - apply Forall2_app_inv_r in F as (k1 & k2 & F1 & F2 & ->). destruct (IH _ F2) as (segs & -> & F3). exists (k1 :: segs). split; [done|by constructor].
  Qed.
  Lemma stands_boards seg ys : Forall2 stands seg ys -> boards ys = map (trip_of h0) (pts_of h0 seg).
  Proof.
    induction 1 as [|s x seg ys (c & Hc & ->) F IH]; [done|]. unfold pts_of, boards in *. cbn [flat_map]. rewrite Hc, map_app, <- IH. done.
  Qed.
  Lemma route_parts n r v ids L c : RouteW h0 r v ids L -> h_routes h0 !! r = Some c -> in_parts n L -> route_ok n c.
  Proof.
    intros R Hc (yss & -> & FY). destruct (rw_cell _ _ _ _ _ R) as (c' & Hc' & _ & Ei). rewrite Hc in Hc'. injection Hc' as <-.
    assert (F : Forall2 stands ids (concat yss)).
    { apply Forall2_same_length_lookup_2; [by eapply RouteW_length|]. intros i s x Hs Hx.
      destruct (RouteW_lookup _ _ _ _ _ _ _ R Hs) as (d & y & Hd & Hy & -> & _). rewrite Hx in Hy. injection Hy as ->. by exists d. }
    destruct (split_concat ids yss F) as (segs & Es & FS). exists segs. split; [by rewrite Ei|].
    intros pre seg post E. rewrite E in FS. apply Forall2_app_inv_l in FS as (yss1 & yss2 & _ & FS & Ey).
    apply Forall2_cons_inv_l in FS as (ys & yss3 & Fy & _ & ->). subst yss.
    apply Forall_app in FY as [_ FY]. apply Forall_cons in FY as [[Perm Len] _].
    assert (Eids : ids = concat pre ++ seg ++ concat post) by (rewrite Es, E, concat_app; done).
    assert (Sub : forall s, s ∈ seg -> s ∈ ids) by (intros s Hs; rewrite Eids, !elem_of_app; auto).
    (* who alights where *)
    assert (Same : forall d d' dc dc' p p', d ∈ ids -> d' ∈ ids -> h_stops h0 !! d = Some dc -> h_stops h0 !! d' = Some dc' ->
      p ∈ st_deliveries dc -> p' ∈ st_deliveries dc' -> trip_of h0 p = trip_of h0 p' -> d = d').
    { intros d d' dc dc' p p' [j Hj]%elem_of_list_lookup [j' Hj']%elem_of_list_lookup Hd Hd' Hp Hp' Et.
      destruct (RouteW_lookup _ _ _ _ _ _ _ R Hj) as (e & x & He & Hx & -> & _). destruct (RouteW_lookup _ _ _ _ _ _ _ R Hj') as (e' & x' & He' & Hx' & -> & _).
      rewrite Hd in He. injection He as <-. rewrite Hd' in He'. injection He' as <-.
      assert (j = j'); [|congruence]. eapply (flat_map_NoDup_lookup vi_alight _ j j' _ _ (trip_of h0 p)); [|exact Hx|exact Hx'| |].
      - apply (rides_alights_nodup _ (rw_rides _ _ _ _ _ R)).
      - cbn. by apply elem_of_list_fmap_1.
      - cbn. rewrite Et. by apply elem_of_list_fmap_1. }
    assert (SameB : forall d d' dc dc' p p', d ∈ ids -> d' ∈ ids -> h_stops h0 !! d = Some dc -> h_stops h0 !! d' = Some dc' ->
      p ∈ st_pickups dc -> p' ∈ st_pickups dc' -> trip_of h0 p = trip_of h0 p' -> d = d').
    { intros d d' dc dc' p p' [j Hj]%elem_of_list_lookup [j' Hj']%elem_of_list_lookup Hd Hd' Hp Hp' Et.
      destruct (RouteW_lookup _ _ _ _ _ _ _ R Hj) as (e & x & He & Hx & -> & _). destruct (RouteW_lookup _ _ _ _ _ _ _ R Hj') as (e' & x' & He' & Hx' & -> & _).
      rewrite Hd in He. injection He as <-. rewrite Hd' in He'. injection He' as <-.
      assert (j = j'); [|congruence]. eapply (flat_map_NoDup_lookup vi_board _ j j' _ _ (trip_of h0 p)); [|exact Hx|exact Hx'| |].
      - apply (rides_once _ (rw_rides _ _ _ _ _ R)).
      - cbn. by apply elem_of_list_fmap_1.
      - cbn. rewrite Et. by apply elem_of_list_fmap_1. }
    assert (In2 : forall a b, [a; b] `sublist_of` ids -> a ∈ ids /\ b ∈ ids).
    { intros a b Hsub. split; (eapply elem_of_submseteq; [|by apply sublist_submseteq]); set_solver. }
    assert (Visit : forall s d, s ∈ seg -> h_stops h0 !! s = Some d -> abs h0 d ∈ ys).
    { intros s d Hs Hd. apply elem_of_list_lookup in Hs as [i Hi]. destruct (Forall2_lookup_l _ _ _ _ _ Fy Hi) as (x & Hx & d' & Hd' & ->).
      rewrite Hd in Hd'. injection Hd' as <-. by eapply elem_of_list_lookup_2. }
    assert (Stop : forall x, x ∈ ys -> exists s d, s ∈ seg /\ h_stops h0 !! s = Some d /\ x = abs h0 d).
    { intros x Hx. apply elem_of_list_lookup in Hx as [i Hi]. destruct (Forall2_lookup_r _ _ _ _ _ Fy Hi) as (s & Hs & d & Hd & ->).
      exists s, d. split; [by eapply elem_of_list_lookup_2|done]. }
    assert (Out : forall s d p, s ∈ seg -> h_stops h0 !! s = Some d -> p ∈ st_pickups d -> exists e pc, e ∈ seg /\ h_pts h0 !! p = Some pc /\ pt_pickup pc = Some s /\ pt_delivery pc = Some e).
    { intros s d p Hs Hd Hp. destruct (rw_links _ _ _ _ _ R s d (Sub s Hs) Hd) as [H1 _]. destruct (H1 p Hp) as (e & ec & pc & Hsub & He & Hpe & Hpc & _ & Hpk & Hdl).
      exists e, pc. split; [|done]. assert (Ht : trip_of h0 p ∈ alights ys).
      { rewrite Perm. apply elem_of_boards. exists (abs h0 d). split; [by eapply Visit|]. cbn. by apply elem_of_list_fmap_1. }
      apply elem_of_alights in Ht as (x & Hx & Hal). destruct (Stop x Hx) as (s' & d' & Hs' & Hd' & ->). cbn in Hal. apply elem_of_list_fmap in Hal as (p' & Et & Hp').
      assert (e = s') as ->; [|done]. eapply Same; [apply (In2 _ _ Hsub)|by apply Sub|exact He|exact Hd'|exact Hpe|exact Hp'|exact Et]. }
    assert (Into : forall s d p, s ∈ seg -> h_stops h0 !! s = Some d -> p ∈ st_deliveries d -> exists e ec, e ∈ seg /\ h_stops h0 !! e = Some ec /\ p ∈ st_pickups ec).
    { intros s d p Hs Hd Hp. destruct (rw_links _ _ _ _ _ R s d (Sub s Hs) Hd) as [_ H2]. destruct (H2 p Hp) as (e & ec & pc & Hsub & He & Hpe & _).
      exists e, ec. split; [|done]. assert (Ht : trip_of h0 p ∈ boards ys).
      { rewrite <- Perm. apply elem_of_alights. exists (abs h0 d). split; [by eapply Visit|]. cbn. by apply elem_of_list_fmap_1. }
      apply elem_of_boards in Ht as (x & Hx & Hal). destruct (Stop x Hx) as (s' & d' & Hs' & Hd' & ->). cbn in Hal. apply elem_of_list_fmap in Hal as (p' & Et & Hp').
      assert (e = s') as ->; [|done]. eapply SameB; [apply (In2 _ _ Hsub)|by apply Sub|exact He|exact Hd'|exact Hpe|exact Hp'|exact Et]. }
    split.
    - intros x [(s & -> & Hs)%elem_of_list_fmap|(p & -> & Hp)%elem_of_list_fmap]%elem_of_app.
      + destruct (RouteW_ids_alloc _ _ _ _ _ s R (Sub s Hs)) as [d Hd]. exists d. split; [done|]. intros z Hz. unfold stop_refs in Hz.
        rewrite app_assoc, <- map_app in Hz. apply elem_of_app in Hz as [(p & -> & Hp)%elem_of_list_fmap|Hz].
        * left. apply elem_of_app. right. apply elem_of_list_fmap_1, elem_of_pts_of. apply elem_of_app in Hp as [Hp|Hp]; [by exists s, d|].
          destruct (Into s d p Hs Hd Hp) as (e & ec & He & Hec & Hpe). by exists e, ec.
        * destruct (st_previous d) as [q|] eqn:Eq; [|by apply elem_of_nil in Hz]. apply elem_of_list_singleton in Hz as ->.
          apply elem_of_list_lookup in Hs as [i Hi].
          assert (Hi' : ids !! (length (concat pre) + i)%nat = Some s) by (rewrite Eids, lookup_app_r by lia; rewrite lookup_app_l by (apply lookup_lt_Some in Hi; lia); rewrite <- Hi; f_equal; lia).
          destruct (RouteW_lookup _ _ _ _ _ _ _ R Hi') as (d' & x & Hd' & _ & _ & _ & _ & Hprev & _). rewrite Hd in Hd'. injection Hd' as <-.
          rewrite Eq in Hprev. symmetry in Hprev. apply last_Some_elem_of in Hprev.
          rewrite Eids, take_app_ge in Hprev by lia. replace (length (concat pre) + i - length (concat pre))%nat with i in Hprev by lia.
          apply elem_of_app in Hprev as [Hq|Hq]; [right; by apply elem_of_list_fmap_1|]. left. apply elem_of_app. left. apply elem_of_list_fmap_1.
          rewrite take_app_le in Hq by (apply lookup_lt_Some in Hi; lia). eapply elem_of_submseteq; [exact Hq|]. apply sublist_submseteq, sublist_take.
      + apply elem_of_pts_of in Hp as (s & d & Hs & Hd & Hp). destruct (Out s d p Hs Hd Hp) as (e & pc & He & Hpc & P1 & P2).
        exists pc. split; [done|]. intros z Hz. unfold pt_refs in Hz. rewrite P1, P2 in Hz. left. apply elem_of_app. left.
        apply elem_of_app in Hz as [->%elem_of_list_singleton| ->%elem_of_list_singleton]; by apply elem_of_list_fmap_1.
    - unfold objects. rewrite app_length, !map_length. rewrite (Forall2_length _ _ _ Fy).
      rewrite (stands_boards _ _ Fy), map_length in Len. done.
  Qed.
End parts.

Section parts_public.
  Context {W : World}.
  Lemma deep_parts n h rs : (forall r, r ∈ rs -> exists v ids xs, well_formed h r v ids xs /\ in_parts n xs) ->
    exists rs' h', deepcopy_within n rs h = (Ok rs', h') /\ all_there h h' /\ NoDup rs' /\ Forall2 (own_copy h h') rs rs' /\ same_sharing h h' rs rs'.
  Proof.
    intros Hr.
    assert (G0 : Good h h []).
    { split; [split; [done|done|by intros x [y Hy]|done|done]|by intros z [y Hy]]. }
    destruct (proj1 (runs_eq _ _ _) (copy_all_parts h n rs [] h G0 ltac:(done) ltac:(intros r Hin; destruct (Hr r Hin) as (v & ids & xs & Wf & P);
      apply well_formed_RouteW in Wf; destruct (rw_cell _ _ _ _ _ Wf) as (c & Hc & _); exists c; split; [done|by eapply route_parts]))) as (rs' & h' & E & m & G & _ & T & N & L & F).
    pose proof (Good_closed h h' m G) as C. pose proof G as [I D].
    exists rs', h'. split; [done|]. split; [done|]. split; [done|]. split.
    - apply Forall2_same_length_lookup_2; [by eapply Forall2_length|]. intros i r r' Hi Hi'.
      destruct (Forall2_lookup_lr _ _ _ _ _ _ F Hi Hi') as (c & Hc & M & Hcell).
      eapply copied_own; [exact C|exact I|exact D|done|done|done|]. apply L. by eapply elem_of_list_lookup_2.
    - intros i j r q r' q' c d c' d' Hi Hj Hi' Hj' Hc Hd Hc' Hd' a b s t s' t' Hs Ht Hs' Ht'.
      destruct (Forall2_lookup_lr _ _ _ _ _ _ F Hi Hi') as (c1 & Hc1 & M1 & Hcell1). destruct (Forall2_lookup_lr _ _ _ _ _ _ F Hj Hj') as (d1 & Hd1 & M2 & Hcell2).
      rewrite Hc in Hc1. injection Hc1 as <-. rewrite Hd in Hd1. injection Hd1 as <-. rewrite Hc' in Hcell1. injection Hcell1 as ->.
      rewrite Hd' in Hcell2. injection Hcell2 as ->. cbn [rt_stops] in Hs', Ht'. unfold copied in Hs', Ht'.
      rewrite list_lookup_fmap, Hs in Hs'. rewrite list_lookup_fmap, Ht in Ht'. injection Hs' as <-. injection Ht' as <-.
      split; [|by intros ->]. destruct (M1 s) as [x Hx]; [by eapply elem_of_list_lookup_2|]. destruct (M2 t) as [y Hy]; [by eapply elem_of_list_lookup_2|].
      rewrite (image_get _ _ _ Hx), (image_get _ _ _ Hy). intros ->.
      assert (E1 : AtStop s = AtStop t) by (eapply (iv_inj _ _ _ _ I); [|exact Hx|exact Hy]; done). by injection E1.
  Qed.
End parts_public.

Lemma c90_parts : forall (W : World) n h rs,
  (forall r, r ∈ rs -> exists v ids xs, well_formed h r v ids xs /\ in_parts n xs) ->
  exists rs' h', deepcopy_within n rs h = (Ok rs', h') /\ all_there h h' /\ NoDup rs' /\ Forall2 (own_copy h h') rs rs' /\ same_sharing h h' rs rs'.
Proof. exact (@deep_parts). Qed.
