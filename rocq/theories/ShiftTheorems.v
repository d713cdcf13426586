(** C28-C30: 2-opt and one-shift. *)
From Verif Require Export Searches EditProofs RepresentsProofs.
From Verif Require Import WitnessSearch LocalTheorems TimeTheorems.

Section flip.
  Context {W : World}.

  Lemma same_stop_refl c : same_stop c c.
  Proof. done. Qed.
  Lemma same_stop_trans a b c : same_stop a b -> same_stop b c -> same_stop a c.
  Proof. unfold same_stop. intuition congruence. Qed.
  Lemma before_at_app X Y i : (i <= length X)%nat -> before_at (X ++ Y) i = before_at X i.
  Proof. intros H. destruct i as [|i]; [done|]. cbn. apply lookup_app_l. lia. Qed.
  Definition relink (a b : nat) (p f : option nat) (q : nat) (c : stop) : stop :=
    if decide (q = a) then set_previous (Some b) c
    else if decide (q = b) then set_previous p c
    else if decide (Some q = f) then set_previous (Some a) c
    else c.
  Lemma alter_relink (l : list stop) (g : nat -> stop -> stop) k (s : stop -> stop) q :
    l !! q = l !! q -> (alter s k l) !! q = (fun c => if decide (q = k) then s c else c) <$> l !! q.
  Proof.
    intros _. destruct (decide (q = k)) as [->|Hne].
    - rewrite list_lookup_alter. by destruct (l !! k).
    - rewrite list_lookup_alter_ne by done. by destruct (l !! q).
  Qed.

  Lemma list_swap_app {A} (X : list A) a b Y : list_swap (S (length X)) (length X) (X ++ a :: b :: Y) = X ++ b :: a :: Y.
  Proof.
    unfold list_swap.
    rewrite (lookup_app_r X) by lia. rewrite (lookup_app_r X) by lia.
    replace (S (length X) - length X)%nat with 1%nat by lia. replace (length X - length X)%nat with 0%nat by lia. cbn.
    rewrite insert_app_r_alt by lia. rewrite Nat.sub_diag. cbn.
    rewrite insert_app_r_alt by lia. replace (S (length X) - length X)%nat with 1%nat by lia. done.
  Qed.

  Lemma flip_runs h r X a b Y : NoDup (X ++ a :: b :: Y) -> in_order h r (X ++ a :: b :: Y) -> linked_up h (X ++ a :: b :: Y) ->
    runs (LocalSearch.flip r a b (head Y)) h (fun _ h' =>
      h_routes h' = alter (set_route_stops (X ++ b :: a :: Y)) r (h_routes h) /\
      (forall q, h_stops h' !! q = (fun c => clear_if (a :: Y) q (relink a b (last X) (head Y) q c)) <$> h_stops h !! q) /\
      (forall p, sk_pt <$> h_pts h' !! p = sk_pt <$> h_pts h !! p)).
  Proof.
    intros N (rc & Hr & Eids) C. set (ids := X ++ a :: b :: Y) in *.
    assert (La : ids !! length X = Some a) by (unfold ids; by rewrite list_lookup_middle).
    assert (Lb : ids !! S (length X) = Some b).
    { unfold ids. rewrite lookup_app_r by lia. by replace (S (length X) - length X)%nat with 1%nat by lia. }
    destruct (C _ _ La) as (ca & Hca & Pa). destruct (C _ _ Lb) as (cb & Hcb & Pb). cbn [before_at] in Pb. rewrite La in Pb.
    assert (Pa' : st_previous ca = last X).
    { rewrite Pa. unfold ids. rewrite before_at_app by lia. clear. induction X as [|x X _] using rev_ind; [done|].
      rewrite last_snoc, app_length, Nat.add_1_r. cbn. by rewrite list_lookup_middle. }
    assert (Hab : a <> b).
    { intros ->. pose proof (NoDup_lookup _ _ _ _ N La Lb). lia. }
    unfold LocalSearch.flip. step.
    assert (H0 : runs (match head Y with None => ret tt | Some f => let! c := stop_get f in py_assert (bool_decide (st_previous c = Some b)) end) h
      (fun _ h' => h' = h)).
    { destruct (head Y) as [f|] eqn:EY; [|done]. destruct Y as [|f' Y']; [done|]. injection EY as ->.
      assert (Lf : ids !! S (S (length X)) = Some f).
      { unfold ids. rewrite lookup_app_r by lia. by replace (S (S (length X)) - length X)%nat with 2%nat by lia. }
      destruct (C _ _ Lf) as (cf & Hcf & Pf). cbn [before_at] in Pf. rewrite Lb in Pf.
      step. eapply runs_stop_get; [exact Hcf|]. unfold py_assert. by rewrite bool_decide_eq_true_2. }
    eapply runs_mono; [exact H0|]. clear H0. intros ? ? ->.
    step. eapply runs_stop_get; [exact Hcb|]. step. unfold py_assert. rewrite bool_decide_eq_true_2 by done. apply runs_ret.
    step. unfold route_stops. step. eapply runs_route_get; [exact Hr|]. apply runs_ret. rewrite Eids.
    rewrite (index_of_Some b ids (S (length X))) by done. rewrite (index_of_Some a ids (length X)) by done.
    unfold ids at 1. rewrite list_swap_app. step. apply runs_route_upd. set (h1 := with_routes _ h).
    step.
    assert (H1 : runs (match head Y with None => ret tt | Some f => stop_upd f (set_previous (Some a)) end) h1
      (fun _ h' => h_routes h' = h_routes h1 /\ h_pts h' = h_pts h1 /\
         forall q, h_stops h' !! q = (fun c => if decide (Some q = head Y) then set_previous (Some a) c else c) <$> h_stops h1 !! q)).
    { destruct (head Y) as [f|].
      - apply runs_stop_upd. split; [done|]. split; [done|]. intros q. cbn. rewrite alter_relink by done || done.
        destruct (h_stops h !! q); [|done]. cbn. destruct (decide (q = f)) as [->|]; [by rewrite decide_True|]. by rewrite decide_False by congruence.
      - apply runs_ret. split; [done|]. split; [done|]. intros q. by destruct (h_stops h1 !! q). }
    eapply runs_mono; [exact H1|]. clear H1. intros ? h2 (R2 & T2 & S2).
    assert (HaY : Some a <> head Y).
    { destruct Y as [|f Y']; [done|]. cbn. intros [= ->].
      assert (Lf : ids !! S (S (length X)) = Some f).
      { unfold ids. rewrite lookup_app_r by lia. by replace (S (S (length X)) - length X)%nat with 2%nat by lia. }
      pose proof (NoDup_lookup _ _ _ _ N La Lf). lia. }
    assert (Ha2 : h_stops h2 !! a = Some ca).
    { rewrite S2. cbn. rewrite Hca. cbn. by rewrite decide_False. }
    step. eapply runs_stop_get; [exact Ha2|]. rewrite Pa'.
    step. apply runs_stop_upd. set (h3 := with_stops _ h2). step. apply runs_stop_upd. set (h4 := with_stops _ h3).
    assert (Hr4 : h_routes h4 !! r = Some (set_route_stops (X ++ b :: a :: Y) rc)).
    { cbn. rewrite R2. cbn. by rewrite list_lookup_alter, Hr. }
    assert (S4 : forall q, h_stops h4 !! q = relink a b (last X) (head Y) q <$> h_stops h !! q).
    { intros q. cbn. rewrite !alter_relink, S2 by done || done. cbn. destruct (h_stops h !! q) as [c|]; [|done]. cbn. f_equal.
      unfold relink. destruct (decide (q = a)) as [->|Hqa].
      - rewrite decide_False by done. by rewrite decide_False by done.
      - destruct (decide (q = b)) as [->|Hqb]; [|by destruct (decide (Some q = head Y))].
        by destruct (decide (Some b = head Y)). }
    step. unfold route_stops. step. eapply runs_route_get; [exact Hr4|]. apply runs_ret. cbn [rt_stops set_route_stops].
    replace (drop (S (length X)) (X ++ b :: a :: Y)) with (a :: Y).
    2:{ rewrite drop_app_ge by lia. by replace (S (length X) - length X)%nat with 1%nat by lia. }
    eapply runs_mono; [apply iter_stop_flush|].
    { intros s Hs. rewrite S4, fmap_is_Some. assert (Hin : s ∈ ids) by (unfold ids; set_solver).
      apply elem_of_list_lookup_1 in Hin as [i Hi]. destruct (C _ _ Hi) as (c & Hc & _). eauto. }
    intros ? h5 ([TS TP] & R5 & _). split; [by rewrite R5; cbn; rewrite R2|]. split.
    - intros q. rewrite TS, S4. by destruct (h_stops h !! q).
    - intros p. rewrite TP. cbn. by rewrite T2.
  Qed.
  Lemma clear_same l q c : same_stop c (clear_if l q c).
  Proof. unfold clear_if. by case_bool_decide. Qed.
  Lemma flip_effect h r X a b Y : NoDup (X ++ a :: b :: Y) -> in_order h r (X ++ a :: b :: Y) -> linked_up h (X ++ a :: b :: Y) ->
    exists h', LocalSearch.flip r a b (head Y) h = (Ok tt, h') /\ in_order h' r (X ++ b :: a :: Y) /\ linked_up h' (X ++ b :: a :: Y) /\
      changes_only h h' r (a :: b :: take 1 Y).
  Proof.
    intros N O C. pose proof (flip_runs h r X a b Y N O C) as R. apply runs_eq in R as ([] & h' & E & HR & HS & HP).
    exists h'. split; [done|]. destruct O as (rc & Hr & Eids). split; [|split; [|split]].
    - eexists. rewrite HR, list_lookup_alter, Hr. by split.
    - intros i s Hi.
      assert (Hin : s ∈ X ++ a :: b :: Y).
      { apply elem_of_list_lookup_2 in Hi. set_solver. }
      apply elem_of_list_lookup_1 in Hin as [j Hj]. destruct (C _ _ Hj) as (c & Hc & Pc).
      eexists. rewrite HS, Hc. split; [done|]. destruct (clear_same (a :: Y) s (relink a b (last X) (head Y) s c)) as (_ & _ & _ & _ & -> & _).
      unfold relink. apply NoDup_app in N as (N1 & N2 & N3). apply NoDup_cons in N3 as [N3 N4]. apply NoDup_cons in N4 as [N4 N5].
      destruct (decide (s = a)) as [->|Ha].
      { assert (i = S (length X)) as ->.
        { eapply NoDup_lookup; [|exact Hi|].
          - apply NoDup_app. split; [done|]. split; [set_solver|]. apply NoDup_cons. split; [set_solver|]. apply NoDup_cons. split; [set_solver|done].
          - rewrite lookup_app_r by lia. by replace (S (length X) - length X)%nat with 1%nat by lia. }
        cbn. by rewrite list_lookup_middle. }
      destruct (decide (s = b)) as [->|Hb].
      { assert (i = length X) as ->.
        { eapply NoDup_lookup; [|exact Hi|].
          - apply NoDup_app. split; [done|]. split; [set_solver|]. apply NoDup_cons. split; [set_solver|]. apply NoDup_cons. split; [set_solver|done].
          - by rewrite list_lookup_middle. }
        rewrite before_at_app by lia. cbn. clear. induction X as [|x X _] using rev_ind; [done|].
        rewrite last_snoc, app_length, Nat.add_1_r. cbn. by rewrite list_lookup_middle. }
      destruct (decide (i < length X)%nat) as [HiX|HiX].
      { rewrite lookup_app_l in Hi by done.
        assert (j = i) as ->.
        { eapply (NoDup_lookup (X ++ a :: b :: Y)); [|exact Hj|by rewrite lookup_app_l].
          apply NoDup_app. split; [done|]. split; [done|]. apply NoDup_cons. split; [done|]. by apply NoDup_cons. }
        rewrite before_at_app in Pc by lia. rewrite before_at_app by lia.
        rewrite decide_False; [by rewrite Pc|]. intros Ef. apply elem_of_list_lookup_2 in Hi. apply (N2 s Hi).
        destruct Y as [|f Y]; [done|]. injection Ef as ->. set_solver. }
      rewrite lookup_app_r in Hi by lia. destruct (i - length X)%nat as [|[|k]] eqn:Ek; cbn in Hi; [congruence|congruence|].
      assert (Ei : i = S (S (length X + k))) by lia. subst i.
      assert (j = S (S (length X + k))) as ->.
      { eapply (NoDup_lookup (X ++ a :: b :: Y)); [|exact Hj|].
        - apply NoDup_app. split; [done|]. split; [done|]. apply NoDup_cons. split; [done|]. by apply NoDup_cons.
        - rewrite lookup_app_r by lia. by rewrite Ek. }
      cbn [before_at] in Pc |- *. rewrite lookup_app_r in Pc |- * by lia.
      replace (S (length X + k) - length X)%nat with (S k) in * by lia. destruct k as [|k].
      + destruct Y as [|f Y]; [done|]. cbn in Hi. injection Hi as ->. cbn. by rewrite decide_True.
      + cbn in Pc |- *. rewrite decide_False; [done|]. intros Ef. destruct Y as [|f Y]; [done|]. injection Ef as ->.
        cbn in Hi. apply elem_of_list_lookup_2 in Hi. by apply NoDup_cons in N5 as [N5 _].
    - intros s c Hc. eexists. rewrite HS, Hc. split; [done|].
      pose proof (clear_same (a :: Y) s (relink a b (last X) (head Y) s c)) as S. revert S. generalize (clear_if (a :: Y) s (relink a b (last X) (head Y) s c)) as d.
      intros d S. unfold relink in S. destruct (decide (s ∈ a :: b :: take 1 Y)) as [Hin|Hin].
      + destruct S as (? & ? & ? & ? & Ep & ?). unfold same_stop. cbn.
        repeat (destruct (decide _)); cbn in *; (split; [done|]; split; [done|]; split; [done|]; split; [done|]; split; done).
      + rewrite decide_False in S by set_solver. rewrite decide_False in S by set_solver. rewrite decide_False in S; [done|].
        intros Ef. destruct Y as [|f Y]; [done|]. injection Ef as ->. set_solver.
    - intros p c Hc. pose proof (HP p) as E'. rewrite Hc in E'. destruct (h_pts h' !! p) as [c'|]; [|done].
      exists c'. split; [done|]. unfold sk_pt, cache_pt_feasible in E'. cbn in E'. injection E' as ? ? ? ?. done.
    - intros q c Hc. rewrite HR. destruct (decide (q = r)) as [->|Hne].
      + rewrite list_lookup_alter, Hc. eexists. by split.
      + rewrite list_lookup_alter_ne by done. by exists c.
  Qed.
End flip.

Lemma c30_swap `{W : World} : forall h r X a b Y,
  NoDup (X ++ a :: b :: Y) -> in_order h r (X ++ a :: b :: Y) -> linked_up h (X ++ a :: b :: Y) ->
  exists h', LocalSearch.flip r a b (head Y) h = (Ok tt, h') /\ in_order h' r (X ++ b :: a :: Y) /\ linked_up h' (X ++ b :: a :: Y) /\
    changes_only h h' r (a :: b :: take 1 Y).
Proof. intros. by apply flip_effect. Qed.

Lemma c30_back `{W : World} : forall h r X a b Y,
  NoDup (X ++ a :: b :: Y) -> in_order h r (X ++ a :: b :: Y) -> linked_up h (X ++ a :: b :: Y) ->
  exists h1 h2, LocalSearch.flip r a b (head Y) h = (Ok tt, h1) /\ LocalSearch.flip r b a (head Y) h1 = (Ok tt, h2) /\
    in_order h2 r (X ++ a :: b :: Y) /\ changes_only h h2 r [].
Proof.
  intros h r X a b Y N O C. destruct (flip_effect h r X a b Y N O C) as (h1 & E1 & O1 & C1 & K1).
  assert (N1 : NoDup (X ++ b :: a :: Y)).
  { assert (X ++ b :: a :: Y ≡ₚ X ++ a :: b :: Y) as -> by (apply Permutation_app_head; by constructor). done. }
  destruct (flip_effect h1 r X b a Y N1 O1 C1) as (h2 & E2 & O2 & C2 & K2).
  exists h1, h2. split; [done|]. split; [done|]. split; [done|]. split.
  - intros s c Hc. destruct (co_stops _ _ _ _ K1 s c Hc) as (c1 & Hc1 & H1). destruct (co_stops _ _ _ _ K2 s c1 Hc1) as (c2 & Hc2 & H2).
    exists c2. split; [done|]. rewrite decide_False by (by apply not_elem_of_nil).
    destruct (decide (s ∈ X ++ a :: b :: Y)) as [Hin|Hin].
    + apply elem_of_list_lookup_1 in Hin as [i Hi]. destruct (C _ _ Hi) as (d & Hd & Pd). destruct (C2 _ _ Hi) as (d2 & Hd2 & Pd2).
      assert (d = c) as -> by congruence. assert (d2 = c2) as -> by congruence. unfold same_stop in *.
      repeat case_decide; cbn in *; intuition congruence.
    + rewrite decide_False in H1.
      2:{ intros Hs. apply Hin. destruct Y; cbn in Hs; set_solver. }
      rewrite decide_False in H2; [by eapply same_stop_trans|].
      intros Hs. apply Hin. destruct Y; cbn in Hs; set_solver.
  - intros p c Hc. destruct (co_pts _ _ _ _ K1 p c Hc) as (c1 & Hc1 & H1). destruct (co_pts _ _ _ _ K2 p c1 Hc1) as (c2 & Hc2 & H2).
    exists c2. split; [done|]. intuition congruence.
  - intros q c Hc. destruct (co_routes _ _ _ _ K1 q c Hc) as (c1 & Hc1 & H1 & H1'). destruct (co_routes _ _ _ _ K2 q c1 Hc1) as (c2 & Hc2 & H2 & H2').
    exists c2. split; [done|]. split; [congruence|]. intros Hq. rewrite H2', H1' by done. done.
Qed.

(** anything but two neighbours is refused, before anything is changed *)
Lemma c30_refuses `{W : World} : forall h r a b c f cf,
  h_stops h !! b = Some c -> h_stops h !! f = Some cf ->
  (st_previous c <> Some a -> LocalSearch.flip r a b None h = (Raise AssertionError, h)) /\
  (st_previous cf <> Some b -> LocalSearch.flip r a b (Some f) h = (Raise AssertionError, h)) /\
  (st_previous cf = Some b -> st_previous c <> Some a -> LocalSearch.flip r a b (Some f) h = (Raise AssertionError, h)).
Proof.
  intros h r a b c f cf Hb Hf. split; [|split]; intros H; [| |intros H'];
    unfold LocalSearch.flip, bind, stop_get, py_assert, ret, raise; rewrite ?Hf, ?Hb.
  - by rewrite bool_decide_eq_false_2 by done.
  - by rewrite bool_decide_eq_false_2 by done.
  - rewrite bool_decide_eq_true_2 by done. cbn. rewrite Hb. by rewrite bool_decide_eq_false_2 by done.
Qed.

(** ** Refutations *)
Section one_route.
  Context {W : World}.
  Definition simpleb (xs : list visit) : bool :=
    match xs with
    | [] => false
    | x0 :: rest => match reverse rest with
        | [] => false
        | xn :: mid => forallb (fun x => bool_decide (events x = 1%nat)) mid
        end
    end.
  Lemma simpleb_sound xs : simpleb xs = true -> simple xs.
  Proof.
    unfold simpleb. destruct xs as [|x0 rest]; [done|]. destruct (reverse rest) as [|xn mid] eqn:E; [done|].
    intros H. exists x0, (reverse mid), xn. split.
    - f_equal. by rewrite <- (reverse_involutive rest), E, reverse_cons.
    - apply Forall_reverse, Forall_forall. intros x Hx. apply elem_of_list_In in Hx. rewrite forallb_forall in H.
      specialize (H x Hx). by apply bool_decide_eq_true in H.
  Qed.
  Lemma valid_one h r v ids xs : on_tour h r v ids xs -> simple xs ->
    valid_planning h [v] (boards xs) [r] /\ single_stops h [r].
  Proof.
    intros R S. apply (@Plan_valid _ simple_shape h [v] (boards xs) [r] [(v, boards xs)]); [|done|cbn; intros t; by rewrite app_nil_r].
    split; [|split; [apply NoDup_singleton|]].
    - constructor; [|constructor]. exists ids, xs. split; [by apply on_tour_RouteOK|]. by split.
    - cbn. rewrite app_nil_r. apply R.
  Qed.

  (** plannings given with their assignment of trips to vehicles *)
  Definition validb (h : heap) (vs ts pl : list nat) (A : list (nat * list nat)) : bool :=
    bool_decide (length pl = length A) &&
    forallb (fun x : nat * (nat * list nat) => on_tourb h x.1 x.2.1 (stops_in h x.1) (visits_of h x.1) &&
      simpleb (visits_of h x.1) && bool_decide (boards (visits_of h x.1) = x.2.2)) (combine pl A) &&
    bool_decide (NoDup (map fst A)) && bool_decide (NoDup (concat (map snd A))) &&
    bool_decide (map fst A = vs) && forallb (fun t => bool_decide (t ∈ ts)) (concat (map snd A)).
  Lemma validb_sound h vs ts pl A : validb h vs ts pl A = true -> valid_planning h vs ts pl /\ single_stops h pl.
  Proof.
    unfold validb. rewrite !andb_true_iff. intros (((((H1 & H2) & H3) & H4) & H5) & H6).
    apply bool_decide_eq_true in H1, H3, H4, H5. apply (@Plan_valid _ simple_shape h vs ts pl A).
    - split; [|done]. clear -H1 H2. revert A H1 H2. induction pl as [|r pl IH]; intros [|a A] H1 H2; try done; cbn in *.
      apply andb_true_iff in H2 as [H2 H3]. rewrite !andb_true_iff in H2. destruct H2 as [[Ha Hb] Hc]. apply bool_decide_eq_true in Hc.
      constructor; [|apply IH; [lia|done]]. exists (stops_in h r), (visits_of h r).
      split; [by apply on_tour_RouteOK, on_tourb_sound|]. split; [by apply simpleb_sound|done].
    - by rewrite H5.
    - intros t Ht. rewrite forallb_forall in H6. apply elem_of_list_In in Ht. specialize (H6 t Ht). by apply bool_decide_eq_true in H6.
  Qed.
  Definition linked_upb (h : heap) (ids : list nat) : bool :=
    forallb (fun i => match ids !! i with
                      | Some s => match h_stops h !! s with Some c => bool_decide (st_previous c = before_at ids i) | None => false end
                      | None => true end) (seq 0 (length ids)).
  Lemma linked_upb_sound h ids : linked_upb h ids = true -> linked_up h ids.
  Proof.
    intros H i s Hi. unfold linked_upb in H. rewrite forallb_forall in H. specialize (H i).
    rewrite Hi in H. destruct (h_stops h !! s) as [c|].
    - exists c. split; [done|]. apply bool_decide_eq_true in H; [done|]. apply in_seq. apply lookup_lt_Some in Hi. lia.
    - discriminate H. apply in_seq. apply lookup_lt_Some in Hi. lia.
  Qed.
End one_route.

Lemma c28_refuted : exists (W : World) o h vs ts pl pl' h' r r' v us us' t,
  sane /\ tidy h /\ valid_planning h vs ts pl /\ single_stops h pl /\
  ls_improve TwoOpt o pl h = (Ok pl', h') /\ tidy h' /\
  r ∈ pl' /\ r' ∈ pl' /\ r <> r' /\
  route_serves h' r v us /\ route_serves h' r' v us' /\ t ∈ us /\ t ∈ us'.
Proof.
  exists loop, DialARide, detour_loop, [0%nat], (@boards (visits_of detour_loop 3)), [3%nat], [5; 8]%nat, twice_loop, 5%nat, 8%nat, 0%nat.
  eexists _, _, 0%nat. split; [apply loop_sane|]. split; [apply tidyb_sound; reflexivity|].
  assert (R : @on_tour loop detour_loop 3 0 (stops_in detour_loop 3) (visits_of detour_loop 3)) by (apply on_tourb_sound; reflexivity).
  destruct (@valid_one loop _ _ _ _ _ R) as [V S]; [apply simpleb_sound; reflexivity|].
  split; [exact V|]. split; [exact S|]. split; [vm_compute; reflexivity|]. split; [apply tidyb_sound; reflexivity|].
  split; [left|]. split; [right; left|]. split; [done|].
  split; [exists (stops_in twice_loop 5), (visits_of twice_loop 5); split; [apply on_tourb_sound; reflexivity|reflexivity]|].
  split; [exists (stops_in twice_loop 8), (visits_of twice_loop 8); split; [apply on_tourb_sound; reflexivity|reflexivity]|].
  split; apply (bool_decide_unpack _); reflexivity.
Qed.

Lemma c29_refuted : exists (W : World) o h vs ts pl pl' h' r c s sc,
  sane /\ tidy h /\ valid_planning h vs ts pl /\ single_stops h pl /\
  (forall q v ids xs, q ∈ pl -> on_tour h q v ids xs -> admissible v xs) /\
  ls_improve OneShift o pl h = (Ok pl', h') /\ r ∈ pl' /\
  h_routes h' !! r = Some c /\ last (rt_stops c) = Some s /\ h_stops h' !! s = Some sc /\
  st_position sc <> v_destination_position (rt_vehicle c) /\
  returns (route_feasible r) h' true /\ returns (route_flush r ;;; route_feasible r) h' false.
Proof.
  exists loop, DialARide, home_loop, [1%nat], (@boards (visits_of home_loop 2)), [2%nat], [3%nat], away_loop, 3%nat.
  eexists _, _, _. split; [apply loop_sane|]. split; [apply tidyb_sound; reflexivity|].
  assert (R : @on_tour loop home_loop 2 1 (stops_in home_loop 2) (visits_of home_loop 2)) by (apply on_tourb_sound; reflexivity).
  destruct (@valid_one loop _ _ _ _ _ R) as [V S]; [apply simpleb_sound; reflexivity|].
  split; [exact V|]. split; [exact S|]. split.
  { intros q v ids xs ->%elem_of_list_singleton R'. apply on_tour_RouteOK in R as [R _]. apply on_tour_RouteOK in R' as [R' _].
    destruct (RouteW_det _ _ _ _ _ _ _ _ R R') as (<- & <- & <-).
    destruct (@c05_feasible loop fresh_loop 3 1 (stops_in fresh_loop 3) (visits_of fresh_loop 3)) as (b & h' & E & Hb & _).
    - apply loop_sane.
    - apply loop_sane.
    - apply well_formedb_sound. reflexivity.
    - done.
    - apply unaskedb_sound. reflexivity.
    - replace (visits_of home_loop 2) with (visits_of fresh_loop 3) by reflexivity. apply Hb. vm_compute in E. by injection E as <-. }
  split; [vm_compute; reflexivity|]. split; [left|]. split; [reflexivity|]. split; [reflexivity|]. split; [reflexivity|].
  split; [vm_compute; congruence|]. split; [eexists; vm_compute; reflexivity|eexists; vm_compute; reflexivity].
Qed.

Lemma c29_times : exists (W : World) o h vs ts pl pl' h' r s z z',
  sane /\ tidy h /\ valid_planning h vs ts pl /\ single_stops h pl /\
  ls_improve OneShift o pl h = (Ok pl', h') /\ r ∈ pl' /\
  (exists ids, in_order h' r ids /\ s ∈ ids) /\
  returns (arrival_time s) h' z /\ returns (route_flush r ;;; arrival_time s) h' z' /\ z <> z'.
Proof.
  exists loop, DialARide, home_loop, [1%nat], (@boards (visits_of home_loop 2)), [2%nat], [3%nat], away_loop, 3%nat, 21%nat.
  eexists _, _. split; [apply loop_sane|]. split; [apply tidyb_sound; reflexivity|].
  assert (R : @on_tour loop home_loop 2 1 (stops_in home_loop 2) (visits_of home_loop 2)) by (apply on_tourb_sound; reflexivity).
  destruct (@valid_one loop _ _ _ _ _ R) as [V S]; [apply simpleb_sound; reflexivity|].
  split; [exact V|]. split; [exact S|]. split; [vm_compute; reflexivity|]. split; [left|].
  split; [eexists; split; [eexists; split; reflexivity|apply (bool_decide_unpack _); reflexivity]|].
  split; [eexists; vm_compute; reflexivity|]. split; [eexists; vm_compute; reflexivity|]. vm_compute. congruence.
Qed.
