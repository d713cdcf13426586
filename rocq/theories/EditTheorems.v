(** Properties of the operations that edit routes (C07-C13). *)
From Verif Require Import Represents RepresentsProofs ComputeProofs.
From Verif Require Import TimeTheorems.

Section edit.
  Context {W : World}.

  Lemma waits_abs h v s q x : waits_after h v s q x ->
    exists c, h_stops h !! s = Some c /\ st_vehicle c = v /\ st_previous c = Some q /\ known h c /\ x = abs h c /\
      (forall p, p ∈ st_pickups c -> p ∉ st_deliveries c).
  Proof.
    intros (c & Hc & V & P & E1 & E2 & B & A & D). apply plans_map in B as [B KB]. apply plans_map in A as [A KA].
    exists c. split; [done|]. split; [done|]. split; [done|]. split; [|split; [|done]].
    - intros p Hp. apply elem_of_app in Hp as [Hp|Hp]; [by apply KB|by apply KA].
    - destruct x; cbn in *. unfold abs. congruence.
  Qed.
  Lemma same_stop_sk c c' : sk_stop c' = sk_stop c <-> same_stop c c'.
  Proof. rewrite sk_stop_eq. unfold same_stop. done. Qed.
  Lemma touch_relinked h h' f s l : touch h h' (relink f s l) -> relinked h h' f s.
  Proof.
    intros [T _]. split.
    - intros q c Hne Hc. rewrite T, Hc. cbn. eexists. split; [done|]. apply same_stop_sk.
      rewrite relink_other by done. apply clear_if_sk.
    - intros c Hc. rewrite T, Hc. cbn. eexists. split; [done|]. apply same_stop_sk.
      rewrite relink_at. apply clear_if_sk.
  Qed.
  Lemma alter_other {A} (f : A -> A) (r r' : nat) (l : list A) : r' <> r -> alter f r l !! r' = l !! r'.
  Proof. intros H. by rewrite list_lookup_alter_ne. Qed.
End edit.

Lemma c07_insert `{W : World} : forall h r v ids xs k q f s x,
  linked h r v ids xs -> ids !! k = Some q -> ids !! S k = Some f ->
  s ∉ ids -> waits_after h v s q x ->
  exists y h', insert_stop r s h = (Ok y, h') /\
    linked h' r v (take (S k) ids ++ s :: drop (S k) ids) (take (S k) xs ++ x :: drop (S k) xs) /\
    relinked h h' f s /\ (forall r', r' <> r -> h_routes h' !! r' = h_routes h !! r').
Proof.
  intros h r v ids xs k q f s x R Hq Hf Hs Ws. apply linked_RouteP in R.
  destruct (waits_abs _ _ _ _ _ Ws) as (cs & Hc & V & P & K & -> & D).
  pose proof (insert_stop_runs _ _ _ _ _ _ _ _ _ _ R Hq Hf Hs Hc V P K D) as G.
  apply runs_eq in G as (y & h' & E & R' & T & ER & _). exists y, h'. split; [done|].
  split; [by apply linked_RouteP|]. split; [by eapply touch_relinked|].
  intros r' Hr. by rewrite ER, alter_other.
Qed.
Lemma c07_unknown `{W : World} : forall h r v ids xs q s c,
  linked h r v ids xs -> h_stops h !! s = Some c -> st_previous c = Some q -> q ∉ ids ->
  insert_stop r s h = (Raise PreviousStopNotInRouteException, h).
Proof.
  intros h r v ids xs q s c R Hc P Hq. apply linked_RouteP in R.
  pose proof (insert_stop_unknown _ _ _ _ _ _ _ _ R Hc P Hq) as G. unfold raises in G.
  destruct (insert_stop r s h) as [[y|e] h']; [done|]. by destruct G as [-> ->].
Qed.
Lemma c07_after_last `{W : World} : forall h r v ids xs q s c,
  linked h r v ids xs -> h_stops h !! s = Some c -> st_previous c = Some q -> last ids = Some q ->
  insert_stop r s h = (Raise IndexError, h).
Proof.
  intros h r v ids xs q s c R Hc P Hq. apply linked_RouteP in R.
  pose proof (insert_stop_after_last _ _ _ _ _ _ _ _ R Hc P Hq) as G. unfold raises in G.
  destruct (insert_stop r s h) as [[y|e] h']; [done|]. by destruct G as [-> ->].
Qed.

Lemma c08_last `{W : World} : forall h r v ids xs k q f s x,
  linked h r v ids xs -> ids !! k = Some q -> ids !! S k = Some f ->
  s ∉ ids -> waits_after h v s q x ->
  exists y h', insert_stop r s h = (Ok y, h') /\ last ids = Some y /\ y <> s.
Proof.
  intros h r v ids xs k q f s x R Hq Hf Hs Ws. apply linked_RouteP in R.
  destruct (waits_abs _ _ _ _ _ Ws) as (cs & Hc & V & P & K & -> & D).
  pose proof (insert_stop_runs _ _ _ _ _ _ _ _ _ _ R Hq Hf Hs Hc V P K D) as G.
  apply runs_eq in G as (y & h' & E & _ & _ & _ & _ & L). exists y, h'. split; [done|]. split; [done|].
  intros ->. apply Hs. by apply last_Some_elem_of.
Qed.

Lemma c09_remove `{W : World} : forall h r v ids xs k q s f,
  linked h r v ids xs -> ids !! k = Some q -> ids !! S k = Some s -> ids !! S (S k) = Some f ->
  exists h', remove_stop_at r (S k) h = (Ok s, h') /\
    linked h' r v (take (S k) ids ++ drop (S (S k)) ids) (take (S k) xs ++ drop (S (S k)) xs) /\
    relinked h h' f q /\ (forall r', r' <> r -> h_routes h' !! r' = h_routes h !! r').
Proof.
  intros h r v ids xs k q s f R Hq Hs Hf. apply linked_RouteP in R.
  pose proof (remove_stop_at_runs _ _ _ _ _ _ _ _ _ R Hq Hs Hf) as G.
  apply runs_eq in G as (y & h' & E & R' & T & ER & _ & ->). exists h'. split; [done|].
  split; [by apply linked_RouteP|]. split; [by eapply touch_relinked|].
  intros r' Hr. by rewrite ER, alter_other.
Qed.
Lemma c09_last `{W : World} : forall h r v ids xs,
  linked h r v ids xs -> ids <> [] ->
  remove_stop_at r (length ids - 1) h = (Raise IndexError, h).
Proof.
  intros h r v ids xs R Hne. apply linked_RouteP in R.
  pose proof (remove_last_raises _ _ _ _ _ R Hne) as G. unfold raises in G.
  destruct (remove_stop_at r _ h) as [[y|e] h']; [done|]. by destruct G as [-> ->].
Qed.

(** C10 *)
Section cycle.
  Context {W : World}.

  Definition Cycle (h : heap) (l : list nat) : Prop :=
    forall s, s ∈ l -> exists c q, h_stops h !! s = Some c /\ cleared c /\ known h c /\
      st_previous c = Some q /\ q ∈ l.
  Lemma cycle_departure fuel h l : Cycle h l -> forall s, s ∈ l ->
    departure_fuel fuel s h = (Raise RecursionError, h).
  Proof.
    intros C. induction fuel as [|fuel IH]; intros s Hs; [done|].
    destruct (C s Hs) as (c & q & Hc & (A1 & A2 & A3) & K & P & Hq).
    cbn [departure_fuel]. unfold bind at 1, stop_get at 1. rewrite Hc, A2.
    assert (EP : previous_departure_with (departure_fuel fuel) s h = (Raise RecursionError, h)).
    { unfold previous_departure_with, bind, stop_get. rewrite Hc, P. by apply IH. }
    assert (EA : arrival_with (departure_fuel fuel) s h = (Raise RecursionError, h)).
    { unfold arrival_with. unfold bind at 1, stop_get at 1. rewrite Hc, A1. unfold bind at 1. by rewrite EP. }
    assert (EE : stop_earliest s h = (Ok (visit_earliest (abs h c)), h)).
    { assert (G : runs (stop_earliest s) h (fun z h' => z = visit_earliest (abs h c) /\ h' = h)).
      { by eapply runs_earliest. }
      apply runs_eq in G as (z & h' & -> & -> & ->). done. }
    assert (ES : starting_with (departure_fuel fuel) s h = (Raise RecursionError, h)).
    { unfold starting_with. unfold bind at 1, stop_get at 1. rewrite Hc. destruct (st_starting c) as [z|].
      - unfold bind at 1, ret at 1. unfold bind at 1. rewrite EE. unfold bind. by rewrite EA.
      - unfold bind at 1. by rewrite EA. }
    unfold bind at 1. by rewrite ES.
  Qed.

  Lemma remove_first h r v ids xs s0 s1 sn :
    RouteP h r v ids xs -> ids !! 0%nat = Some s0 -> ids !! 1%nat = Some s1 -> last ids = Some sn ->
    runs (remove_stop_at r 0) h (fun y h' => y = s0 /\
      touch h h' (relink s1 sn (drop 1 ids)) /\
      h_routes h' = alter (set_route_stops (drop 1 ids)) r (h_routes h)).
  Proof.
    intros R H0 H1 Hn. pose proof R as [(rc & Hrc & V & I) P]. unfold remove_stop_at.
    step. unfold route_stops. step. eapply runs_route_get; [exact Hrc|]. apply runs_ret. rewrite I.
    step. rewrite Hn. apply runs_ret. step. eapply runs_nth; [exact H1|].
    step. apply runs_stop_upd. step. eapply runs_nth; [exact H0|]. step. apply runs_route_upd.
    unfold list_remove_at. cbn [take]. rewrite drop_0. cbn [app].
    set (h1 := with_routes _ _). step. eapply runs_mono; [apply (iter_stop_flush (drop 1 ids) h1)|].
    - intros q Hq. cbn. apply lookup_lt_is_Some. rewrite alter_length.
      apply lookup_lt_is_Some. eapply RouteP_alloc; [exact R|]. apply elem_of_drop in Hq as (k & _ & Hk). by eapply elem_of_list_lookup_2.
    - intros ? h2 ([T1 T2] & ER & _). apply runs_ret. split; [done|]. split; [|done].
      split; [|exact T2]. intros q. rewrite T1. cbn. unfold relink.
      destruct (decide (q = s1)) as [->|Hne].
      + rewrite list_lookup_alter. destruct (h_stops h !! s1); [|done]. cbn. done.
      + by rewrite list_lookup_alter_ne.
  Qed.
End cycle.

Lemma c10_cycle `{W : World} : forall h r v ids xs s0 s1 rest,
  linked h r v ids xs -> ids = s0 :: s1 :: rest ->
  exists h', remove_stop_at r 0 h = (Ok s0, h') /\
    (exists c, h_routes h' !! r = Some c /\ rt_stops c = s1 :: rest) /\
    (exists c, h_stops h' !! s1 = Some c /\ st_previous c = last (s1 :: rest)) /\
    first_stop r h' = (Raise AssertionError, h') /\
    (forall s, s ∈ s1 :: rest -> departure_time s h' = (Raise RecursionError, h')).
Proof.
  intros h r v ids xs s0 s1 rest R ->. apply linked_RouteP in R.
  destruct (last (s1 :: rest)) as [sn|] eqn:Hn; [|by apply last_None in Hn].
  assert (Hl : last (s0 :: s1 :: rest) = Some sn) by (by rewrite last_cons, Hn).
  pose proof (remove_first h r v _ xs s0 s1 sn R eq_refl eq_refl Hl) as G.
  apply runs_eq in G as (y & h' & E & -> & [T TP] & ER).
  pose proof R as [(rc & Hrc & V & I) _].
  pose proof (RouteP_NoDup _ _ _ _ _ R) as ND.
  exists h'. split; [done|].
  assert (HR : h_routes h' !! r = Some (set_route_stops (s1 :: rest) rc)) by (by rewrite ER, list_lookup_alter, Hrc).
  destruct (RouteP_lookup _ _ _ _ _ 1%nat s1 R eq_refl) as (c1 & x1 & Hc1 & _ & _ & K1 & _).
  assert (HS1 : h_stops h' !! s1 = Some (clear_caches (set_previous (Some sn) c1))).
  { rewrite T, Hc1. cbn. rewrite relink_at. unfold clear_if. rewrite bool_decide_eq_true_2; [done|left]. }
  split; [eexists; split; [exact HR|done]|]. split; [eexists; split; [exact HS1|done]|]. split.
  - unfold first_stop, route_stops. unfold bind at 1. unfold bind at 1, route_get at 1. rewrite HR.
    unfold ret at 1. cbn [rt_stops set_route_stops]. unfold bind at 1, py_nth at 1. cbn [lookup list_lookup]. unfold ret at 1.
    unfold bind at 1, stop_get at 1. rewrite HS1. cbn [st_previous clear_caches set_previous].
    rewrite bool_decide_eq_false_2 by done. done.
  - assert (C : Cycle h' (s1 :: rest)).
    { intros s Hs. assert (Hin : s ∈ s0 :: s1 :: rest) by (by right).
      apply elem_of_list_lookup in Hs as [k Hk].
      destruct (RouteP_lookup _ _ _ _ _ (S k) s R Hk) as (c & x & Hc & _ & _ & K & _ & Pc & _).
      exists (relink s1 sn (s1 :: rest) s c). rewrite T, Hc. cbn [fmap option_fmap option_map].
      assert (Hsin : s ∈ s1 :: rest) by (by eapply elem_of_list_lookup_2).
      assert (KK : known h' (relink s1 sn (s1 :: rest) s c)).
      { intros p Hp. destruct (relink_fields s1 sn (s1 :: rest) s c) as (_ & _ & E3 & E4 & _). rewrite E3, E4 in Hp.
        destruct (K p Hp) as [pc Hpc]. pose proof (TP p) as Ep. rewrite Hpc in Ep. destruct (h_pts h' !! p); [eauto|done]. }
      assert (CC : cleared (relink s1 sn (s1 :: rest) s c)).
      { unfold relink. by apply clear_if_in. }
      destruct k as [|k].
      - injection Hk as <-. exists sn. split; [done|]. split; [done|]. split; [done|]. split.
        + rewrite relink_at. unfold clear_if. by rewrite bool_decide_eq_true_2.
        + by apply last_Some_elem_of.
      - cbn [take] in Pc. destruct ((s1 :: rest) !! k) as [q|] eqn:Eq.
        2:{ apply lookup_ge_None in Eq. apply lookup_lt_Some in Hk. cbn in *. lia. }
        exists q. split; [done|]. split; [done|]. split; [done|]. split; [|by eapply elem_of_list_lookup_2].
        assert (Hne : s <> s1).
        { intros ->. apply NoDup_cons in ND as [_ ND]. pose proof (NoDup_lookup _ _ _ _ ND Hk (eq_refl : (s1 :: rest) !! 0%nat = Some s1)). lia. }
        rewrite relink_other by done. unfold clear_if. rewrite bool_decide_eq_true_2 by done. cbn.
        change (st_previous c = last (s0 :: take (S k) (s1 :: rest))) in Pc.
        rewrite Pc, (take_S_r _ _ _ Eq), app_comm_cons, last_snoc. done. }
    intros s Hs. unfold departure_time, chain_fuel. by eapply cycle_departure.
Qed.

Section append.
  Context {W : World}.

  Lemma joins_runs h r v ids xs t p pk dl i j :
    RouteOK h r v ids xs -> joins_at h v ids t p pk dl i j -> t ∉ boards xs ->
    runs (append_planned_trip r p) h (fun _ h' =>
      RouteOK h' r v (weave i j pk dl ids) (serve t i j xs) /\
      (forall h0, grow h0 h -> (forall q, q ∈ drop (S i) ids -> (length (h_stops h0) <= q)%nat) ->
         (length (h_routes h0) <= r)%nat -> grow h0 h')).
  Proof.
    intros R [(pc & Hp & V & T & Ppk & Pdl) (N1 & N2 & N3) (ck & Hk & K1 & K2 & K3 & K4 & K5 & K6)
      (cd & Hd & D1 & D2 & D3 & D4 & D5 & D6) Hij] Ht.
    eapply runs_mono; [eapply (append_planned_trip_runs h r v ids xs p pc t pk dl ck cd i j); eauto|].
    intros ? h' (R' & _ & _ & _ & _ & G & _). split; [|exact G].
    rewrite serve_weave. replace (pick_up t) with (abs h ck). 2:{ unfold abs, pick_up, trip_of. rewrite K2, K3, K4, K5. cbn. by rewrite Hp, T. }
    replace (drop_off t) with (abs h cd). 2:{ unfold abs, drop_off, trip_of. rewrite D2, D3, D4, D5. cbn. by rewrite Hp, T. }
    exact R'.
  Qed.
  Lemma keep_ids_app t X A X' A' : length X = length A ->
    keep_ids t (X ++ X') (A ++ A') = keep_ids t X A ++ keep_ids t X' A'.
  Proof.
    revert A. induction X as [|s X IH]; intros [|x A] E; try done. cbn [app keep_ids].
    injection E as E. destruct (decide _); cbn [app]; by rewrite IH.
  Qed.
  Lemma keep_ids_all t X A : length X = length A -> (forall z, z ∈ A -> ~ mentions t z) -> keep_ids t X A = X.
  Proof.
    revert A. induction X as [|s X IH]; intros [|x A] E N; try done. cbn [keep_ids]. injection E as E.
    rewrite decide_False. 2:{ rewrite <- mentions_spec. apply N. left. }
    rewrite IH; [done|done|]. intros z Hz. apply N. by right.
  Qed.
  Lemma keep_ids_weave t ids xs pk dl i j : length ids = length xs -> (i < j)%nat -> (j <= length ids)%nat ->
    (forall z, z ∈ xs -> ~ mentions t z) ->
    keep_ids t (weave i j pk dl ids) (serve t i j xs) = ids.
  Proof.
    intros E Hij Hj N. rewrite serve_weave.
    destruct (weave_split ids i j Hij Hj) as (X & Y & Z & EX & L1 & L2 & Ew).
    destruct (weave_split xs i j Hij) as (X' & Y' & Z' & EX' & L1' & L2' & Ew'); [lia|].
    rewrite Ew, Ew'. assert (length Y = length Y') by (rewrite app_length in *; lia).
    assert (length Z = length Z') by (apply (f_equal length) in EX, EX'; rewrite !app_length in *; lia).
    rewrite keep_ids_app by lia. cbn [keep_ids]. rewrite decide_True by (cbn; left).
    rewrite keep_ids_app by done. cbn [keep_ids]. rewrite decide_True by (cbn; left).
    subst xs. rewrite !keep_ids_all; [done|..]; try done; try lia; intros z Hz; apply N; rewrite !elem_of_app; auto.
  Qed.
End append.

Lemma c11_append `{W : World} : forall h r v ids xs t p pk dl i j,
  on_tour h r v ids xs -> joins_at h v ids t p pk dl i j -> t ∉ boards xs ->
  exists h', append_planned_trip r p h = (Ok tt, h') /\
    on_tour h' r v (take (S i) ids ++ pk :: drop (S i) (take j ids) ++ dl :: drop j ids) (serve t i j xs) /\
    boards (serve t i j xs) ≡ₚ t :: boards xs.
Proof.
  intros h r v ids xs t p pk dl i j R J Ht. apply on_tour_RouteOK in R.
  pose proof (joins_runs _ _ _ _ _ _ _ _ _ _ _ R J Ht) as G.
  apply runs_eq in G as ([] & h' & E & R' & _). exists h'. split; [done|]. split; [by apply on_tour_RouteOK|].
  pose proof (RouteP_length _ _ _ _ _ (RouteW_P _ _ _ _ _ (proj1 R))) as EL.
  destruct J as [_ _ _ _ Hij]. apply boards_serve; lia.
Qed.
Lemma c11_loses_nothing `{W : World} : forall t i j xs, (i < j < length xs)%nat ->
  xs `sublist_of` serve t i j xs /\ [pick_up t; drop_off t] `sublist_of` serve t i j xs /\
  length (serve t i j xs) = (length xs + 2)%nat.
Proof.
  intros t i j xs Hij. rewrite serve_weave. split; [apply weave_sublist; lia|]. split; [apply weave_pair|].
  rewrite weave_length; lia.
Qed.

Lemma c12_remove `{W : World} : forall h r v ids xs t,
  on_tour h r v ids xs -> t ∈ boards xs -> dedicated t xs ->
  exists h' ids', remove_trip r t h = (Ok tt, h') /\
    on_tour h' r v ids' (without t xs) /\ ids' `sublist_of` ids /\
    length ids = (length ids' + 2)%nat /\
    boards (without t xs) = filter (fun u => u <> t) (boards xs).
Proof.
  intros h r v ids xs t R Ht D. apply on_tour_RouteOK in R.
  pose proof (remove_trip_runs _ _ _ _ _ _ R Ht D) as G.
  apply runs_eq in G as ([] & h' & E & R' & _). exists h', (keep_ids t ids xs). split; [done|].
  pose proof (RouteP_length _ _ _ _ _ (RouteW_P _ _ _ _ _ (proj1 R))) as EL.
  split; [by apply on_tour_RouteOK|]. split; [apply keep_ids_sublist|]. split.
  - rewrite keep_ids_length by done. rewrite EL.
    rewrite (without_length t xs); [lia|by apply tour_rides with v, R|done].
  - by apply boards_without.
Qed.
Lemma c12_undo `{W : World} : forall h r v ids xs t p pk dl i j,
  on_tour h r v ids xs -> joins_at h v ids t p pk dl i j -> t ∉ boards xs ->
  exists h', (append_planned_trip r p ;;; remove_trip r t) h = (Ok tt, h') /\ on_tour h' r v ids xs.
Proof.
  intros h r v ids xs t p pk dl i j R J Ht. apply on_tour_RouteOK in R.
  pose proof (RouteP_length _ _ _ _ _ (RouteW_P _ _ _ _ _ (proj1 R))) as EL.
  assert (NM : forall z, z ∈ xs -> ~ mentions t z) by (eapply tour_not_mentioned; [apply R|done]).
  pose proof (jn_order _ _ _ _ _ _ _ _ _ J) as Hij.
  assert (G : runs (append_planned_trip r p ;;; remove_trip r t) h (fun _ h' => RouteOK h' r v ids xs)).
  { unfold seq. apply runs_bind. eapply runs_mono; [by eapply joins_runs|]. intros ? h1 [R1 _].
    eapply runs_mono; [eapply remove_trip_runs; [exact R1|..]|].
    - rewrite boards_serve by lia. left.
    - intros x Hx M. rewrite serve_weave in Hx. apply weave_elem in Hx as [->|[->|Hx]]; try lia; try done.
      by destruct (NM x Hx).
    - intros ? h2 (R2 & _). rewrite without_serve, keep_ids_weave in R2; try done; lia. }
  apply runs_eq in G as ([] & h' & E & R'). exists h'. split; [done|]. by apply on_tour_RouteOK.
Qed.

Lemma c13_clone `{W : World} : forall h r v ids xs desired,
  on_tour h r v ids xs ->
  exists r' h' th new, route_clone r desired h = (Ok r', h') /\
    on_tour h' r' v (take th ids ++ new) xs /\
    (th = 0 \/ 2 <= th < desired)%nat /\
    (forall s, s ∈ new -> h_stops h !! s = None) /\
    (forall s c p, s ∈ new -> h_stops h' !! s = Some c -> p ∈ st_pickups c ++ st_deliveries c -> h_pts h !! p = None) /\
    h_routes h !! r' = None /\ unasked h' r' new /\
    (forall s c, h_stops h !! s = Some c -> h_stops h' !! s = Some c) /\
    (forall p c, h_pts h !! p = Some c -> h_pts h' !! p = Some c) /\
    (forall k c, h_routes h !! k = Some c -> h_routes h' !! k = Some c).
Proof.
  intros h r v ids xs desired R. apply on_tour_RouteOK in R.
  pose proof (cloner_clone_runs _ _ _ _ _ desired R) as G.
  apply runs_eq in G as ([r' th] & h' & E & [C1 C2 C3 (N & EN & LN & FN) C5 C6 C7 C8 C9]). cbn [fst snd] in *.
  exists r', h', th, (seq (length (h_stops h)) (length ids - th)).
  assert (NS : forall s c, s ∈ seq (length (h_stops h)) (length ids - th) -> h_stops h' !! s = Some c ->
    st_feasible c = None /\ forall p, p ∈ st_pickups c ++ st_deliveries c -> (length (h_pts h) <= p)%nat).
  { intros s c Hs Hc. apply elem_of_seq in Hs. rewrite EN, lookup_app_r in Hc by lia.
    apply elem_of_list_lookup_2 in Hc. rewrite Forall_forall in FN. destruct (FN _ Hc) as (_ & F1 & F2). done. }
  split. { unfold route_clone, bind. rewrite E. done. }
  split; [by apply on_tour_RouteOK|]. split; [done|]. split.
  { intros s Hs. apply elem_of_seq in Hs. apply lookup_ge_None. lia. }
  split. { intros s c p Hs Hc Hp. apply lookup_ge_None. by eapply NS. }
  split. { subst r'. by apply lookup_ge_None. }
  split. { split.
    - intros c Hc. rewrite C7, C1, lookup_app_r, Nat.sub_diag in Hc by lia. by injection Hc as <-.
    - split; [intros s c Hs Hc; by eapply NS|]. intros s c p pc Hs Hc Hp Hpc. eapply C6; [|exact Hpc].
      eapply NS; [exact Hs|exact Hc|]. apply elem_of_app. by left. }
  split. { intros s c Hc. rewrite EN. by apply lookup_app_l_Some. }
  split; [done|]. intros k c Hc. rewrite C7. by apply lookup_app_l_Some.
Qed.
Lemma c13_edit `{W : World} : forall h r v ids xs desired r' h1 ids' k q f s x,
  on_tour h r v ids xs -> route_clone r desired h = (Ok r', h1) ->
  linked h1 r' v ids' xs -> ids' !! k = Some q -> ids' !! S k = Some f -> (desired <= S (S k))%nat ->
  s ∉ ids' -> waits_after h1 v s q x ->
  exists y h2, insert_stop r' s h1 = (Ok y, h2) /\
    linked h2 r' v (take (S k) ids' ++ s :: drop (S k) ids') (take (S k) xs ++ x :: drop (S k) xs) /\
    routes_kept h h2.
Proof.
  intros h r v ids xs desired r' h1 ids' k q f s x R EC R' Hq Hf Hd Hs Ws. apply on_tour_RouteOK in R.
  pose proof (cloner_clone_runs _ _ _ _ _ desired R) as G.
  apply runs_eq in G as ([r2 th] & h' & E & C). cbn [fst snd] in *.
  unfold route_clone, bind in EC. rewrite E in EC. injection EC as <- <-.
  pose proof (Cloned_grow _ _ _ _ _ _ _ _ C) as Gr. destruct C as [C1 C2 C3 _ _ _ C7 C8 _].
  apply linked_RouteP in R'. pose proof R' as [(rc & Hrc & V & I) _].
  rewrite C7, C1, lookup_app_r, Nat.sub_diag in Hrc by lia. injection Hrc as <-. cbn in I. subst ids'.
  destruct (waits_abs _ _ _ _ _ Ws) as (cs & Hc & V' & P & K & -> & D).
  pose proof (insert_stop_runs _ _ _ _ _ _ _ _ _ _ R' Hq Hf Hs Hc V' P K D) as G.
  apply runs_eq in G as (y & h2 & E2 & R2 & T & ER & _). exists y, h2. split; [done|].
  split; [by apply linked_RouteP|]. apply grow_kept.
  eapply grow_relink; [exact Gr|exact T|exact ER| |lia].
  assert (Hth : (th <= S k)%nat) by lia.
  assert (Hlt : (S k < length ids)%nat). { apply lookup_lt_Some in Hf. rewrite clone_ids_length in Hf; lia. }
  assert (Hk : exists m, S k = (th + m)%nat) by (exists (S k - th)%nat; lia). destruct Hk as [m Hk].
  rewrite Hk in Hf. rewrite clone_ids_new in Hf by lia. injection Hf as <-. lia.
Qed.
