(** Running the translation of a solution: the objects it creates. *)
From Verif Require Import Translate SpecDarp MilpGraph MilpTheorems TimeTheorems MilpProofs MilpSound.

Lemma mapM_pure {S A B} (f : A -> ST S B) (g : A -> B) l s : (forall x, x ∈ l -> f x s = (Ok (g x), s)) -> mapM f l s = (Ok (map g l), s).
Proof.
  induction l as [|x l IH]; intros H; [done|]. cbn. unfold bind at 1. rewrite H by (by left). unfold bind at 1.
  rewrite IH; [done|]. intros y Hy. apply H. by right.
Qed.
Lemma alter_map_seq {A} (f : A -> A) (g : nat -> A) j m : alter f j (map g (seq 0 m)) = map (fun i => if decide (i = j) then f (g i) else g i) (seq 0 m).
Proof.
  apply list_eq. intros i. change (map g) with (fmap (M := list) g). change (map ?g') with (fmap (M := list) g').
  destruct (decide (i = j)) as [->|Hij].
  - rewrite list_lookup_alter, !list_lookup_fmap. destruct (seq 0 m !! j) as [x|] eqn:E; [|done]. apply lookup_seq in E as [-> _]. cbn. by rewrite decide_True by done.
  - rewrite list_lookup_alter_ne by done. rewrite !list_lookup_fmap. destruct (seq 0 m !! i) as [x|] eqn:E; [|done]. apply lookup_seq in E as [-> _]. cbn. by rewrite decide_False by done.
Qed.
Lemma alter_id {A} (f : A -> A) (i : nat) (l : list A) : (forall x, l !! i = Some x -> f x = x) -> alter f i l = l.
Proof.
  intros H. apply list_eq. intros j. destruct (decide (i = j)) as [->|Hj].
  - rewrite list_lookup_alter. destruct (l !! j) eqn:E; [|done]. cbn. by rewrite H.
  - by rewrite list_lookup_alter_ne.
Qed.
Lemma map_seq_lookup {A} (g : nat -> A) m j : (j < m)%nat -> map g (seq 0 m) !! j = Some (g j).
Proof. intros H. change (map g) with (fmap (M := list) g). rewrite list_lookup_fmap, lookup_seq_lt by done. done. Qed.
Lemma map_seq_ext {A} (g g' : nat -> A) m : (forall j, (j < m)%nat -> g j = g' j) -> map g (seq 0 m) = map g' (seq 0 m).
Proof. intros H. apply map_ext_in. intros j Hj. apply in_seq in Hj. apply H. lia. Qed.

Section one.
  Context {W : World} (h : heap) (v : nat).
  Notation b := (length (h_stops h)).
  Notation bp := (length (h_pts h)).
  Notation r := (length (h_routes h)).

  (** the heap with new stops, planned trips and one new route *)
  Definition H (SS : list stop) (PP : list ptrip) (ss : list nat) : heap :=
    MkHeap (h_stops h ++ SS) (h_pts h ++ PP) (h_routes h ++ [MkRoute v ss None]) (h_tick h).
  Definition cell (p : position) (prev : option nat) : stop := MkStop v p [] [] prev None None None None None.

  Lemma H_stop SS PP ss i c : SS !! i = Some c -> h_stops (H SS PP ss) !! (b + i)%nat = Some c.
  Proof. intros E. cbn. rewrite lookup_app_r by lia. by replace (b + i - b)%nat with i by lia. Qed.
  Lemma get_stop SS PP ss i c : SS !! i = Some c -> stop_get (b + i) (H SS PP ss) = (Ok c, H SS PP ss).
  Proof. intros E. unfold stop_get. by rewrite (H_stop _ _ _ _ _ E). Qed.
  Lemma upd_stop SS PP ss i f : stop_upd (b + i) f (H SS PP ss) = (Ok tt, H (alter f i SS) PP ss).
  Proof. unfold stop_upd, with_stops, H. cbn. f_equal. f_equal. rewrite alter_app_r_alt by lia. by replace (b + i - b)%nat with i by lia. Qed.
  Lemma get_route SS PP ss : route_get r (H SS PP ss) = (Ok (MkRoute v ss None), H SS PP ss).
  Proof. unfold route_get. cbn. by rewrite lookup_app_r, Nat.sub_diag by lia. Qed.
  Lemma get_stops SS PP ss : route_stops r (H SS PP ss) = (Ok ss, H SS PP ss).
  Proof. unfold route_stops. by rewrite (bind_ok _ _ _ _ _ (get_route SS PP ss)). Qed.
  Lemma upd_route SS PP ss ss' : route_upd r (set_route_stops ss') (H SS PP ss) = (Ok tt, H SS PP ss').
  Proof. unfold route_upd, with_routes, H. cbn. rewrite alter_app_r_alt by lia. by rewrite Nat.sub_diag. Qed.

  Lemma run_new_route : new_route v h = (Ok r, H [cell (v_origin_position v) None; cell (v_destination_position v) (Some b)] [] [b; S b]).
  Proof.
    unfold new_route, new_stop, alloc_stop, alloc_route, bind, ret. cbn. unfold H, with_stops, with_routes. cbn.
    rewrite !app_length. cbn. rewrite <- app_assoc, app_nil_r. cbn. by rewrite Nat.add_1_r.
  Qed.

  (** ** New stops *)
  Fixpoint new_cells (prev next : nat) (ps : list position) : list stop :=
    match ps with [] => [] | p :: ps => cell p (Some prev) :: new_cells next (S next) ps end.
  Fixpoint differs (p : position) (ps : list position) : Prop :=
    match ps with [] => True | q :: ps => q <> p /\ differs q ps end.
  Lemma run_stops_loop ps : forall l c SS PP ss, SS !! l = Some c -> differs (st_position c) ps ->
    stops_loop v (b + l) ps (H SS PP ss) = (Ok (seq (b + length SS) (length ps)), H (SS ++ new_cells (b + l) (b + length SS) ps) PP ss).
  Proof.
    induction ps as [|p ps IH]; intros l c SS PP ss El Hd; cbn.
    - by rewrite app_nil_r.
    - destruct Hd as [Hp Hd]. rewrite (bind_ok _ _ _ _ _ (get_stop SS PP ss l c El)). rewrite bool_decide_false by done.
      assert (E : new_stop v p (Some (b + l)%nat) None (H SS PP ss) = (Ok (b + length SS)%nat, H (SS ++ [cell p (Some (b + l)%nat)]) PP ss)).
      { unfold new_stop, alloc_stop, H, with_stops. cbn. by rewrite app_length, <- app_assoc. }
      rewrite (bind_ok _ _ _ _ _ E). assert (El' : (SS ++ [cell p (Some (b + l)%nat)]) !! length SS = Some (cell p (Some (b + l)%nat))) by (rewrite lookup_app_r, Nat.sub_diag by lia; done).
      rewrite (bind_ok _ _ _ _ _ (IH _ _ _ PP ss El' Hd)). unfold ret. rewrite app_length, <- app_assoc. cbn.
      by replace (b + (length SS + 1))%nat with (S (b + length SS)) by lia.
  Qed.
  Definition before_stop (j : nat) : nat := match j with O => b | S j => b + 2 + j end%nat.
  Definition fresh (ps : list position) (j : nat) : stop := cell (nth j ps []) (Some (before_stop j)).
  Lemma new_cells_fresh ps : new_cells b (b + 2) ps = map (fresh ps) (seq 0 (length ps)).
  Proof.
    assert (G : forall ps prev next, new_cells prev next ps = map (fun j => cell (nth j ps []) (Some (match j with O => prev | S j => next + j end)%nat)) (seq 0 (length ps))).
    { clear ps. induction ps as [|p ps IH]; intros prev next; [done|]. cbn. f_equal. rewrite IH, <- seq_shift, map_map. apply map_ext.
      intros [|j]; cbn; [by rewrite Nat.add_0_r|]. by replace (S (next + j)) with (next + S j)%nat by lia. }
    rewrite G. apply map_ext. intros [|j]; done.
  Qed.

  (** ** Planned trips *)
  Lemma pop_elem p s m : NoDup (m.*1) -> (p, s) ∈ m -> exists m', pop_stop p m = Some (s, m') /\ NoDup (m'.*1) /\
    (forall q s', (q, s') ∈ m' -> (q, s') ∈ m) /\ (forall q s', q <> p -> (q, s') ∈ m -> (q, s') ∈ m').
  Proof.
    induction m as [|[q s'] m IH]; intros Hn Hin; [by apply elem_of_nil in Hin|]. cbn in *. apply NoDup_cons in Hn as [Hq Hn].
    destruct (decide (q = p)) as [->|Hqp].
    - rewrite bool_decide_true by done. apply elem_of_cons in Hin as [[= ->]|Hin].
      + exists m. split; [done|]. split; [done|]. split; [intros; by right|]. intros q s2 Hq2 Hin. apply elem_of_cons in Hin as [[= -> ->]|?]; done.
      + exfalso. apply Hq. apply elem_of_list_fmap. by exists (p, s).
    - rewrite bool_decide_false by done. apply elem_of_cons in Hin as [[= -> ->]|Hin]; [done|].
      destruct (IH Hn Hin) as (m' & -> & Hn' & Hs & Hk). exists ((q, s') :: m'). split; [done|]. split; [|split].
      + cbn. apply NoDup_cons. split; [|done]. intros Hc. apply Hq. apply elem_of_list_fmap in Hc as ([q2 s2] & -> & Hc).
        apply elem_of_list_fmap. exists (q2, s2). split; [done|]. by apply Hs.
      + intros q2 s2 Hin2. apply elem_of_cons in Hin2 as [[= -> ->]|?]; [by left|right; by apply Hs].
      + intros q2 s2 Hq2 Hin2. apply elem_of_cons in Hin2 as [[= -> ->]|?]; [by left|right; by apply Hk].
  Qed.

  Definition put (j : nat) (f : stop -> stop) (g : nat -> stop) (i : nat) : stop := if decide (i = j) then f (g i) else g i.
  Context (jp jd : nat -> nat).
  Definition ptr (t : nat) : ptrip := MkPtrip v t (Some (b + 2 + jp t)%nat) (Some (b + 2 + jd t)%nat) None.
  Fixpoint marked (T : list nat) (i : nat) (g : nat -> stop) : nat -> stop :=
    match T with
    | [] => g
    | t :: T => marked T (S i) (put (jd t) (set_deliveries [bp + i]%nat) (put (jp t) (set_pickups [bp + i]%nat) g))
    end.
  Definition ends (T : list nat) : list nat := flat_map (fun t => [jp t; jd t]) T.
  Lemma put_other j f g i : i <> j -> put j f g i = g i.
  Proof. intros E. unfold put. by rewrite decide_False. Qed.
  Lemma put_here j f g : put j f g j = f (g j).
  Proof. unfold put. by rewrite decide_True. Qed.
  Lemma marked_other T : forall i g j, j ∉ ends T -> marked T i g j = g j.
  Proof.
    induction T as [|t T IH]; intros i g j Hj; [done|]. cbn in *. rewrite !not_elem_of_cons in Hj. destruct Hj as (H1 & H2 & H3).
    rewrite IH by done. by rewrite !put_other.
  Qed.
  Lemma marked_ends T : forall i g q t, NoDup (ends T) -> T !! q = Some t ->
    marked T i g (jp t) = set_pickups [bp + (i + q)]%nat (g (jp t)) /\ marked T i g (jd t) = set_deliveries [bp + (i + q)]%nat (g (jd t)).
  Proof.
    induction T as [|t' T IH]; intros i g q t Hn Hq; [done|]. cbn in Hn. rewrite !NoDup_cons, not_elem_of_cons in Hn. destruct Hn as ((H1 & H2) & H3 & Hn).
    destruct q as [|q]; cbn in Hq |- *.
    - injection Hq as ->. rewrite !marked_other by done. rewrite Nat.add_0_r, (put_other (jd t)), !put_here, put_other by done. done.
    - assert (Ht : jp t ∈ ends T /\ jd t ∈ ends T).
      { unfold ends. rewrite !elem_of_list_In, !in_flat_map. split; exists t; (split; [apply elem_of_list_In; by eapply elem_of_list_lookup_2|cbn; auto]). }
      destruct Ht as [Hp Hd]. destruct (IH (S i) (put (jd t') (set_deliveries [bp + i]%nat) (put (jp t') (set_pickups [bp + i]%nat) g)) q t Hn Hq) as [-> ->].
      replace (S i + q)%nat with (i + S q)%nat by lia. rewrite !put_other; [done|intros E; rewrite E in *; done..].
  Qed.

  Lemma set_add_nil p : set_add p [] = [p].
  Proof. done. Qed.
  Lemma run_planned m T : forall mm F E g PP ss, NoDup (mm.*1) ->
    (forall t, t ∈ T -> (origin_position (w_trip t), (b + 2 + jp t)%nat) ∈ mm /\ (destination_position (w_trip t), (b + 2 + jd t)%nat) ∈ mm) ->
    NoDup (flat_map (fun t => [origin_position (w_trip t); destination_position (w_trip t)]) T) -> NoDup (ends T) ->
    (forall t, t ∈ T -> (jp t < m)%nat /\ (jd t < m)%nat /\ st_position (g (jp t)) = origin_position (w_trip t) /\
       st_position (g (jd t)) = destination_position (w_trip t) /\ st_pickups (g (jp t)) = [] /\ st_deliveries (g (jd t)) = []) ->
    planned_loop v mm T (H (F :: E :: map g (seq 0 m)) PP ss) =
      (Ok (seq (bp + length PP) (length T)), H (F :: E :: map (marked T (length PP) g) (seq 0 m)) (PP ++ map ptr T) ss).
  Proof.
    induction T as [|t T IH]; intros mm F E g PP ss Hk Hm Hpos Hends Hg; [cbn; by rewrite app_nil_r|].
    cbn in Hpos. change (NoDup (jp t :: jd t :: ends T)) in Hends.
    rewrite !NoDup_cons, not_elem_of_cons in Hpos. rewrite !NoDup_cons, not_elem_of_cons in Hends. destruct Hpos as ((P1 & P2) & P3 & Hpos), Hends as ((J1 & J2) & J3 & Hends).
    destruct (Hm t) as [M1 M2]; [by left|]. destruct (Hg t) as (G1 & G2 & G3 & G4 & G5 & G6); [by left|].
    destruct (pop_elem _ _ _ Hk M1) as (m1 & E1 & K1 & S1 & R1). cbn [planned_loop]. rewrite E1. cbn [py_pop]. unfold bind at 1, ret at 1.
    destruct (pop_elem _ _ _ K1 (R1 _ _ (not_eq_sym P1) M2)) as (m2 & E2 & K2 & S2 & R2). rewrite E2. cbn [py_pop]. unfold bind at 1. cbn [ret].
    change (ret ((b + 2 + jd t)%nat, m2) (H (F :: E :: map g (seq 0 m)) PP ss)) with (Ok ((b + 2 + jd t)%nat, m2), H (F :: E :: map g (seq 0 m)) PP ss). cbn [fst].
    assert (En : new_planned_trip v t (Some (b + 2 + jp t)%nat) (Some (b + 2 + jd t)%nat) (H (F :: E :: map g (seq 0 m)) PP ss) =
      (Ok (bp + length PP)%nat, H (F :: E :: map (put (jd t) (set_deliveries [bp + length PP]%nat) (put (jp t) (set_pickups [bp + length PP]%nat) g)) (seq 0 m)) (PP ++ [ptr t]) ss)).
    { unfold new_planned_trip.
      assert (Ea : alloc_pt (MkPtrip v t (Some (b + 2 + jp t)%nat) (Some (b + 2 + jd t)%nat) None) (H (F :: E :: map g (seq 0 m)) PP ss) =
        (Ok (bp + length PP)%nat, H (F :: E :: map g (seq 0 m)) (PP ++ [ptr t]) ss)).
      { unfold alloc_pt, H, with_pts. cbn. by rewrite app_length, <- app_assoc. }
      rewrite (bind_ok _ _ _ _ _ Ea). clear Ea.
      assert (Ep : forall SS, pt_get (bp + length PP) (H SS (PP ++ [ptr t]) ss) = (Ok (ptr t), H SS (PP ++ [ptr t]) ss)).
      { intros SS. unfold pt_get. cbn. rewrite lookup_app_r by lia. replace (bp + length PP - bp)%nat with (length PP) by lia.
        by rewrite lookup_app_r, Nat.sub_diag by lia. }
      assert (Es : forall g0 j, (j < m)%nat -> (F :: E :: map g0 (seq 0 m)) !! (2 + j)%nat = Some (g0 j)).
      { intros g0 j Hj. cbn. by apply map_seq_lookup. }
      assert (Eu : forall g0 j f, alter f (2 + j)%nat (F :: E :: map g0 (seq 0 m)) = F :: E :: map (put j f g0) (seq 0 m)).
      { intros g0 j f. change (alter f (2 + j)%nat (F :: E :: map g0 (seq 0 m))) with (F :: E :: alter f j (map g0 (seq 0 m))). by rewrite alter_map_seq. }
      assert (Ea : append_pickup (b + 2 + jp t) (bp + length PP) (H (F :: E :: map g (seq 0 m)) (PP ++ [ptr t]) ss) =
        (Ok tt, H (F :: E :: map (put (jp t) (set_pickups [bp + length PP]%nat) g) (seq 0 m)) (PP ++ [ptr t]) ss)).
      { unfold append_pickup. rewrite <- Nat.add_assoc. rewrite (bind_ok _ _ _ _ _ (get_stop _ _ ss _ _ (Es g _ G1))). rewrite (bind_ok _ _ _ _ _ (Ep _)).
        cbn [ptr pt_trip]. rewrite bool_decide_true by done. unfold py_assert, bind at 1, ret at 1. rewrite upd_stop, Eu. f_equal. f_equal. f_equal. f_equal.
        apply map_ext. intros j. unfold put. destruct (decide _) as [->|]; [|done]. by rewrite G5. }
      rewrite (bind_ok _ _ _ _ _ Ea). clear Ea.
      assert (Ea : append_delivery (b + 2 + jd t) (bp + length PP) (H (F :: E :: map (put (jp t) (set_pickups [bp + length PP]%nat) g) (seq 0 m)) (PP ++ [ptr t]) ss) =
        (Ok tt, H (F :: E :: map (put (jd t) (set_deliveries [bp + length PP]%nat) (put (jp t) (set_pickups [bp + length PP]%nat) g)) (seq 0 m)) (PP ++ [ptr t]) ss)).
      { unfold append_delivery. rewrite <- Nat.add_assoc. rewrite (bind_ok _ _ _ _ _ (get_stop _ _ ss _ _ (Es _ _ G2))). rewrite (bind_ok _ _ _ _ _ (Ep _)).
        cbn [ptr pt_trip]. rewrite put_other by done. rewrite bool_decide_true by done. unfold py_assert, bind at 1, ret at 1. rewrite upd_stop, Eu. f_equal. f_equal. f_equal. f_equal.
        apply map_ext. intros j. unfold put at 1 3. destruct (decide _) as [->|]; [|done]. rewrite put_other by done. by rewrite G6. }
      rewrite (bind_ok _ _ _ _ _ Ea). done. }
    rewrite (bind_ok _ _ _ _ _ En). clear En.
    assert (Hother : forall t', t' ∈ T -> jp t' <> jp t /\ jp t' <> jd t /\ jd t' <> jp t /\ jd t' <> jd t /\
      origin_position (w_trip t') <> origin_position (w_trip t) /\ origin_position (w_trip t') <> destination_position (w_trip t) /\
      destination_position (w_trip t') <> origin_position (w_trip t) /\ destination_position (w_trip t') <> destination_position (w_trip t)).
    { intros t' Ht'.
      assert (Hi : jp t' ∈ ends T /\ jd t' ∈ ends T) by (unfold ends; rewrite !elem_of_list_In, !in_flat_map; split; exists t'; (split; [by apply elem_of_list_In|cbn; auto])).
      assert (Hi2 : origin_position (w_trip t') ∈ flat_map (fun t => [origin_position (w_trip t); destination_position (w_trip t)]) T /\
        destination_position (w_trip t') ∈ flat_map (fun t => [origin_position (w_trip t); destination_position (w_trip t)]) T)
        by (rewrite !elem_of_list_In, !in_flat_map; split; exists t'; (split; [by apply elem_of_list_In|cbn; auto])).
      destruct Hi, Hi2. repeat split; intros Eq; (rewrite Eq in *; done). }
    set (g' := put (jd t) (set_deliveries [bp + length PP]%nat) (put (jp t) (set_pickups [bp + length PP]%nat) g)).
    assert (Hm' : forall t', t' ∈ T -> (origin_position (w_trip t'), (b + 2 + jp t')%nat) ∈ m2 /\ (destination_position (w_trip t'), (b + 2 + jd t')%nat) ∈ m2).
    { intros t' Ht'. destruct (Hother t' Ht') as (O1&O2&O3&O4&O5&O6&O7&O8). destruct (Hm t' ltac:(by right)) as [Q1 Q2].
      split; [exact (R2 _ _ O6 (R1 _ _ O5 Q1))|exact (R2 _ _ O8 (R1 _ _ O7 Q2))]. }
    assert (Hg' : forall t', t' ∈ T -> (jp t' < m)%nat /\ (jd t' < m)%nat /\ st_position (g' (jp t')) = origin_position (w_trip t') /\
       st_position (g' (jd t')) = destination_position (w_trip t') /\ st_pickups (g' (jp t')) = [] /\ st_deliveries (g' (jd t')) = []).
    { intros t' Ht'. destruct (Hother t' Ht') as (O1&O2&O3&O4&O5&O6&O7&O8). unfold g'.
      rewrite (put_other _ _ _ _ O2), (put_other _ _ _ _ O1), (put_other _ _ _ _ O4), (put_other _ _ _ _ O3). apply Hg. by right. }
    rewrite (bind_ok _ _ _ _ _ (IH m2 F E g' (PP ++ [ptr t]) ss K2 Hm' Hpos Hends Hg')).
    unfold ret. rewrite app_length, <- app_assoc, Nat.add_1_r. cbn [length app]. do 2 f_equal. cbn. by rewrite Nat.add_succ_r.
  Qed.

  (** ** Flushes change nothing *)
  Record clean (SS : list stop) (PP : list ptrip) : Prop := {
    cl_stops : forall c, c ∈ SS -> st_arrival c = None /\ st_departure c = None /\ st_capacity c = None /\
      forall p, p ∈ st_pickups c ++ st_deliveries c -> (bp <= p)%nat;
    cl_trips : forall c, c ∈ PP -> pt_feasible c = None }.
  Lemma run_flush SS PP ss i : clean SS PP -> (i < length SS)%nat -> stop_flush (b + i) (H SS PP ss) = (Ok tt, H SS PP ss).
  Proof.
    intros [C1 C2] Hi. destruct (lookup_lt_is_Some_2 SS i Hi) as [c Hc]. destruct (C1 c (elem_of_list_lookup_2 _ _ _ Hc)) as (E1 & E2 & E3 & E4).
    unfold stop_flush. rewrite (bind_ok _ _ _ _ _ (upd_stop SS PP ss i clear_caches)).
    rewrite alter_id. 2:{ intros c' Hc'. destruct (C1 c' (elem_of_list_lookup_2 _ _ _ Hc')) as (F1 & F2 & F3 & _). destruct c'; cbn in *; subst; done. }
    rewrite (bind_ok _ _ _ _ _ (get_stop SS PP ss i c Hc)). clear E1 E2 E3 Hc.
    induction (st_pickups c ++ st_deliveries c) as [|p l IH]; [done|]. cbn [iterM].
    assert (Ef : pt_flush p (H SS PP ss) = (Ok tt, H SS PP ss)).
    { unfold pt_flush, pt_upd, with_pts, H. cbn. f_equal. f_equal. rewrite alter_app_r_alt by (apply E4; by left). f_equal. apply alter_id.
      intros x Hx. specialize (C2 x (elem_of_list_lookup_2 _ _ _ Hx)). destruct x; cbn in *; by subst. }
    rewrite (bind_ok _ _ _ _ _ Ef). apply IH. intros q Hq. apply E4. by right.
  Qed.
  Lemma run_flushes SS PP ss l : clean SS PP -> Forall (fun s => b <= s < b + length SS)%nat l -> iterM stop_flush l (H SS PP ss) = (Ok tt, H SS PP ss).
  Proof.
    intros C. induction 1 as [|s l Hs _ IH]; [done|]. cbn [iterM]. replace s with (b + (s - b))%nat by lia.
    rewrite (bind_ok _ _ _ _ _ (run_flush SS PP ss (s - b) C ltac:(lia))). done.
  Qed.

  (** ** Starting times *)
  Lemma clean_alter SS PP f i : clean SS PP ->
    (forall c, st_arrival (f c) = st_arrival c /\ st_departure (f c) = st_departure c /\ st_capacity (f c) = st_capacity c /\
       st_pickups (f c) = st_pickups c /\ st_deliveries (f c) = st_deliveries c) -> clean (alter f i SS) PP.
  Proof.
    intros [C1 C2] Hf. split; [|done]. intros c Hc. apply elem_of_list_lookup_1 in Hc as (j & Hj). destruct (decide (i = j)) as [->|Hij].
    - rewrite list_lookup_alter in Hj. destruct (SS !! j) as [c0|] eqn:E; [|done]. injection Hj as <-.
      destruct (Hf c0) as (-> & -> & -> & -> & ->). apply C1. by eapply elem_of_list_lookup_2.
    - rewrite list_lookup_alter_ne in Hj by done. apply C1. by eapply elem_of_list_lookup_2.
  Qed.
  Context (vs ts : list nat) (a : assignment) (k : nat) (dx : position -> nat).
  Definition timed_cell (c : stop) : stop := set_starting (Some (as_u a k (dx (st_position c)))) c.
  Lemma run_adjust l : forall SS PP ss, clean SS PP ->
    (forall i, i ∈ l -> exists c, SS !! i = Some c /\ forall hh, idx_by_position vs ts (st_position c) hh = (Ok (dx (st_position c)), hh)) ->
    adjust_waiting_times vs ts a (map (fun i => b + i)%nat l) k (H SS PP ss) = (Ok tt, H (foldl (fun SS i => alter timed_cell i SS) SS l) PP ss).
  Proof.
    induction l as [|i l IH]; intros SS PP ss C Hl; [done|]. destruct (Hl i) as (c & Hc & Hx); [by left|].
    pose proof (lookup_lt_Some _ _ _ Hc) as Hi. unfold adjust_waiting_times in *. cbn [map iterM foldl].
    assert (E : (stop_flush (b + i) ;;; let! c := stop_get (b + i) in let! i0 := idx_by_position vs ts (st_position c) in set_starting_time (b + i) (as_u a k i0)) (H SS PP ss) =
      (Ok tt, H (alter timed_cell i SS) PP ss)).
    { rewrite (bind_ok _ _ _ _ _ (run_flush SS PP ss i C Hi)). rewrite (bind_ok _ _ _ _ _ (get_stop SS PP ss i c Hc)).
      rewrite (bind_ok _ _ _ _ _ (Hx _)). unfold set_starting_time. rewrite (bind_ok _ _ _ _ _ (upd_stop SS PP ss i _)).
      assert (Ea : alter (set_starting (Some (as_u a k (dx (st_position c))))) i SS = alter timed_cell i SS).
      { apply list_eq. intros j. destruct (decide (i = j)) as [<-|]; [|by rewrite !list_lookup_alter_ne]. rewrite !list_lookup_alter, Hc. done. }
      rewrite Ea. apply run_flush; [|by rewrite alter_length]. apply clean_alter; [done|]. by intros []. }
    rewrite (bind_ok _ _ _ _ _ E). apply IH.
    - apply clean_alter; [done|]. by intros [].
    - intros j Hj. destruct (Hl j) as (cj & Hcj & Hxj); [by right|]. destruct (decide (i = j)) as [<-|Hij].
      + exists (timed_cell cj). rewrite list_lookup_alter, Hcj. split; [done|]. done.
      + exists cj. by rewrite list_lookup_alter_ne.
  Qed.
  Lemma alters_lookup (f : stop -> stop) (l : list nat) : forall (SS : list stop) (i : nat), NoDup l -> foldl (fun SS i => alter f i SS) SS l !! i = (if decide (i ∈ l) then f else id) <$> SS !! i.
  Proof.
    induction l as [|j l IH]; intros SS i Hn; cbn.
    - rewrite decide_False by apply not_elem_of_nil. by destruct (SS !! i).
    - apply NoDup_cons in Hn as [Hj Hn]. rewrite IH by done. destruct (decide (i = j)) as [->|Hij].
      + rewrite list_lookup_alter. rewrite decide_False by done. rewrite (decide_True _ _ (P := j ∈ j :: l)) by (by left). by destruct (SS !! j).
      + rewrite list_lookup_alter_ne by done. destruct (decide (i ∈ l)); [rewrite decide_True by (by right)|rewrite decide_False by (by rewrite not_elem_of_cons)]; done.
  Qed.
  Lemma alters_all (f : stop -> stop) F E g m : foldl (fun SS i => alter f i SS) (F :: E :: map g (seq 0 m)) (0%nat :: seq 2 m) = f F :: E :: map (fun j => f (g j)) (seq 0 m).
  Proof.
    apply list_eq. intros i. rewrite alters_lookup.
    2:{ apply NoDup_cons. split; [rewrite elem_of_seq; lia|apply NoDup_seq]. }
    destruct i as [|[|j]]; [by rewrite decide_True by (by left)|rewrite decide_False; [done|rewrite elem_of_cons, elem_of_seq; lia]|].
    change ((F :: E :: map g (seq 0 m)) !! S (S j)) with (map g (seq 0 m) !! j). change ((f F :: E :: ?l) !! S (S j)) with (l !! j).
    destruct (decide (j < m)%nat) as [Hj|Hj].
    - rewrite (map_seq_lookup g), (map_seq_lookup (fun j => f (g j))) by done. rewrite decide_True; [done|]. right. apply elem_of_seq. lia.
    - rewrite !lookup_ge_None_2; [done|rewrite map_length, seq_length; lia..].
  Qed.

  (** ** Insertion of the stops *)
  Lemma set_diff_nil l : set_diff l [] = l.
  Proof. unfold set_diff. induction l as [|x l IH]; [done|]. rewrite filter_cons_True by apply not_elem_of_nil. by rewrite IH. Qed.
  Lemma run_insert_first F E SS PP : clean (F :: E :: SS) PP -> st_previous F = None -> st_previous E = Some b -> st_pickups F = [] ->
    exists x, insert_stop r b (H (F :: E :: SS) PP [b; S b]) = (Ok x, H (F :: E :: SS) PP [b; S b]).
  Proof.
    intros C HF HE Hp. exists (S b). unfold insert_stop.
    assert (G0 : forall SS0 F0 ss, stop_get b (H (F0 :: SS0) PP ss) = (Ok F0, H (F0 :: SS0) PP ss)).
    { intros SS0 F0 ss. replace (stop_get b) with (stop_get (b + 0)) by (by rewrite Nat.add_0_r). by apply get_stop. }
    rewrite (bind_ok _ _ _ _ _ (G0 _ _ _)), HF.
    assert (U1 : forall f E0 ss, stop_upd (S b) f (H (F :: E0 :: SS) PP ss) = (Ok tt, H (F :: f E0 :: SS) PP ss)).
    { intros f E0 ss. replace (S b) with (b + 1)%nat by lia. by rewrite upd_stop. }
    assert (Hc' : forall q, clean (F :: set_previous q E :: SS) PP).
    { intros q. apply (clean_alter _ _ (set_previous q) 1 C). by intros []. }
    assert (R1 : remove_stop_at r 0 (H (F :: E :: SS) PP [b; S b]) = (Ok b, H (F :: set_previous (Some (S b)) E :: SS) PP [S b])).
    { unfold remove_stop_at. rewrite (bind_ok _ _ _ _ _ (get_stops _ _ _)). cbn [last py_nth lookup list_lookup]. unfold bind at 1, ret at 1. unfold bind at 1, ret at 1.
      rewrite (bind_ok _ _ _ _ _ (U1 _ _ _)). unfold bind at 1, ret at 1. cbn [list_remove_at take drop app]. rewrite (bind_ok _ _ _ _ _ (upd_route _ _ _ _)).
      rewrite (bind_ok _ _ _ _ _ (run_flushes _ PP [S b] [S b] (Hc' _) ltac:(constructor; [cbn; lia|constructor]))). done. }
    rewrite (bind_ok _ _ _ _ _ R1). unfold insert_stop_at. rewrite (bind_ok _ _ _ _ _ (get_stops _ _ _)). cbn [py_nth lookup list_lookup]. unfold bind at 1, ret at 1.
    rewrite (bind_ok _ _ _ _ _ (G0 _ _ _)). rewrite bool_decide_true by (rewrite Hp; done). cbn [py_assert]. unfold bind at 1, ret at 1.
    rewrite (bind_ok _ _ _ _ _ (U1 _ _ _)). assert (EE : set_previous (Some b) (set_previous (Some (S b)) E) = E) by (destruct E; cbn in *; by subst). rewrite EE.
    cbn [list_insert_at take drop app]. rewrite (bind_ok _ _ _ _ _ (upd_route _ _ _ _)).
    rewrite (bind_ok _ _ _ _ _ (run_flushes _ PP [b; S b] [b; S b] C ltac:(repeat constructor; cbn; lia))). done.
  Qed.
  Definition stops_at (j : nat) : list nat := (b :: seq (b + 2) j ++ [S b])%nat.
  Lemma stops_at_lookup j : stops_at j !! S j = Some (S b).
  Proof. change (stops_at j !! S j) with ((seq (b + 2) j ++ [S b]) !! j). rewrite lookup_app_r; [by rewrite seq_length, Nat.sub_diag|by rewrite seq_length]. Qed.
  Lemma stops_at_index j : index_of (before_stop j) (stops_at j) = Some j.
  Proof.
    destruct j as [|j]; cbn [stops_at before_stop index_of]; [by rewrite decide_True|]. rewrite decide_False by lia.
    assert (G : forall l s m, (s <= l < s + m)%nat -> index_of l (seq s m ++ [S b]) = Some (l - s)%nat).
    { clear. intros l s m. revert s. induction m as [|m IH]; intros s Hl; [lia|]. cbn. destruct (decide (s = l)) as [->|]; [f_equal; lia|]. rewrite IH by lia. cbn. f_equal. lia. }
    rewrite G by lia. cbn. f_equal. lia.
  Qed.
  Lemma stops_at_insert j : list_insert_at (S j) (b + 2 + j)%nat (stops_at j) = stops_at (S j).
  Proof.
    unfold list_insert_at, stops_at. cbn [take drop app]. f_equal. rewrite take_app_alt, drop_app_alt by (by rewrite seq_length).
    rewrite seq_S, <- app_assoc. done.
  Qed.
  Lemma run_insert_next m F E g PP j : (j < m)%nat -> clean (F :: E :: map g (seq 0 m)) PP -> st_previous (g j) = Some (before_stop j) ->
    set_diff (st_pickups (g j)) (st_deliveries (g j)) = st_pickups (g j) ->
    exists x, insert_stop r (b + 2 + j) (H (F :: E :: map g (seq 0 m)) PP (stops_at j)) =
      (Ok x, H (F :: set_previous (Some (b + 2 + j)%nat) E :: map g (seq 0 m)) PP (stops_at (S j))).
  Proof.
    intros Hj C Hp Hs. exists (S b). unfold insert_stop.
    assert (G0 : forall E0 ss, stop_get (b + 2 + j) (H (F :: E0 :: map g (seq 0 m)) PP ss) = (Ok (g j), H (F :: E0 :: map g (seq 0 m)) PP ss)).
    { intros E0 ss. rewrite <- Nat.add_assoc. apply get_stop. cbn. by apply map_seq_lookup. }
    rewrite (bind_ok _ _ _ _ _ (G0 _ _)), Hp. rewrite (bind_ok _ _ _ _ _ (get_stops _ _ _)), stops_at_index.
    unfold insert_stop_at. rewrite (bind_ok _ _ _ _ _ (get_stops _ _ _)). unfold py_nth. rewrite stops_at_lookup. unfold bind at 1, ret at 1.
    rewrite (bind_ok _ _ _ _ _ (G0 _ _)). rewrite bool_decide_true by done. cbn [py_assert]. unfold bind at 1, ret at 1.
    assert (U1 : forall f E0 ss, stop_upd (S b) f (H (F :: E0 :: map g (seq 0 m)) PP ss) = (Ok tt, H (F :: f E0 :: map g (seq 0 m)) PP ss)).
    { intros f E0 ss. replace (S b) with (b + 1)%nat by lia. by rewrite upd_stop. }
    rewrite (bind_ok _ _ _ _ _ (U1 _ _ _)), stops_at_insert. rewrite (bind_ok _ _ _ _ _ (upd_route _ _ _ _)).
    assert (C' : clean (F :: set_previous (Some (b + 2 + j)%nat) E :: map g (seq 0 m)) PP).
    { apply (clean_alter _ _ (set_previous _) 1 C). by intros []. }
    assert (Fl : Forall (fun s => b <= s < b + length (F :: set_previous (Some (b + 2 + j)%nat) E :: map g (seq 0 m)))%nat (drop (S j) (stops_at (S j)))).
    { apply Forall_forall. intros s Hs'. assert (Hin : s ∈ stops_at (S j)) by (rewrite <- (take_drop (S j) (stops_at (S j))); apply elem_of_app; by right).
        cbn [length]. rewrite map_length, seq_length. unfold stops_at in Hin. apply elem_of_cons in Hin as [->|Hin]; [lia|].
        apply elem_of_app in Hin as [Hin|Hin]; [apply elem_of_seq in Hin; lia|]. apply elem_of_list_singleton in Hin as ->. lia. }
    rewrite (bind_ok _ _ _ _ _ (run_flushes _ PP _ _ C' Fl)).
    unfold ret. do 2 f_equal. unfold stops_at. rewrite app_comm_cons. by rewrite last_snoc.
  Qed.
  Lemma run_insert_rest m g PP F E : clean (F :: E :: map g (seq 0 m)) PP -> (forall j, (j < m)%nat -> st_previous (g j) = Some (before_stop j) /\
      set_diff (st_pickups (g j)) (st_deliveries (g j)) = st_pickups (g j)) ->
    forall q j, (j + q = m)%nat -> iterM (fun s => insert_stop r s ;;; ret tt) (seq (b + 2 + j) q) (H (F :: set_previous (Some (before_stop j)) E :: map g (seq 0 m)) PP (stops_at j)) =
      (Ok tt, H (F :: set_previous (Some (before_stop m)) E :: map g (seq 0 m)) PP (stops_at m)).
  Proof.
    intros C Hg. induction q as [|q IH]; intros j Hj; [replace j with m by lia; done|]. cbn [seq iterM].
    destruct (Hg j) as [G1 G2]; [lia|]. destruct (run_insert_next m F (set_previous (Some (before_stop j)) E) g PP j) as (x & Ex); [lia| |done|done|].
    { apply (clean_alter _ _ (set_previous _) 1 C). by intros []. }
    assert (E1 : (insert_stop r (b + 2 + j) ;;; ret tt) (H (F :: set_previous (Some (before_stop j)) E :: map g (seq 0 m)) PP (stops_at j)) =
      (Ok tt, H (F :: set_previous (Some (before_stop (S j))) E :: map g (seq 0 m)) PP (stops_at (S j)))).
    { rewrite (bind_ok _ _ _ _ _ Ex). done. }
    rewrite (bind_ok _ _ _ _ _ E1). replace (S (b + 2 + j)) with (b + 2 + S j)%nat by lia. apply IH. lia.
  Qed.
End one.
