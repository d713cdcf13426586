(** Tours in a world loaded from a Cordeau-Laporte file. *)
From Verif Require Import Prelude Spec SpecFair SchedProofs TourProofs OneShiftTheorems.
From Verif Require Import SpecLoad SpecRoster.

Record shared_world `{W : World} (i : dial_a_ride) : Prop := {
  sw_metric : w_metric = Euclidean;
  sw_vehicle : forall v, (v < dr_vehicles i)%nat ->
    v_origin_position v = place (dr_depot i) /\ v_destination_position v = place (dr_depot i) /\
    v_origin_earliest v = 0 /\ v_capacity v = Lim (dr_capacity i);
  sw_trip : forall k, (k < length (dr_pickups i))%nat -> exists p d,
    dr_pickups i !! k = Some p /\ dr_deliveries i !! k = Some d /\
    service_at p (tr_origin (w_trip k)) /\ service_at d (tr_destination (w_trip k)) /\
    tr_capacity (w_trip k) = pt_load p /\ pt_load d = - pt_load p /\
    tr_timeout (w_trip k) = Lim (dr_longest_ride i)
}.

Section walk.
  Context {W : World} (i : dial_a_ride) (SW : shared_world i).

  Lemma dist_euclid a b : dist a b = euclidean a b.
  Proof. unfold dist. by rewrite (sw_metric i SW). Qed.

  (** an inner visit of a tour, seen from the file *)
  Record stop_at (x : visit) (t : task) (p : point) : Prop := {
    sa_task : tasks x = [t];
    sa_point : task_point i t = Some p;
    sa_place : vi_place x = place p;
    sa_duration : visit_duration x = pt_duration p;
    sa_load : weight (vi_board x) - weight (vi_alight x) = pt_load p;
    sa_open : pt_open p <= visit_earliest x
  }.

  Lemma inner_stop xs x : rides xs -> (forall t, t ∈ boards xs -> (t < length (dr_pickups i))%nat) -> x ∈ xs -> events x = 1%nat ->
    exists t p, stop_at x t p.
  Proof.
    intros R Hk Hx He. destruct (rides_places _ R x Hx) as [HB HA]. unfold events in He.
    destruct x as [pl bs als rq]. cbn in *.
    destruct bs as [|k [|]], als as [|k' [|]]; cbn in He; try lia.
    - assert (Hk' : k' ∈ boards xs).
      { rewrite <- (rides_all _ R). apply elem_of_alights. eexists. split; [exact Hx|]. apply elem_of_list_here. }
      destruct (sw_trip i SW k' (Hk _ Hk')) as (p & d & Ep & Ed & Sp & Sd & Ec & El & Et).
      exists (Drop k'), d. destruct Sd as (P1 & P2 & P3 & P4). destruct Sp as (Q1 & Q2 & Q3 & Q4). split; cbn.
      + done.
      + done.
      + rewrite (HA k') by apply elem_of_list_here. exact P1.
      + done.
      + unfold weight. cbn. rewrite Ec. lia.
      + unfold visit_earliest, destination_earliest. cbn. rewrite P3. lia.
    - assert (Hk' : k ∈ boards xs). { apply elem_of_boards. eexists. split; [exact Hx|]. apply elem_of_list_here. }
      destruct (sw_trip i SW k (Hk _ Hk')) as (p & d & Ep & Ed & Sp & Sd & Ec & El & Et).
      exists (Pick k), p. destruct Sd as (P1 & P2 & P3 & P4). destruct Sp as (Q1 & Q2 & Q3 & Q4). split; cbn.
      + done.
      + done.
      + rewrite (HB k) by apply elem_of_list_here. exact Q1.
      + done.
      + unfold weight. cbn. rewrite Ec. lia.
      + unfold visit_earliest, origin_earliest, max_sub_lim. cbn. rewrite Q3, Et. lia.
  Qed.

  Lemma work_of_one x t T xs Ts : tasks x = [t] -> work_of (x :: xs) (T :: Ts) = (t, tm_start T) :: work_of xs Ts.
  Proof. intros E. unfold work_of. cbn. by rewrite E. Qed.
  Lemma work_of_none x T xs Ts : tasks x = [] -> work_of (x :: xs) (T :: Ts) = work_of xs Ts.
  Proof. intros E. unfold work_of. cbn. by rewrite E. Qed.

  Lemma work_passable mid xn : forall now here load, Forall (fun x => exists t p, stop_at x t p) mid ->
    tasks xn = [] -> vi_place xn = place (dr_depot i) -> 0 <= visit_duration xn ->
    forall T, last (schedule (now, here, load) (mid ++ [xn])) = Some T ->
    passable i now here (work_of (mid ++ [xn]) (schedule (now, here, load) (mid ++ [xn]))) (tm_departure T).
  Proof.
    induction mid as [|x mid IH]; intros now here load F Hn Hp Hd T HT.
    - cbn [app schedule] in *. rewrite work_of_none by done. cbn in HT. injection HT as <-. cbn [work_of zip_with concat passable].
      cbn. rewrite Hp, dist_euclid. lia.
    - apply Forall_cons in F as [(t & p & S) F]. cbn [app schedule] in *.
      set (A := advance (now, here, load) x) in *. rewrite (work_of_one x t) by apply S. cbn [passable]. exists p. split; [apply S|].
      assert (EA : tm_departure A = tm_start A + pt_duration p) by (unfold A; cbn; rewrite (sa_duration _ _ _ S); done).
      split.
      + rewrite <- dist_euclid, <- (sa_place _ _ _ S). unfold A. cbn. lia.
      + rewrite <- EA, <- (sa_place _ _ _ S). unfold leave in *. apply IH; try done.
        destruct (mid ++ [xn]) eqn:E; [by destruct mid|]. exact HT.
  Qed.

  Lemma work_lookup mid xn : forall l, Forall (fun x => exists t p, stop_at x t p) mid -> tasks xn = [] ->
    forall a t s, work_of (mid ++ [xn]) (schedule l (mid ++ [xn])) !! a = Some (t, s) ->
    exists x p T, mid !! a = Some x /\ stop_at x t p /\ schedule l (mid ++ [xn]) !! a = Some T /\ s = tm_start T.
  Proof.
    induction mid as [|x mid IH]; intros l F Hn a t s; cbn [app schedule].
    - rewrite work_of_none by done. unfold work_of. by rewrite lookup_nil.
    - apply Forall_cons in F as [(t' & p & S) F]. rewrite (work_of_one x t') by apply S. destruct a as [|a]; cbn.
      + intros [= <- <-]. exists x, p, (advance l x). done.
      + intros H. by apply IH in H.
  Qed.

  Lemma work_aboard mid xn : forall now here load, Forall (fun x => exists t p, stop_at x t p) mid -> tasks xn = [] ->
    forall a T, (a < length mid)%nat -> schedule (now, here, load) (mid ++ [xn]) !! a = Some T ->
    load + aboard i (take (S a) (work_of (mid ++ [xn]) (schedule (now, here, load) (mid ++ [xn])))) = tm_load T.
  Proof.
    induction mid as [|x mid IH]; intros now here load F Hn a T Ha HT; cbn [app schedule length] in *; [lia|].
    apply Forall_cons in F as [(t & p & S) F]. rewrite (work_of_one x t) by apply S.
    set (A := advance (now, here, load) x) in *.
    assert (EA : tm_load A = load + pt_load p) by (unfold A; cbn [advance tm_load]; rewrite <- (sa_load _ _ _ S); lia).
    clearbody A. destruct a as [|a]; cbn in HT.
    - injection HT as <-. unfold aboard. cbn. rewrite (sa_point _ _ _ S).
      rewrite firstn_O. cbn. lia.
    - unfold leave in *. specialize (IH (tm_departure A) (vi_place x) (tm_load A) F Hn a T ltac:(lia) HT).
      rewrite <- IH, EA. cbn [take]. unfold aboard. cbn [map foldr fst]. rewrite (sa_point _ _ _ S). lia.
  Qed.

  Lemma work_tasks xs : forall l, map fst (work_of xs (schedule l xs)) = flat_map tasks xs.
  Proof.
    induction xs as [|x xs IH]; intros l; [done|]. unfold work_of in *. cbn [schedule zip_with concat flat_map]. rewrite map_app, map_map. cbn [fst].
    rewrite map_id. by rewrite IH.
  Qed.
  Lemma tasks_perm xs : flat_map tasks xs ≡ₚ map Pick (boards xs) ++ map Drop (alights xs).
  Proof.
    induction xs as [|x xs IH]; [done|]. unfold boards, alights in *. cbn. rewrite !map_app, IH. unfold tasks. solve_Permutation.
  Qed.
  Lemma tasks_Pick xs k : Pick k ∈ flat_map tasks xs <-> k ∈ boards xs.
  Proof.
    rewrite tasks_perm, elem_of_app, !elem_of_list_In, !in_map_iff. split; [|eauto].
    intros [(x & [= ->] & H)|(x & ? & _)]; done.
  Qed.
  Lemma tasks_Drop xs k : Drop k ∈ flat_map tasks xs <-> k ∈ alights xs.
  Proof.
    rewrite tasks_perm, elem_of_app, !elem_of_list_In, !in_map_iff. split; [|eauto].
    intros [(x & ? & _)|(x & [= ->] & H)]; done.
  Qed.
  Lemma tasks_NoDup xs : rides xs -> NoDup (flat_map tasks xs).
  Proof.
    intros R. rewrite tasks_perm. apply NoDup_app. split; [|split].
    - assert (Inj (=) (=) Pick) by (intros ? ? [= ->]; done). apply (NoDup_fmap_2 Pick), R.
    - intros t H1 H2. apply elem_of_list_In, in_map_iff in H1 as (? & <- & _). apply elem_of_list_In, in_map_iff in H2 as (? & ? & _). done.
    - assert (Inj (=) (=) Drop) by (intros ? ? [= ->]; done). apply (NoDup_fmap_2 Drop), rides_alights_nodup, R.
  Qed.

  (** what an inner visit is for *)
  Lemma stop_Pick x k p : stop_at x (Pick k) p -> k ∈ vi_board x.
  Proof.
    intros [E _ _ _ _ _]. assert (H : Pick k ∈ tasks x) by (rewrite E; apply elem_of_list_here). unfold tasks in H.
    apply elem_of_app in H as [H|H]; apply elem_of_list_In, in_map_iff in H as (? & [= ->] & H); by apply elem_of_list_In.
  Qed.
  Lemma stop_Drop x k p : stop_at x (Drop k) p -> k ∈ vi_alight x.
  Proof.
    intros [E _ _ _ _ _]. assert (H : Drop k ∈ tasks x) by (rewrite E; apply elem_of_list_here). unfold tasks in H.
    apply elem_of_app in H as [H|H]; apply elem_of_list_In, in_map_iff in H as (? & [= ->] & H); by apply elem_of_list_In.
  Qed.

  Lemma ride_of_board xs a x k : rides xs -> xs !! a = Some x -> k ∈ vi_board x -> exists b, ride xs k a b.
  Proof.
    intros R Hx Hk. assert (Hb : k ∈ boards xs) by (apply elem_of_boards; exists x; split; [by eapply elem_of_list_lookup_2|done]).
    destruct (rides_order _ R k Hb) as (u & w & Hs & Hu & Hw). apply sublist2 in Hs as (a' & b & _ & Ha & Hb').
    assert (a' = a) as -> by (eapply (flat_map_NoDup_lookup vi_board xs); [apply R|exact Ha|exact Hx|exact Hu|exact Hk]).
    exists b, u, w. done.
  Qed.
  Lemma ride_of_alight xs b y k : rides xs -> xs !! b = Some y -> k ∈ vi_alight y -> exists a, ride xs k a b.
  Proof.
    intros R Hy Hk. assert (Hb : k ∈ boards xs).
    { rewrite <- (rides_all _ R). apply elem_of_alights. exists y; split; [by eapply elem_of_list_lookup_2|done]. }
    destruct (rides_order _ R k Hb) as (u & w & Hs & Hu & Hw). apply sublist2 in Hs as (a & b' & _ & Ha & Hb').
    assert (b' = b) as -> by (eapply (flat_map_NoDup_lookup vi_alight xs); [by apply rides_alights_nodup|exact Hb'|exact Hy|exact Hw|exact Hk]).
    exists a, u, w. done.
  Qed.

  Section one.
    Context (v : nat) (xs : list visit) (Hv : (v < dr_vehicles i)%nat) (HT : tour v xs) (HS : simple xs)
      (HK : forall t, t ∈ boards xs -> (t < length (dr_pickups i))%nat) (HA : boards xs <> [] -> almost v xs).

    Lemma depot_duration x : tasks x = [] -> visit_duration x = 0.
    Proof. unfold tasks. intros [E1 E2]%app_eq_nil. apply map_eq_nil in E1, E2. unfold visit_duration. by rewrite E1, E2. Qed.

    Lemma shape : exists x0 mid xn, xs = x0 :: mid ++ [xn] /\ Forall (fun x => exists t p, stop_at x t p) mid /\
      tasks x0 = [] /\ vi_place x0 = place (dr_depot i) /\ tasks xn = [] /\ vi_place xn = place (dr_depot i) /\
      weight (vi_board x0) - weight (vi_alight x0) = 0.
    Proof.
      destruct HS as (x0 & mid & xn & E & F). exists x0, mid, xn. split; [done|].
      destruct (tour_first _ _ HT) as (x0' & rest & E' & _ & P0 & B0 & A0). destruct (tour_last _ _ HT) as (front & xn' & E'' & Pn & Bn & An).
      rewrite E in E'. injection E' as <- <-. rewrite E in E''.
      change (x0 :: mid ++ [xn]) with ((x0 :: mid) ++ [xn]) in E''. apply app_inj_tail in E'' as [_ <-].
      destruct (sw_vehicle i SW v Hv) as (H1 & H2 & H3 & H4). unfold tasks. rewrite B0, A0, Bn, An. rewrite <- H1 at 1. rewrite <- H2.
      split; [|done]. apply Forall_forall. intros x Hx. rewrite Forall_forall in F. eapply (inner_stop xs).
      - apply HT.
      - done.
      - subst xs. apply elem_of_cons. right. apply elem_of_app. by left.
      - by apply F.
    Qed.

    (** a task of the schedule belongs to a visit *)
    Lemma roster_lookup a t s : ro_work (roster_of v xs) !! a = Some (t, s) ->
      exists x p T, xs !! S a = Some x /\ stop_at x t p /\ timetable v xs !! S a = Some T /\ s = tm_start T /\ boards xs <> [].
    Proof.
      destruct shape as (x0 & mid & xn & E & F & T0 & P0 & Tn & Pn & W0). cbn. unfold timetable. rewrite E at 1 2.
      cbn [schedule]. rewrite work_of_none by done. intros H. apply work_lookup in H as (x & p & T & Hx & St & Ht & ->); [|done..].
      assert (Hx' : xs !! S a = Some x) by (rewrite E; rewrite <- Hx; apply (lookup_app_l mid); by eapply lookup_lt_Some).
      exists x, p, T. split; [done|]. split; [done|]. split; [by rewrite E|]. split; [done|].
      pose proof (tour_rides _ _ HT) as R. apply elem_of_list_lookup_2 in Hx'. intros B0. destruct t as [k|k].
      - apply stop_Pick in St. assert (k ∈ boards xs) as Hk by (apply elem_of_boards; eauto). rewrite B0 in Hk. by apply elem_of_nil in Hk.
      - apply stop_Drop in St. assert (k ∈ boards xs) as Hk by (rewrite <- (rides_all _ R); apply elem_of_alights; eauto).
        rewrite B0 in Hk. by apply elem_of_nil in Hk.
    Qed.

    Lemma task_ride a x t p : xs !! a = Some x -> stop_at x t p ->
      exists k b c, (t = Pick k /\ b = a \/ t = Drop k /\ c = a) /\ ride xs k b c.
    Proof.
      intros Hx S. pose proof (tour_rides _ _ HT) as R. destruct t as [k|k].
      - apply stop_Pick in S. destruct (ride_of_board xs a x k R Hx S) as [c Hc]. exists k, a, c. eauto.
      - apply stop_Drop in S. destruct (ride_of_alight xs a x k R Hx S) as [b Hb]. exists k, b, a. eauto.
    Qed.

    Lemma timetable_at b x : xs !! b = Some x -> exists T, timetable v xs !! b = Some T.
    Proof. intros Hx. rewrite (timetable_lookup v xs b x Hx). eauto. Qed.

    Lemma roster_orderly : orderly eb i (roster_of v xs).
    Proof.
      pose proof (tour_rides _ _ HT) as R. destruct (sw_vehicle i SW v Hv) as (V1 & V2 & V3 & V4).
      destruct shape as (x0 & mid & xn & E & F & T0 & P0 & Tn & Pn & W0). split.
      - cbn. unfold timetable. rewrite E. cbn [schedule head fmap option_fmap option_map default]. cbn. rewrite V3, V1, P0, (depot_duration _ T0).
        pose proof (dist_nonneg (place (dr_depot i)) (place (dr_depot i))). lia.
      - cbn. unfold timetable. rewrite E. cbn [schedule head fmap option_fmap option_map default]. rewrite work_of_none by done.
        destruct (last (advance (ready v) x0 :: schedule (leave x0 (advance (ready v) x0)) (mid ++ [xn]))) as [T|] eqn:EL.
        2:{ by apply last_None in EL. }
        cbn [fmap option_fmap option_map default]. unfold leave in *. rewrite <- P0. apply work_passable; try done.
        + by rewrite (depot_duration _ Tn).
        + destruct (mid ++ [xn]) eqn:E'; [by destruct mid|]. exact EL.
      - cbn. unfold timetable. rewrite work_tasks. by apply tasks_NoDup.
      - intros k. cbn. unfold timetable. rewrite work_tasks, tasks_Pick, tasks_Drop. by rewrite (rides_all _ R).
      - intros a b k s s' p Ha Hb Hp. apply roster_lookup in Ha as (x & p1 & T1 & Hx & S1 & HT1 & -> & Hne).
        apply roster_lookup in Hb as (y & p2 & T2 & Hy & S2 & HT2 & -> & _).
        pose proof (sa_point _ _ _ S1) as Ep. cbn in Ep. rewrite Hp in Ep. injection Ep as <-.
        pose proof (stop_Pick _ _ _ S1) as Bk. pose proof (stop_Drop _ _ _ S2) as Ak. split.
        + pose proof (rides_before xs _ _ _ _ _ R Hx Hy Bk Ak). lia.
        + assert (Hr : ride xs k (S a) (S b)) by (exists x, y; done).
          destruct (al_rides _ _ (HA Hne) k _ _ x y T1 T2 Hr Hx Hy HT1 HT2) as (_ & _ & _ & _ & L & _).
          assert (Hk : k ∈ boards xs) by (apply elem_of_boards; exists x; split; [by eapply elem_of_list_lookup_2|done]).
          destruct (sw_trip i SW k (HK k Hk)) as (q & d & _ & _ & _ & _ & _ & _ & Et). rewrite Et in L. cbn in L.
          assert (tm_departure T1 = tm_start T1 + pt_duration p); [|lia].
          rewrite (timetable_lookup v xs _ x Hx) in HT1. injection HT1 as <-. rewrite <- (sa_duration _ _ _ S1).
          unfold tm, advance. by destruct (back _ _) as [[? ?] ?].
      - intros t s p Ht Hp. apply elem_of_list_lookup in Ht as [a Ha]. apply roster_lookup in Ha as (x & p' & T & Hx & S & HT' & -> & _).
        rewrite (sa_point _ _ _ S) in Hp. injection Hp as <-. etransitivity; [apply (sa_open _ _ _ S)|].
        rewrite (timetable_lookup v xs _ x Hx) in HT'. injection HT' as <-. unfold tm, advance. destruct (back _ _) as [[? ?] ?]. cbn. lia.
      - intros a [t s] Ha. pose proof Ha as Ha'. apply roster_lookup in Ha as (x & p & T & Hx & S & HT' & -> & Hne).
        destruct (task_ride _ x t p Hx S) as (k & b & c & Hc & Hr). pose proof Hr as (y & z & Hy & Hz & _).
        destruct (timetable_at _ _ Hy) as [T1 H1]. destruct (timetable_at _ _ Hz) as [T2 H2].
        destruct (al_rides _ _ (HA Hne) k _ _ y z T1 T2 Hr Hy Hz H1 H2) as (_ & _ & L1 & L2 & _).
        assert (L : at_most (tm_load T) (v_capacity v)) by (destruct Hc as [[_ ->]|[_ ->]]; congruence).
        rewrite V4 in L. cbn in L. enough (aboard i (take (Datatypes.S a) (ro_work (roster_of v xs))) = tm_load T) by lia.
        unfold roster_of in *. cbn [ro_work] in *. unfold timetable in *. clear - E F T0 Tn W0 HT' Ha'. rewrite E in *. clear E.
        set (A := advance (ready v) x0) in *. assert (EA : tm_load A = 0) by (unfold A; cbn [advance ready tm_load]; lia).
        cbn [schedule] in *. fold A in HT', Ha' |- *. rewrite work_of_none in * by done. unfold leave in *.
        change (schedule (tm_departure A, vi_place x0, tm_load A) (mid ++ [xn]) !! a = Some T) in HT'.
        apply work_lookup in Ha' as (x' & _ & _ & Hx' & _); [|done..]. apply lookup_lt_Some in Hx'.
        rewrite <- (work_aboard mid xn (tm_departure A) (vi_place x0) (tm_load A) F Tn a T Hx' HT'). lia.
    Qed.

    Lemma roster_punctual : calm xs (length xs) -> punctual eb i (roster_of v xs).
    Proof.
      intros C t s p Ht Hp. apply elem_of_list_lookup in Ht as [a Ha]. apply roster_lookup in Ha as (x & p' & T & Hx & S & HT' & -> & Hne).
      rewrite (sa_point _ _ _ S) in Hp. injection Hp as <-.
      destruct (task_ride _ x t p' Hx S) as (k & b & c & Hc & Hr). pose proof Hr as (y & z & Hy & Hz & By & Az).
      destruct (timetable_at _ _ Hy) as [T1 H1]. destruct (timetable_at _ _ Hz) as [T2 H2].
      destruct (al_rides _ _ (HA Hne) k _ _ y z T1 T2 Hr Hy Hz H1 H2) as (_ & _ & _ & _ & _ & O1 & O2).
      assert (Cc : forall n u, xs !! n = Some u -> calm xs n).
      { intros n u Hu m w Hm Hw. apply lookup_lt_Some in Hu. apply (C m w); [lia|done]. }
      assert (Hk : k ∈ boards xs) by (apply elem_of_boards; exists y; split; [by eapply elem_of_list_lookup_2|done]).
      destruct (sw_trip i SW k (HK k Hk)) as (q & d & Eq & Ed & (_ & _ & _ & Lq) & (_ & _ & _ & Ld) & _ & _ & Et).
      pose proof (sa_point _ _ _ S) as Ep. destruct Hc as [[-> ->]|[-> ->]]; cbn in Ep.
      - rewrite Eq in Ep. injection Ep as <-. rewrite HT' in H1. injection H1 as <-.
        destruct (O1 (Cc _ _ Hy)) as (Ob & _). destruct (Ob k By) as [_ L]. unfold origin_latest in L. rewrite Lq, Ld in L. cbn in L. lia.
      - rewrite Ed in Ep. injection Ep as <-. rewrite HT' in H2. injection H2 as <-.
        destruct (O2 (Cc _ _ Hz)) as (_ & Oa & _). destruct (Oa k Az) as [_ L]. unfold destination_latest in L. rewrite Lq, Ld, Et in L. cbn in L. lia.
    Qed.
  End one.
End walk.
