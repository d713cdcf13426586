(** A plan is a solution of the three-index model. *)
From Coq Require Import Sorted Lqa.
From Verif Require Import SpecDarp MilpGraph MilpTheorems SchedProofs TourProofs MilpProofs MilpSound.

Lemma next_to_lookup l i j : next_to l i j <-> exists m, l !! m = Some i /\ l !! S m = Some j.
Proof.
  split.
  - intros (l1 & l2 & ->). exists (length l1). split; [by rewrite list_lookup_middle|].
    replace (S (length l1)) with (length (l1 ++ [i])) by (rewrite app_length; cbn; lia).
    change (l1 ++ i :: j :: l2) with (l1 ++ ([i] ++ j :: l2)). rewrite app_assoc. by rewrite list_lookup_middle.
  - intros (m & Hi & Hj). exists (take m l), (drop (S (S m)) l). rewrite <- (drop_S _ _ _ Hj). by rewrite take_drop_middle.
Qed.
Lemma count_one {A} (l : list A) y : NoDup l -> (forall z, z ∈ l <-> z = y) -> length l = 1%nat.
Proof.
  intros Hn H. destruct l as [|b [|c l]]; [|done|].
  - pose proof (proj2 (H y) eq_refl) as Hy. by inversion Hy.
  - assert (b = y) as -> by (apply H; by left). assert (c = y) as -> by (apply H; right; by left).
    apply NoDup_cons in Hn as [Hn _]. destruct Hn. by left.
Qed.
Lemma count_zero {A} (l : list A) : (forall z, z ∉ l) -> length l = 0%nat.
Proof. destruct l as [|b l]; [done|]. intros H. destruct (H b). by left. Qed.
Lemma Forall2_exists {A B} (R : B -> A -> Prop) l : (forall y, y ∈ l -> exists z, R z y) -> exists zs, Forall2 R zs l.
Proof.
  induction l as [|y l IH]; intros H; [by exists []|]. destruct IH as (zs & Hz); [intros z Hz; apply H; by right|].
  destruct (H y ltac:(by left)) as (z & Hzy). exists (z :: zs). by constructor.
Qed.

Section timetables.
  Context {W : World}.
  Lemma schedule_next xs : forall l m x y T T', xs !! m = Some x -> xs !! S m = Some y ->
    schedule l xs !! m = Some T -> schedule l xs !! S m = Some T' -> T' = advance (leave x T) y.
  Proof.
    induction xs as [|z xs IH]; intros l m x y T T' Hx Hy HT HT'; [done|]. destruct m as [|m].
    - cbn in *. injection Hx as ->. injection HT as <-. destruct xs as [|y' xs]; [done|]. cbn in *. injection Hy as ->. by injection HT'.
    - cbn [schedule] in *. by eapply IH.
  Qed.
  Lemma weight_nonneg_in l : (forall t, t ∈ l -> 0 <= tr_capacity (w_trip t)) -> 0 <= weight l.
  Proof.
    intros H. unfold weight. induction l as [|t l IH]; cbn; [lia|]. pose proof (H t ltac:(by left)).
    unfold sum_of in IH. specialize (IH ltac:(intros; apply H; by right)). lia.
  Qed.
End timetables.

Section complete.
  Context {W : World} (v0 : nat) (vs' ts : list nat).
  Notation vs := (v0 :: vs').
  Notation n := (length ts).
  Notation N := (2 * length ts + 2)%nat.
  Notation L := (2 * length ts + 1)%nat.
  Notation nload := (nload ts).
  Notation nwin := (nwin v0 vs' ts).
  Notation ncap := (ncap ts).
  Notation nlat := (nlat v0 vs' ts).
  Notation nout := (nout ts).
  Notation vcap := (vcap v0 vs').
  Context (Fin : finite vs ts) (Mv : moving ts) (Hnd : NoDup ts) (Hdep : one_depot vs) (Hdir : direct vs ts) (Hroom : roomy vs ts).
  Context (Hdur : forall t, t ∈ ts -> 0 <= origin_duration (w_trip t) <= destination_duration (w_trip t)).
  Context (tours : list (list visit)) (Hplan : plan vs ts tours) (Hday : within_day vs tours).

  Lemma plan_lookup k v : vs !! k = Some v -> exists xs, tours !! k = Some xs /\ tour v xs /\ simple xs /\ exact v xs.
  Proof.
    intros Hk. destruct Hplan as [H _]. destruct (Forall2_lookup_l _ _ _ _ _ H Hk) as (xs & Hxs & ? & ? & ?). by exists xs.
  Qed.
  Lemma boards_flat : flat_map boards tours ≡ₚ ts.
  Proof. destruct Hplan as [_ H]. by rewrite flat_map_concat_map. Qed.
  Lemma boards_in k xs t : tours !! k = Some xs -> t ∈ boards xs -> t ∈ ts.
  Proof. intros Hk Ht. rewrite <- boards_flat. apply elem_of_flat_map. exists xs. split; [by eapply elem_of_list_lookup_2|done]. Qed.
  Lemma boards_unique k k' xs xs' t : tours !! k = Some xs -> tours !! k' = Some xs' -> t ∈ boards xs -> t ∈ boards xs' -> k = k'.
  Proof. intros Hk Hk' Ht Ht'. eapply (flat_map_NoDup_lookup boards); [|exact Hk|exact Hk'|exact Ht|exact Ht']. by rewrite boards_flat. Qed.
  Lemma tours_length : length tours = length vs.
  Proof. destruct Hplan as [H _]. symmetry. by eapply Forall2_length. Qed.

  (** *** The nodes on the tour of a vehicle *)
  Lemma event_cases x : events x = 1%nat -> exists t, (vi_board x = [t] /\ vi_alight x = []) \/ (vi_board x = [] /\ vi_alight x = [t]).
  Proof.
    unfold events. destruct (vi_board x) as [|t [|]], (vi_alight x) as [|t' [|]]; cbn; try lia; intros _; [by exists t'; right|by exists t; left].
  Qed.
  Lemma nodes_exist k v : vs !! k = Some v -> exists p, forall xs, tours !! k = Some xs ->
    exists x0 mid xn, xs = x0 :: mid ++ [xn] /\ Forall2 (shows ts) p mid /\
      vi_place x0 = v_origin_position v /\ vi_board x0 = [] /\ vi_alight x0 = [] /\
      vi_place xn = v_destination_position v /\ vi_board xn = [] /\ vi_alight xn = [].
  Proof.
    intros Hk. destruct (plan_lookup k v Hk) as (xs & Hxs & HT & (x0 & mid & xn & E & Hs) & _).
    destruct (Forall2_exists (shows ts) mid) as (p & Hp).
    - intros x Hx. rewrite Forall_forall in Hs. specialize (Hs x Hx).
      assert (Hx' : x ∈ xs) by (rewrite E; right; apply elem_of_app; by left).
      destruct (tour_places v xs HT x Hx') as [Po Pd].
      destruct (event_cases x Hs) as (t & [[Eb Ea]|[Eb Ea]]).
      + assert (Ht : t ∈ ts). { apply (boards_in k xs); [done|]. apply elem_of_boards. exists x. split; [done|]. rewrite Eb. by left. }
        apply elem_of_list_lookup_1 in Ht as (m & Hm). exists (m + 1)%nat. left. exists t. split; [by exists m|].
        unfold anytime, pick_up. rewrite Eb, Ea, (Po t); [done|rewrite Eb; by left].
      + assert (Ht : t ∈ ts). { apply (boards_in k xs); [done|]. rewrite <- (tour_all v xs HT). apply elem_of_alights. exists x. split; [done|]. rewrite Ea. by left. }
        apply elem_of_list_lookup_1 in Ht as (m & Hm). exists (n + m + 1)%nat. right. exists t. split; [by exists m|].
        unfold anytime, drop_off. rewrite Eb, Ea, (Pd t); [done|rewrite Ea; by left].
    - exists p. intros xs2 Hxs2. rewrite Hxs in Hxs2. injection Hxs2 as <-. exists x0, mid, xn. split; [done|]. split; [done|].
      destruct HT as [(y0 & r & E0 & _ & H1 & H2 & H3) (f & yn & En & H4 & H5 & H6) _].
      rewrite E in E0. injection E0 as -> _. rewrite E, app_comm_cons in En. apply app_inj_tail in En as [_ ->]. done.
  Qed.
  Definition good (P : nat -> list nat) : Prop := forall k v xs, vs !! k = Some v -> tours !! k = Some xs ->
    exists x0 mid xn, xs = x0 :: mid ++ [xn] /\ Forall2 (shows ts) (P k) mid /\
      vi_place x0 = v_origin_position v /\ vi_board x0 = [] /\ vi_alight x0 = [] /\
      vi_place xn = v_destination_position v /\ vi_board xn = [] /\ vi_alight xn = [].
  Lemma good_exists : exists P, good P.
  Proof.
    destruct (choose (fun k p => forall v xs, vs !! k = Some v -> tours !! k = Some xs ->
      exists x0 mid xn, xs = x0 :: mid ++ [xn] /\ Forall2 (shows ts) p mid /\
      vi_place x0 = v_origin_position v /\ vi_board x0 = [] /\ vi_alight x0 = [] /\
      vi_place xn = v_destination_position v /\ vi_board xn = [] /\ vi_alight xn = []) [] (length vs)) as (P & HP).
    - intros k Hk. destruct (lookup_lt_is_Some_2 vs k Hk) as [v Hv]. destruct (nodes_exist k v Hv) as (p & Hp). exists p.
      intros v2 xs Hv2 Hxs. rewrite Hv in Hv2. injection Hv2 as <-. by apply Hp.
    - exists P. intros k v xs Hk Hxs. apply HP; [by eapply lookup_lt_Some|done|done].
  Qed.

  Context (P : nat -> list nat) (HP : good P).
  Definition nodes (k : nat) : list nat := 0%nat :: P k ++ [L].
  Definition V (k : nat) : nat := nth k vs 0%nat.
  Definition X (k : nat) : list visit := nth k tours [].
  Definition TT (k : nat) : list timing := timetable (V k) (X k).

  Lemma Q_last k : nodes k !! S (length (P k)) = Some L.
  Proof. change ((P k ++ [L]) !! length (P k) = Some L). by rewrite list_lookup_middle. Qed.
  Lemma V_lookup k : (k < length vs)%nat -> vs !! k = Some (V k).
  Proof. intros Hk. destruct (lookup_lt_is_Some_2 vs k Hk) as [v Hv]. unfold V. by rewrite (nth_lookup_Some _ _ _ _ Hv). Qed.
  Lemma V_elem k : (k < length vs)%nat -> V k ∈ vs.
  Proof. intros Hk. eapply elem_of_list_lookup_2, V_lookup, Hk. Qed.
  Lemma X_lookup k : (k < length vs)%nat -> tours !! k = Some (X k).
  Proof. intros Hk. rewrite <- tours_length in Hk. destruct (lookup_lt_is_Some_2 tours k Hk) as [v Hv]. unfold X. by rewrite (nth_lookup_Some _ _ _ _ Hv). Qed.
  Lemma X_tour k : (k < length vs)%nat -> tour (V k) (X k) /\ exact (V k) (X k).
  Proof. intros Hk. destruct (plan_lookup k _ (V_lookup k Hk)) as (xs & Hxs & ? & _ & ?). rewrite (X_lookup k Hk) in Hxs. by injection Hxs as <-. Qed.
  Lemma shows_range i x : shows ts i x -> (0 < i < L)%nat.
  Proof. intros [(t & (m & Hm & ->) & _)|(t & (m & Hm & ->) & _)]; apply lookup_lt_Some in Hm; lia. Qed.
  Lemma shows_board i x t : shows ts i x -> t ∈ vi_board x <-> pickup_node ts i t.
  Proof.
    intros [(t' & H & E)|(t' & H & E)]; injection E as _ Eb Ea.
    - rewrite Eb, elem_of_list_singleton. split; [by intros ->|]. destruct H as (m & Hm & ->). intros (m' & Hm' & Em). assert (m = m') by lia. congruence.
    - rewrite Eb. split; [by inversion 1|]. destruct H as (m & Hm & ->). intros (m' & Hm' & Em). apply lookup_lt_Some in Hm'. lia.
  Qed.
  Lemma shows_alight i x t : shows ts i x -> t ∈ vi_alight x <-> delivery_node ts i t.
  Proof.
    intros [(t' & H & E)|(t' & H & E)]; injection E as _ Eb Ea.
    - rewrite Ea. split; [by inversion 1|]. destruct H as (m & Hm & ->). intros (m' & Hm' & Em). apply lookup_lt_Some in Hm. lia.
    - rewrite Ea, elem_of_list_singleton. split; [by intros ->|]. destruct H as (m & Hm & ->). intros (m' & Hm' & Em). assert (m = m') by lia. congruence.
  Qed.

  (** the visit at position [m] of the tour *)
  Lemma X_nodes k m i : (k < length vs)%nat -> nodes k !! m = Some i -> exists x, X k !! m = Some x /\
    ((i = 0%nat /\ m = 0%nat /\ vi_place x = v_origin_position (V k) /\ vi_board x = [] /\ vi_alight x = []) \/
     (i = L /\ m = S (length (P k)) /\ vi_place x = v_destination_position (V k) /\ vi_board x = [] /\ vi_alight x = []) \/
     shows ts i x).
  Proof.
    intros Hk Hm. destruct (HP k _ _ (V_lookup k Hk) (X_lookup k Hk)) as (x0 & mid & xn & E & Hp & H1 & H2 & H3 & H4 & H5 & H6).
    rewrite E. unfold nodes in Hm. destruct m as [|m].
    - injection Hm as <-. exists x0. split; [done|]. left. done.
    - change ((P k ++ [L]) !! m = Some i) in Hm. change ((x0 :: mid ++ [xn]) !! S m) with ((mid ++ [xn]) !! m).
      pose proof (Forall2_length _ _ _ Hp) as Hl. apply lookup_app_Some in Hm as [Hm|[Hlm Hm]].
      + destruct (Forall2_lookup_l _ _ _ _ _ Hp Hm) as (x & Hx & Hs). exists x. split; [by apply lookup_app_l_Some|]. by right; right.
      + exists xn. destruct (m - length (P k))%nat as [|?] eqn:Em; [|done]. injection Hm as <-. split.
        * rewrite lookup_app_r by lia. by replace (m - length mid)%nat with 0%nat by lia.
        * right. left. split; [done|]. split; [lia|done].
  Qed.
  Lemma Q_length k : (k < length vs)%nat -> length (nodes k) = length (X k).
  Proof.
    intros Hk. destruct (HP k _ _ (V_lookup k Hk) (X_lookup k Hk)) as (x0 & mid & xn & E & Hp & _). rewrite E. unfold nodes. cbn.
    rewrite !app_length. cbn. by rewrite (Forall2_length _ _ _ Hp).
  Qed.
  Lemma TT_length k : length (TT k) = length (X k).
  Proof. apply schedule_length. Qed.
  Lemma Q_range k m i : (k < length vs)%nat -> nodes k !! m = Some i -> (i < N)%nat.
  Proof. intros Hk Hm. destruct (X_nodes k m i Hk Hm) as (x & _ & [(-> & _)|[(-> & _)|H]]); [lia|lia|]. apply shows_range in H. lia. Qed.
  Lemma Q_inj k m m' i : (k < length vs)%nat -> nodes k !! m = Some i -> nodes k !! m' = Some i -> m = m'.
  Proof.
    intros Hk Hm Hm'. destruct (X_nodes k m i Hk Hm) as (x & Hx & C). destruct (X_nodes k m' i Hk Hm') as (x' & Hx' & C').
    destruct (X_tour k Hk) as [HT _].
    destruct C as [(-> & -> & _)|[(-> & -> & _)|C]], C' as [(E & -> & _)|[(E & -> & _)|C']]; try done; try lia;
      try (apply shows_range in C'; lia); try (apply shows_range in C; lia).
    pose proof (shows_range _ _ C).
    destruct (c48_nodes ts i) as [[->| ->]|[(t & Ht)|(t & Ht)]]; [unfold node_count, trip_count; lia|lia|lia|..].
    - eapply (flat_map_NoDup_lookup vi_board (X k)); [apply (tour_once _ _ HT)|exact Hx|exact Hx'|by apply (shows_board i)|by apply (shows_board i)].
    - eapply (flat_map_NoDup_lookup vi_alight (X k)); [apply (rides_alights_nodup _ (tour_rides _ _ HT))|exact Hx|exact Hx'|by apply (shows_alight i)|by apply (shows_alight i)].
  Qed.
  Lemma Q_NoDup k : (k < length vs)%nat -> NoDup (nodes k).
  Proof. intros Hk. apply NoDup_alt. intros. by eapply Q_inj. Qed.
  Lemma P_pickup k i t : (k < length vs)%nat -> pickup_node ts i t -> i ∈ nodes k <-> t ∈ boards (X k).
  Proof.
    intros Hk H. split.
    - intros (m & Hm)%elem_of_list_lookup_1. destruct (X_nodes k m i Hk Hm) as (x & Hx & C).
      destruct H as (q & Hq & ->). pose proof (lookup_lt_Some _ _ _ Hq). destruct C as [(E & _)|[(E & _)|C]]; [lia|lia|].
      apply elem_of_boards. exists x. split; [by eapply elem_of_list_lookup_2|]. apply (shows_board _ _ _ C). by exists q.
    - intros (x & Hx & Ht)%elem_of_boards. destruct (HP k _ _ (V_lookup k Hk) (X_lookup k Hk)) as (x0 & mid & xn & E & Hp & H1 & H2 & H3 & H4 & H5 & H6).
      rewrite E in Hx. rewrite elem_of_cons, elem_of_app, elem_of_list_singleton in Hx.
      destruct Hx as [->|[Hx| ->]]; [rewrite H2 in Ht; by inversion Ht| |rewrite H5 in Ht; by inversion Ht].
      apply elem_of_list_lookup_1 in Hx as (m & Hm). destruct (Forall2_lookup_r _ _ _ _ _ Hp Hm) as (i' & Hi' & Hs).
      apply (shows_board _ _ _ Hs) in Ht. rewrite (pickup_inj ts Hnd _ _ _ H Ht). right. apply elem_of_app. left. by eapply elem_of_list_lookup_2.
  Qed.
  Lemma P_delivery k i t : (k < length vs)%nat -> delivery_node ts i t -> i ∈ nodes k <-> t ∈ boards (X k).
  Proof.
    intros Hk H. destruct (X_tour k Hk) as [HT _]. rewrite <- (tour_all _ _ HT). split.
    - intros (m & Hm)%elem_of_list_lookup_1. destruct (X_nodes k m i Hk Hm) as (x & Hx & C).
      destruct H as (q & Hq & ->). pose proof (lookup_lt_Some _ _ _ Hq). destruct C as [(E & _)|[(E & _)|C]]; [lia|lia|].
      apply elem_of_alights. exists x. split; [by eapply elem_of_list_lookup_2|]. apply (shows_alight _ _ _ C). by exists q.
    - intros (x & Hx & Ht)%elem_of_alights. destruct (HP k _ _ (V_lookup k Hk) (X_lookup k Hk)) as (x0 & mid & xn & E & Hp & H1 & H2 & H3 & H4 & H5 & H6).
      rewrite E in Hx. rewrite elem_of_cons, elem_of_app, elem_of_list_singleton in Hx.
      destruct Hx as [->|[Hx| ->]]; [rewrite H3 in Ht; by inversion Ht| |rewrite H6 in Ht; by inversion Ht].
      apply elem_of_list_lookup_1 in Hx as (m & Hm). destruct (Forall2_lookup_r _ _ _ _ _ Hp Hm) as (i' & Hi' & Hs).
      apply (shows_alight _ _ _ Hs) in Ht. rewrite (delivery_inj ts Hnd _ _ _ H Ht). right. apply elem_of_app. left. by eapply elem_of_list_lookup_2.
  Qed.
  (** every trip is on one tour *)
  Lemma trip_tour t : t ∈ ts -> exists k, (k < length vs)%nat /\ t ∈ boards (X k).
  Proof.
    intros Ht. rewrite <- boards_flat in Ht. apply elem_of_flat_map in Ht as (xs & Hxs & Ht). apply elem_of_list_lookup_1 in Hxs as (k & Hk).
    assert (Hl : (k < length vs)%nat) by (rewrite <- tours_length; by eapply lookup_lt_Some). exists k. split; [done|].
    rewrite (X_lookup k Hl) in Hk. by injection Hk as ->.
  Qed.
  Lemma node_tour i : (0 < i < L)%nat -> exists k, (k < length vs)%nat /\ i ∈ nodes k.
  Proof.
    intros Hi. destruct (c48_nodes ts i) as [[->| ->]|[(t & Ht)|(t & Ht)]]; [unfold node_count, trip_count; lia|lia|lia|..].
    - destruct (trip_tour t) as (k & Hk & Hb); [by eapply pickup_elem|]. exists k. split; [done|]. by eapply P_pickup.
    - destruct (trip_tour t) as (k & Hk & Hb); [by eapply delivery_elem|]. exists k. split; [done|]. by eapply P_delivery.
  Qed.
  Lemma node_unique i k k' : (0 < i < L)%nat -> (k < length vs)%nat -> (k' < length vs)%nat -> i ∈ nodes k -> i ∈ nodes k' -> k = k'.
  Proof.
    intros Hi Hk Hk' H H'. destruct (c48_nodes ts i) as [[->| ->]|[(t & Ht)|(t & Ht)]]; [unfold node_count, trip_count; lia|lia|lia|..].
    - apply (P_pickup k i t Hk Ht) in H. apply (P_pickup k' i t Hk' Ht) in H'. eapply boards_unique; [by apply X_lookup|by apply X_lookup|done|done].
    - apply (P_delivery k i t Hk Ht) in H. apply (P_delivery k' i t Hk' Ht) in H'. eapply boards_unique; [by apply X_lookup|by apply X_lookup|done|done].
  Qed.

  (** *** Times and loads *)
  Lemma X_data k m i x : (k < length vs)%nat -> nodes k !! m = Some i -> X k !! m = Some x ->
    vi_place x = pos vs ts i /\ visit_earliest x = (nwin i).1 /\ 0 <= nload i <= visit_duration x /\
    weight (vi_board x) - weight (vi_alight x) = ncap i.
  Proof.
    intros Hk Hm Hx. destruct (X_nodes k m i Hk Hm) as (x' & Hx' & C). rewrite Hx in Hx'. injection Hx' as <-.
    destruct C as [(-> & _ & Pl & Eb & Ea)|[(-> & _ & Pl & Eb & Ea)|[(t & H & E)|(t & H & E)]]].
    - destruct (depot_data v0 vs' ts 0%nat ltac:(by left)) as (-> & -> & -> & ->). unfold visit_earliest, visit_duration. rewrite Pl, Eb, Ea. cbn.
      split; [|split; [done|split; [lia|done]]]. apply Hdep; [by apply V_elem|by left].
    - destruct (depot_data v0 vs' ts L ltac:(by right)) as (-> & -> & -> & ->). unfold visit_earliest, visit_duration. rewrite Pl, Eb, Ea.
      rewrite (proj2 (Nat.eqb_neq _ _)) by lia. cbn [map app max_or fst weight]. split; [|split; [done|split; [lia|done]]]. apply Hdep; [by apply V_elem|by left].
    - injection E as Pl Eb Ea. destruct (pickup_data v0 vs' ts i t H) as (-> & -> & -> & _ & ->). unfold visit_earliest, visit_duration, weight. rewrite Pl, Eb, Ea. cbn.
      specialize (Hdur t (pickup_elem ts i t H)). split; [done|split; [done|split; lia]].
    - injection E as Pl Eb Ea. pose proof (delivery_elem ts i t H) as Ht. destruct (delivery_data v0 vs' ts i t H (Mv t Ht)) as (-> & -> & -> & ->).
      unfold visit_earliest, visit_duration, weight. rewrite Pl, Eb, Ea. cbn. specialize (Hdur t Ht). split; [done|split; [done|split; lia]].
  Qed.
  Lemma X_timing k m i x T : (k < length vs)%nat -> nodes k !! m = Some i -> X k !! m = Some x -> TT k !! m = Some T ->
    tm_arrival T <= tm_start T /\ (nwin i).1 <= tm_start T /\ tm_departure T = tm_start T + visit_duration x.
  Proof.
    intros Hk Hm Hx HT. destruct (X_data k m i x Hk Hm Hx) as (_ & E & _). unfold TT in HT.
    rewrite (timetable_lookup _ _ _ _ Hx) in HT. injection HT as <-. rewrite <- E.
    unfold tm, advance. destruct (back (V k) _) as [[now here] load]. cbn. lia.
  Qed.
  Lemma X_step k m i j x y T T' : (k < length vs)%nat -> nodes k !! m = Some i -> nodes k !! S m = Some j -> X k !! m = Some x -> X k !! S m = Some y ->
    TT k !! m = Some T -> TT k !! S m = Some T' ->
    tm_arrival T' = tm_departure T + dist (pos vs ts i) (pos vs ts j) /\ tm_load T' = tm_load T + ncap j.
  Proof.
    intros Hk Hi Hj Hx Hy HT HT'. pose proof (schedule_next (X k) _ m x y T T' Hx Hy HT HT') as ->.
    destruct (X_data k m i x Hk Hi Hx) as (Ei & _). destruct (X_data k (S m) j y Hk Hj Hy) as (Ej & _ & _ & Ew).
    rewrite <- Ei, <- Ej, <- Ew. unfold leave, advance. cbn. lia.
  Qed.
  Lemma at_pos k m i : (k < length vs)%nat -> nodes k !! m = Some i -> exists x T, X k !! m = Some x /\ TT k !! m = Some T.
  Proof.
    intros Hk Hm. destruct (X_nodes k m i Hk Hm) as (x & Hx & _). exists x. destruct (lookup_lt_is_Some_2 (TT k) m) as [T HT].
    - rewrite TT_length. by eapply lookup_lt_Some.
    - by exists T.
  Qed.
  Lemma X_travel k m i T : (k < length vs)%nat -> nodes k !! m = Some i -> TT k !! m = Some T ->
    forall m' j T', (m < m')%nat -> nodes k !! m' = Some j -> TT k !! m' = Some T' ->
    tm_departure T + dist (pos vs ts i) (pos vs ts j) <= tm_arrival T'.
  Proof.
    intros Hk Hi HT. induction m' as [|m' IH]; intros j T' Hm Hj HT'; [lia|].
    destruct (lookup_lt_is_Some_2 (nodes k) m') as [l Hl]; [apply lookup_lt_Some in Hj; lia|].
    destruct (at_pos k m' l Hk Hl) as (y & T1 & Hy & HT1). destruct (at_pos k (S m') j Hk Hj) as (z & T2 & Hz & HT2).
    rewrite HT' in HT2. injection HT2 as <-.
    destruct (X_step k m' l j y z T1 T' Hk Hl Hj Hy Hz HT1 HT') as [Ea _].
    destruct (decide (m = m')) as [->|].
    - rewrite Hi in Hl. injection Hl as <-. rewrite HT in HT1. injection HT1 as <-. lia.
    - specialize (IH l T1 ltac:(lia) Hl HT1). destruct (X_timing k m' l y T1 Hk Hl Hy HT1) as (? & _ & ?).
      destruct (X_data k m' l y Hk Hl Hy) as (_ & _ & ? & _).
      pose proof (Hdir i l j (Q_range k m i Hk Hi) (Q_range k m' l Hk Hl) (Q_range k (S m') j Hk Hj)). lia.
  Qed.
  Lemma start_nonneg k m i T : (k < length vs)%nat -> nodes k !! m = Some i -> TT k !! m = Some T -> 0 <= tm_start T.
  Proof.
    intros Hk Hi HT. destruct (at_pos k m i Hk Hi) as (x & T' & Hx & HT'). rewrite HT in HT'. injection HT' as <-.
    assert (H0 : nodes k !! 0%nat = Some 0%nat) by done. destruct (at_pos k 0 0 Hk H0) as (x0 & T0 & Hx0 & HT0).
    destruct (X_timing k 0 0 x0 T0 Hk H0 Hx0 HT0) as (_ & Hs & Hd). destruct (X_data k 0 0 x0 Hk H0 Hx0) as (_ & _ & ? & _).
    destruct (depot_data v0 vs' ts 0%nat ltac:(by left)) as (_ & E & _). rewrite E in Hs. cbn [fst] in Hs.
    destruct m as [|m]; [congruence|].
    pose proof (X_travel k 0 0 T0 Hk H0 HT0 (S m) i T ltac:(lia) Hi HT) as Ht. pose proof (dist_nonneg (pos vs ts 0) (pos vs ts i)).
    destruct (X_timing k (S m) i x T Hk Hi Hx HT) as (? & _). lia.
  Qed.
  Lemma load_nonneg k m i T : (k < length vs)%nat -> nodes k !! m = Some i -> TT k !! m = Some T -> 0 <= tm_load T.
  Proof.
    intros Hk Hi HT. destruct (at_pos k m i Hk Hi) as (x & T' & Hx & HT'). destruct (X_tour k Hk) as [HX _].
    unfold TT in HT. rewrite (timetable_lookup _ _ _ _ Hx) in HT. injection HT as <-. rewrite (rides_load _ _ _ _ (tour_rides _ _ HX) Hx).
    apply weight_nonneg_in. intros t Ht. unfold on_board in Ht. apply elem_of_list_filter in Ht as [_ Ht].
    apply (Hroom (V k) t (V_elem k Hk)). apply (boards_in k (X k)); [by apply X_lookup|].
    unfold boards in *. rewrite <- (take_drop (S m) (X k)), flat_map_app. apply elem_of_app. by left.
  Qed.
  (** loads leave room for what was just unloaded, and hold what was just loaded *)
  Lemma load_bounds k m i T : (k < length vs)%nat -> nodes k !! m = Some i -> TT k !! m = Some T ->
    Z.max 0 (ncap i) <= tm_load T /\ tm_load T <= vcap k + Z.min 0 (ncap i).
  Proof.
    intros Hk Hi HT. pose proof (load_nonneg k m i T Hk Hi HT) as Hn.
    assert (C : forall m i T, nodes k !! m = Some i -> TT k !! m = Some T -> tm_load T <= vcap k).
    { clear m i T Hi HT Hn. intros m i T Hi HT. destruct (at_pos k m i Hk Hi) as (x & T' & Hx & HT'). rewrite HT in HT'. injection HT' as <-.
      destruct (X_tour k Hk) as [_ HX]. destruct (ex_visits _ _ HX m x T Hx HT) as (_ & _ & Hc).
      unfold vcap. pose proof (finite_capacity v0 vs' ts Fin k Hk) as F. unfold vcap in F. fold (V k) in *. rewrite F in Hc. exact Hc. }
    destruct m as [|m].
    - injection Hi as <-. destruct (depot_data v0 vs' ts 0%nat ltac:(by left)) as (_ & _ & -> & _). specialize (C 0%nat 0%nat T ltac:(done) HT). lia.
    - destruct (lookup_lt_is_Some_2 (nodes k) m) as [j Hj]; [apply lookup_lt_Some in Hi; lia|].
      destruct (at_pos k m j Hk Hj) as (y & T1 & Hy & HT1). destruct (at_pos k (S m) i Hk Hi) as (z & T2 & Hz & HT2). rewrite HT in HT2. injection HT2 as <-.
      destruct (X_step k m j i y z T1 T Hk Hj Hi Hy Hz HT1 HT) as [_ El].
      pose proof (load_nonneg k m j T1 Hk Hj HT1). pose proof (C _ _ _ Hj HT1). pose proof (C _ _ _ Hi HT). lia.
  Qed.

  (** *** The assignment *)
  Definition linked (k i j : nat) : bool :=
    existsb (fun m => bool_decide (nodes k !! m = Some i /\ nodes k !! S m = Some j)) (seq 0 (length (nodes k))).
  Lemma linked_spec k i j : linked k i j = true <-> next_to (nodes k) i j.
  Proof.
    unfold linked. rewrite existsb_exists, next_to_lookup. split.
    - intros (m & _ & H). apply bool_decide_eq_true in H. by exists m.
    - intros (m & H). exists m. split; [|by apply bool_decide_eq_true]. apply in_seq. destruct H as [H _]. apply lookup_lt_Some in H. lia.
  Qed.
  Definition where_ (k i : nat) : option nat := fst <$> list_find (fun j => j = i) (nodes k).
  Lemma where_some k m i : (k < length vs)%nat -> nodes k !! m = Some i -> where_ k i = Some m.
  Proof.
    intros Hk Hm. unfold where_. destruct (list_find (λ j, j = i) (nodes k)) as [[m' j]|] eqn:E.
    - apply list_find_Some in E as (Hm' & -> & _). cbn. by rewrite (Q_inj k m m' i Hk Hm Hm').
    - apply list_find_None in E. rewrite Forall_forall in E. destruct (E i); [by eapply elem_of_list_lookup_2|done].
  Qed.
  Lemma where_none k i : i ∉ nodes k -> where_ k i = None.
  Proof.
    intros H. unfold where_. destruct (list_find (λ j, j = i) (nodes k)) as [[m' j]|] eqn:E; [|done].
    apply list_find_Some in E as (Hm' & -> & _). destruct H. by eapply elem_of_list_lookup_2.
  Qed.
  Definition dT : timing := Timing 0 0 0 0.
  (** the start time on a tour that visits the node *)
  Definition start_on (k i : nat) : Z := match where_ k i with Some m => tm_start (nth m (TT k) dT) | None => 0 end.
  Definition timed_on (i : nat) (z : Z) : Prop := forall k m T, (k < length vs)%nat -> nodes k !! m = Some i -> TT k !! m = Some T -> z = tm_start T.
  Lemma starts_exist : exists U, forall i, (0 < i < L)%nat -> timed_on i (U i).
  Proof.
    destruct (choose (fun i z => (0 < i < L)%nat -> timed_on i z) 0 L) as (U & HU).
    - intros i Hi. destruct (decide (0 < i)%nat) as [Hp|]; [|exists 0; lia].
      destruct (node_tour i ltac:(lia)) as (k & Hk & Hq). apply elem_of_list_lookup_1 in Hq as (m & Hm).
      destruct (at_pos k m i Hk Hm) as (x & T & Hx & HT). exists (tm_start T). intros _ k' m' T' Hk' Hm' HT'.
      assert (k = k') as <-.
      { apply (node_unique i); [lia|done|done|by eapply elem_of_list_lookup_2|by eapply elem_of_list_lookup_2]. }
      rewrite (Q_inj k m m' i Hk Hm Hm') in HT. congruence.
    - exists U. intros i Hi. apply HU; lia.
  Qed.
  Context (U : nat -> Z) (HU : forall i, (0 < i < L)%nat -> timed_on i (U i)).
  Definition solution : assignment := Assignment
    (fun k i j => if linked k i j then 1 else 0)%Q
    (fun k i => if (i =? 0)%nat || (i =? L)%nat then start_on k i else U i)
    (fun k i => match where_ k i with Some m => tm_load (nth m (TT k) dT) | None => Z.max 0 (ncap i) end).

  Lemma sol_x k i j : (as_x solution k i j == 1)%Q <-> next_to (nodes k) i j.
  Proof. rewrite <- linked_spec. cbn [as_x solution]. destruct (linked k i j); split; try done; intros H; unfold Qeq in H; cbn in H; lia. Qed.
  Lemma sol_u k m i T : (k < length vs)%nat -> nodes k !! m = Some i -> TT k !! m = Some T -> as_u solution k i = tm_start T.
  Proof.
    intros Hk Hm HT. cbn [as_u solution]. destruct ((i =? 0)%nat || (i =? L)%nat) eqn:E.
    - unfold start_on. rewrite (where_some k m i Hk Hm). by rewrite (nth_lookup_Some _ _ _ _ HT).
    - apply orb_false_iff in E as [E1 E2]. apply Nat.eqb_neq in E1, E2. pose proof (Q_range k m i Hk Hm). by apply (HU i ltac:(lia) k m).
  Qed.
  Lemma sol_w k m i T : (k < length vs)%nat -> nodes k !! m = Some i -> TT k !! m = Some T -> as_w solution k i = tm_load T.
  Proof. intros Hk Hm HT. cbn [as_w solution]. rewrite (where_some k m i Hk Hm). by rewrite (nth_lookup_Some _ _ _ _ HT). Qed.
  Lemma sol_w' k i : i ∉ nodes k -> as_w solution k i = Z.max 0 (ncap i).
  Proof. intros H. cbn [as_w solution]. by rewrite (where_none k i H). Qed.
  (** the start time of a node, whatever the vehicle *)
  Lemma sol_any k i : (k < length vs)%nat -> (i < N)%nat -> exists k' m T, (k' < length vs)%nat /\ nodes k' !! m = Some i /\ TT k' !! m = Some T /\
    as_u solution k i = tm_start T /\ (i = 0%nat \/ i = L -> k = k').
  Proof.
    intros Hk Hi. destruct (decide (i = 0%nat)) as [->|Hz].
    - assert (H0 : nodes k !! 0%nat = Some 0%nat) by done. destruct (at_pos k 0 0 Hk H0) as (x & T & Hx & HT). exists k, 0%nat, T. by rewrite (sol_u k 0 0 T).
    - destruct (decide (i = L)) as [->|Hl].
      + assert (H0 : nodes k !! S (length (P k)) = Some L) by (apply Q_last).
        destruct (at_pos k _ _ Hk H0) as (x & T & Hx & HT). exists k, (S (length (P k))), T. by rewrite (sol_u k _ L T Hk H0 HT).
      + destruct (node_tour i ltac:(lia)) as (k' & Hk' & Hq). apply elem_of_list_lookup_1 in Hq as (m & Hm).
        destruct (at_pos k' m i Hk' Hm) as (x & T & Hx & HT). exists k', m, T. split; [done|]. split; [done|]. split; [done|]. split; [|lia].
        assert (as_u solution k i = U i) as ->.
        { cbn [as_u solution]. by rewrite (proj2 (Nat.eqb_neq _ _) Hz), (proj2 (Nat.eqb_neq _ _) Hl). }
        by apply (HU i ltac:(lia) k' m).
  Qed.
  Lemma sol_load k i : (k < length vs)%nat -> (i < N)%nat -> Z.max 0 (ncap i) <= as_w solution k i <= vcap k + Z.min 0 (ncap i).
  Proof.
    intros Hk Hi. destruct (decide (i ∈ nodes k)) as [Hq|Hq].
    - apply elem_of_list_lookup_1 in Hq as (m & Hm). destruct (at_pos k m i Hk Hm) as (x & T & Hx & HT). rewrite (sol_w k m i T Hk Hm HT).
      pose proof (load_bounds k m i T Hk Hm HT). lia.
    - rewrite (sol_w' k i Hq). split; [lia|].
      assert (R : forall t, t ∈ ts -> 0 <= tr_capacity (w_trip t) <= vcap k).
      { intros t Ht. destruct (Hroom (V k) t (V_elem k Hk) Ht) as [? Hb]. pose proof (finite_capacity v0 vs' ts Fin k Hk) as F. fold (V k) in F. rewrite F in Hb. cbn in Hb. lia. }
      destruct (c48_nodes ts i) as [[->| ->]|[(t & Ht)|(t & Ht)]]; [unfold node_count, trip_count; lia|..].
      + destruct Hq. by left.
      + destruct Hq. right. apply elem_of_app. right. by left.
      + destruct (pickup_data v0 vs' ts i t Ht) as (_ & _ & -> & _). specialize (R t (pickup_elem ts i t Ht)). lia.
      + pose proof (delivery_elem ts i t Ht) as Ht'. destruct (delivery_data v0 vs' ts i t Ht (Mv t Ht')) as (_ & _ & -> & _). specialize (R t Ht'). lia.
  Qed.
  Lemma sol_window k i : (k < length vs)%nat -> (i < N)%nat -> (nwin i).1 <= as_u solution k i /\ as_u solution k i <= nlat i.
  Proof.
    intros Hk Hi. destruct (sol_any k i Hk Hi) as (k' & m & T & Hk' & Hm & HT & -> & Hd).
    destruct (at_pos k' m i Hk' Hm) as (x & T' & Hx & HT'). rewrite HT in HT'. injection HT' as <-.
    destruct (X_timing k' m i x T Hk' Hm Hx HT) as (_ & Hs & Hdep'). split; [done|].
    destruct (X_tour k' Hk') as [_ HX]. destruct (ex_visits _ _ HX m x T Hx HT) as (Hb & Ha & _).
    pose proof (finite_window v0 vs' ts Fin Mv i Hi) as F.
    destruct (X_nodes k' m i Hk' Hm) as (x' & Hx' & C). rewrite Hx in Hx'. injection Hx' as <-.
    destruct (X_data k' m i x Hk' Hm Hx) as (_ & _ & Hdn & _).
    assert (Dy : depot_node ts i -> tm_start T <= nlat i).
    { intros Hdn'. destruct (depot_data v0 vs' ts i Hdn') as (_ & E & _). unfold nlat. rewrite E. cbn [snd].
      assert (HL : nodes k' !! S (length (P k')) = Some L) by (apply Q_last).
      destruct (at_pos k' _ _ Hk' HL) as (xl & Tl & Hxl & HTl).
      assert (El : last (TT k') = Some Tl).
      { rewrite last_lookup, TT_length, <- (Q_length k' Hk'). unfold nodes. cbn [length]. rewrite app_length. cbn [length].
        by replace (pred (S (length (P k') + 1)))%nat with (S (length (P k'))) by lia. }
      pose proof (Hday k' (V k') (X k') Tl (V_lookup k' Hk') (X_lookup k' Hk') El) as Hl.
      destruct (X_timing k' _ _ xl Tl Hk' HL Hxl HTl) as (Hal & _ & Hdl). destruct (X_data k' _ _ xl Hk' HL Hxl) as (_ & _ & ? & _).
      destruct (decide (m = S (length (P k')))) as [->|Hne]; [rewrite HTl in HT; injection HT as <-; lia|].
      pose proof (lookup_lt_Some _ _ _ Hm) as Hlt. unfold nodes in Hlt. cbn in Hlt. rewrite app_length in Hlt. cbn in Hlt.
      assert (Hlm : (m < S (length (P k')))%nat) by lia. pose proof (X_travel k' m i T Hk' Hm HT _ _ Tl Hlm HL HTl) as Ht.
      pose proof (dist_nonneg (pos vs ts i) (pos vs ts L)). lia. }
    destruct C as [(-> & _)|[(-> & _)|C]]; [apply Dy; by left|apply Dy; by right|].
    destruct (c48_nodes ts i Hi) as [H|[(t & H)|(t & H)]]; [by apply Dy|..].
    - destruct (pickup_data v0 vs' ts i t H) as (_ & E & _). rewrite E in F. cbn in F. specialize (Hb t). rewrite F in Hb. apply Hb. by apply (shows_board i x t C).
    - destruct (delivery_data v0 vs' ts i t H (Mv t (delivery_elem ts i t H))) as (_ & E & _). rewrite E in F. cbn in F. specialize (Ha t). rewrite F in Ha. apply Ha. by apply (shows_alight i x t C).
  Qed.

  Lemma out_one k i : (k < length vs)%nat -> (i < N)%nat -> i ∈ nodes k -> i <> L -> length (ones (fun j => as_x solution k i j) (seq 0 N)) = 1%nat.
  Proof.
    intros Hk Hi Hq Hl. destruct (next_to_exists (nodes k) i L Hq) as (j & Hj); [unfold nodes; rewrite app_comm_cons; apply last_snoc|done|].
    apply (count_one _ j); [apply ones_NoDup, NoDup_seq|]. intros z. rewrite elem_of_ones, sol_x, elem_of_seq.
    apply next_to_lookup in Hj as (m & Hm & Hm1). split.
    - intros [_ Hz]. apply next_to_lookup in Hz as (m' & Hm' & Hz). rewrite (Q_inj k m m' i Hk Hm Hm') in Hm1. congruence.
    - intros ->. split; [pose proof (Q_range k _ _ Hk Hm1); lia|]. apply next_to_lookup. by exists m.
  Qed.
  Lemma out_zero k i : (k < length vs)%nat -> i ∉ nodes k -> length (ones (fun j => as_x solution k i j) (seq 0 N)) = 0%nat.
  Proof. intros Hk Hq. apply count_zero. intros z. rewrite elem_of_ones, sol_x. intros [_ H]. by apply next_to_elem in H as [H _]. Qed.
  Lemma in_one k i : (k < length vs)%nat -> (i < N)%nat -> i ∈ nodes k -> i <> 0%nat -> length (ones (fun j => as_x solution k j i) (seq 0 N)) = 1%nat.
  Proof.
    intros Hk Hi Hq Hl. destruct (next_to_pred (nodes k) i 0%nat Hq) as (j & Hj); [done|done|].
    apply (count_one _ j); [apply ones_NoDup, NoDup_seq|]. intros z. rewrite elem_of_ones, sol_x, elem_of_seq.
    apply next_to_lookup in Hj as (m & Hm & Hm1). split.
    - intros [_ Hz]. apply next_to_lookup in Hz as (m' & Hm' & Hz). pose proof (Q_inj k _ _ i Hk Hm1 Hz). assert (m = m') as -> by lia. congruence.
    - intros ->. split; [pose proof (Q_range k _ _ Hk Hm); lia|]. apply next_to_lookup. by exists m.
  Qed.
  Lemma in_zero k i : (k < length vs)%nat -> i ∉ nodes k -> length (ones (fun j => as_x solution k j i) (seq 0 N)) = 0%nat.
  Proof. intros Hk Hq. apply count_zero. intros z. rewrite elem_of_ones, sol_x. intros [_ H]. by apply next_to_elem in H as [_ H]. Qed.

  Lemma solution_system : system v0 vs' ts solution.
  Proof.
    constructor.
    - intros k i j _ _ _. cbn [as_x solution]. destruct (linked k i j); [by right|by left].
    - intros k i Hk Hi. destruct (sol_any k i Hk Hi) as (k' & m & T & Hk' & Hm & HT & -> & _). by eapply start_nonneg.
    - intros k i Hk Hi. pose proof (sol_load k i Hk Hi). lia.
    - intros i Hi. destruct (node_tour i ltac:(lia)) as (k & Hk & Hq).
      destruct (next_to_exists (nodes k) i L Hq) as (j & Hj); [unfold nodes; rewrite app_comm_cons; apply last_snoc|lia|].
      apply (count_one _ (j, k)).
      + apply ones_NoDup. apply NoDup_flat; [apply NoDup_seq|..].
        * intros y _. apply NoDup_fmap; [by intros ?? [= ->]|apply NoDup_seq].
        * intros y z b _ _ Hy Hz. apply elem_of_list_fmap in Hy as (? & -> & _), Hz as (? & [= ->] & _). done.
      + intros [j' k']. rewrite elem_of_ones, elem_of_product, !elem_of_seq. apply next_to_lookup in Hj as (m & Hm & Hm1). split.
        * intros [[Hj' Hk'] H]. apply sol_x in H. assert (k' = k) as ->.
          { apply (node_unique i); [lia|lia|done| |done]. by apply next_to_elem in H as [H _]. }
          apply next_to_lookup in H as (m' & Hm' & Hz). rewrite (Q_inj k m m' i Hk Hm Hm') in Hm1. congruence.
        * intros [= -> ->]. pose proof (Q_range k _ _ Hk Hm1). split; [lia|]. apply sol_x. apply next_to_lookup. by exists m.
    - intros k i Hk Hi. destruct (pickup_at ts i Hi) as (t & _ & Ht). pose proof (P_pickup k i t Hk Ht) as A.
      assert (Hd : delivery_node ts (n + i) t). { rewrite Nat.add_comm. by apply pickup_delivery. }
      pose proof (P_delivery k (n + i) t Hk Hd) as B. destruct (decide (i ∈ nodes k)) as [Hq|Hq].
      + rewrite (out_one k i Hk ltac:(lia) Hq ltac:(lia)), (out_one k (n + i) Hk ltac:(lia) ltac:(tauto) ltac:(lia)). done.
      + rewrite (out_zero k i Hk Hq), (out_zero k (n + i) Hk ltac:(tauto)). done.
    - intros k Hk. apply out_one; [done|lia|by left|lia].
    - intros k i Hk Hi. destruct (decide (i ∈ nodes k)) as [Hq|Hq].
      + rewrite (out_one k i Hk ltac:(lia) Hq ltac:(lia)). apply in_one; [done|lia|done|lia].
      + by rewrite (out_zero k i Hk Hq), (in_zero k i Hk Hq).
    - intros k Hk. apply in_one; [done|lia|right; apply elem_of_app; right; by left|lia].
    - intros k i j Hk Hi Hj E. apply sol_x, next_to_lookup in E as (m & Hm & Hm1).
      destruct (at_pos k m i Hk Hm) as (x & T & Hx & HT). destruct (at_pos k (S m) j Hk Hm1) as (y & T' & Hy & HT').
      rewrite (sol_u k m i T Hk Hm HT), (sol_u k (S m) j T' Hk Hm1 HT').
      destruct (X_step k m i j x y T T' Hk Hm Hm1 Hx Hy HT HT') as [Ea _]. destruct (X_timing k m i x T Hk Hm Hx HT) as (_ & _ & Ed).
      destruct (X_timing k _ j y T' Hk Hm1 Hy HT') as (? & _ & _). destruct (X_data k m i x Hk Hm Hx) as (_ & _ & ? & _). lia.
    - intros k i j Hk Hi Hj _. pose proof (sol_window k i Hk Hi). pose proof (sol_window k j Hk Hj). lia.
    - intros k i j Hk Hi Hj E. apply sol_x, next_to_lookup in E as (m & Hm & Hm1).
      destruct (at_pos k m i Hk Hm) as (x & T & Hx & HT). destruct (at_pos k (S m) j Hk Hm1) as (y & T' & Hy & HT').
      rewrite (sol_w k m i T Hk Hm HT), (sol_w k (S m) j T' Hk Hm1 HT').
      destruct (X_step k m i j x y T T' Hk Hm Hm1 Hx Hy HT HT') as [_ El]. lia.
    - intros k i j Hk Hi Hj _. pose proof (sol_load k i Hk Hi). pose proof (sol_load k j Hk Hj). lia.
    - intros k Hk. assert (H0 : nodes k !! 0%nat = Some 0%nat) by done. assert (HL : nodes k !! S (length (P k)) = Some L) by (apply Q_last).
      destruct (at_pos k _ _ Hk H0) as (x & T & Hx & HT). destruct (at_pos k _ _ Hk HL) as (xl & Tl & Hxl & HTl).
      rewrite (sol_u k _ _ _ Hk H0 HT), (sol_u k _ _ _ Hk HL HTl).
      assert (El : last (TT k) = Some Tl).
      { rewrite last_lookup, TT_length, <- (Q_length k Hk). unfold nodes. cbn [length]. rewrite app_length. cbn [length].
        by replace (pred (S (length (P k) + 1)))%nat with (S (length (P k))) by lia. }
      assert (Eh : head (TT k) = Some T) by (rewrite head_lookup; done).
      destruct (X_tour k Hk) as [_ HX]. pose proof (ex_duration _ _ HX T Tl Eh El) as Hd. fold (V k).
      destruct (X_timing k _ _ xl Tl Hk HL Hxl HTl) as (_ & _ & E1). destruct (X_timing k _ _ x T Hk H0 Hx HT) as (_ & _ & E0).
      destruct (X_data k _ _ xl Hk HL Hxl) as (_ & _ & ? & _).
      assert (E2 : visit_duration x = 0).
      { destruct (X_nodes k 0 0 Hk H0) as (x' & Hx' & C). rewrite Hx in Hx'. injection Hx' as <-.
        destruct C as [(_ & _ & _ & Eb & Ea)|[(? & _)|C]]; [|lia|apply shows_range in C; lia]. unfold visit_duration. by rewrite Eb, Ea. }
      destruct (v_timeout (V k)); cbn in *; [lia|done].
    - intros k i Hk Hi. destruct (sol_window k i Hk Hi) as [H1 H2]. split; [done|]. by rewrite (finite_window v0 vs' ts Fin Mv i Hi).
    - intros k i Hk Hi. destruct (pickup_at ts i Hi) as (t & _ & Ht). pose proof (pickup_delivery ts i t Ht) as Hd.
      destruct (node_tour i ltac:(lia)) as (k1 & Hk1 & Hq). assert (Hb : t ∈ boards (X k1)) by (by apply (P_pickup k1 i t)).
      assert (Hq2 : (i + n)%nat ∈ nodes k1) by (by apply (P_delivery k1 (i + n) t)).
      apply elem_of_list_lookup_1 in Hq as (m & Hm). apply elem_of_list_lookup_1 in Hq2 as (m' & Hm').
      destruct (at_pos k1 m i Hk1 Hm) as (x & T & Hx & HT). destruct (at_pos k1 m' _ Hk1 Hm') as (y & T' & Hy & HT').
      assert (Eu : forall j q Tq, (0 < j < L)%nat -> nodes k1 !! q = Some j -> TT k1 !! q = Some Tq -> as_u solution k j = tm_start Tq).
      { intros j q Tq Hj Hjq HTq. cbn [as_u solution]. rewrite (proj2 (Nat.eqb_neq j 0)), (proj2 (Nat.eqb_neq j L)) by lia. cbn [orb]. by apply (HU j Hj k1 q). }
      rewrite (Eu i m T ltac:(lia) Hm HT), (Eu (i + n)%nat m' T' ltac:(lia) Hm' HT').
      destruct (pickup_data v0 vs' ts i t Ht) as (En & _ & _ & Eo & _). rewrite Eo.
      destruct (X_nodes k1 m i Hk1 Hm) as (x' & Hx' & C). rewrite Hx in Hx'. injection Hx' as <-. destruct C as [(? & _)|[(? & _)|C]]; [lia|lia|].
      destruct (X_nodes k1 m' _ Hk1 Hm') as (y' & Hy' & C'). rewrite Hy in Hy'. injection Hy' as <-. destruct C' as [(? & _)|[(? & _)|C']]; [lia|lia|].
      apply (shows_board _ _ _ C) in Ht. apply (shows_alight _ _ _ C') in Hd.
      destruct (X_tour k1 Hk1) as [HX HE].
      assert (Ev : visit_duration x = nload i).
      { destruct C as [(t' & H & E)|(t' & H & E)]; [|injection E as _ Eb _; rewrite Eb in Ht; by inversion Ht].
        injection E as _ Eb Ea. rewrite Eb in Ht. apply elem_of_list_singleton in Ht as ->. rewrite En. unfold visit_duration. rewrite Eb, Ea. done. }
      destruct (X_timing k1 m i x T Hk1 Hm Hx HT) as (_ & _ & Edp). rewrite Ev in Edp.
      assert (Hlt : (m < m')%nat).
      { destruct (tour_order _ _ HX t Hb) as (c & d & Hs & Hc & Hd'). apply sublist2 in Hs as (q & q' & Hqq & Hcq & Hdq).
        rewrite (flat_map_NoDup_lookup vi_board (X k1) m q x c t (tour_once _ _ HX) Hx Hcq Ht Hc).
        by rewrite (flat_map_NoDup_lookup vi_alight (X k1) m' q' y d t (rides_alights_nodup _ (tour_rides _ _ HX)) Hy Hdq Hd Hd'). }
      split.
      + pose proof (X_travel k1 m i T Hk1 Hm HT m' _ T' Hlt Hm' HT') as Htr. destruct (X_timing k1 m' _ y T' Hk1 Hm' Hy HT') as (? & _). lia.
      + rewrite <- Edp. apply (ex_rides _ _ HE t m m'); [|done|done]. by exists x, y.
    - intros k i Hk Hi. pose proof (sol_load k i Hk Hi) as Hl. split; [lia|]. rewrite (finite_capacity v0 vs' ts Fin k Hk). cbn [below lim_add]. lia.
  Qed.

  Lemma solution_follows k v xs : vs !! k = Some v -> tours !! k = Some xs -> follows vs ts solution k v xs.
  Proof.
    intros Hk Hxs. pose proof (lookup_lt_Some _ _ _ Hk) as Hl.
    assert (v = V k) as -> by (rewrite (V_lookup k Hl) in Hk; congruence). assert (xs = X k) as -> by (rewrite (X_lookup k Hl) in Hxs; congruence).
    destruct (HP k _ _ Hk Hxs) as (x0 & mid & xn & E & Hp & _). exists (P k), x0, mid, xn. split; [done|]. split; [done|]. split.
    - intros i j. unfold uses. rewrite sol_x. change (0%nat :: P k ++ [L]) with (nodes k). split; [tauto|]. intros [_ H].
      split; [done|]. pose proof H as H'. apply next_to_lookup in H' as (m & Hm & Hm1). split; [by eapply Q_range|]. split; [by eapply Q_range|done].
    - fold (TT k). apply list_eq. intros m.
      change (map tm_start (take (1 + length (P k)) (TT k)) !! m) with ((tm_start <$> take (1 + length (P k)) (TT k)) !! m).
      change (map (as_u solution k) (0%nat :: P k) !! m) with ((as_u solution k <$> (0%nat :: P k)) !! m).
      rewrite !list_lookup_fmap.
      destruct (decide (m < 1 + length (P k))%nat) as [Hm|Hm].
      + rewrite lookup_take by done. destruct (lookup_lt_is_Some_2 (0%nat :: P k) m) as [i Hi]; [cbn; lia|].
        assert (Hq : nodes k !! m = Some i) by (unfold nodes; rewrite app_comm_cons; by apply lookup_app_l_Some).
        destruct (at_pos k m i Hl Hq) as (x & T & Hx & HT). rewrite HT, Hi. cbn [fmap option_fmap option_map]. by rewrite (sol_u k m i T).
      + rewrite lookup_take_ge by lia. rewrite (lookup_ge_None_2 (0%nat :: P k)); [done|cbn; lia].
  Qed.
End complete.
