(** A solution of the three-index model whose arcs take time is a plan. *)
From Coq Require Import Sorted Lqa.
From Verif Require Import SpecDarp MilpGraph MilpTheorems SchedProofs TourProofs MilpProofs.

Lemma NoDup_flat {A B} (f : A -> list B) l : NoDup l -> (forall y, y ∈ l -> NoDup (f y)) ->
  (forall y z b, y ∈ l -> z ∈ l -> b ∈ f y -> b ∈ f z -> y = z) -> NoDup (flat_map f l).
Proof.
  intros Hl Hf Hd. induction Hl as [|y l Hy Hl IH]; [constructor|]. cbn. apply NoDup_app. split; [apply Hf; by left|]. split.
  - intros b Hb Hb'. apply elem_of_flat_map in Hb' as (z & Hz & Hb'). apply Hy.
    by rewrite (Hd y z b ltac:(by left) ltac:(by right) Hb Hb').
  - apply IH; [intros z Hz; apply Hf; by right|]. intros z z' b Hz Hz'. apply Hd; by right.
Qed.
Lemma choose {B} (R : nat -> B -> Prop) (d : B) m : (forall k, (k < m)%nat -> exists b, R k b) -> exists f, forall k, (k < m)%nat -> R k (f k).
Proof.
  induction m as [|m IH]; intros H; [exists (fun _ => d); lia|]. destruct IH as (f & Hf); [intros k Hk; apply H; lia|].
  destruct (H m ltac:(lia)) as (b & Hb). exists (fun k => if (k =? m)%nat then b else f k). intros k Hk.
  destruct (Nat.eqb_spec k m) as [->|]; [done|]. apply Hf. lia.
Qed.
Lemma Forall2_seq {A B} (R : A -> B -> Prop) (g : nat -> B) l :
  (forall k y, l !! k = Some y -> R y (g k)) -> Forall2 R l (map g (seq 0 (length l))).
Proof.
  intros H. apply Forall2_same_length_lookup. split; [by rewrite map_length, seq_length|]. intros k y z Hy Hz.
  apply (list_lookup_fmap_inv g) in Hz as (k' & -> & Hk). apply lookup_seq in Hk as [-> _]. by apply H.
Qed.
(** in an increasing list smaller elements come first *)
Lemma sorted_sublist (r : nat -> Z) l a b : StronglySorted (fun a b => r a < r b) l -> a ∈ l -> b ∈ l -> r a < r b -> [a; b] `sublist_of` l.
Proof.
  induction 1 as [|y l Hl IH Hy]; intros Ha Hb Hr; [by inversion Ha|]. rewrite Forall_forall in Hy.
  apply elem_of_cons in Ha as [->|Ha].
  - apply elem_of_cons in Hb as [->|Hb]; [lia|]. apply sublist_skip. by apply sublist1.
  - apply elem_of_cons in Hb as [->|Hb]; [specialize (Hy a Ha); lia|]. apply sublist_cons. by apply IH.
Qed.
Lemma next_to_pred l y z : y ∈ l -> head l = Some z -> y <> z -> exists h, next_to l h y.
Proof.
  intros Hy Hz Hn. destruct l as [|z' l]; [done|]. injection Hz as ->. apply elem_of_cons in Hy as [->|Hy]; [done|].
  apply elem_of_list_split in Hy as (l1 & l2 & ->). destruct l1 as [|h l1] using rev_ind.
  - exists z. by exists [], l2.
  - exists h. exists (z :: l1), l2. by rewrite <- app_assoc.
Qed.

Section sound.
  Context {W : World} (v0 : nat) (vs' ts : list nat).
  Notation vs := (v0 :: vs').
  Notation n := (length ts).
  Notation N := (2 * length ts + 2)%nat.
  Notation L := (2 * length ts + 1)%nat.
  Context (a : assignment) (S : system v0 vs' ts a) (Mv : moving ts) (Hnd : NoDup ts) (Hdep : one_depot vs).
  Context (Hdur : forall t, t ∈ ts -> 0 <= destination_duration (w_trip t) <= origin_duration (w_trip t)).
  Context (Hearly : forall v, v ∈ vs -> v_origin_earliest v <= 0) (Hday : forall v, v ∈ vs -> below day (v_destination_latest v)).
  Context (Htt : takes_time vs ts a).
  Notation u := (as_u a).
  Notation w := (as_w a).
  Notation nload := (nload ts).
  Notation nwin := (nwin v0 vs' ts).
  Notation ncap := (ncap ts).

  (** the trip of a node *)
  Definition tr (i : nat) : nat := nth (if (i <=? n)%nat then i - 1 else i - n - 1)%nat ts 0%nat.
  Lemma tr_pickup i : (1 <= i <= n)%nat -> pickup_node ts i (tr i).
  Proof.
    intros Hi. destruct (pickup_at ts i Hi) as (t & Ht & H). unfold tr. rewrite (proj2 (Nat.leb_le _ _)) by lia.
    by rewrite (nth_lookup_Some _ _ _ _ Ht).
  Qed.
  Lemma tr_delivery i : (n < i <= 2 * n)%nat -> delivery_node ts i (tr i).
  Proof.
    intros Hi. destruct (delivery_at ts (i - n) ltac:(lia)) as (t & Ht & H). unfold tr. rewrite (proj2 (Nat.leb_gt _ _)) by lia.
    rewrite (nth_lookup_Some _ _ _ _ Ht). by replace (n + (i - n))%nat with i in H by lia.
  Qed.
  Lemma tr_shift i : (1 <= i <= n)%nat -> tr (i + n) = tr i.
  Proof.
    intros Hi. unfold tr. rewrite (proj2 (Nat.leb_gt _ _)), (proj2 (Nat.leb_le i n)) by lia. f_equal. lia.
  Qed.
  Lemma pickup_elem i t : pickup_node ts i t -> t ∈ ts.
  Proof. intros (k & Hk & _). by eapply elem_of_list_lookup_2. Qed.
  Lemma delivery_elem i t : delivery_node ts i t -> t ∈ ts.
  Proof. intros (k & Hk & _). by eapply elem_of_list_lookup_2. Qed.
  Lemma pickup_inj i j t : pickup_node ts i t -> pickup_node ts j t -> i = j.
  Proof. intros (k & Hk & ->) (k' & Hk' & ->). by rewrite (NoDup_lookup _ _ _ _ Hnd Hk Hk'). Qed.
  Lemma delivery_inj i j t : delivery_node ts i t -> delivery_node ts j t -> i = j.
  Proof. intros (k & Hk & ->) (k' & Hk' & ->). by rewrite (NoDup_lookup _ _ _ _ Hnd Hk Hk'). Qed.

  Lemma nload_nonneg i : (i < N)%nat -> 0 <= nload i.
  Proof.
    intros Hi. destruct (c48_nodes ts i) as [H|[(t & H)|(t & H)]]; [done|..].
    - by destruct (depot_data v0 vs' ts i H) as (-> & _).
    - destruct (pickup_data v0 vs' ts i t H) as (-> & _). specialize (Hdur t (pickup_elem i t H)). lia.
    - pose proof (delivery_elem i t H) as Ht. destruct (delivery_data v0 vs' ts i t H (Mv t Ht)) as (-> & _). specialize (Hdur t Ht). lia.
  Qed.

  (** *** One vehicle *)
  Section vehicle.
    Context (k v : nat) (Hk : vs !! k = Some v).
    Lemma Hkl : (k < length vs)%nat.
    Proof. by eapply lookup_lt_Some. Qed.
    Lemma Hv : v ∈ vs.
    Proof. by eapply elem_of_list_lookup_2. Qed.
    Lemma nth_k : nth k vs 0%nat = v.
    Proof. by apply nth_lookup_Some. Qed.
    Definition arc (i j : nat) : Prop := (i < N)%nat /\ (j < N)%nat /\ (as_x a k i j == 1)%Q.
    Lemma arc_uses i j : uses vs ts a k i j <-> (k < length vs)%nat /\ arc i j.
    Proof. done. Qed.
    Definition rank (i : nat) : Z := 3 * u k i + (if (i =? 0)%nat then 0 else if (i =? L)%nat then 2 else 1).

    Lemma out_arcs i j : (i < N)%nat -> arc i j <-> j ∈ ones (fun j => as_x a k i j) (seq 0 N).
    Proof. intros Hi. rewrite elem_of_ones, elem_of_seq. unfold arc. split; [intros (? & ? & ?)|intros [? ?]]; (split; [lia|]); done || (split; [lia|done]). Qed.
    Lemma in_arcs i j : (j < N)%nat -> arc i j <-> i ∈ ones (fun i => as_x a k i j) (seq 0 N).
    Proof. intros Hi. rewrite elem_of_ones, elem_of_seq. unfold arc. split; [intros (? & ? & ?)|intros [? ?]]; (split; [lia|]); done || (split; [lia|done]). Qed.
    Lemma one_of {A} (l : list A) y z : (length l <= 1)%nat -> y ∈ l -> z ∈ l -> y = z.
    Proof. destruct l as [|b [|]]; cbn; [by inversion 2| |lia]. intros _ ->%elem_of_list_singleton ->%elem_of_list_singleton. done. Qed.
    Lemma some_of {A} (l : list A) : (0 < length l)%nat -> exists y, y ∈ l.
    Proof. destruct l as [|y l]; cbn; [lia|]. exists y. by left. Qed.
    Lemma pos_of {A} (l : list A) y : y ∈ l -> (0 < length l)%nat.
    Proof. destruct l; [by inversion 1|cbn; lia]. Qed.

    Lemma pickup_out i : (1 <= i <= n)%nat -> (length (ones (fun j => as_x a k i j) (seq 0 N)) <= 1)%nat.
    Proof.
      intros Hi. pose proof (sy_once v0 vs' ts a S i Hi) as Ho. apply length_one in Ho as ([j0 k0] & Ho).
      pose proof Hkl.
      assert (U : forall j, j ∈ ones (fun j => as_x a k i j) (seq 0 N) -> j = j0).
      { intros j Hj. apply elem_of_ones in Hj as [Hj E].
        assert (Hin : (j, k) ∈ ones (λ '(j, k), as_x a k i j) (product2 (seq 0 N) (seq 0 (length vs)))).
        { apply elem_of_ones. split; [|done]. apply elem_of_product. split; [done|apply elem_of_seq; lia]. }
        rewrite Ho in Hin. apply elem_of_list_singleton in Hin. by injection Hin as -> _. }
      pose proof (ones_NoDup (fun j => as_x a k i j) (seq 0 N) (NoDup_seq _ _)) as Hn.
      destruct (ones (fun j => as_x a k i j) (seq 0 N)) as [|b [|c l]]; cbn; [lia|lia|].
      rewrite (U b), (U c) in Hn by (rewrite ?elem_of_cons; auto). apply NoDup_cons in Hn as [Hn _]. destruct Hn. by left.
    Qed.
    Lemma out_le i : (i < L)%nat -> (length (ones (fun j => as_x a k i j) (seq 0 N)) <= 1)%nat.
    Proof.
      intros Hi. destruct (decide (i = 0%nat)) as [->|Hz]; [by rewrite (sy_first v0 vs' ts a S k Hkl)|].
      destruct (decide (i <= n)%nat) as [Hle|Hle]; [apply pickup_out; lia|].
      replace i with (n + (i - n))%nat by lia. rewrite <- (sy_pair v0 vs' ts a S k (i - n) Hkl) by lia. apply pickup_out. lia.
    Qed.

    Lemma arc_time i j : arc i j -> u k i + nload i + dist (pos vs ts i) (pos vs ts j) <= u k j.
    Proof. intros (Hi & Hj & E). apply (sy_time v0 vs' ts a S); [apply Hkl|done|done|done]. Qed.

    Lemma path : exists p, Forall (fun i => 0 < i < L)%nat p /\
      (forall i j, arc i j <-> next_to (0%nat :: p ++ [L]) i j) /\
      StronglySorted (fun i j => rank i < rank j) (0%nat :: p ++ [L]).
    Proof.
      pose proof Hkl as Hk'.
      apply (arcs_are_path L arc rank 0 (foldr Z.max 0 (map rank (seq 0 N)))).
      - intros i j (? & ? & _). lia.
      - intros i Hi. unfold rank. pose proof (sy_u0 v0 vs' ts a S k i Hk' ltac:(lia)). destruct (i =? 0)%nat, (i =? L)%nat; lia.
      - intros i Hi. apply foldr_max_ge. right. apply elem_of_list_fmap. exists i. split; [done|]. apply elem_of_seq. lia.
      - destruct (some_of (ones (fun j => as_x a k 0%nat j) (seq 0 N))) as (j & Hj); [rewrite (sy_first v0 vs' ts a S k Hk'); lia|].
        exists j. apply out_arcs; [lia|done].
      - intros i j j' Hi H H'. assert (i < L)%nat by (destruct H; lia). apply out_arcs in H, H'; [|lia..].
        eapply one_of; [|exact H|exact H']. by apply out_le.
      - intros i j Hi H. apply out_arcs in H; [|lia]. apply pos_of in H. rewrite <- (sy_flow v0 vs' ts a S k i Hk' ltac:(lia)) in H.
        apply some_of in H as (h & H). exists h. apply in_arcs; [lia|done].
      - intros h i Hi H. apply in_arcs in H; [|lia]. apply pos_of in H. rewrite (sy_flow v0 vs' ts a S k i Hk' ltac:(lia)) in H.
        apply some_of in H as (j & H). exists j. apply out_arcs; [lia|done].
      - intros i j H. pose proof (arc_time i j H) as Ht. destruct H as (Hi & Hj & E).
        pose proof (nload_nonneg i Hi). pose proof (dist_nonneg (pos vs ts i) (pos vs ts j)). unfold rank.
        destruct (decide (i = 0 /\ j <> 0)%nat) as [[-> Hj0]|Hn0].
        { rewrite (proj2 (Nat.eqb_neq _ _) Hj0). cbn [Nat.eqb]. destruct (j =? L)%nat; lia. }
        destruct (decide (j = L /\ i <> L)%nat) as [[-> Hi0]|Hn1].
        { rewrite (proj2 (Nat.eqb_neq _ _) Hi0), (proj2 (Nat.eqb_neq L 0)), (Nat.eqb_refl L) by lia. destruct (i =? 0)%nat; lia. }
        assert (u k i < u k j).
        { destruct (Htt k i j) as [Hd|(t & Hp & Hd)]; [done|lia|lia|lia|].
          assert (nload i = origin_duration (w_trip t)); [|lia].
          destruct Hp as [Hp|Hp]; [by destruct (pickup_data v0 vs' ts i t Hp)|].
          by destruct (delivery_data v0 vs' ts i t Hp (Mv t (delivery_elem i t Hp))). }
        destruct (i =? 0)%nat, (j =? 0)%nat, (i =? L)%nat, (j =? L)%nat; lia.
    Qed.

    Context (p : list nat) (Hin : Forall (fun i => 0 < i < L)%nat p)
      (Hlink : forall i j, arc i j <-> next_to (0%nat :: p ++ [L]) i j)
      (Hsort : StronglySorted (fun i j => rank i < rank j) (0%nat :: p ++ [L])).

    Definition nv (i : nat) : visit :=
      if (i <=? n)%nat then Visit (origin_position (w_trip (tr i))) [tr i] [] (Some (u k i))
      else Visit (destination_position (w_trip (tr i))) [] [tr i] (Some (u k i)).
    Definition xn : visit := Visit (v_destination_position v) [] [] None.
    Definition x0 : visit := Visit (v_origin_position v) [] [] (Some (u k 0%nat)).
    Definition visits : list visit := x0 :: map nv p ++ [xn].

    Lemma depot_first : pos vs ts 0 = v_origin_position v.
    Proof.
      destruct (depot_data v0 vs' ts 0%nat ltac:(by left)) as (_ & _ & _ & ->). cbn. by apply Hdep; [left|apply Hv].
    Qed.
    Lemma depot_last : pos vs ts L = v_destination_position v.
    Proof.
      destruct (depot_data v0 vs' ts L ltac:(by right)) as (_ & _ & _ & ->). rewrite (proj2 (Nat.eqb_neq _ _)) by lia. by apply Hdep; [left|apply Hv].
    Qed.
    Lemma nv_pickup i : (1 <= i <= n)%nat -> nv i = Visit (origin_position (w_trip (tr i))) [tr i] [] (Some (u k i)).
    Proof. intros Hi. unfold nv. by rewrite (proj2 (Nat.leb_le _ _)) by lia. Qed.
    Lemma nv_delivery i : (n < i)%nat -> nv i = Visit (destination_position (w_trip (tr i))) [] [tr i] (Some (u k i)).
    Proof. intros Hi. unfold nv. by rewrite (proj2 (Nat.leb_gt _ _)) by lia. Qed.
    Lemma nv_data i : (0 < i < L)%nat ->
      vi_place (nv i) = pos vs ts i /\ vi_request (nv i) = Some (u k i) /\ visit_earliest (nv i) = (nwin i).1 /\
      0 <= visit_duration (nv i) <= nload i /\ weight (vi_board (nv i)) - weight (vi_alight (nv i)) = ncap i.
    Proof.
      intros Hi. destruct (decide (i <= n)%nat) as [Hle|Hle].
      - pose proof (tr_pickup i ltac:(lia)) as H. destruct (pickup_data v0 vs' ts i _ H) as (E1 & E2 & E3 & _ & E5).
        specialize (Hdur _ (pickup_elem _ _ H)). rewrite nv_pickup by lia. rewrite E1, E2, E3, E5. unfold visit_earliest, visit_duration, weight. cbn.
        split; [done|]. split; [done|]. split; [done|]. lia.
      - pose proof (tr_delivery i ltac:(lia)) as H. pose proof (delivery_elem _ _ H) as Ht.
        destruct (delivery_data v0 vs' ts i _ H (Mv _ Ht)) as (E1 & E2 & E3 & E5).
        specialize (Hdur _ Ht). rewrite nv_delivery by lia. rewrite E1, E2, E3, E5. unfold visit_earliest, visit_duration, weight. cbn.
        split; [done|]. split; [done|]. split; [done|]. lia.
    Qed.

    Definition timed (j : nat) (T : timing) : Prop :=
      tm_start T = u k j /\ tm_departure T = u k j + visit_duration (nv j) /\ tm_load T <= w k j.
    Lemma schedule_path q : forall i d load, (i < N)%nat -> (forall b c, next_to (i :: q ++ [L]) b c -> arc b c) -> Forall (fun i => 0 < i < L)%nat q ->
      d <= u k i + nload i -> load <= w k i ->
      exists Ts Tn, schedule (d, pos vs ts i, load) (map nv q ++ [xn]) = Ts ++ [Tn] /\ Forall2 timed q Ts /\ tm_departure Tn <= u k L /\ tm_load Tn <= w k L.
    Proof.
      pose proof Hkl as Hk'.
      induction q as [|j q IH]; intros i d load Hi Hl Hq Hd Hload.
      - exists [], (advance (d, pos vs ts i, load) xn). split; [done|]. split; [constructor|].
        assert (Ha : arc i L) by (apply Hl; by exists [], []). pose proof (arc_time _ _ Ha) as Ht. rewrite depot_last in Ht.
        pose proof (sy_u0 v0 vs' ts a S k L Hk' ltac:(lia)). unfold advance, xn, visit_earliest, visit_duration, weight.
        cbn [vi_place vi_board vi_alight vi_request tm_departure tm_load map app max_or sum_of foldr from_option]. split; [lia|].
        destruct Ha as (_ & _ & E). pose proof (sy_load v0 vs' ts a S k i L Hk' Hi ltac:(lia) E) as Hc.
        destruct (depot_data v0 vs' ts L ltac:(by right)) as (_ & _ & Ec & _). lia.
      - cbn [map app schedule]. inversion Hq as [|? ? Hj Hq']; subst.
        assert (Ha : arc i j) by (apply Hl; by exists [], (q ++ [L])). pose proof (arc_time _ _ Ha) as Ht.
        destruct (nv_data j Hj) as (E1 & E2 & E3 & E4 & E5).
        destruct (sy_window v0 vs' ts a S k j Hk' ltac:(lia)) as [Hwin _].
        pose proof (sy_load v0 vs' ts a S k i j Hk' Hi ltac:(lia) ltac:(by apply Ha)) as Hc.
        assert (HT : timed j (advance (d, pos vs ts i, load) (nv j))).
        { unfold timed, advance. cbn [tm_start tm_departure tm_load]. rewrite E1, E2, E3. cbn [from_option id]. split; [lia|]. split; lia. }
        destruct (IH j (tm_departure (advance (d, pos vs ts i, load) (nv j))) (tm_load (advance (d, pos vs ts i, load) (nv j)))) as (Ts & Tn & E & HTs & Hn).
        + lia.
        + intros b c Hbc. apply Hl. apply next_to_cons. by right.
        + done.
        + destruct HT as (_ & -> & _). lia.
        + apply HT.
        + exists (advance (d, pos vs ts i, load) (nv j) :: Ts), Tn. unfold leave. rewrite E1, E. split; [done|]. split; [by constructor|done].
    Qed.
    Lemma timetable_path : exists T0 Ts Tn, timetable v visits = T0 :: Ts ++ [Tn] /\ tm_start T0 = u k 0%nat /\ tm_departure T0 = u k 0%nat /\
      tm_load T0 = 0 /\ Forall2 timed p Ts /\ tm_departure Tn <= u k L /\ tm_load Tn <= w k L.
    Proof.
      pose proof (sy_u0 v0 vs' ts a S k 0 Hkl ltac:(lia)). pose proof (sy_w0 v0 vs' ts a S k 0 Hkl ltac:(lia)). specialize (Hearly v Hv).
      unfold visits, timetable. cbn [schedule]. set (T0 := advance (ready v) x0).
      assert (HT : tm_start T0 = u k 0%nat /\ tm_departure T0 = u k 0%nat /\ tm_load T0 = 0).
      { unfold T0, advance, ready, visit_earliest, visit_duration, weight. cbn. rewrite dist_refl. lia. }
      destruct HT as (E1 & E2 & E3).
      destruct (depot_data v0 vs' ts 0%nat ltac:(by left)) as (En & _ & _ & _).
      destruct (schedule_path p 0%nat (tm_departure T0) (tm_load T0)) as (Ts & Tn & E & H1 & H2); [lia|by intros b c; apply Hlink|done|lia|lia|].
      exists T0, Ts, Tn. unfold leave. change (vi_place x0) with (v_origin_position v). rewrite <- depot_first. rewrite E. done.
    Qed.

    (** the nodes on the path *)
    Lemma path_arc i : i ∈ p <-> (0 < i < L)%nat /\ exists j, arc i j.
    Proof.
      rewrite Forall_forall in Hin. split.
      - intros Hi. split; [by apply Hin|]. destruct (next_to_exists (0%nat :: p ++ [L]) i L) as (j & Hj).
        + rewrite elem_of_cons, elem_of_app. auto.
        + rewrite app_comm_cons. apply last_snoc.
        + specialize (Hin i Hi). lia.
        + exists j. by apply Hlink.
      - intros (Hi & j & H). apply Hlink in H. apply next_to_elem in H as [H _].
        rewrite elem_of_cons, elem_of_app, elem_of_list_singleton in H. destruct H as [H|[H|H]]; [lia|done|lia].
    Qed.
    Lemma path_pair i : (1 <= i <= n)%nat -> i ∈ p <-> (i + n)%nat ∈ p.
    Proof.
      intros Hi. rewrite !path_arc. pose proof (sy_pair v0 vs' ts a S k i Hkl Hi) as Hp. rewrite (Nat.add_comm n i) in Hp. split.
      - intros (_ & j & H). split; [lia|]. apply out_arcs in H; [|lia]. apply pos_of in H. rewrite Hp in H. apply some_of in H as (j' & H).
        exists j'. apply out_arcs; [lia|done].
      - intros (_ & j & H). split; [lia|]. apply out_arcs in H; [|lia]. apply pos_of in H. rewrite <- Hp in H. apply some_of in H as (j' & H).
        exists j'. apply out_arcs; [lia|done].
    Qed.
    Lemma path_NoDup : NoDup p.
    Proof. apply sorted_NoDup in Hsort. apply NoDup_cons in Hsort as [_ H]. by apply NoDup_app in H as [H _]. Qed.
    Lemma visits_boards : boards visits = flat_map (fun i => vi_board (nv i)) p.
    Proof. unfold visits, boards. cbn. rewrite flat_map_app. cbn. rewrite app_nil_r. clear. by induction p as [|i q IH]; cbn; [|rewrite IH]. Qed.
    Lemma visits_alights : alights visits = flat_map (fun i => vi_alight (nv i)) p.
    Proof. unfold visits, alights. cbn. rewrite flat_map_app. cbn. rewrite app_nil_r. clear. by induction p as [|i q IH]; cbn; [|rewrite IH]. Qed.
    Lemma board_node i t : (0 < i < L)%nat -> t ∈ vi_board (nv i) <-> pickup_node ts i t.
    Proof.
      intros Hi. destruct (decide (i <= n)%nat) as [Hle|Hle].
      - rewrite nv_pickup by lia. cbn. rewrite elem_of_list_singleton. pose proof (tr_pickup i ltac:(lia)) as H.
        split; [by intros ->|]. destruct H as (m & Hm & Em). intros (m' & Hm' & ->). assert (m = m') by lia. congruence.
      - rewrite nv_delivery by lia. cbn. split; [by inversion 1|]. intros (m & Hm & ->). apply lookup_lt_Some in Hm. lia.
    Qed.
    Lemma alight_node i t : (0 < i < L)%nat -> t ∈ vi_alight (nv i) <-> delivery_node ts i t.
    Proof.
      intros Hi. destruct (decide (i <= n)%nat) as [Hle|Hle].
      - rewrite nv_pickup by lia. cbn. split; [by inversion 1|]. intros (m & Hm & ->). lia.
      - rewrite nv_delivery by lia. cbn. rewrite elem_of_list_singleton. pose proof (tr_delivery i ltac:(lia)) as H.
        split; [by intros ->|]. destruct H as (m & Hm & Em). intros (m' & Hm' & ->). assert (m = m') by lia. congruence.
    Qed.
    Lemma path_inner i : i ∈ p -> (0 < i < L)%nat.
    Proof. rewrite Forall_forall in Hin. apply Hin. Qed.
    Lemma elem_boards t : t ∈ boards visits <-> exists i, i ∈ p /\ pickup_node ts i t.
    Proof.
      rewrite visits_boards, elem_of_flat_map. split; intros (i & Hi & H); exists i; (split; [done|]); by apply board_node; [apply path_inner|].
    Qed.
    Lemma elem_alights t : t ∈ alights visits <-> exists i, i ∈ p /\ delivery_node ts i t.
    Proof.
      rewrite visits_alights, elem_of_flat_map. split; intros (i & Hi & H); exists i; (split; [done|]); by apply alight_node; [apply path_inner|].
    Qed.
    Lemma boards_NoDup : NoDup (boards visits).
    Proof.
      rewrite visits_boards. apply NoDup_flat; [apply path_NoDup|..].
      - intros i Hi. unfold nv. destruct (i <=? n)%nat; cbn; [apply NoDup_singleton|constructor].
      - intros i j t Hi Hj H H'. apply board_node in H, H'; [|by apply path_inner..]. by eapply pickup_inj.
    Qed.
    Lemma alights_NoDup : NoDup (alights visits).
    Proof.
      rewrite visits_alights. apply NoDup_flat; [apply path_NoDup|..].
      - intros i Hi. unfold nv. destruct (i <=? n)%nat; cbn; [constructor|apply NoDup_singleton].
      - intros i j t Hi Hj H H'. apply alight_node in H, H'; [|by apply path_inner..]. by eapply delivery_inj.
    Qed.
    Lemma pickup_range i t : pickup_node ts i t -> (1 <= i <= n)%nat.
    Proof. intros (m & Hm & ->). apply lookup_lt_Some in Hm. lia. Qed.
    Lemma pickup_delivery i t : pickup_node ts i t -> delivery_node ts (i + n) t.
    Proof. intros (m & Hm & ->). exists m. split; [done|lia]. Qed.
    Lemma delivery_pickup i t : delivery_node ts i t -> exists j, i = (j + n)%nat /\ pickup_node ts j t.
    Proof. intros (m & Hm & ->). exists (m + 1)%nat. split; [lia|]. by exists m. Qed.

    Lemma visits_rides : rides visits.
    Proof.
      constructor.
      - apply boards_NoDup.
      - apply NoDup_Permutation; [apply alights_NoDup|apply boards_NoDup|]. intros t. rewrite elem_boards, elem_alights. split.
        + intros (i & Hi & H). apply delivery_pickup in H as (j & -> & H). exists j. split; [|done]. apply path_pair; [by eapply pickup_range|done].
        + intros (i & Hi & H). exists (i + n)%nat. split; [|by apply pickup_delivery]. apply (path_pair i); [by eapply pickup_range|done].
      - intros t Ht. apply elem_boards in Ht as (i & Hi & H). pose proof (pickup_range i t H) as Hr.
        exists (nv i), (nv (i + n)). assert (Hi' : (i + n)%nat ∈ p) by (by apply (path_pair i)).
        split; [|split; [by apply board_node; [apply path_inner|]|apply alight_node; [by apply path_inner|by apply pickup_delivery]]].
        assert (Hs : [i; (i + n)%nat] `sublist_of` p).
        { assert (Hso : StronglySorted (fun i j => rank i < rank j) p).
          { inversion Hsort as [|? ? Hs _]; subst. clear -Hs. induction p as [|y q IH]; [constructor|]. cbn in Hs. inversion Hs as [|? ? Hs' Hf]; subst.
            constructor; [by apply IH|]. apply Forall_app in Hf as [Hf _]. done. }
          apply (sorted_sublist rank); [done|done|done|].
          assert (Hu : u k i <= u k (i + n)%nat).
          { destruct (sy_ride v0 vs' ts a S k i Hkl Hr) as [Hd _]. pose proof (dist_nonneg (pos vs ts i) (pos vs ts (i + n))).
            pose proof (nload_nonneg i ltac:(lia)). lia. }
          assert (Hne : rank i <> rank (i + n)%nat).
          { intros E. destruct (elem_of_list_lookup_1 _ _ Hi) as (m & Hm). destruct (elem_of_list_lookup_1 _ _ Hi') as (m' & Hm').
            clear -Hso E Hm Hm' Hr. assert (Hd : i <> (i + n)%nat) by lia.
            assert (G : forall l y z, StronglySorted (fun i j => rank i < rank j) l -> y ∈ l -> z ∈ l -> rank y = rank z -> y = z).
            { clear. induction 1 as [|b l Hl IH Hb]; intros Hy Hz E; [by inversion Hy|]. rewrite Forall_forall in Hb.
              apply elem_of_cons in Hy as [->|Hy]; apply elem_of_cons in Hz as [->|Hz]; [done| | |by apply IH].
              - specialize (Hb z Hz). lia.
              - specialize (Hb y Hy). lia. }
            apply Hd, (G p); [done|by eapply elem_of_list_lookup_2|by eapply elem_of_list_lookup_2|done]. }
          unfold rank in *. pose proof (path_inner i Hi). pose proof (path_inner _ Hi'). rewrite !(proj2 (Nat.eqb_neq _ _)) in * by lia. lia. }
        unfold visits. apply sublist_cons. apply sublist_inserts_r.
        clear -Hs. change [nv i; nv (i + n)] with (map nv [i; (i + n)%nat]). revert Hs. generalize [i; (i + n)%nat]. intros l.
        induction 1; cbn; [constructor|by constructor|by constructor].
      - intros x Hx. unfold visits in Hx. apply elem_of_cons in Hx as [->|Hx]; [split; intros t Ht; by inversion Ht|].
        apply elem_of_app in Hx as [Hx|Hx].
        + apply elem_of_list_fmap in Hx as (i & -> & Hi). unfold nv. destruct (i <=? n)%nat; cbn; split; intros t Ht; try by inversion Ht.
          * by apply elem_of_list_singleton in Ht as ->.
          * by apply elem_of_list_singleton in Ht as ->.
        + apply elem_of_list_singleton in Hx as ->. split; intros t Ht; by inversion Ht.
    Qed.
    Lemma visits_tour : tour v visits.
    Proof.
      constructor.
      - exists x0, (map nv p ++ [xn]). split; [done|]. split; [by destruct (map nv p)|done].
      - exists (x0 :: map nv p), xn. done.
      - apply visits_rides.
    Qed.
    Lemma visits_simple : simple visits.
    Proof.
      exists x0, (map nv p), xn. split; [done|]. apply Forall_forall. intros x Hx. apply elem_of_list_fmap in Hx as (i & -> & _).
      unfold nv. by destruct (i <=? n)%nat.
    Qed.
    (** visit number [m] is the visit of a node, or nobody boards or alights *)
    Lemma visits_lookup m x T T0 Ts Tn : timetable v visits = T0 :: Ts ++ [Tn] -> Forall2 timed p Ts -> visits !! m = Some x -> timetable v visits !! m = Some T ->
      (exists i, i ∈ p /\ x = nv i /\ timed i T) \/ (vi_board x = [] /\ vi_alight x = [] /\ (T = T0 \/ T = Tn)).
    Proof.
      intros E H Hx HT. rewrite E in HT. unfold visits in Hx. destruct m as [|m]; cbn in Hx, HT.
      - injection Hx as <-. injection HT as <-. right. auto.
      - change ((Ts ++ [Tn]) !! m = Some T) in HT. pose proof (Forall2_length _ _ _ H) as Hl. apply lookup_app_Some in Hx as [Hx|[Hm Hx]].
        + apply (list_lookup_fmap_inv nv) in Hx as (i & -> & Hi). pose proof (lookup_lt_Some _ _ _ Hi). rewrite lookup_app_l in HT by lia.
          left. exists i. split; [by eapply elem_of_list_lookup_2|]. split; [done|]. by eapply Forall2_lookup_lr.
        + rewrite map_length in *. rewrite lookup_app_r in HT by lia. rewrite Hl in Hx.
          destruct (m - length Ts)%nat as [|?]; [|done]. cbn in Hx, HT. injection Hx as <-. injection HT as <-. right. auto.
    Qed.
    Lemma visits_day T : last (timetable v visits) = Some T -> tm_departure T <= day.
    Proof.
      destruct timetable_path as (T0 & Ts & Tn & E & _ & E0 & El & HTs & Hn & Hw). pose proof Hkl as Hk'.
      rewrite E, app_comm_cons, last_snoc. intros HT. injection HT as <-.
      destruct (sy_window v0 vs' ts a S k L Hk' ltac:(lia)) as [_ Hb]. destruct (depot_data v0 vs' ts L ltac:(by right)) as (_ & Ew & _).
      rewrite Ew in Hb. change (as_u a k L <= day) in Hb. lia.
    Qed.
    Lemma visits_exact : exact v visits.
    Proof.
      destruct timetable_path as (T0 & Ts & Tn & E & _ & E0 & El & HTs & Hn & Hw). pose proof Hkl as Hk'. pose proof Hv as Hv'.
      assert (Elast : last (timetable v visits) = Some Tn) by (rewrite E, app_comm_cons; apply last_snoc).
      constructor.
      - intros T HT. rewrite Elast in HT. injection HT as <-. specialize (Hday v Hv').
        destruct (sy_window v0 vs' ts a S k L Hk' ltac:(lia)) as [_ Hb]. destruct (depot_data v0 vs' ts L ltac:(by right)) as (_ & Ew & _).
        rewrite Ew in Hb. cbn in Hb. destruct (v_destination_latest v); cbn in *; [lia|done].
      - intros T1 T H1 HT. rewrite Elast in HT. injection HT as <-. rewrite E in H1. injection H1 as <-.
        pose proof (sy_shift v0 vs' ts a S k Hk') as Hs. rewrite nth_k in Hs. destruct (v_timeout v); cbn in *; [lia|done].
      - intros m x T Hx HT. destruct (visits_lookup m x T T0 Ts Tn E HTs Hx HT) as [(i & Hi & -> & H1 & H2 & H3)|(-> & -> & HTn)].
        + pose proof (path_inner i Hi) as Hr. destruct (sy_window v0 vs' ts a S k i Hk' ltac:(lia)) as [_ Hb]. split; [|split].
          * intros t Ht. apply board_node in Ht; [|done]. destruct (pickup_data v0 vs' ts i t Ht) as (_ & Ew & _). rewrite Ew in Hb. by rewrite H1.
          * intros t Ht. apply alight_node in Ht; [|done]. destruct (delivery_data v0 vs' ts i t Ht (Mv t (delivery_elem _ _ Ht))) as (_ & Ew & _). rewrite Ew in Hb. by rewrite H1.
          * destruct (sy_room v0 vs' ts a S k i Hk' ltac:(lia)) as [_ Hb']. rewrite nth_k in Hb'. destruct (v_capacity v); cbn in *; [lia|done].
        + split; [intros t Ht; by inversion Ht|]. split; [intros t Ht; by inversion Ht|].
          assert (R : forall i, (i < N)%nat -> below (w k i) (v_capacity v)).
          { intros i Hi. destruct (sy_room v0 vs' ts a S k i Hk' Hi) as [_ Hb']. rewrite nth_k in Hb'. destruct (v_capacity v); cbn in *; [lia|done]. }
          destruct HTn as [->| ->].
          * specialize (R 0%nat ltac:(lia)). pose proof (sy_w0 v0 vs' ts a S k 0%nat Hk' ltac:(lia)). destruct (v_capacity v); cbn in *; [lia|done].
          * specialize (R L ltac:(lia)). destruct (v_capacity v); cbn in *; [lia|done].
      - intros t m m' Ti Tj (x & y & Hx & Hy & Hbt & Hat) HTi HTj.
        destruct (visits_lookup m x Ti T0 Ts Tn E HTs Hx HTi) as [(i & Hi & -> & H1 & H2 & _)|(Eb & _)]; [|rewrite Eb in Hbt; by inversion Hbt].
        destruct (visits_lookup m' y Tj T0 Ts Tn E HTs Hy HTj) as [(j & Hj & -> & H3 & H4 & _)|(_ & Eb & _)]; [|rewrite Eb in Hat; by inversion Hat].
        apply board_node in Hbt; [|by apply path_inner]. apply alight_node in Hat; [|by apply path_inner].
        rewrite (delivery_inj j (i + n) t Hat (pickup_delivery _ _ Hbt)) in *. pose proof (pickup_range i t Hbt) as Hr.
        destruct (sy_ride v0 vs' ts a S k i Hk' Hr) as [_ Hb]. destruct (pickup_data v0 vs' ts i t Hbt) as (En & _ & _ & Eo & _).
        rewrite Eo in Hb. rewrite H3, H2.
        assert (Ed : visit_duration (nv i) = nload i).
        { rewrite nv_pickup by lia. assert (tr i = t) as ->; [|by rewrite En].
          pose proof (tr_pickup i Hr) as (q & Hq & Eq). destruct Hbt as (q' & Hq' & Eq'). assert (q = q') by lia. congruence. }
        rewrite Ed. done.
    Qed.
    Lemma visits_follow : follows vs ts a k v visits.
    Proof.
      exists p, x0, (map nv p), xn. split; [done|]. split; [|split].
      - apply Forall2_fmap_r, Forall_Forall2_diag, Forall_forall. intros i Hi. pose proof (path_inner i Hi).
        destruct (decide (i <= n)%nat) as [Hle|Hle].
        + left. exists (tr i). split; [apply tr_pickup; lia|]. by rewrite nv_pickup by lia.
        + right. exists (tr i). split; [apply tr_delivery; lia|]. by rewrite nv_delivery by lia.
      - intros i j. rewrite arc_uses, Hlink. done.
      - destruct timetable_path as (T0 & Ts & Tn & E & Es & _ & _ & HTs & _). rewrite E. pose proof (Forall2_length _ _ _ HTs) as Hl. rewrite Hl.
        cbn [Nat.add take]. rewrite take_app. cbn [map]. f_equal; [done|]. clear -HTs. induction HTs as [|i T q Ts (H & _) _ IH]; cbn; [done|]. by rewrite H, IH.
    Qed.
  End vehicle.

  Definition is_path (k : nat) (p : list nat) : Prop := Forall (fun i => 0 < i < L)%nat p /\
    (forall i j, arc k i j <-> next_to (0%nat :: p ++ [L]) i j) /\
    StronglySorted (fun i j => rank k i < rank k j) (0%nat :: p ++ [L]).
  Definition path_tours (P : nat -> list nat) : list (list visit) := map (fun k => visits k (nth k vs 0%nat) (P k)) (seq 0 (length vs)).
  Lemma paths : exists P, forall k, (k < length vs)%nat -> is_path k (P k).
  Proof. apply choose; [exact []|]. intros k Hk. destruct (lookup_lt_is_Some_2 vs k Hk) as [v Hv]. by apply (path k v). Qed.
  Theorem paths_sound P : (forall k, (k < length vs)%nat -> is_path k (P k)) ->
    plan vs ts (path_tours P) /\ within_day vs (path_tours P) /\
    forall k v xs, vs !! k = Some v -> path_tours P !! k = Some xs -> follows vs ts a k v xs.
  Proof.
    intros HP. unfold path_tours. set (g := fun k => visits k (nth k vs 0%nat) (P k)). split; [split|split].
    - apply Forall2_seq. intros k v Hk. pose proof (lookup_lt_Some _ _ _ Hk) as Hl. destruct (HP k Hl) as (H1 & H2 & H3). unfold g. rewrite (nth_lookup_Some _ _ _ _ Hk).
      split; [|split]; [by apply visits_tour|apply visits_simple|by apply visits_exact].
    - rewrite map_map. rewrite <- flat_map_concat_map.
      assert (B : forall k t, (k < length vs)%nat -> t ∈ boards (g k) <-> exists i, i ∈ P k /\ pickup_node ts i t).
      { intros k t Hk. destruct (lookup_lt_is_Some_2 vs k Hk) as [v Hv]. destruct (HP k Hk) as (H1 & H2 & H3). by apply elem_boards. }
      apply NoDup_Permutation; [|done|].
      + apply NoDup_flat; [apply NoDup_seq|..].
        * intros k Hk. apply elem_of_seq in Hk. destruct (lookup_lt_is_Some_2 vs k ltac:(lia)) as [v Hv]. destruct (HP k ltac:(lia)) as (H1 & H2 & H3). by apply boards_NoDup.
        * intros k k' t Hk Hk' Ht Ht'. apply elem_of_seq in Hk, Hk'. apply B in Ht as (i & Hi & Hpi); [|lia]. apply B in Ht' as (i' & Hi' & Hpi'); [|lia].
          rewrite (pickup_inj _ _ _ Hpi' Hpi) in Hi'.
          destruct (HP k ltac:(lia)) as (H1 & H2 & H3). destruct (HP k' ltac:(lia)) as (H1' & H2' & H3').
          destruct (lookup_lt_is_Some_2 vs k ltac:(lia)) as [v Hv]. destruct (lookup_lt_is_Some_2 vs k' ltac:(lia)) as [v' Hv'].
          apply (path_arc k (P k) H1 H2) in Hi as (_ & j & Hj & Hj2 & Hj3). apply (path_arc k' (P k') H1' H2') in Hi' as (_ & j' & Hj' & Hj2' & Hj3').
          pose proof (sy_once v0 vs' ts a S i (pickup_range i t Hpi)) as Ho. apply length_one in Ho as (jk & Ho).
          assert (G : forall b c, (b < N)%nat -> (c < length vs)%nat -> (as_x a c i b == 1)%Q -> (b, c) = jk).
          { intros b c Hb Hc Ebc. assert (Hin : (b, c) ∈ ones (λ '(j, k), as_x a k i j) (product2 (seq 0 N) (seq 0 (length vs)))).
            { apply elem_of_ones. split; [|done]. apply elem_of_product. rewrite !elem_of_seq. lia. }
            rewrite Ho in Hin. by apply elem_of_list_singleton in Hin. }
          pose proof (G j k Hj2 ltac:(lia) Hj3) as G1. pose proof (G j' k' Hj2' ltac:(lia) Hj3') as G2. congruence.
      + intros t. rewrite elem_of_flat_map. split.
        * intros (k & Hk & Ht). apply elem_of_seq in Hk. apply B in Ht as (i & _ & Hpi); [|lia]. by eapply pickup_elem.
        * intros Ht. apply elem_of_list_lookup_1 in Ht as (m & Hm). assert (Hpi : pickup_node ts (m + 1) t) by (by exists m).
          pose proof (pickup_range _ _ Hpi) as Hr. pose proof (sy_once v0 vs' ts a S (m + 1) Hr) as Ho. apply length_one in Ho as ([j k] & Ho).
          assert (Hin : (j, k) ∈ ones (λ '(j, k), as_x a k (m + 1)%nat j) (product2 (seq 0 N) (seq 0 (length vs)))) by (rewrite Ho; by left).
          apply elem_of_ones in Hin as [Hin E]. apply elem_of_product in Hin as [Hj Hk]. apply elem_of_seq in Hj, Hk.
          exists k. split; [apply elem_of_seq; lia|]. apply B; [lia|]. exists (m + 1)%nat. split; [|done].
          destruct (HP k ltac:(lia)) as (H1 & H2 & H3). destruct (lookup_lt_is_Some_2 vs k ltac:(lia)) as [v Hv].
          apply (path_arc k (P k) H1 H2). split; [lia|]. exists j. split; [lia|]. split; [lia|done].
    - intros k v xs T Hk Hxs. apply (list_lookup_fmap_inv g) in Hxs as (k' & -> & Hk'). apply lookup_seq in Hk' as [-> Hl].
      destruct (HP k Hl) as (H1 & H2 & H3). unfold g. cbn [Nat.add]. rewrite (nth_lookup_Some _ _ _ _ Hk). by apply visits_day.
    - intros k v xs Hk Hxs. apply (list_lookup_fmap_inv g) in Hxs as (k' & -> & Hk'). apply lookup_seq in Hk' as [-> Hl].
      destruct (HP k Hl) as (H1 & H2 & H3). unfold g. cbn [Nat.add]. rewrite (nth_lookup_Some _ _ _ _ Hk). by apply visits_follow.
  Qed.
  Theorem sound : exists tours, plan vs ts tours /\ within_day vs tours /\
    forall k v xs, vs !! k = Some v -> tours !! k = Some xs -> follows vs ts a k v xs.
  Proof. destruct paths as (P & HP). exists (path_tours P). by apply paths_sound. Qed.
End sound.
