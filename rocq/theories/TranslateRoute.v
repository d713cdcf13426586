(** One route of the translation: the objects created stand for the visits of
    the path. *)
From Coq Require Import Sorted.
From Verif Require Import Translate SpecDarp Represents MilpGraph MilpTheorems TimeTheorems MilpProofs MilpSound TranslateProofs.

Lemma position_index_first p l : forall i, l !! i = Some p -> (forall j, (j < i)%nat -> l !! j <> Some p) -> position_index p l = Some i.
Proof.
  induction l as [|q l IH]; intros i Hi Hj; [done|]. cbn. destruct i as [|i].
  - injection Hi as ->. by rewrite bool_decide_true.
  - rewrite bool_decide_false. { rewrite (IH i); [done|done|]. intros j Hl. apply (Hj (S j)). lia. }
    intros ->. by apply (Hj 0%nat); [lia|].
Qed.
Lemma position_index_NoDup p l i : NoDup l -> l !! i = Some p -> position_index p l = Some i.
Proof. intros Hn Hi. apply position_index_first; [done|]. intros j Hj E. pose proof (NoDup_lookup _ _ _ _ Hn Hi E). lia. Qed.
Lemma sorted_order (f : nat -> Z) l : StronglySorted (fun i j => f i < f j) l -> forall i j a b, l !! i = Some a -> l !! j = Some b -> f a <= f b -> (i <= j)%nat.
Proof.
  induction 1 as [|c l Hl IH Hc]; intros i j a b Hi Hj E; [done|]. destruct i as [|i]; [lia|]. destruct j as [|j]; cbn in *.
  - injection Hj as ->. rewrite Forall_forall in Hc. specialize (Hc a (elem_of_list_lookup_2 _ _ _ Hi)). lia.
  - specialize (IH i j a b Hi Hj E). lia.
Qed.

Lemma seq_from s m : seq s m = map (fun j => s + j)%nat (seq 0 m).
Proof.
  revert s. induction m as [|m IH]; intros s; [done|]. cbn. rewrite Nat.add_0_r, IH. f_equal. rewrite (IH 1%nat), map_map. apply map_ext. intros j. lia.
Qed.

Section route.
  Context {W : World} (v0 : nat) (vs' ts : list nat) (a : assignment) (k v : nat) (p : list nat) (h : heap).
  Notation vs := (v0 :: vs').
  Notation n := (length ts).
  Notation L := (2 * length ts + 1)%nat.
  Notation b := (length (h_stops h)).
  Notation bp := (length (h_pts h)).
  Notation r := (length (h_routes h)).
  Notation u := (as_u a).
  Notation tr := (tr ts).
  Notation pos := (pos vs ts).
  Context (Hnd : NoDup ts) (Hdist : forall i j, (i < L)%nat -> (j < L)%nat -> pos i = pos j -> i = j).
  Context (Hin : Forall (fun i => 0 < i < L)%nat p) (Hpd : NoDup p) (Hpair : forall i, (1 <= i <= n)%nat -> i ∈ p <-> (i + n)%nat ∈ p).
  Context (Hsu : StronglySorted (fun i j => u k i < u k j) p) (Hride : forall i, (1 <= i <= n)%nat -> i ∈ p -> u k i <= u k (i + n)%nat).
  Context (Hnodes : solution_to_nodes ts a k = 0%nat :: p) (Hfirst : pos 0 = v_origin_position v).

  Lemma inner i : i ∈ p -> (0 < i < L)%nat.
  Proof. rewrite Forall_forall in Hin. apply Hin. Qed.
  Definition ps : list position := map pos p.
  Definition ups : list nat := List.filter (fun i => i <=? n)%nat p.
  Definition T : list nat := map tr ups.
  Definition place_in (q : position) : nat := default 0%nat (position_index q ps).
  Definition jp (t : nat) : nat := place_in (origin_position (w_trip t)).
  Definition jd (t : nat) : nat := place_in (destination_position (w_trip t)).
  Definition dx (q : position) : nat := default 0%nat (position_index q (match positions vs ts with Ok l => l | Raise _ => [] end)).

  Lemma ps_lookup j i : p !! j = Some i -> ps !! j = Some (pos i).
  Proof. intros E. unfold ps. change (map pos p) with (pos <$> p). by rewrite list_lookup_fmap, E. Qed.
  Lemma ps_NoDup : NoDup ps.
  Proof. unfold ps. change (map pos p) with (pos <$> p). apply NoDup_fmap_2_strong; [|done]. intros i j Hi Hj E. apply Hdist; [| |done]; apply inner in Hi, Hj; lia. Qed.
  Lemma place_node j i : p !! j = Some i -> place_in (pos i) = j.
  Proof. intros E. unfold place_in. by rewrite (position_index_NoDup _ _ j ps_NoDup (ps_lookup _ _ E)). Qed.
  Lemma orig_node i : (1 <= i <= n)%nat -> origin_position (w_trip (tr i)) = pos i.
  Proof. intros Hi. by destruct (c48_pickup v0 vs' ts i _ (tr_pickup ts i Hi)) as (_ & -> & _). Qed.
  Lemma dest_node i : (n < i <= 2 * n)%nat -> destination_position (w_trip (tr i)) = pos i.
  Proof. intros Hi. by destruct (c48_delivery v0 vs' ts i _ (tr_delivery ts i Hi)) as (_ & -> & _). Qed.
  Lemma tr_inj i j : (1 <= i <= n)%nat -> (1 <= j <= n)%nat -> tr i = tr j -> i = j.
  Proof. intros Hi Hj E. eapply (pickup_inj ts Hnd); [by apply tr_pickup|]. rewrite E. by apply tr_pickup. Qed.
  Lemma tr_of t : t ∈ ts -> exists i, (1 <= i <= n)%nat /\ t = tr i.
  Proof.
    intros Ht. apply elem_of_list_lookup_1 in Ht as (m & Hm). pose proof (lookup_lt_Some _ _ _ Hm). exists (m + 1)%nat. split; [lia|].
    unfold MilpSound.tr. rewrite (proj2 (Nat.leb_le _ _)) by lia. replace (m + 1 - 1)%nat with m by lia. by rewrite (nth_lookup_Some _ _ _ _ Hm).
  Qed.
  Lemma ups_elem i : i ∈ ups <-> i ∈ p /\ (1 <= i <= n)%nat.
  Proof.
    unfold ups. rewrite elem_of_list_In, filter_In, <- elem_of_list_In, Nat.leb_le. split; intros [H1 H2]; [|split; [done|lia]].
    split; [done|]. apply inner in H1. lia.
  Qed.
  Lemma find_pickup i : (1 <= i <= n)%nat -> List.find (fun t => bool_decide (origin_position (w_trip t) = pos i)) ts = Some (tr i).
  Proof.
    intros Hi. destruct (List.find _ ts) as [t|] eqn:E.
    - apply find_some in E as [Ht E]. apply bool_decide_eq_true in E. apply elem_of_list_In, tr_of in Ht as (j & Hj & ->).
      rewrite orig_node in E by done. apply Hdist in E; [by subst|lia|lia].
    - exfalso. pose proof (find_none _ _ E (tr i)) as Hn. cbn in Hn. rewrite orig_node in Hn by done. rewrite bool_decide_true in Hn by done.
      discriminate Hn. apply elem_of_list_In. eapply pickup_elem. by apply tr_pickup.
  Qed.
  Lemma find_other i : (i = 0 \/ n < i < L)%nat -> List.find (fun t => bool_decide (origin_position (w_trip t) = pos i)) ts = None.
  Proof.
    intros Hi. destruct (List.find _ ts) as [t|] eqn:E; [|done]. exfalso. apply find_some in E as [Ht E]. apply bool_decide_eq_true in E.
    apply elem_of_list_In, tr_of in Ht as (j & Hj & ->). rewrite orig_node in E by done. apply Hdist in E; lia.
  Qed.
  Lemma trips_read : positions_to_trips ts (pos 0 :: ps) = T.
  Proof.
    unfold positions_to_trips. cbn [foldl]. rewrite find_other by (by left). unfold T, ups, ps.
    assert (G : forall q acc, Forall (fun i => 0 < i < L)%nat q -> NoDup q -> (forall i, i ∈ q -> (1 <= i <= n)%nat -> tr i ∉ acc) ->
      foldl (fun trips p0 => match List.find (fun t => bool_decide (origin_position (w_trip t) = p0)) ts with
        | Some t => if bool_decide (t ∈ trips) then trips else trips ++ [t] | None => trips end) acc (map pos q) = acc ++ map tr (List.filter (fun i => i <=? n)%nat q)).
    { induction q as [|i q IH]; intros acc Hq Hn Ha; [cbn; by rewrite app_nil_r|]. apply Forall_cons in Hq as [Hi Hq]. apply NoDup_cons in Hn as [Hni Hn].
      cbn [map foldl List.filter]. destruct (Nat.leb_spec i n) as [Hle|Hle].
      - rewrite find_pickup by lia. rewrite bool_decide_false by (apply Ha; [by left|lia]). rewrite IH; [by rewrite <- app_assoc|done|done|].
        intros j Hj Hjn Hc. apply elem_of_app in Hc as [Hc|Hc]; [by apply (Ha j); [right|done|]|]. apply elem_of_list_singleton in Hc.
        apply tr_inj in Hc; [by subst|done|lia].
      - rewrite find_other by lia. apply IH; [done|done|]. intros j Hj. apply Ha. by right. }
    rewrite G; [done|done|done|]. intros i _ _ Hc. by inversion Hc.
  Qed.
  Lemma dx_node i : (i < L)%nat -> dx (pos i) = i /\ forall hh : heap, idx_by_position vs ts (pos i) hh = (Ok (dx (pos i)), hh).
  Proof.
    intros Hi. unfold dx, idx_by_position.
    assert (E : position_index (pos i) (match positions vs ts with Ok l => l | Raise _ => [] end) = Some i).
    { assert (Hl : forall j, (j < L)%nat -> match positions vs ts with Ok l => l | Raise _ => [] end !! j = Some (pos j)).
      { intros j Hj. unfold Milp.pos. cbn [positions].
        match goal with |- ?l !! j = Some (nth j ?l []) => destruct (nth_lookup_or_length l j []) as [El|El]; [done|] end.
        exfalso. cbn in El. rewrite !app_length, !map_length in El. cbn in El. lia. }
      apply position_index_first; [by apply Hl|]. intros j Hj Ej. rewrite Hl in Ej by lia. injection Ej as Ej. apply Hdist in Ej; lia. }
    rewrite E. split; [done|]. intros hh. cbn [positions] in *. by rewrite E.
  Qed.
  Lemma pair_places i : (1 <= i <= n)%nat -> i ∈ p -> exists j j', p !! j = Some i /\ p !! j' = Some (i + n)%nat /\ (j < j')%nat /\ jp (tr i) = j /\ jd (tr i) = j'.
  Proof.
    intros Hi Hp. pose proof (proj1 (Hpair i Hi) Hp) as Hp'. apply elem_of_list_lookup_1 in Hp as Hj. apply elem_of_list_lookup_1 in Hp' as Hj'.
    destruct Hj as (j & Hj), Hj' as (j' & Hj'). exists j, j'. split; [done|]. split; [done|]. split; [|split].
    - pose proof (sorted_order _ _ Hsu _ _ _ _ Hj Hj' (Hride i Hi Hp)). assert (j <> j'); [|lia]. intros <-. rewrite Hj in Hj'. injection Hj'. lia.
    - unfold jp. rewrite orig_node by done. by apply place_node.
    - unfold jd. rewrite <- tr_shift by done. rewrite dest_node by lia. by apply place_node.
  Qed.
  Lemma T_elem t : t ∈ T <-> exists i, i ∈ p /\ (1 <= i <= n)%nat /\ t = tr i.
  Proof.
    unfold T. change (map tr ups) with (tr <$> ups). rewrite elem_of_list_fmap. split.
    - intros (i & -> & Hi). apply ups_elem in Hi as []. eauto.
    - intros (i & H1 & H2 & ->). exists i. split; [done|]. by apply ups_elem.
  Qed.
  Lemma ups_NoDup : NoDup ups.
  Proof. unfold ups. apply NoDup_ListNoDup, List.NoDup_filter, NoDup_ListNoDup. done. Qed.
  (** no two ends of trips are at the same place *)
  Lemma ends_of {B} (f : nat -> B) (inj : forall i j, i ∈ p -> j ∈ p -> f i = f j -> i = j) : NoDup (flat_map (fun i => [f i; f (i + n)%nat]) ups).
  Proof.
    apply NoDup_flat; [apply ups_NoDup|..].
    - intros i Hi. apply ups_elem in Hi as [Hi Hr]. apply NoDup_cons. split; [|apply NoDup_singleton]. rewrite elem_of_list_singleton. intros E.
      apply inj in E; [lia|done|by apply (Hpair i Hr)].
    - intros i j y Hi Hj Hy Hy'. apply ups_elem in Hi as [Hi Hr], Hj as [Hj Hr']. pose proof (proj1 (Hpair i Hr) Hi). pose proof (proj1 (Hpair j Hr') Hj).
      rewrite !elem_of_cons, elem_of_nil in Hy, Hy'. destruct Hy as [->|[->|[]]], Hy' as [E|[E|[]]]; apply inj in E; try done; lia.
  Qed.
  Lemma flat_ups {B} (f g : nat -> B) : flat_map (fun t => [f t; g t]) T = flat_map (fun i => [f (tr i); g (tr i)]) ups.
  Proof. unfold T. induction ups as [|i q IH]; [done|]. cbn. by rewrite IH. Qed.
  Lemma flat_ext {A B} (f g : A -> list B) l : (forall x, x ∈ l -> f x = g x) -> flat_map f l = flat_map g l.
  Proof. intros E. induction l as [|x l IH]; [done|]. cbn. rewrite E by (by left). rewrite IH; [done|]. intros y Hy. apply E. by right. Qed.
  Lemma places_NoDup : NoDup (flat_map (fun t => [origin_position (w_trip t); destination_position (w_trip t)]) T).
  Proof.
    rewrite flat_ups, (flat_ext _ (fun i => [pos i; pos (i + n)])).
    - apply ends_of. intros i j Hi Hj E. apply inner in Hi, Hj. apply Hdist; [lia|lia|done].
    - intros i Hi. apply ups_elem in Hi as [Hi Hr]. rewrite orig_node by done. rewrite <- (tr_shift ts i Hr), dest_node by lia. done.
  Qed.
  Lemma indexes_NoDup : NoDup (ends jp jd T).
  Proof.
    unfold ends. rewrite flat_ups, (flat_ext _ (fun i => [place_in (pos i); place_in (pos (i + n))])).
    - apply ends_of. intros i j Hi Hj E. apply elem_of_list_lookup_1 in Hi as (x & Hx), Hj as (y & Hy). rewrite (place_node _ _ Hx), (place_node _ _ Hy) in E. subst. congruence.
    - intros i Hi. apply ups_elem in Hi as [Hi Hr]. unfold jp, jd. rewrite orig_node by done. rewrite <- (tr_shift ts i Hr) at 1. rewrite dest_node by lia. done.
  Qed.

  (** ** The run *)
  Notation m := (length ps).
  Notation F := (cell v (v_origin_position v) None).
  Definition inner_cell (j : nat) : stop := timed_cell a k dx (marked h jp jd T 0 (fresh h v ps) j).
  Definition final : heap :=
    H h v (set_starting (Some (u k 0%nat)) F :: cell v (v_destination_position v) (Some (before_stop h m)) :: map inner_cell (seq 0 m)) (map (ptr h v jp jd) T) (stops_at h m).

  Lemma inner_cell_shows j i : p !! j = Some i ->
    exists q, T !! q = Some (tr i) /\
      inner_cell j = MkStop v (pos i) (if (i <=? n)%nat then [bp + q]%nat else []) (if (i <=? n)%nat then [] else [bp + q]%nat) (Some (before_stop h j)) (Some (u k i)) None None None None.
  Proof.
    intros Hj. pose proof (inner i (elem_of_list_lookup_2 _ _ _ Hj)) as Hi. pose proof (elem_of_list_lookup_2 _ _ _ Hj) as Hp.
    assert (Hn : nth j ps [] = pos i) by (by apply nth_lookup_Some, ps_lookup).
    destruct (dx_node i ltac:(lia)) as [Hdx _]. destruct (Nat.leb_spec i n) as [Hle|Hle].
    - assert (HT : tr i ∈ T) by (apply T_elem; exists i; split; [done|split; [lia|done]]). apply elem_of_list_lookup_1 in HT as (q & Hq). exists q. split; [done|].
      destruct (marked_ends h jp jd T 0 (fresh h v ps) q _ indexes_NoDup Hq) as [E _]. unfold jp in E at 2 3. rewrite orig_node in E by lia. rewrite (place_node j i Hj) in E.
      unfold inner_cell. rewrite E. unfold fresh, timed_cell. rewrite Hn. cbn [set_pickups cell st_position]. by rewrite Hdx.
    - assert (Ht : tr (i - n) = tr i) by (rewrite <- tr_shift by lia; f_equal; lia).
      assert (HT : tr i ∈ T).
      { apply T_elem. exists (i - n)%nat. split; [|split; [lia|done]]. apply Hpair; [lia|]. by replace (i - n + n)%nat with i by lia. }
      apply elem_of_list_lookup_1 in HT as (q & Hq). exists q. split; [done|].
      destruct (marked_ends h jp jd T 0 (fresh h v ps) q _ indexes_NoDup Hq) as [_ E]. unfold jd in E at 2 3. rewrite dest_node in E by lia. rewrite (place_node j i Hj) in E.
      unfold inner_cell. rewrite E. unfold fresh, timed_cell. rewrite Hn. cbn [set_deliveries cell st_position]. by rewrite Hdx.
  Qed.

  Lemma final_clean X : st_arrival X = None -> st_departure X = None -> st_capacity X = None -> st_pickups X = [] -> st_deliveries X = [] ->
    forall Y, st_arrival Y = None -> st_departure Y = None -> st_capacity Y = None -> st_pickups Y = [] -> st_deliveries Y = [] ->
    clean h (X :: Y :: map inner_cell (seq 0 m)) (map (ptr h v jp jd) T).
  Proof.
    intros X1 X2 X3 X4 X5 Y Y1 Y2 Y3 Y4 Y5. split.
    - intros c Hc. apply elem_of_cons in Hc as [->|Hc]; [rewrite X4, X5; repeat split; try done; intros q Hq; by inversion Hq|].
      apply elem_of_cons in Hc as [->|Hc]; [rewrite Y4, Y5; repeat split; try done; intros q Hq; by inversion Hq|].
      apply elem_of_list_fmap in Hc as (j & -> & Hj). apply elem_of_seq in Hj. unfold ps in Hj. rewrite map_length in Hj.
      destruct (lookup_lt_is_Some_2 p j) as [i Hi]; [lia|]. destruct (inner_cell_shows j i Hi) as (q & _ & ->). cbn.
      repeat split; try done. destruct (i <=? n)%nat; intros x Hx; apply elem_of_list_singleton in Hx as ->; lia.
    - intros c Hc. by apply elem_of_list_fmap in Hc as (t & -> & _).
  Qed.
  Lemma marked_clean : clean h (F :: cell v (v_destination_position v) (Some b) :: map (marked h jp jd T 0 (fresh h v ps)) (seq 0 m)) (map (ptr h v jp jd) T).
  Proof.
    destruct (final_clean F eq_refl eq_refl eq_refl eq_refl eq_refl (cell v (v_destination_position v) (Some b)) eq_refl eq_refl eq_refl eq_refl eq_refl) as [C1 C2].
    split; [|done]. intros c Hc. apply elem_of_cons in Hc as [->|Hc]; [apply C1; by left|]. apply elem_of_cons in Hc as [->|Hc]; [apply C1; by right; left|].
    apply elem_of_list_fmap in Hc as (j & -> & Hj). specialize (C1 (inner_cell j)). unfold inner_cell, timed_cell in C1. cbn in C1. apply C1.
    right. right. apply elem_of_list_fmap. exists j. done.
  Qed.
  Lemma differs_NoDup q l : NoDup (q :: l) -> differs q l.
  Proof.
    revert q. induction l as [|q' l IH]; intros q Hn; [done|]. apply NoDup_cons in Hn as [Hq Hn]. cbn. split; [|by apply IH].
    intros ->. apply Hq. by left.
  Qed.
  Lemma all_NoDup : NoDup (pos 0 :: ps).
  Proof.
    apply NoDup_cons. split; [|apply ps_NoDup]. intros Hc. apply elem_of_list_fmap in Hc as (i & E & Hi). apply inner in Hi. apply Hdist in E; lia.
  Qed.

  Lemma run_route : solution_to_route vs ts a k v h = (Ok r, final).
  Proof.
    unfold solution_to_route. rewrite (bind_ok _ _ _ _ _ (run_new_route h v)). set (E := cell v (v_destination_position v) (Some b)).
    cbv zeta. unfold solution_to_positions. rewrite Hnodes. cbn [map]. change (map (fun i => Milp.pos vs ts i) p) with ps. set (q0 := pos 0).
    assert (E1 : positions_to_stops r (q0 :: ps) (H h v [F; E] [] [b; S b]) =
      (Ok (b :: seq (b + 2) m), H h v (F :: E :: map (fresh h v ps) (seq 0 m)) [] [b; S b])).
    { unfold positions_to_stops.
      assert (G0 : stop_get b (H h v [F; E] [] [b; S b]) = (Ok F, H h v [F; E] [] [b; S b])).
      { replace (stop_get b) with (stop_get (b + 0)) by (by rewrite Nat.add_0_r). by apply get_stop. }
      assert (Ef : first_stop r (H h v [F; E] [] [b; S b]) = (Ok b, H h v [F; E] [] [b; S b])).
      { unfold first_stop. rewrite (bind_ok _ _ _ _ _ (get_stops _ _ _ _ _)). cbn [py_nth lookup list_lookup]. unfold bind at 1, ret at 1.
        rewrite (bind_ok _ _ _ _ _ G0). done. }
      rewrite (bind_ok _ _ _ _ _ Ef). rewrite (bind_ok _ _ _ _ _ (get_route h v _ _ _)). cbn [rt_vehicle].
      assert (El : stops_loop v b (q0 :: ps) (H h v [F; E] [] [b; S b]) = (Ok (seq (b + 2) m), H h v (F :: E :: map (fresh h v ps) (seq 0 m)) [] [b; S b])).
      { cbn [stops_loop]. rewrite (bind_ok _ _ _ _ _ G0). unfold q0. rewrite bool_decide_true by (by rewrite Hfirst).
        pose proof (run_stops_loop h v ps 0 F [F; E] [] [b; S b] eq_refl) as R. cbn [st_position cell] in R. rewrite <- Hfirst in R.
        specialize (R (differs_NoDup _ _ all_NoDup)). rewrite Nat.add_0_r in R. rewrite Hfirst in R. cbn [length] in R. rewrite R.
        rewrite new_cells_fresh. done. }
      rewrite (bind_ok _ _ _ _ _ El). done. }
    rewrite (bind_ok _ _ _ _ _ E1). clear E1. unfold q0. rewrite trips_read.
    assert (E2 : stop_mapper (b :: seq (b + 2) m) (H h v (F :: E :: map (fresh h v ps) (seq 0 m)) [] [b; S b]) =
      (Ok ((pos 0, b) :: map (fun j => (nth j ps [], (b + 2 + j)%nat)) (seq 0 m)), H h v (F :: E :: map (fresh h v ps) (seq 0 m)) [] [b; S b])).
    { unfold stop_mapper. set (SS := F :: E :: map (fresh h v ps) (seq 0 m)).
      set (look := fun s => (match h_stops (H h v SS [] [b; S b]) !! s with Some c => st_position c | None => [] end, s)).
      assert (L0 : look b = (pos 0, b)).
      { unfold look. pose proof (H_stop h v SS [] [b; S b] 0 F eq_refl) as L. rewrite Nat.add_0_r in L. rewrite L. cbn [st_position cell]. by rewrite Hfirst. }
      assert (L1 : forall j, (j < m)%nat -> h_stops (H h v SS [] [b; S b]) !! (b + 2 + j)%nat = Some (fresh h v ps j)).
      { intros j Hj. rewrite <- Nat.add_assoc. apply H_stop. cbn. by apply map_seq_lookup. }
      rewrite (mapM_pure _ look).
      - f_equal. f_equal. cbn [map]. rewrite L0. f_equal. rewrite seq_from, map_map. apply map_seq_ext. intros j Hj. unfold look. by rewrite L1.
      - intros s Hs. unfold bind, stop_get, look. apply elem_of_cons in Hs as [->|Hs].
        + pose proof (H_stop h v SS [] [b; S b] 0 F eq_refl) as L. rewrite Nat.add_0_r in L. by rewrite L.
        + apply elem_of_seq in Hs. replace s with (b + 2 + (s - b - 2))%nat by lia. rewrite L1 by lia. done. }
    unfold build_planned_trips.
    set (mm := (pos 0, b) :: map (fun j => (nth j ps [], (b + 2 + j)%nat)) (seq 0 m)).
    assert (Em : mm.*1 = pos 0 :: ps).
    { unfold mm. cbn [fmap list_fmap fst]. f_equal. change (list_fmap ?A ?B ?f ?l) with (map f l). rewrite map_map. cbn [fst].
      apply list_eq. intros j. destruct (decide (j < m)%nat) as [Hj|Hj].
      - rewrite (map_seq_lookup (fun j => nth j ps [])) by done. destruct (lookup_lt_is_Some_2 ps j Hj) as [x Hx]. rewrite Hx. by rewrite (nth_lookup_Some _ _ _ _ Hx).
      - rewrite !lookup_ge_None_2; [done|lia|rewrite map_length, seq_length; lia]. }
    assert (Hin_mm : forall j i, p !! j = Some i -> (pos i, (b + 2 + j)%nat) ∈ mm).
    { intros j i Hj. right. apply elem_of_list_fmap. exists j. rewrite (nth_lookup_Some _ _ _ _ (ps_lookup _ _ Hj)). split; [done|].
      apply elem_of_seq. unfold ps. rewrite map_length. apply lookup_lt_Some in Hj. lia. }
    assert (E3 : planned_loop v mm T (H h v (F :: E :: map (fresh h v ps) (seq 0 m)) [] [b; S b]) =
      (Ok (seq (bp + 0) (length T)), H h v (F :: E :: map (marked h jp jd T 0 (fresh h v ps)) (seq 0 m)) (map (ptr h v jp jd) T) [b; S b])).
    { pose proof (run_planned h v jp jd m T mm F E (fresh h v ps) [] [b; S b]) as R. cbn [length app] in R. apply R.
      - rewrite Em. apply all_NoDup.
      - intros t Ht. apply T_elem in Ht as (i & Hi & Hr & ->). destruct (pair_places i Hr Hi) as (j & j' & Hj & Hj' & _ & -> & ->).
        rewrite orig_node by done. rewrite <- (tr_shift ts i Hr), dest_node by lia. split; by apply Hin_mm.
      - apply places_NoDup.
      - apply indexes_NoDup.
      - intros t Ht. apply T_elem in Ht as (i & Hi & Hr & ->). destruct (pair_places i Hr Hi) as (j & j' & Hj & Hj' & _ & -> & ->).
        unfold fresh. cbn [cell st_position st_pickups st_deliveries]. rewrite (nth_lookup_Some _ _ _ _ (ps_lookup _ _ Hj)), (nth_lookup_Some _ _ _ _ (ps_lookup _ _ Hj')).
        rewrite orig_node by done. rewrite <- (tr_shift ts i Hr), dest_node by lia. apply lookup_lt_Some in Hj, Hj'. unfold ps. rewrite map_length. done. }
    assert (E4 : (let! m0 := stop_mapper (b :: seq (b + 2) m) in planned_loop v m0 T) (H h v (F :: E :: map (fresh h v ps) (seq 0 m)) [] [b; S b]) =
      (Ok (seq (bp + 0) (length T)), H h v (F :: E :: map (marked h jp jd T 0 (fresh h v ps)) (seq 0 m)) (map (ptr h v jp jd) T) [b; S b])).
    { rewrite (bind_ok _ _ _ _ _ E2). exact E3. }
    rewrite (bind_ok _ _ _ _ _ E4). clear E2 E3 E4 Em Hin_mm mm.
    assert (E5 : adjust_waiting_times vs ts a (b :: seq (b + 2) m) k (H h v (F :: E :: map (marked h jp jd T 0 (fresh h v ps)) (seq 0 m)) (map (ptr h v jp jd) T) [b; S b]) =
      (Ok tt, H h v (set_starting (Some (u k 0%nat)) F :: E :: map inner_cell (seq 0 m)) (map (ptr h v jp jd) T) [b; S b])).
    { pose proof (run_adjust h v vs ts a k dx (0%nat :: seq 2 m) _ _ [b; S b] marked_clean) as R. cbn [map] in R. rewrite Nat.add_0_r in R.
      assert (Es : map (fun i => b + i)%nat (seq 2 m) = seq (b + 2) m).
      { rewrite (seq_from 2), (seq_from (b + 2)), map_map. apply map_ext. intros j. lia. }
      rewrite Es in R. fold E in R. rewrite R.
      - rewrite alters_all. unfold timed_cell at 1. cbn [st_position cell]. rewrite <- Hfirst. destruct (dx_node 0 ltac:(lia)) as [-> _]. done.
      - intros i Hi. apply elem_of_cons in Hi as [->|Hi].
        + exists F. split; [done|]. cbn [st_position cell]. rewrite <- Hfirst. by destruct (dx_node 0 ltac:(lia)) as [_ ?].
        + apply elem_of_seq in Hi. destruct i as [|[|j]]; [lia|lia|]. exists (marked h jp jd T 0 (fresh h v ps) j). split.
          { cbn. apply map_seq_lookup. lia. }
          destruct (lookup_lt_is_Some_2 p j) as [i Hj]; [unfold ps in Hi; rewrite map_length in Hi; lia|]. destruct (inner_cell_shows j i Hj) as (q & _ & Eq).
          assert (Ep : st_position (marked h jp jd T 0 (fresh h v ps) j) = pos i) by (by apply (f_equal st_position) in Eq).
          rewrite Ep. pose proof (inner i (elem_of_list_lookup_2 _ _ _ Hj)). by destruct (dx_node i ltac:(lia)) as [_ ?]. }
    rewrite (bind_ok _ _ _ _ _ E5). clear E5. cbn [iterM].
    destruct (run_insert_first h v (set_starting (Some (u k 0%nat)) F) E (map inner_cell (seq 0 m)) (map (ptr h v jp jd) T)) as (x & Ex); [by apply final_clean|done|done|done|].
    assert (E6 : iterM (fun s => insert_stop r s ;;; ret tt) (b :: seq (b + 2) m) (H h v (set_starting (Some (u k 0%nat)) F :: E :: map inner_cell (seq 0 m)) (map (ptr h v jp jd) T) [b; S b]) = (Ok tt, final)).
    { cbn [iterM].
      assert (E7 : (insert_stop r b ;;; ret tt) (H h v (set_starting (Some (u k 0%nat)) F :: E :: map inner_cell (seq 0 m)) (map (ptr h v jp jd) T) [b; S b]) =
        (Ok tt, H h v (set_starting (Some (u k 0%nat)) F :: E :: map inner_cell (seq 0 m)) (map (ptr h v jp jd) T) [b; S b])).
      { rewrite (bind_ok _ _ _ _ _ Ex). done. }
      rewrite (bind_ok _ _ _ _ _ E7).
      pose proof (run_insert_rest h v m inner_cell (map (ptr h v jp jd) T) (set_starting (Some (u k 0%nat)) F) E) as R.
      specialize (R ltac:(by apply final_clean)). rewrite <- (Nat.add_0_r (b + 2)). apply (R) with (j := 0%nat); [|lia].
      intros j Hj. unfold ps in Hj. rewrite map_length in Hj. destruct (lookup_lt_is_Some_2 p j) as [i Hi]; [lia|]. destruct (inner_cell_shows j i Hi) as (q & _ & ->).
      cbn [st_previous st_pickups st_deliveries]. split; [done|]. destruct (i <=? n)%nat; [apply set_diff_nil|done]. }
    rewrite (bind_ok _ _ _ _ _ E6). done.
  Qed.

  (** ** What it stands for *)
  Notation xs := (visits ts a k v p).
  Lemma len_ps : m = length p.
  Proof. unfold ps. apply map_length. Qed.
  Lemma final_first : h_stops final !! b = Some (set_starting (Some (u k 0%nat)) F).
  Proof. pose proof (H_stop h v _ (map (ptr h v jp jd) T) (stops_at h m) 0 _ (eq_refl : (set_starting (Some (u k 0%nat)) F :: cell v (v_destination_position v) (Some (before_stop h m)) :: map inner_cell (seq 0 m)) !! 0%nat = _)) as E. by rewrite Nat.add_0_r in E. Qed.
  Lemma final_last : h_stops final !! S b = Some (cell v (v_destination_position v) (Some (before_stop h m))).
  Proof. unfold final. replace (S b) with (b + 1)%nat by lia. by apply H_stop. Qed.
  Lemma final_inner j : (j < m)%nat -> h_stops final !! (b + 2 + j)%nat = Some (inner_cell j).
  Proof. intros Hj. unfold final. rewrite <- Nat.add_assoc. apply H_stop. cbn. by apply map_seq_lookup. Qed.
  Lemma final_trip q t : T !! q = Some t -> h_pts final !! (bp + q)%nat = Some (ptr h v jp jd t).
  Proof.
    intros Hq. unfold final, H. cbn [h_pts]. rewrite lookup_app_r by lia. replace (bp + q - bp)%nat with q by lia.
    change (map ?f T) with (f <$> T). by rewrite list_lookup_fmap, Hq.
  Qed.
  Lemma stops_inner j : (j < m)%nat -> stops_at h m !! S j = Some (b + 2 + j)%nat.
  Proof. intros Hj. change (stops_at h m !! S j) with ((seq (b + 2) m ++ [S b]) !! j). rewrite lookup_app_l by (by rewrite seq_length). by apply lookup_seq_lt. Qed.
  Lemma stops_cases i s : stops_at h m !! i = Some s -> (i = 0%nat /\ s = b) \/ (exists j, (j < m)%nat /\ i = S j /\ s = (b + 2 + j)%nat) \/ (i = S m /\ s = S b).
  Proof.
    intros Hi. destruct i as [|j]; [left; by injection Hi as ->|]. right. destruct (decide (j < m)%nat) as [Hj|Hj].
    - left. exists j. rewrite stops_inner in Hi by done. by injection Hi as <-.
    - right. change ((seq (b + 2) m ++ [S b]) !! j = Some s) in Hi. rewrite lookup_app_r in Hi by (rewrite seq_length; lia). rewrite seq_length in Hi.
      destruct (j - m)%nat as [|x] eqn:Ex; [|done]. injection Hi as <-. split; [f_equal; lia|done].
  Qed.
  Lemma before_inner j : (j <= m)%nat -> before_at (stops_at h m) (S j) = Some (before_stop h j).
  Proof. intros Hj. destruct j as [|j]; [done|]. cbn [before_at before_stop]. by apply stops_inner. Qed.

  Context (Hrides : rides xs).
  Lemma final_formed : well_formed final r v (stops_at h m) xs.
  Proof.
    assert (Hxs : forall j, xs !! S j = (map (nv ts a k) p ++ [xn v]) !! j) by done.
    constructor; [constructor|done|..].
    - exists (MkRoute v (stops_at h m) None). unfold final, H. cbn [h_routes]. by rewrite lookup_app_r, Nat.sub_diag by lia.
    - cbn. rewrite !app_length, seq_length, map_length, len_ps. done.
    - intros i s x tm Hi Hx _. apply stops_cases in Hi as [(-> & ->)|[(j & Hj & -> & ->)|(-> & ->)]].
      + exists (set_starting (Some (u k 0%nat)) F). split; [apply final_first|]. injection Hx as <-. constructor; try done; try (by left); constructor.
      + exists (inner_cell j). split; [by apply final_inner|]. rewrite before_inner by lia. rewrite len_ps in Hj.
        destruct (lookup_lt_is_Some_2 p j Hj) as [i Hi]. rewrite Hxs, lookup_app_l in Hx by (by rewrite map_length).
        change (map ?f p) with (f <$> p) in Hx. rewrite list_lookup_fmap, Hi in Hx. injection Hx as <-.
        destruct (inner_cell_shows j i Hi) as (q & Hq & ->). pose proof (inner i (elem_of_list_lookup_2 _ _ _ Hi)) as Hr.
        assert (Hpl : plans final [bp + q]%nat [tr i]) by (constructor; [|constructor]; exists (ptr h v jp jd (tr i)); split; [by apply final_trip|done]).
        unfold nv. destruct (Nat.leb_spec i n) as [Hle|Hle]; constructor; try done; try (by left); cbn [vi_place st_position vi_board vi_alight st_pickups st_deliveries].
        all: first [symmetry; apply orig_node; lia|symmetry; apply dest_node; lia|exact Hpl|apply Forall2_nil_2].
      + exists (cell v (v_destination_position v) (Some (before_stop h m))). split; [apply final_last|]. rewrite before_inner by lia.
        rewrite Hxs, lookup_app_r in Hx by (rewrite map_length, len_ps; lia). rewrite map_length, len_ps, Nat.sub_diag in Hx. injection Hx as <-.
        constructor; try done; try (by left); constructor.
    - intros i s c q Hi Hc Hq. apply stops_cases in Hi as [(-> & ->)|[(j & Hj & -> & ->)|(-> & ->)]].
      + rewrite final_first in Hc. injection Hc as <-. by inversion Hq.
      + rewrite final_inner in Hc by done. injection Hc as <-. rewrite len_ps in Hj. destruct (lookup_lt_is_Some_2 p j Hj) as [i Hi].
        destruct (inner_cell_shows j i Hi) as (q' & Hq' & E). rewrite E in Hq. cbn [st_pickups] in Hq. destruct (Nat.leb_spec i n) as [Hle|Hle]; [|by inversion Hq].
        apply elem_of_list_singleton in Hq as ->. pose proof (elem_of_list_lookup_2 _ _ _ Hi) as Hp. pose proof (inner i Hp) as Hr.
        destruct (pair_places i ltac:(lia) Hp) as (j0 & j' & Hj0 & Hj' & Hlt & Ejp & Ejd). pose proof (NoDup_lookup _ _ _ _ Hpd Hj0 Hi) as ->.
        destruct (inner_cell_shows j' _ Hj') as (q2 & Hq2 & E'). rewrite (proj2 (Nat.leb_gt _ _)) in E' by lia.
        rewrite tr_shift in Hq2 by lia. assert (Eq : q2 = q').
        { eapply NoDup_lookup; [|exact Hq2|exact Hq']. unfold T. apply NoDup_fmap_2_strong; [|apply ups_NoDup]. intros y z Hy Hz. apply ups_elem in Hy as [? ?], Hz as [? ?]. by apply tr_inj. }
        rewrite Eq in *. pose proof (lookup_lt_Some _ _ _ Hj') as Hl.
        exists (S j'), (b + 2 + j')%nat, (inner_cell j'). split; [lia|]. split; [apply stops_inner; rewrite len_ps; lia|]. split; [apply final_inner; rewrite len_ps; lia|].
        split; [rewrite E'; by left|]. exists (ptr h v jp jd (tr i)). split; [by apply final_trip|]. unfold ptr. cbn. by rewrite Ejp, Ejd.
      + rewrite final_last in Hc. injection Hc as <-. by inversion Hq.
    - intros i s c q Hi Hc Hq. apply stops_cases in Hi as [(-> & ->)|[(j & Hj & -> & ->)|(-> & ->)]].
      + rewrite final_first in Hc. injection Hc as <-. by inversion Hq.
      + rewrite final_inner in Hc by done. injection Hc as <-. rewrite len_ps in Hj. destruct (lookup_lt_is_Some_2 p j Hj) as [i Hi].
        destruct (inner_cell_shows j i Hi) as (q' & Hq' & E). rewrite E in Hq. cbn [st_deliveries] in Hq. destruct (Nat.leb_spec i n) as [Hle|Hle]; [by inversion Hq|].
        apply elem_of_list_singleton in Hq as ->. pose proof (elem_of_list_lookup_2 _ _ _ Hi) as Hp. pose proof (inner i Hp) as Hr.
        assert (Hp' : (i - n)%nat ∈ p) by (apply Hpair; [lia|]; by replace (i - n + n)%nat with i by lia).
        destruct (pair_places (i - n) ltac:(lia) Hp') as (j' & j0 & Hj' & Hj0 & Hlt & Ejp & Ejd). replace (i - n + n)%nat with i in Hj0 by lia.
        pose proof (NoDup_lookup _ _ _ _ Hpd Hj0 Hi) as ->. assert (Et : tr i = tr (i - n)) by (rewrite <- (tr_shift ts (i - n)) by lia; f_equal; lia).
        destruct (inner_cell_shows j' _ Hj') as (q2 & Hq2 & E'). rewrite (proj2 (Nat.leb_le _ _)) in E' by lia.
        rewrite <- Et in Hq2. assert (Eq : q2 = q').
        { eapply NoDup_lookup; [|exact Hq2|exact Hq']. unfold T. apply NoDup_fmap_2_strong; [|apply ups_NoDup]. intros y z Hy Hz. apply ups_elem in Hy as [? ?], Hz as [? ?]. by apply tr_inj. }
        rewrite Eq in *. pose proof (lookup_lt_Some _ _ _ Hj') as Hl.
        exists (S j'), (b + 2 + j')%nat, (inner_cell j'). split; [lia|]. split; [apply stops_inner; rewrite len_ps; lia|]. split; [apply final_inner; rewrite len_ps; lia|].
        split; [rewrite E'; by left|]. exists (ptr h v jp jd (tr i)). split; [by apply final_trip|]. unfold ptr. cbn. by rewrite Et, Ejp, Ejd.
      + rewrite final_last in Hc. injection Hc as <-. by inversion Hq.
  Qed.
  Lemma final_unasked : unasked final r (stops_at h m).
  Proof.
    assert (Hs : forall s c, s ∈ stops_at h m -> h_stops final !! s = Some c -> st_feasible c = None /\ forall q, q ∈ st_pickups c -> exists y t, q = (bp + y)%nat /\ T !! y = Some t).
    { intros s c Hs Hc. apply elem_of_list_lookup_1 in Hs as (i & Hi). apply stops_cases in Hi as [(-> & ->)|[(j & Hj & -> & ->)|(-> & ->)]].
      - rewrite final_first in Hc. injection Hc as <-. split; [done|]. intros q Hq. by inversion Hq.
      - rewrite final_inner in Hc by done. injection Hc as <-. rewrite len_ps in Hj. destruct (lookup_lt_is_Some_2 p j Hj) as [i Hi].
        destruct (inner_cell_shows j i Hi) as (q' & Hq' & ->). split; [done|]. cbn [st_pickups]. intros q Hq. destruct (i <=? n)%nat; [|by inversion Hq].
        apply elem_of_list_singleton in Hq as ->. by exists q', (tr i).
      - rewrite final_last in Hc. injection Hc as <-. split; [done|]. intros q Hq. by inversion Hq. }
    split; [|split].
    - intros c Hc. unfold final, H in Hc. cbn [h_routes] in Hc. rewrite lookup_app_r, Nat.sub_diag in Hc by lia. by injection Hc as <-.
    - intros s c Hin' Hc. by apply (Hs s c).
    - intros s c q pc Hin' Hc Hq Hpc. destruct (Hs s c Hin' Hc) as [_ Hq']. destruct (Hq' q Hq) as (y & t & -> & Ht). rewrite (final_trip y t Ht) in Hpc. by injection Hpc as <-.
  Qed.
End route.
