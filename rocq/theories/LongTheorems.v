(** A passenger who stays on board while others come and go (C90). *)
From Verif Require Export DeepTheorems Witness.

Section long.
  #[local] Existing Instance town.
  Open Scope nat_scope.
  Definition lstop (prev : option nat) (q : position) (ps ds : list nat) : stop := MkStop 0 q ps ds prev None None None None None.
  Definition here : position := [1000%Z].
  Definition there_ : position := [2000%Z].
  (** depot, passenger 0 boards, passengers 1..k one after the other, passenger 0
      alights, depot *)
  Definition lcell (k i : nat) : stop :=
    match i with
    | 0 => lstop None (v_origin_position 0) [] []
    | 1 => lstop (Some 0) here [0] []
    | S j => if i =? 2 * k + 2 then lstop (Some j) there_ [] [0]
             else if i =? 2 * k + 3 then lstop (Some j) (v_destination_position 0) [] []
             else if Nat.even i then lstop (Some j) here [Nat.div2 i] [] else lstop (Some j) there_ [] [Nat.div2 i]
    end.
  Definition lpt (k p : nat) : ptrip :=
    MkPtrip 0 (3 + p) (Some (if p =? 0 then 1 else 2 * p)) (Some (if p =? 0 then 2 * k + 2 else 2 * p + 1)) None.
  Definition lheap (k : nat) : heap :=
    MkHeap (map (lcell k) (seq 0 (2 * k + 4))) (map (lpt k) (seq 0 (k + 1))) [MkRoute 0 (seq 0 (2 * k + 4)) None] 0.

  Lemma lheap_stop k i : i < 2 * k + 4 -> h_stops (lheap k) !! i = Some (lcell k i).
  Proof. intros H. cbn [lheap h_stops]. rewrite list_lookup_fmap, lookup_seq_lt by done. done. Qed.
  Lemma lheap_pt k p : p <= k -> h_pts (lheap k) !! p = Some (lpt k p).
  Proof. intros H. cbn [lheap h_pts]. rewrite list_lookup_fmap, lookup_seq_lt by lia. done. Qed.
  Lemma lcell_last k : lcell k (2 * k + 2) = lstop (Some (2 * k + 1)) there_ [] [0].
  Proof. replace (2 * k + 2) with (S (S (2 * k))) by lia. cbn [lcell]. rewrite (proj2 (Nat.eqb_eq _ _)) by lia. f_equal; f_equal; lia. Qed.
  Lemma lcell_depot k : lcell k (2 * k + 3) = lstop (Some (2 * k + 2)) (v_destination_position 0) [] [].
  Proof.
    replace (2 * k + 3) with (S (S (2 * k + 1))) by lia. cbn [lcell]. rewrite (proj2 (Nat.eqb_neq _ _)), (proj2 (Nat.eqb_eq _ _)) by lia.
    f_equal; f_equal; lia.
  Qed.
  Lemma lcell_board k j : 1 <= j <= k -> lcell k (2 * j) = lstop (Some (2 * j - 1)) here [j] [].
  Proof.
    intros H. pose proof (Nat.div2_double j) as D. assert (E : Nat.even (2 * j) = true) by (apply Nat.even_spec; by exists j).
    destruct (2 * j) as [|[|i]] eqn:Ei; [lia|lia|]. cbn [lcell]. rewrite (proj2 (Nat.eqb_neq _ _)), (proj2 (Nat.eqb_neq _ _)), E, D by lia.
    f_equal; f_equal; lia.
  Qed.
  Lemma lcell_alight k j : 1 <= j <= k -> lcell k (2 * j + 1) = lstop (Some (2 * j)) there_ [] [j].
  Proof.
    intros H. pose proof (Nat.div2_succ_double j) as D. rewrite <- Nat.add_1_r in D.
    assert (E : Nat.even (2 * j + 1) = false) by (rewrite <- Nat.negb_odd; apply negb_false_iff, Nat.odd_spec; by exists j).
    destruct (2 * j + 1) as [|[|i]] eqn:Ei; [lia|lia|]. cbn [lcell]. rewrite (proj2 (Nat.eqb_neq _ _)), (proj2 (Nat.eqb_neq _ _)), E, D by lia.
    f_equal; f_equal; lia.
  Qed.
  Lemma lcase k i : i < 2 * k + 4 -> i = 0 \/ i = 1 \/ i = 2 * k + 2 \/ i = 2 * k + 3 \/ (exists j, 1 <= j <= k /\ i = 2 * j) \/ exists j, 1 <= j <= k /\ i = 2 * j + 1.
  Proof.
    intros H. destruct (Nat.Even_or_Odd i) as [[j ->]|[j ->]].
    - destruct (decide (j = 0)); [left; lia|]. destruct (decide (j = k + 1)); [right; right; left; lia|]. do 4 right. left. exists j. lia.
    - destruct (decide (j = 0)); [right; left; lia|]. destruct (decide (j = k + 1)); [do 3 right; left; lia|]. do 5 right. exists j. lia.
  Qed.
  (** who boards and alights where *)
  Definition from (p : nat) : nat := if p =? 0 then 1 else 2 * p.
  Definition upto (k p : nat) : nat := if p =? 0 then 2 * k + 2 else 2 * p + 1.
  Lemma from_upto k p : p <= k -> from p < upto k p < 2 * k + 3.
  Proof. unfold from, upto. destruct (p =? 0); lia. Qed.
  Lemma lcell_from k p : p <= k -> st_pickups (lcell k (from p)) = [p] /\ st_deliveries (lcell k (from p)) = [] /\ st_position (lcell k (from p)) = here.
  Proof. unfold from. intros H. destruct (p =? 0) eqn:E; [apply Nat.eqb_eq in E as ->; done|]. apply Nat.eqb_neq in E. rewrite lcell_board by lia. done. Qed.
  Lemma lcell_upto k p : p <= k -> st_pickups (lcell k (upto k p)) = [] /\ st_deliveries (lcell k (upto k p)) = [p] /\ st_position (lcell k (upto k p)) = there_.
  Proof.
    unfold upto. intros H. destruct (p =? 0) eqn:E; [apply Nat.eqb_eq in E as ->; by rewrite lcell_last|].
    apply Nat.eqb_neq in E. rewrite lcell_alight by lia. done.
  Qed.
  Lemma lwho k i : i < 2 * k + 4 -> (st_pickups (lcell k i) = [] /\ st_deliveries (lcell k i) = []) \/ exists p, p <= k /\ (i = from p \/ i = upto k p).
  Proof.
    intros H. unfold from, upto. destruct (lcase k i H) as [->|[->|[->|[->|[(j & Hj & ->)|(j & Hj & ->)]]]]].
    - by left.
    - right. exists 0. split; [lia|by left].
    - right. exists 0. split; [lia|by right].
    - left. by rewrite lcell_depot.
    - right. exists j. split; [lia|]. left. rewrite (proj2 (Nat.eqb_neq _ _)) by lia. done.
    - right. exists j. split; [lia|]. right. rewrite (proj2 (Nat.eqb_neq _ _)) by lia. done.
  Qed.
  Lemma lprev k i : i < 2 * k + 4 -> st_previous (lcell k i) = match i with 0 => None | S j => Some j end.
  Proof.
    intros H. destruct i as [|[|i]]; [done|done|]. cbn [lcell]. destruct (_ =? _); [done|]. destruct (_ =? _); [done|]. by destruct (Nat.even _).
  Qed.
  Lemma lunread k i : st_vehicle (lcell k i) = 0 /\ st_arrival (lcell k i) = None /\ st_departure (lcell k i) = None /\ st_capacity (lcell k i) = None.
  Proof. destruct i as [|[|i]]; [done|done|]. cbn [lcell]. destruct (_ =? _); [done|]. destruct (_ =? _); [done|]. by destruct (Nat.even _). Qed.

  Definition lvisits (k : nat) : list visit := map (fun i => abs (lheap k) (lcell k i)) (seq 0 (2 * k + 4)).
  Lemma lknown k i : i < 2 * k + 4 -> known (lheap k) (lcell k i).
  Proof.
    intros H p Hp. destruct (lwho k i H) as [[E1 E2]|(q & Hq & [->| ->])].
    - rewrite E1, E2 in Hp. by apply elem_of_nil in Hp.
    - destruct (lcell_from k q Hq) as (E1 & E2 & _). rewrite E1, E2 in Hp. apply elem_of_list_singleton in Hp as ->. rewrite lheap_pt by done. done.
    - destruct (lcell_upto k q Hq) as (E1 & E2 & _). rewrite E1, E2 in Hp. apply elem_of_list_singleton in Hp as ->. rewrite lheap_pt by done. done.
  Qed.
  Lemma lpath k n : n <= 2 * k + 4 -> Path (lheap k) 0 (reverse (seq 0 n)) (reverse (map (fun i => abs (lheap k) (lcell k i)) (seq 0 n))).
  Proof.
    induction n as [|n IH]; intros H; [constructor|]. rewrite seq_S, map_app, !reverse_app. cbn [map Nat.add]. rewrite !reverse_singleton. cbn [app].
    destruct (lunread k n) as (Ev & E1 & E2 & E3). apply Path_cons.
    - apply lheap_stop. lia.
    - done.
    - rewrite lprev by lia. destruct n as [|j]; [done|]. by rewrite seq_S, reverse_app.
    - apply lknown. lia.
    - unfold caches_ok. by rewrite E1, E2, E3.
    - apply IH. lia.
  Qed.
  Lemma two_of_seq i j n : i < j < n -> [i; j] `sublist_of` seq 0 n.
  Proof. intros H. apply sublist2. exists i, j. rewrite !lookup_seq_lt by lia. split; [lia|done]. Qed.
  Lemma llinks k : Links (lheap k) 0 (seq 0 (2 * k + 4)).
  Proof.
    intros s c Hs Hc. apply elem_of_seq in Hs. rewrite lheap_stop in Hc by lia. injection Hc as <-.
    assert (L : forall p, p <= k -> h_pts (lheap k) !! p = Some (lpt k p) /\ h_stops (lheap k) !! from p = Some (lcell k (from p)) /\ h_stops (lheap k) !! upto k p = Some (lcell k (upto k p)) /\
      [from p; upto k p] `sublist_of` seq 0 (2 * k + 4)).
    { intros p Hp. pose proof (from_upto k p Hp). split; [by apply lheap_pt|]. split; [apply lheap_stop; lia|]. split; [apply lheap_stop; lia|]. apply two_of_seq. lia. }
    destruct (lwho k s) as [[E1 E2]|(q & Hq & Es)]; [lia| |].
    { rewrite E1, E2. split; intros p Hp; by apply elem_of_nil in Hp. }
    destruct (L q Hq) as (Hpt & Hf & Hu & Hsub). destruct (lcell_from k q Hq) as (F1 & F2 & _). destruct (lcell_upto k q Hq) as (U1 & U2 & _).
    destruct Es as [->| ->].
    - rewrite F1, F2. split; [|intros p Hp; by apply elem_of_nil in Hp]. intros p ->%elem_of_list_singleton.
      exists (upto k q), (lcell k (upto k q)), (lpt k q). rewrite U2. split; [done|]. split; [done|]. split; [left|]. done.
    - rewrite U1, U2. split; [intros p Hp; by apply elem_of_nil in Hp|]. intros p ->%elem_of_list_singleton.
      exists (from q), (lcell k (from q)), (lpt k q). rewrite F1. split; [done|]. split; [done|]. split; [left|]. done.
  Qed.
  Lemma lseq k : seq 0 (2 * k + 4) = 0 :: 1 :: seq 2 (2 * k) ++ [2 * k + 2; 2 * k + 3].
  Proof.
    replace (2 * k + 4) with (2 + (2 * k + 2)) by lia. rewrite seq_app. cbn [seq app Nat.add]. f_equal. f_equal. rewrite seq_app. f_equal.
    cbn [seq]. repeat (f_equal; try lia).
  Qed.
  Lemma flat_pairs {B} (f : nat -> list B) g k : (forall j, 1 <= j <= k -> f (2 * j) ++ f (2 * j + 1) = g j) ->
    flat_map f (seq 2 (2 * k)) = flat_map g (seq 1 k).
  Proof.
    induction k as [|k IH]; intros H; [done|]. replace (2 * S k) with (2 * k + 2) by lia. rewrite seq_app, (seq_S k 1), !flat_map_app.
    rewrite IH by (intros; apply H; lia). f_equal. cbn -[Nat.mul Nat.add].  rewrite !app_nil_r. rewrite <- H by lia.
    replace (S (2 + 2 * k)) with (2 * (1 + k) + 1) by lia. replace (2 + 2 * k) with (2 * (1 + k)) by lia. done.
  Qed.
  Lemma ltrip k p : p <= k -> trip_of (lheap k) p = 3 + p.
  Proof. intros H. unfold trip_of. by rewrite lheap_pt. Qed.
  Lemma flat_map_single {A B} (f : A -> B) l : flat_map (fun x => [f x]) l = map f l.
  Proof. induction l; cbn; congruence. Qed.
  Lemma lboards k : boards (lvisits k) = map (fun p => 3 + p) (seq 0 (k + 1)).
  Proof.
    unfold boards, lvisits. rewrite flat_map_concat_map, map_map, <- flat_map_concat_map. cbn [abs vi_board]. rewrite lseq. cbn [flat_map].
    rewrite flat_map_app. cbn [flat_map]. rewrite lcell_last, lcell_depot. cbn [lcell lstop st_pickups map app].
    rewrite (flat_pairs _ (fun j => [3 + j])), flat_map_single, ltrip, app_nil_r by (try lia; intros j Hj; rewrite lcell_board, lcell_alight by lia; cbn [lstop st_pickups map app]; rewrite ltrip by lia; done).
    by rewrite Nat.add_1_r.
  Qed.
  Lemma lalights k : alights (lvisits k) = map (fun p => 3 + p) (seq 1 k) ++ [3].
  Proof.
    unfold alights, lvisits. rewrite flat_map_concat_map, map_map, <- flat_map_concat_map. cbn [abs vi_alight]. rewrite lseq. cbn [flat_map].
    rewrite flat_map_app. cbn [flat_map]. rewrite lcell_last, lcell_depot. cbn [lcell lstop st_deliveries map app].
    rewrite (flat_pairs _ (fun j => [3 + j])), flat_map_single, ltrip by (try lia; intros j Hj; rewrite lcell_board, lcell_alight by lia; cbn [lstop st_deliveries map app]; rewrite ltrip by lia; done).
    done.
  Qed.
  Lemma lrides k : rides (lvisits k).
  Proof.
    split.
    - rewrite lboards. apply NoDup_fmap_2; [intros a b E; lia|apply NoDup_seq].
    - rewrite lboards, lalights, Nat.add_1_r. cbn [seq map Nat.add]. symmetry. apply Permutation_cons_append.
    - intros t Ht. rewrite lboards in Ht. apply elem_of_list_fmap in Ht as (p & -> & Hp). apply elem_of_seq in Hp.
      exists (abs (lheap k) (lcell k (from p))), (abs (lheap k) (lcell k (upto k p))).
      destruct (lcell_from k p) as (F1 & _); [lia|]. destruct (lcell_upto k p) as (_ & U2 & _); [lia|]. pose proof (from_upto k p ltac:(lia)).
      split; [exact (map_sublist (fun i => abs (lheap k) (lcell k i)) _ _ (two_of_seq (from p) (upto k p) (2 * k + 4) ltac:(lia)))|].
      cbn [abs vi_board vi_alight]. rewrite F1, U2. cbn [map]. rewrite ltrip by lia. split; left.
    - intros x Hx. apply elem_of_list_fmap in Hx as (i & -> & Hi). apply elem_of_seq in Hi. cbn [abs vi_board vi_alight vi_place].
      destruct (lwho k i) as [[E1 E2]|(q & Hq & [->| ->])]; [lia| | |].
      + rewrite E1, E2. split; intros t Ht; by apply elem_of_nil in Ht.
      + destruct (lcell_from k q Hq) as (E1 & E2 & ->). rewrite E1, E2. cbn [map]. rewrite ltrip by done.
        split; intros t Ht; [|by apply elem_of_nil in Ht]. by apply elem_of_list_singleton in Ht as ->.
      + destruct (lcell_upto k q Hq) as (E1 & E2 & ->). rewrite E1, E2. cbn [map]. rewrite ltrip by done.
        split; intros t Ht; [by apply elem_of_nil in Ht|]. by apply elem_of_list_singleton in Ht as ->.
  Qed.
  Lemma lon_tour k : on_tour (lheap k) 0 0 (seq 0 (2 * k + 4)) (lvisits k).
  Proof.
    split.
    - apply well_formed_RouteW. split; [by eexists|by apply lpath|apply lrides|apply llinks].
    - split; [| |apply lrides]; unfold lvisits; rewrite lseq; cbn [map].
      + eexists _, _. split; [done|]. done.
      + rewrite map_app. cbn [map]. rewrite lcell_depot.
        exists (abs (lheap k) (lcell k 0) :: abs (lheap k) (lcell k 1) :: map (fun i => abs (lheap k) (lcell k i)) (seq 2 (2 * k)) ++ [abs (lheap k) (lcell k (2 * k + 2))]), (abs (lheap k) (lstop (Some (2 * k + 2)) (v_destination_position 0) [] [])).
        split; [|done]. cbn [app]. by rewrite <- app_assoc.
  Qed.

  Lemma ltrail k j : j <= k -> forall seen, (forall x, x ∈ seen -> match x with AtStop i => i <= 1 \/ 2 * j + 1 < i | AtPlanned p => p = 0 \/ j < p end) -> AtStop 1 ∈ seen -> 1 <= j ->
    exists l, trail (lheap k) seen (AtStop (2 * j + 1)) l /\ length l = 3 * j.
  Proof.
    induction j as [|j IH]; intros Hj seen Hs H1 Hp; [lia|].
    assert (N1 : AtStop (2 * S j + 1) ∉ seen) by (intros Hin; specialize (Hs _ Hin); cbn in Hs; lia).
    assert (N2 : AtPlanned (S j) ∉ AtStop (2 * S j + 1) :: seen) by (intros [?|Hin]%elem_of_cons; [done|]; specialize (Hs _ Hin); cbn in Hs; lia).
    assert (N3 : AtStop (2 * S j) ∉ AtPlanned (S j) :: AtStop (2 * S j + 1) :: seen).
    { intros [?|[[= ?]|Hin]%elem_of_cons]%elem_of_cons; [done|lia|]. specialize (Hs _ Hin). cbn in Hs. lia. }
    assert (R1 : refers (lheap k) (AtStop (2 * S j + 1)) ([] ++ AtPlanned (S j) :: [AtStop (2 * S j)])).
    { exists (lcell k (2 * S j + 1)). split; [apply lheap_stop; lia|]. rewrite lcell_alight by lia. done. }
    assert (R2 : refers (lheap k) (AtPlanned (S j)) ([] ++ AtStop (2 * S j) :: [AtStop (2 * S j + 1)])).
    { exists (lpt k (S j)). split; [by apply lheap_pt|]. done. }
    assert (R3 : refers (lheap k) (AtStop (2 * S j)) ([AtPlanned (S j)] ++ AtStop (2 * j + 1) :: [])).
    { exists (lcell k (2 * S j)). split; [apply lheap_stop; lia|]. rewrite lcell_board by lia. cbn [lstop st_pickups st_deliveries st_previous map app].
      replace (2 * S j - 1) with (2 * j + 1) by lia. done. }
    destruct (decide (j = 0)) as [->|Nj].
    - eexists. split.
      + eapply trail_on; [exact N1|exact R1|by intros z ?%elem_of_nil|]. eapply trail_on; [exact N2|exact R2|by intros z ?%elem_of_nil|].
        eapply trail_end; [exact N3|exact R3].
      + done.
    - destruct (IH ltac:(lia) (AtStop (2 * S j) :: AtPlanned (S j) :: AtStop (2 * S j + 1) :: seen)) as (l & T & Hl).
      { intros x [->|[->|[->|Hin]%elem_of_cons]%elem_of_cons]%elem_of_cons; [lia|lia|lia|]. specialize (Hs _ Hin). destruct x; lia. }
      { by do 3 right. } { lia. }
      eexists. split.
      + eapply trail_on; [exact N1|exact R1|by intros z ?%elem_of_nil|]. eapply trail_on; [exact N2|exact R2|by intros z ?%elem_of_nil|].
        eapply trail_on; [exact N3|exact R3|intros z ->%elem_of_list_singleton; right; left|exact T].
      + cbn [length]. lia.
  Qed.
  Lemma long_fails n : exists h r v ids xs, on_tour h r v ids xs /\ fst (deepcopy_within n [r] h) = Raise RecursionError.
  Proof.
    pose (k := S n). exists (lheap k), 0, 0, (seq 0 (2 * k + 4)), (lvisits k). split; [apply lon_tour|].
    destruct (ltrail k k ltac:(lia) [AtStop (2 * k + 2); AtPlanned 0; AtStop 1; AtStop 0]) as (l & T & Hl).
    { intros x [->|[->|[->|[->|?%elem_of_nil]%elem_of_cons]%elem_of_cons]%elem_of_cons]%elem_of_cons; [lia|lia|lia|lia|done]. }
    { right. right. left. } { lia. }
    eapply (deep_deep n (lheap k) 0 [] _ 0 1 _ (AtStop 1 :: AtPlanned 0 :: AtStop (2 * k + 2) :: l)); [done| | | |cbn [length]; lia].
    - cbn [rt_stops]. rewrite lseq. done.
    - exists (lcell k 0). split; [apply lheap_stop; lia|done].
    - eapply (trail_on _ _ _ [] (AtPlanned 0) [AtStop 0]); [|exists (lcell k 1); split; [apply lheap_stop; lia|done]|by intros z ?%elem_of_nil|].
      { by intros ?%elem_of_list_singleton. }
      eapply (trail_on _ _ _ [AtStop 1] (AtStop (2 * k + 2)) []); [|exists (lpt k 0); split; [apply lheap_pt; lia|done]|intros z ->%elem_of_list_singleton; right; left|].
      { intros [?|?%elem_of_list_singleton]%elem_of_cons; done. }
      eapply (trail_on _ _ _ [AtPlanned 0] (AtStop (2 * k + 1)) []); [|exists (lcell k (2 * k + 2)); split; [apply lheap_stop; lia|by rewrite lcell_last]|intros z ->%elem_of_list_singleton; right; left|exact T].
      rewrite !elem_of_cons, elem_of_nil. intros [?|[[= ?]|[[= ?]|[]]]]; [done|lia].
  Qed.
End long.

Lemma c90_no_limit : forall n,
  exists (W : World) h r v ids xs, on_tour h r v ids xs /\ fst (deepcopy_within n [r] h) = Raise RecursionError.
Proof. intros n. exists town. exact (long_fails n). Qed.
