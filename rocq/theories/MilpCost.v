(** The objective of the three-index model. *)
From Coq Require Import Sorted Lqa.
From Verif Require Import SpecDarp MilpGraph MilpTheorems SchedProofs TourProofs MilpProofs MilpSound MilpComplete.

(** ** Weighted sums *)
Definition zsum_on {A} (c : A -> Z) (l : list A) : Z := sum_of (map c l).
Lemma zsum_on_perm {A} (c : A -> Z) l k : l ≡ₚ k -> zsum_on c l = zsum_on c k.
Proof. unfold zsum_on, sum_of. induction 1; cbn; lia. Qed.
Lemma zsum_on_app {A} (c : A -> Z) l k : zsum_on c (l ++ k) = zsum_on c l + zsum_on c k.
Proof. unfold zsum_on. by rewrite map_app, sum_of_app. Qed.
Lemma zsum_on_nonneg {A} (c : A -> Z) l : (forall y, 0 <= c y) -> 0 <= zsum_on c l.
Proof. intros H. unfold zsum_on, sum_of. induction l as [|y l IH]; cbn; [lia|]. specialize (H y). lia. Qed.
Lemma zsum_on_sub {A} (c : A -> Z) l k : (forall y, 0 <= c y) -> NoDup l -> (forall y, y ∈ l -> y ∈ k) -> zsum_on c l <= zsum_on c k.
Proof.
  intros Hc Hl H. assert (Hs : l ⊆+ k) by (by apply NoDup_submseteq). apply submseteq_Permutation in Hs as (r & Hr).
  rewrite (zsum_on_perm c _ _ Hr), zsum_on_app. pose proof (zsum_on_nonneg c r Hc). lia.
Qed.
Lemma qsum_weighted {A} (f : A -> Q) (c : A -> Z) l : (forall y, y ∈ l -> (f y == 0)%Q \/ (f y == 1)%Q) ->
  (qsum (map (fun y => f y * inject_Z (c y)) l) == inject_Z (zsum_on c (ones f l)))%Q.
Proof.
  induction l as [|y l IH]; intros H; [done|]. cbn [map qsum foldr ones List.filter].
  change (foldr Qplus 0%Q (map (fun y => f y * inject_Z (c y))%Q l)) with (qsum (map (fun y => f y * inject_Z (c y))%Q l)).
  rewrite IH by (intros z Hz; apply H; by right). fold (ones f l).
  destruct (H y) as [E|E]; [by left|..].
  - destruct (Qeq_bool (f y) 1) eqn:B; [apply Qeq_bool_iff in B; rewrite E in B; discriminate|]. rewrite E. ring.
  - rewrite (proj2 (Qeq_bool_iff _ _) E). rewrite E. unfold zsum_on, sum_of. cbn [map foldr]. rewrite inject_Z_plus. ring.
Qed.

(** ** Neighbours *)
Definition pairs (l : list nat) : list (nat * nat) := zip l (tail l).
Lemma pairs_cons i j l : pairs (i :: j :: l) = (i, j) :: pairs (j :: l).
Proof. done. Qed.
Lemma elem_of_pairs l i j : (i, j) ∈ pairs l <-> next_to l i j.
Proof.
  induction l as [|y [|z l] IH].
  - cbn. split; [by inversion 1|by intros ?%next_to_nil].
  - cbn. split; [by inversion 1|]. intros H%next_to_cons. destruct H as [[_ H]|H]; [done|by apply next_to_nil in H].
  - rewrite pairs_cons, elem_of_cons, IH, (next_to_cons (z :: l)). cbn. split; intros [H|H]; auto.
    + injection H as -> ->. by left.
    + destruct H as [-> [= ->]]. by left.
Qed.
Lemma pairs_NoDup l : NoDup l -> NoDup (pairs l).
Proof.
  induction l as [|y [|z l] IH]; intros H; [constructor|constructor|]. rewrite pairs_cons. apply NoDup_cons in H as [H1 H2].
  constructor; [|by apply IH]. intros Hin%elem_of_pairs. by apply next_to_elem in Hin as [Hin _].
Qed.

Lemma coordinates (f : Z -> Z -> Z) : (forall x y, 0 <= f x y) -> (forall x y, x <> y -> 0 < f x y) ->
  forall a b, length a = length b -> (0 <= zsum (zip_with f a b)) /\ (a <> b -> 0 < zsum (zip_with f a b)).
Proof.
  intros F0 F1. induction a as [|x a IH]; intros [|y b] Hl; try done. cbn in *. destruct (IH b ltac:(lia)) as [I0 I1].
  unfold zsum in *. pose proof (F0 x y). split; [lia|]. intros Hn. destruct (decide (x = y)) as [->|Hxy].
  - specialize (I1 ltac:(congruence)). lia.
  - specialize (F1 x y Hxy). lia.
Qed.
Lemma dist_pos `{W : World} a b : length a = length b -> a <> b -> 0 < dist a b.
Proof.
  intros Hl Hn. unfold dist, metric_distance. destruct w_metric.
  - unfold euclidean. apply Z.sqrt_pos. apply coordinates; [intros x y; apply Z.square_nonneg| |done|done].
    intros x y Hxy. pose proof (Z.square_nonneg (x - y)). assert ((x - y) * (x - y) <> 0) by (apply Z.neq_mul_0; lia). lia.
  - unfold manhattan. apply coordinates; [intros; lia|intros; lia|done|done].
Qed.

Section cost.
  Context {W : World} (v0 : nat) (vs' ts : list nat).
  Notation vs := (v0 :: vs').
  Notation n := (length ts).
  Notation N := (2 * length ts + 2)%nat.
  Notation L := (2 * length ts + 1)%nat.
  Context (a : assignment)
    (Hx : forall k i j, (k < length vs)%nat -> (i < N)%nat -> (j < N)%nat -> (as_x a k i j == 0)%Q \/ (as_x a k i j == 1)%Q).

  Lemma cost_toll i j : cost vs ts i j = toll (pos vs ts i) (pos vs ts j).
  Proof. unfold cost, toll, big. destruct (decide (pos vs ts i = pos vs ts j)); [by rewrite bool_decide_true|by rewrite bool_decide_false]. Qed.
  Lemma toll_nonneg p q : 0 <= toll p q.
  Proof. unfold toll. destruct (decide (p = q)); [unfold eb; lia|apply dist_nonneg]. Qed.

  (** the arcs in use *)
  Definition arcs : list (nat * (nat * nat)) :=
    ones (fun '(k, (i, j)) => as_x a k i j) (product2 (seq 0 (length vs)) (product2 (seq 0 N) (seq 0 N))).
  Definition arc_cost (e : nat * (nat * nat)) : Z := toll (pos vs ts e.2.1) (pos vs ts e.2.2).
  Lemma elem_of_arcs k i j : (k, (i, j)) ∈ arcs <-> uses vs ts a k i j.
  Proof.
    unfold arcs, uses. rewrite elem_of_ones, elem_of_product, elem_of_product, !elem_of_seq. split.
    - intros [? ?]. split; [lia|]. split; [lia|]. split; [lia|done].
    - intros (? & ? & ? & ?). split; [lia|done].
  Qed.
  Lemma product_NoDup {A B} (l : list A) (m : list B) : NoDup l -> NoDup m -> NoDup (product2 l m).
  Proof.
    intros Hl Hm. apply NoDup_flat; [done|..].
    - intros y _. apply NoDup_fmap; [by intros ?? [= ->]|done].
    - intros y z b _ _ Hy Hz. apply elem_of_list_fmap in Hy as (? & -> & _), Hz as (? & [= ->] & _). done.
  Qed.
  Lemma arcs_NoDup : NoDup arcs.
  Proof. apply ones_NoDup, product_NoDup; [apply NoDup_seq|]. apply product_NoDup; apply NoDup_seq. Qed.
  Lemma objective_arcs : (objective_value vs ts a == inject_Z (zsum_on arc_cost arcs))%Q.
  Proof.
    unfold objective_value, routes_indexer, positions_indexer. change (node_count ts) with N. unfold arcs.
    rewrite <- (qsum_weighted (fun '(k, (i, j)) => as_x a k i j) arc_cost).
    - assert (E : map (λ '(k, (i, j)), as_x a k i j * inject_Z (cost vs ts i j))%Q (product2 (seq 0 (length vs)) (product2 (seq 0 N) (seq 0 N))) =
                  map (λ y, (let '(k, (i, j)) := y in as_x a k i j) * inject_Z (arc_cost y))%Q (product2 (seq 0 (length vs)) (product2 (seq 0 N) (seq 0 N)))).
      { apply map_ext. intros [k [i j]]. unfold arc_cost. cbn [fst snd]. by rewrite cost_toll. }
      rewrite E. reflexivity.
    - intros [k [i j]]. rewrite elem_of_product, elem_of_product, !elem_of_seq. intros ?. apply Hx; lia.
  Qed.

  (** a solution with a modest objective makes no costly stay *)
  Lemma modest_takes_time : one_space vs ts -> modest vs ts a -> takes_time vs ts a.
  Proof.
    intros Hsp Hm k i j H H0 HL. left. destruct (decide (pos vs ts i = pos vs ts j)) as [E|E].
    - exfalso. unfold modest in Hm. rewrite objective_arcs, <- Zlt_Qlt in Hm.
      set (I := map (fun k => (k, (0%nat, L))) (List.filter (fun k => Qeq_bool (as_x a k 0%nat L) 1) (seq 0 (length vs)))).
      assert (EI : zsum_on arc_cost I = Z.of_nat (idle_count vs ts a) * toll (pos vs ts 0) (pos vs ts L)).
      { unfold I, idle_count. generalize (List.filter (fun k => Qeq_bool (as_x a k 0%nat L) 1) (seq 0 (length vs))). clear.
        induction l as [|y l IH]; [done|]. cbn [map length]. unfold zsum_on, sum_of in *. cbn [map foldr]. rewrite IH.
        unfold arc_cost. cbn [fst snd]. lia. }
      assert (Hs : zsum_on arc_cost ((k, (i, j)) :: I) <= zsum_on arc_cost arcs).
      { apply zsum_on_sub.
        - intros [? [? ?]]. apply toll_nonneg.
        - constructor.
          + unfold I. intros Hin. apply elem_of_list_fmap in Hin as (k' & [= -> -> ->] & _). specialize (H0 eq_refl). lia.
          + apply NoDup_fmap; [by intros ?? [= ->]|]. rewrite NoDup_ListNoDup. apply List.NoDup_filter. apply seq_NoDup.
        - intros e He. apply elem_of_cons in He as [->|He]; [by apply elem_of_arcs|]. unfold I in He.
          apply elem_of_list_fmap in He as (k' & -> & Hk'). apply elem_of_list_In, filter_In in Hk' as [Hk' Hq]. apply in_seq in Hk'.
          apply Qeq_bool_iff in Hq. apply elem_of_arcs. split; [lia|]. split; [lia|]. split; [lia|done]. }
      unfold zsum_on, sum_of in *. cbn [map foldr] in Hs. rewrite EI in Hs.
      unfold arc_cost at 1 in Hs. cbn [fst snd] in Hs. unfold toll at 1 in Hs. rewrite decide_True in Hs by done. lia.
    - destruct H as (_ & Hi & Hj & _). apply dist_pos; [by apply Hsp|done].
  Qed.

  (** the objective of a solution that follows tours *)
  Lemma way_pairs f l : way f (map (pos vs ts) l) = zsum_on (fun '(i, j) => f (pos vs ts i) (pos vs ts j)) (pairs l).
  Proof.
    induction l as [|i [|j l] IH]; [done|done|]. rewrite pairs_cons. unfold zsum_on, sum_of in *. cbn [map foldr way] in *. rewrite <- IH. done.
  Qed.
  Context (Hdep : one_depot vs) (tours : list (list visit)) (Hplan : plan vs ts tours)
    (Hfol : forall k v xs, vs !! k = Some v -> tours !! k = Some xs -> follows vs ts a k v xs).
  Lemma follow_paths : exists P, good v0 vs' ts tours P /\ forall k i j, uses vs ts a k i j <-> (k < length vs)%nat /\ next_to (nodes ts P k) i j.
  Proof.
    destruct (choose (fun k p => forall (v : nat) (xs : list visit), vs !! k = Some v -> tours !! k = Some xs ->
      (exists x0 mid xn, xs = x0 :: mid ++ [xn] /\ Forall2 (shows ts) p mid) /\
      (forall i j, uses vs ts a k i j <-> (k < length vs)%nat /\ next_to (0%nat :: p ++ [L]) i j)) [] (length vs)) as (P & HP).
    - intros k Hk. destruct (lookup_lt_is_Some_2 vs k Hk) as [v Hv]. destruct (plan_lookup v0 vs' ts tours Hplan k v Hv) as (xs & Hxs & _).
      destruct (Hfol k v xs Hv Hxs) as (p & x0 & mid & xn & E & Hp & Hu & _). exists p. intros v2 xs2 Hv2 Hxs2.
      rewrite Hxs in Hxs2. injection Hxs2 as <-. split; [by exists x0, mid, xn|done].
    - exists P. split.
      + intros k v xs Hv Hxs. destruct (HP k (lookup_lt_Some _ _ _ Hv) v xs Hv Hxs) as [(x0 & mid & xn & E & Hp) _].
        exists x0, mid, xn. split; [done|]. split; [done|].
        destruct (plan_lookup v0 vs' ts tours Hplan k v Hv) as (xs2 & Hxs2 & HT & _). rewrite Hxs in Hxs2. injection Hxs2 as <-.
        destruct HT as [(y0 & r & E0 & _ & H1 & H2 & H3) (f & yn & En & H4 & H5 & H6) _].
        rewrite E in E0. injection E0 as -> _. rewrite E, app_comm_cons in En. apply app_inj_tail in En as [_ ->]. done.
      + intros k i j. destruct (decide (k < length vs)%nat) as [Hk|Hk].
        * destruct (lookup_lt_is_Some_2 vs k Hk) as [v Hv]. destruct (plan_lookup v0 vs' ts tours Hplan k v Hv) as (xs & Hxs & _).
          destruct (HP k Hk v xs Hv Hxs) as [_ Hu]. apply Hu.
        * unfold uses. tauto.
  Qed.
  Lemma places_path P k : good v0 vs' ts tours P -> (k < length vs)%nat -> map vi_place (X tours k) = map (pos vs ts) (nodes ts P k).
  Proof.
    intros HP Hk. apply list_eq. intros m. change ((vi_place <$> X tours k) !! m = (pos vs ts <$> nodes ts P k) !! m). rewrite !list_lookup_fmap.
    destruct (nodes ts P k !! m) as [i|] eqn:Hm.
    - destruct (X_nodes v0 vs' ts tours Hplan P HP k m i Hk Hm) as (x & Hx' & C). rewrite Hx'. cbn [fmap option_fmap option_map]. f_equal.
      destruct C as [(-> & _ & Pl & _)|[(-> & _ & Pl & _)|[(t & H & E)|(t & H & E)]]].
      + destruct (depot_data v0 vs' ts 0%nat ltac:(by left)) as (_ & _ & _ & ->). rewrite Pl. cbn. apply Hdep; [by eapply V_elem|by left].
      + destruct (depot_data v0 vs' ts L ltac:(by right)) as (_ & _ & _ & ->). rewrite Pl. rewrite (proj2 (Nat.eqb_neq _ _)) by lia. apply Hdep; [by eapply V_elem|by left].
      + injection E as Pl _ _. by destruct (c48_pickup v0 vs' ts i t H) as (_ & -> & _).
      + injection E as Pl _ _. by destruct (c48_delivery v0 vs' ts i t H) as (_ & -> & _).
    - rewrite (lookup_ge_None_2 (X tours k)); [done|]. apply lookup_ge_None in Hm. by rewrite <- (Q_length v0 vs' ts tours Hplan P HP k Hk).
  Qed.
  Lemma objective_total : (objective_value vs ts a == inject_Z (fleet_way toll tours))%Q.
  Proof.
    rewrite objective_arcs. apply inject_eq. destruct follow_paths as (P & HP & Hu).
    assert (Ep : arcs ≡ₚ flat_map (fun k => map (fun e => (k, e)) (pairs (nodes ts P k))) (seq 0 (length vs))).
    { apply NoDup_Permutation; [apply arcs_NoDup|..].
      - apply NoDup_flat; [apply NoDup_seq|..].
        + intros k Hk. apply elem_of_seq in Hk. apply NoDup_fmap; [by intros ?? [= ->]|]. apply pairs_NoDup. eapply Q_NoDup; [exact Hplan|exact HP|lia].
        + intros y z b _ _ Hy Hz. apply elem_of_list_fmap in Hy as (? & -> & _), Hz as (? & [= ->] & _). done.
      - intros [k [i j]]. rewrite elem_of_arcs, Hu, elem_of_flat_map. split.
        + intros [Hk H]. exists k. split; [apply elem_of_seq; lia|]. apply elem_of_list_fmap. exists (i, j). split; [done|]. by apply elem_of_pairs.
        + intros (k' & Hk & H). apply elem_of_seq in Hk. apply elem_of_list_fmap in H as ([i' j'] & [= -> -> ->] & H). split; [lia|]. by apply elem_of_pairs. }
    rewrite (zsum_on_perm _ _ _ Ep). unfold fleet_way.
    assert (Et : tours = map (X tours) (seq 0 (length vs))).
    { apply list_eq. intros k. change (map (X tours) (seq 0 (length vs)) !! k) with ((X tours <$> seq 0 (length vs)) !! k). rewrite list_lookup_fmap.
      destruct (decide (k < length vs)%nat) as [Hk|Hk].
      - rewrite lookup_seq_lt by done. cbn. by apply (X_lookup v0 vs' ts tours Hplan).
      - rewrite lookup_seq_ge by lia. cbn. apply lookup_ge_None_2. rewrite (tours_length v0 vs' ts tours Hplan). lia. }
    rewrite Et at 1. rewrite map_map. assert (Hb : forall k, k ∈ seq 0 (length vs) -> (k < length vs)%nat) by (intros k Hk; apply elem_of_seq in Hk; lia).
    revert Hb. generalize (seq 0 (length vs)). induction l as [|k l IH]; intros Hb; [done|]. cbn [flat_map map]. rewrite zsum_on_app.
    rewrite IH by (intros; apply Hb; by right). change (sum_of (?x :: ?l)) with (x + sum_of l). f_equal.
    rewrite (places_path P k HP (Hb k ltac:(by left))), way_pairs. unfold zsum_on. rewrite map_map. f_equal. apply map_ext. by intros [i j].
  Qed.
End cost.
