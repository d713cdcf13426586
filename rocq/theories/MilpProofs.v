(** The constraints of the three-index model as plain statements. *)
From Coq Require Import Sorted Lqa.
From Verif Require Import SpecDarp MilpGraph MilpTheorems SchedProofs TourProofs.

(** ** Sums of zeros and ones *)
Definition ones {A} (f : A -> Q) (l : list A) : list A := List.filter (fun y => Qeq_bool (f y) 1) l.
Lemma qsum_ones {A} (f : A -> Q) l : (forall y, y ∈ l -> (f y == 0)%Q \/ (f y == 1)%Q) ->
  (qsum (map f l) == inject_Z (Z.of_nat (length (ones f l))))%Q.
Proof.
  induction l as [|y l IH]; intros H; [done|]. cbn [map qsum foldr ones List.filter].
  change (foldr Qplus 0%Q (map f l)) with (qsum (map f l)).
  rewrite IH by (intros z Hz; apply H; by right). fold (ones f l).
  destruct (H y) as [E|E]; [by left|..].
  - destruct (Qeq_bool (f y) 1) eqn:B; [apply Qeq_bool_iff in B; rewrite E in B; discriminate|]. rewrite E. lra.
  - rewrite (proj2 (Qeq_bool_iff _ _) E). cbn [length]. rewrite E, Nat2Z.inj_succ.
    unfold Z.succ. rewrite inject_Z_plus. change (inject_Z 1) with 1%Q. lra.
Qed.
Lemma inject_eq x y : (inject_Z x == inject_Z y)%Q <-> x = y.
Proof. apply inject_Z_injective. Qed.
Lemma elem_of_ones {A} (f : A -> Q) l y : y ∈ ones f l <-> y ∈ l /\ (f y == 1)%Q.
Proof. unfold ones. rewrite !elem_of_list_In, filter_In, Qeq_bool_iff. done. Qed.
Lemma ones_NoDup {A} (f : A -> Q) l : NoDup l -> NoDup (ones f l).
Proof. rewrite !NoDup_ListNoDup. apply List.NoDup_filter. Qed.
Lemma length_one {A} (l : list A) : length l = 1%nat -> exists y, l = [y].
Proof. destruct l as [|y [|]]; try discriminate. by exists y. Qed.

(** ** Lists of constraints *)
Definition holds (m : res (list bool)) : Prop := exists l, m = Ok l /\ forallb id l = true.
Lemma holds_concat {A} (f : A -> res (list bool)) l : holds (rconcat (rmap f l)) <-> forall y, y ∈ l -> holds (f y).
Proof.
  induction l as [|y l IH].
  - split; [intros _ y Hy; by inversion Hy|]. intros _. exists []. done.
  - split.
    + intros (c & E & H). cbn in E. destruct (f y) as [b|] eqn:F; [|discriminate]. cbn in E.
      destruct (rmap f l) as [bs|] eqn:R; [|discriminate]. cbn in E. injection E as <-. cbn in H.
      rewrite forallb_app, andb_true_iff in H. destruct H as [H1 H2].
      intros z Hz. apply elem_of_cons in Hz as [->|Hz]; [by exists b|].
      apply IH; [|done]. by exists (concat bs).
    + intros H. destruct (H y) as (b & F & Hb); [by left|]. destruct (proj2 IH) as (c & E & Hc); [intros z Hz; apply H; by right|].
      unfold rconcat in *. cbn. rewrite F. cbn. destruct (rmap f l) as [bs|] eqn:R; [|discriminate]. cbn in *. injection E as <-.
      exists (b ++ concat bs). split; [done|]. by rewrite forallb_app, Hb, Hc.
Qed.
Lemma forallb_flat {A} (f : A -> list bool) l : forallb id (flat_map f l) = true <-> forall y, y ∈ l -> forallb id (f y) = true.
Proof.
  induction l as [|y l IH]; cbn.
  - split; [intros _ z Hz; by inversion Hz|done].
  - rewrite forallb_app, andb_true_iff, IH. split.
    + intros [H1 H2] z Hz. apply elem_of_cons in Hz as [->|Hz]; auto.
    + intros H. split; [apply H; by left|]. intros z Hz. apply H. by right.
Qed.
Lemma forallb_map {A} (f : A -> bool) l : forallb id (map f l) = true <-> forall y, y ∈ l -> f y = true.
Proof.
  induction l as [|y l IH]; cbn.
  - split; [intros _ z Hz; by inversion Hz|done].
  - rewrite andb_true_iff, IH. split.
    + intros [H1 H2] z Hz. apply elem_of_cons in Hz as [->|Hz]; auto.
    + intros H. split; [apply H; by left|]. intros z Hz. apply H. by right.
Qed.
Lemma elem_of_product {A B} (l : list A) (m : list B) a b : (a, b) ∈ product2 l m <-> a ∈ l /\ b ∈ m.
Proof.
  unfold product2. rewrite elem_of_flat_map. split.
  - intros (a' & Ha & Hb). apply elem_of_list_fmap in Hb as (b' & [= -> ->] & Hb). done.
  - intros [Ha Hb]. exists a. split; [done|]. apply elem_of_list_fmap. by exists b.
Qed.
Lemma lim_ge_below x l : lim_ge x l = true <-> below x l.
Proof. destruct l; cbn; [lia|done]. Qed.
Lemma rbind_ok {A B} (m : res A) (k : A -> res B) b : rbind m k = Ok b <-> exists a, m = Ok a /\ k a = Ok b.
Proof. destruct m; cbn; [|split; [discriminate|by intros (? & ? & ?)]]. split; [eauto|]. by intros (? & [= ->] & ?). Qed.

Lemma Ok_inj {A} (a b : A) : Ok a = Ok b -> a = b.
Proof. by intros [= ->]. Qed.

(** ** Node data, as total functions *)
Section data.
  Context {W : World} (v0 : nat) (vs' ts : list nat).
  Notation vs := (v0 :: vs').
  Notation n := (length ts).
  Notation N := (2 * length ts + 2)%nat.
  Notation L := (2 * length ts + 1)%nat.

  Definition val {A} (d : A) (m : res A) : A := match m with Ok a => a | Raise _ => d end.
  Definition nload i := val 0 (load_time_by_position_idx ts i).
  Definition nwin i := val (0, Inf) (time_window_by_position_idx vs ts i).
  Definition ncap i := val 0 (capacity_by_position_idx ts i).
  Definition nout i := val Inf (timeout_by_position_idx ts i).
  Definition nlat i := match (nwin i).2 with Lim z => z | Inf => 0 end.
  Definition vcap k := match v_capacity (nth k vs 0%nat) with Lim z => z | Inf => 0 end.

  Lemma pickup_at i : (1 <= i <= n)%nat -> exists t, ts !! (i - 1)%nat = Some t /\ pickup_node ts i t.
  Proof.
    intros Hi. destruct (lookup_lt_is_Some_2 ts (i - 1)) as [t Ht]; [lia|]. exists t. split; [done|].
    exists (i - 1)%nat. split; [done|lia].
  Qed.
  Lemma delivery_at i : (1 <= i <= n)%nat -> exists t, ts !! (i - 1)%nat = Some t /\ delivery_node ts (n + i) t.
  Proof.
    intros Hi. destruct (lookup_lt_is_Some_2 ts (i - 1)) as [t Ht]; [lia|]. exists t. split; [done|].
    exists (i - 1)%nat. split; [done|lia].
  Qed.
  Lemma pickup_data i t : pickup_node ts i t ->
    nload i = origin_duration (w_trip t) /\ nwin i = (origin_earliest (w_trip t), origin_latest (w_trip t)) /\
    ncap i = tr_capacity (w_trip t) /\ nout i = tr_timeout (w_trip t) /\ pos vs ts i = origin_position (w_trip t).
  Proof.
    intros H. destruct (c48_pickup v0 vs' ts i t H) as (_ & P & C & D & T & Wn).
    unfold nload, nwin, ncap, nout. by rewrite P, C, D, T, Wn.
  Qed.
  Lemma delivery_data i t : delivery_node ts i t -> origin_position (w_trip t) <> destination_position (w_trip t) ->
    nload i = origin_duration (w_trip t) /\ nwin i = (destination_earliest (w_trip t), destination_latest (w_trip t)) /\
    ncap i = - tr_capacity (w_trip t) /\ pos vs ts i = destination_position (w_trip t).
  Proof.
    intros H Hne. destruct (c48_delivery v0 vs' ts i t H) as (_ & P & C & _).
    unfold nload, nwin, ncap. rewrite P, C, (c48_duration ts i t H), (c48_delivery_window v0 vs' ts i t H Hne). done.
  Qed.
  Lemma depot_data i : depot_node ts i ->
    nload i = 0 /\ nwin i = (0, Lim day) /\ ncap i = 0 /\
    pos vs ts i = if (i =? 0)%nat then v_origin_position v0 else v_destination_position v0.
  Proof.
    intros H. destruct (c48_depot v0 vs' ts i H) as (_ & C & D & Wn & P).
    unfold nload, nwin, ncap. by rewrite P, C, D, Wn.
  Qed.
  Lemma node_ok i : (i < N)%nat ->
    load_time_by_position_idx ts i = Ok (nload i) /\ time_window_by_position_idx vs ts i = Ok (nwin i) /\
    capacity_by_position_idx ts i = Ok (ncap i).
  Proof.
    intros Hi. unfold nload, nwin, ncap. destruct (c48_nodes ts i) as [H|[(t & H)|(t & H)]]; [done|..].
    - destruct (c48_depot v0 vs' ts i H) as (_ & C & D & Wn & P). by rewrite C, D, Wn.
    - destruct (c48_pickup v0 vs' ts i t H) as (_ & P & C & D & T & Wn). by rewrite C, D, Wn.
    - destruct (c48_delivery v0 vs' ts i t H) as (_ & P & C & _). rewrite C, (c48_duration ts i t H).
      destruct (decide (origin_position (w_trip t) = destination_position (w_trip t))) as [E|E].
      + by rewrite (c48_naive v0 vs' ts i t H E).
      + by rewrite (c48_delivery_window v0 vs' ts i t H E).
  Qed.
  Lemma timeout_ok i : (1 <= i <= n)%nat -> timeout_by_position_idx ts i = Ok (nout i).
  Proof.
    intros Hi. destruct (pickup_at i Hi) as (t & _ & H). unfold nout.
    destruct (c48_pickup v0 vs' ts i t H) as (_ & P & C & D & T & Wn). by rewrite T.
  Qed.

  (** the constraints that do not depend on the solver's treatment of infinities *)
  Record system (a : assignment) : Prop := {
    sy_x : forall k i j, (k < length vs)%nat -> (i < N)%nat -> (j < N)%nat -> (as_x a k i j == 0)%Q \/ (as_x a k i j == 1)%Q;
    sy_u0 : forall k i, (k < length vs)%nat -> (i < N)%nat -> 0 <= as_u a k i;
    sy_w0 : forall k i, (k < length vs)%nat -> (i < N)%nat -> 0 <= as_w a k i;
    sy_once : forall i, (1 <= i <= n)%nat ->
      length (ones (fun '(j, k) => as_x a k i j) (product2 (seq 0 N) (seq 0 (length vs)))) = 1%nat;
    sy_pair : forall k i, (k < length vs)%nat -> (1 <= i <= n)%nat ->
      length (ones (fun j => as_x a k i j) (seq 0 N)) = length (ones (fun j => as_x a k (n + i)%nat j) (seq 0 N));
    sy_first : forall k, (k < length vs)%nat -> length (ones (fun j => as_x a k 0%nat j) (seq 0 N)) = 1%nat;
    sy_flow : forall k i, (k < length vs)%nat -> (1 <= i <= 2 * n)%nat ->
      length (ones (fun j => as_x a k j i) (seq 0 N)) = length (ones (fun j => as_x a k i j) (seq 0 N));
    sy_last : forall k, (k < length vs)%nat -> length (ones (fun i => as_x a k i L) (seq 0 N)) = 1%nat;
    sy_time : forall k i j, (k < length vs)%nat -> (i < N)%nat -> (j < N)%nat ->
      (as_x a k i j == 1)%Q -> as_u a k i + nload i + dist (pos vs ts i) (pos vs ts j) <= as_u a k j;
    sy_time' : forall k i j, (k < length vs)%nat -> (i < N)%nat -> (j < N)%nat ->
      (as_x a k i j == 0)%Q -> as_u a k i + nload i + dist (pos vs ts i) (pos vs ts j)
        - Z.max 0 (nlat i + nload i + dist (pos vs ts i) (pos vs ts j) - (nwin j).1) <= as_u a k j;
    sy_load : forall k i j, (k < length vs)%nat -> (i < N)%nat -> (j < N)%nat ->
      (as_x a k i j == 1)%Q -> as_w a k i + ncap j <= as_w a k j;
    sy_load' : forall k i j, (k < length vs)%nat -> (i < N)%nat -> (j < N)%nat ->
      (as_x a k i j == 0)%Q -> as_w a k i + ncap j - (vcap k + Z.min 0 (ncap i)) <= as_w a k j;
    sy_shift : forall k, (k < length vs)%nat -> below (as_u a k L - as_u a k 0%nat) (v_timeout (nth k vs 0%nat));
    sy_window : forall k i, (k < length vs)%nat -> (i < N)%nat -> (nwin i).1 <= as_u a k i /\ below (as_u a k i) (nwin i).2;
    sy_ride : forall k i, (k < length vs)%nat -> (1 <= i <= n)%nat ->
      dist (pos vs ts i) (pos vs ts (i + n)) <= as_u a k (i + n)%nat - (as_u a k i + nload i) /\
      below (as_u a k (i + n)%nat - (as_u a k i + nload i)) (nout i);
    sy_room : forall k i, (k < length vs)%nat -> (i < N)%nat ->
      Z.max 0 (ncap i) <= as_w a k i /\ below (as_w a k i) (lim_add (v_capacity (nth k vs 0%nat)) (Z.min 0 (ncap i)))
  }.

  Context (odd : nat -> nat -> nat -> bool) (F : finite vs ts) (Mv : moving ts).

  Lemma finite_window i : (i < N)%nat -> (nwin i).2 = Lim (nlat i).
  Proof.
    intros Hi. unfold nlat. destruct F as [_ Ft]. destruct (c48_nodes ts i) as [H|[(t & H)|(t & H)]]; [done|..].
    - destruct (depot_data i H) as (_ & -> & _). done.
    - destruct (pickup_data i t H) as (_ & -> & _). cbn. destruct H as (k & Hk & _). apply elem_of_list_lookup_2 in Hk.
      destruct (Ft t Hk) as [Ho _]. by destruct (origin_latest (w_trip t)).
    - assert (Ht : t ∈ ts) by (destruct H as (k & Hk & _); by eapply elem_of_list_lookup_2).
      destruct (delivery_data i t H (Mv t Ht)) as (_ & -> & _). cbn.
      destruct (Ft t Ht) as [_ Ho]. by destruct (destination_latest (w_trip t)).
  Qed.
  Lemma finite_capacity k : (k < length vs)%nat -> v_capacity (nth k vs 0%nat) = Lim (vcap k).
  Proof.
    intros Hk. unfold vcap. destruct F as [Fv _]. specialize (Fv (nth k vs 0%nat)).
    destruct (v_capacity (nth k vs 0%nat)); [done|]. destruct Fv; [|done].
    apply elem_of_list_In, nth_In. done.
  Qed.
  Lemma conditional_on b z lhs c (x : Q) : (x == 1)%Q -> conditional b z lhs (Lim c) x = true <-> lhs <= z.
  Proof.
    intros E. cbn. rewrite Qle_bool_iff. rewrite E. setoid_replace (inject_Z lhs - inject_Z c * (1 - 1))%Q with (inject_Z lhs) by ring.
    by rewrite <- Zle_Qle.
  Qed.
  Lemma conditional_off b z lhs c (x : Q) : (x == 0)%Q -> conditional b z lhs (Lim c) x = true <-> lhs - c <= z.
  Proof.
    intros E. cbn. rewrite Qle_bool_iff. rewrite E. setoid_replace (inject_Z lhs - inject_Z c * (1 - 0))%Q with (inject_Z (lhs - c)).
    - by rewrite <- Zle_Qle.
    - unfold Zminus. rewrite inject_Z_plus, inject_Z_opp. ring.
  Qed.
  Lemma sum_one {A} (f : A -> Q) l : (forall y, y ∈ l -> (f y == 0)%Q \/ (f y == 1)%Q) ->
    Qeq_bool (qsum (map f l)) 1 = true <-> length (ones f l) = 1%nat.
  Proof.
    intros H. rewrite Qeq_bool_iff, (qsum_ones f l H). change 1%Q with (inject_Z 1). rewrite inject_eq. lia.
  Qed.
  Lemma sum_same {A} (f g : A -> Q) l : (forall y, y ∈ l -> (f y == 0)%Q \/ (f y == 1)%Q) -> (forall y, y ∈ l -> (g y == 0)%Q \/ (g y == 1)%Q) ->
    Qeq_bool (qsum (map f l) - qsum (map g l)) 0 = true <-> length (ones f l) = length (ones g l).
  Proof.
    intros Hf Hg. rewrite Qeq_bool_iff, (qsum_ones f l Hf), (qsum_ones g l Hg).
    split.
    - intros E. assert (E' : (inject_Z (Z.of_nat (length (ones f l))) == inject_Z (Z.of_nat (length (ones g l))))%Q) by lra.
      apply (proj1 (inject_eq _ _)) in E'. lia.
    - intros ->. ring.
  Qed.

  Lemma solves_system a : solves vs ts odd a <-> system a.
  Proof.
    unfold solves.
    assert (EN : node_count ts = N) by done. assert (EL : last_node ts = L) by (unfold last_node, node_count, trip_count; lia).
    set (D := in_domain vs ts a = true).
    assert (HD : D <-> (forall k i j, (k < length vs)%nat -> (i < N)%nat -> (j < N)%nat -> (as_x a k i j == 0)%Q \/ (as_x a k i j == 1)%Q) /\
       (forall k i, (k < length vs)%nat -> (i < N)%nat -> 0 <= as_u a k i) /\ (forall k i, (k < length vs)%nat -> (i < N)%nat -> 0 <= as_w a k i)).
    { unfold D, in_domain, positions_indexer, routes_indexer. rewrite EN. rewrite forallb_forall. split.
      - intros H. assert (H' : forall k i, (k < length vs)%nat -> (i < N)%nat -> 0 <= as_u a k i /\ 0 <= as_w a k i /\
          forall j, (j < N)%nat -> (as_x a k i j == 0)%Q \/ (as_x a k i j == 1)%Q).
        { intros k i Hk Hi. specialize (H k ltac:(apply in_seq; lia)). rewrite forallb_forall in H.
          specialize (H i ltac:(apply in_seq; lia)). rewrite !andb_true_iff, forallb_forall in H. destruct H as [[H1 H2] H3].
          split; [lia|]. split; [lia|]. intros j Hj. specialize (H3 j ltac:(apply in_seq; lia)).
          rewrite orb_true_iff, !Qeq_bool_iff in H3. done. }
        split; [|split]; intros; by apply H'.
      - intros (H1 & H2 & H3) k Hk. apply in_seq in Hk. rewrite forallb_forall. intros i Hi. apply in_seq in Hi.
        rewrite !andb_true_iff, forallb_forall. split.
        + specialize (H2 k i). specialize (H3 k i). split; lia.
        + intros j Hj. apply in_seq in Hj. rewrite orb_true_iff, !Qeq_bool_iff. apply H1; lia. }
    split.
    - intros (Hdom & Hc). apply HD in Hdom as (Hx & Hu & Hw). destruct Hc as (l & E & Hl).
      unfold constraints in E. apply rbind_ok in E as (? & _ & E). apply rbind_ok in E as (tc & Et & E).
      apply rbind_ok in E as (fc & Ef & E). apply Ok_inj in E as <-.
      rewrite !forallb_app, !andb_true_iff in Hl. destruct Hl as (H1 & H2 & H3 & H4).
      assert (Ht : holds (time_constraints vs ts odd a)) by (by exists tc). assert (Hf : holds (feasibility_constraints vs ts a)) by (by exists fc).
      clear H3 H4 Et Ef. unfold uniqueness_constraints, connectivity_constraints, pickups_indexer, nodes_indexer, positions_indexer, routes_indexer, trip_count in *.
      rewrite EN, EL in *.
      rewrite forallb_flat in H1, H2. unfold time_constraints in Ht. rewrite holds_concat in Ht. unfold feasibility_constraints in Hf. rewrite holds_concat in Hf.
      unfold pickups_indexer, nodes_indexer, positions_indexer, routes_indexer, trip_count in *. rewrite EN, ?EL in *.
      assert (Xx : forall k i j, (k < length vs)%nat -> (i < N)%nat -> j ∈ seq 0 N -> (as_x a k i j == 0)%Q \/ (as_x a k i j == 1)%Q).
      { intros k i j Hk Hi Hj. apply elem_of_seq in Hj. apply Hx; lia. }
      assert (Xx' : forall k i j, (k < length vs)%nat -> (j < N)%nat -> i ∈ seq 0 N -> (as_x a k i j == 0)%Q \/ (as_x a k i j == 1)%Q).
      { intros k i j Hk Hi Hj. apply elem_of_seq in Hj. apply Hx; lia. }
      assert (Harc : forall k i j, (k < length vs)%nat -> (i < N)%nat -> (j < N)%nat ->
        conditional (odd k i j) (as_u a k j) (as_u a k i + nload i + dist (pos vs ts i) (pos vs ts j))
          (Lim (Z.max 0 (nlat i + nload i + dist (pos vs ts i) (pos vs ts j) - (nwin j).1))) (as_x a k i j) = true /\
        conditional (odd k i j) (as_w a k j) (as_w a k i + ncap j) (Lim (vcap k + Z.min 0 (ncap i))) (as_x a k i j) = true).
      { intros k i j Hk Hi Hj. specialize (Ht k ltac:(apply elem_of_seq; lia)). rewrite holds_concat in Ht.
        specialize (Ht (i, j)). rewrite elem_of_product, !elem_of_seq in Ht. specialize (Ht ltac:(lia)). destruct Ht as (l & E & Hl).
        unfold arc_constraints in E. destruct (node_ok i Hi) as (E1 & E2 & E3), (node_ok j Hj) as (E4 & E5 & E6).
        rewrite E1, E2, E3, E5, E6 in E. cbn [rbind] in E. pose proof (finite_window i Hi) as Fi.
        destruct (nwin i) as [ei li], (nwin j) as [ej lj]. cbn [snd] in Fi. subst li. cbn [rbind] in E. rewrite (finite_capacity k Hk) in E. cbn [lim_add] in E.
        apply Ok_inj in E as <-. cbn [forallb id] in Hl. rewrite !andb_true_iff in Hl. destruct Hl as (Hl1 & Hl2 & _). split; [exact Hl1|exact Hl2]. }
      constructor.
      + intros; by apply Hx.
      + intros; by apply Hu.
      + intros; by apply Hw.
      + intros i Hi. specialize (H1 i ltac:(apply elem_of_seq; lia)). cbn [forallb id] in H1. rewrite andb_true_iff in H1.
        destruct H1 as [H1 _]. apply sum_one in H1; [done|]. intros [j k] Hjk. apply elem_of_product in Hjk as [Hj Hk]. apply elem_of_seq in Hj, Hk. apply Hx; lia.
      + intros k i Hk Hi. specialize (H1 i ltac:(apply elem_of_seq; lia)). cbn [forallb id] in H1. rewrite andb_true_iff, forallb_map in H1.
        destruct H1 as [_ H1]. specialize (H1 k ltac:(apply elem_of_seq; lia)). apply sum_same in H1; [done|..]; intros j Hj; apply Xx; lia || done.
      + intros k Hk. specialize (H2 k ltac:(apply elem_of_seq; lia)). cbn [forallb id] in H2. rewrite forallb_app, !andb_true_iff in H2.
        destruct H2 as (H2 & _). apply sum_one in H2; [done|]. intros j Hj; apply Xx; lia || done.
      + intros k i Hk Hi. specialize (H2 k ltac:(apply elem_of_seq; lia)). cbn [forallb id] in H2. rewrite forallb_app, !andb_true_iff, forallb_map in H2.
        destruct H2 as (_ & H2 & _). specialize (H2 i ltac:(apply elem_of_seq; lia)). apply sum_same in H2; [done|..]; intros j Hj; [apply Xx'|apply Xx]; lia || done.
      + intros k Hk. specialize (H2 k ltac:(apply elem_of_seq; lia)). cbn [forallb id] in H2. rewrite forallb_app, !andb_true_iff in H2.
        destruct H2 as (_ & _ & H2). cbn [forallb id] in H2. rewrite andb_true_iff in H2. destruct H2 as [H2 _]. apply sum_one in H2; [done|]. intros j Hj; apply Xx'; lia || done.
      + intros k i j Hk Hi Hj E. destruct (Harc k i j Hk Hi Hj) as [Ha _]. by apply conditional_on in Ha.
      + intros k i j Hk Hi Hj E. destruct (Harc k i j Hk Hi Hj) as [Ha _]. by apply conditional_off in Ha.
      + intros k i j Hk Hi Hj E. destruct (Harc k i j Hk Hi Hj) as [_ Ha]. by apply conditional_on in Ha.
      + intros k i j Hk Hi Hj E. destruct (Harc k i j Hk Hi Hj) as [_ Ha]. by apply conditional_off in Ha.
      + intros k Hk. specialize (Hf k ltac:(apply elem_of_seq; lia)). destruct Hf as (l & E & Hl).
        apply rbind_ok in E as (? & _ & E). apply rbind_ok in E as (? & _ & E). apply rbind_ok in E as (? & _ & E). apply Ok_inj in E as <-.
        cbn [forallb id] in Hl. rewrite andb_true_iff in Hl. destruct Hl as [Hl _]. by apply lim_ge_below.
      + intros k i Hk Hi. specialize (Hf k ltac:(apply elem_of_seq; lia)). destruct Hf as (l & E & Hl).
        apply rbind_ok in E as (c & Ec & E). apply rbind_ok in E as (? & _ & E). apply rbind_ok in E as (? & _ & E). apply Ok_inj in E as <-.
        cbn [forallb id] in Hl. rewrite !forallb_app, !andb_true_iff in Hl. destruct Hl as (_ & Hl & _ & _).
        assert (Hc : holds (rconcat (rmap (window_constraints vs ts a k) (seq 0 N)))) by (by exists c). rewrite holds_concat in Hc.
        specialize (Hc i ltac:(apply elem_of_seq; lia)). destruct Hc as (lw & E & Hw').
        unfold window_constraints in E. destruct (node_ok i Hi) as (_ & E2 & _). rewrite E2 in E. destruct (nwin i) as [ei li]. apply Ok_inj in E as <-.
        cbn [forallb id] in Hw'. rewrite !andb_true_iff, lim_ge_below in Hw'. destruct Hw' as (? & ? & _). split; [cbn; lia|done].
      + intros k i Hk Hi. specialize (Hf k ltac:(apply elem_of_seq; lia)). destruct Hf as (l & E & Hl).
        apply rbind_ok in E as (? & _ & E). apply rbind_ok in E as (c & Ec & E). apply rbind_ok in E as (? & _ & E). apply Ok_inj in E as <-.
        cbn [forallb id] in Hl. rewrite !forallb_app, !andb_true_iff in Hl. destruct Hl as (_ & _ & Hl & _).
        assert (Hc : holds (rconcat (rmap (ride_constraints vs ts a k) (seq 1 n)))) by (by exists c). rewrite holds_concat in Hc.
        specialize (Hc i ltac:(apply elem_of_seq; lia)). destruct Hc as (lw & E & Hw').
        unfold ride_constraints in E. destruct (node_ok i ltac:(lia)) as (E1 & _ & _). rewrite E1, (timeout_ok i Hi) in E. cbn [rbind] in E. apply Ok_inj in E as <-.
        cbn [forallb id] in Hw'. rewrite !andb_true_iff, lim_ge_below in Hw'. unfold trip_count in Hw'. destruct Hw' as (? & ? & _). split; [lia|done].
      + intros k i Hk Hi. specialize (Hf k ltac:(apply elem_of_seq; lia)). destruct Hf as (l & E & Hl).
        apply rbind_ok in E as (? & _ & E). apply rbind_ok in E as (? & _ & E). apply rbind_ok in E as (c & Ec & E). apply Ok_inj in E as <-.
        cbn [forallb id] in Hl. rewrite !forallb_app, !andb_true_iff in Hl. destruct Hl as (_ & _ & _ & Hl).
        assert (Hc : holds (rconcat (rmap (load_constraints vs ts a k) (seq 0 N)))) by (by exists c). rewrite holds_concat in Hc.
        specialize (Hc i ltac:(apply elem_of_seq; lia)). destruct Hc as (lw & E & Hw').
        unfold load_constraints in E. destruct (node_ok i Hi) as (_ & _ & E3). rewrite E3 in E. cbn [rbind] in E. apply Ok_inj in E as <-.
        cbn [forallb id] in Hw'. rewrite !andb_true_iff, lim_ge_below in Hw'. destruct Hw' as (? & ? & _). split; [lia|done].
    - intros [Hx Hu Hw H1 H2 H3 H4 H5 H6 H6' H7 H7' H8 H9 H10 H11]. split; [by apply HD|].
      assert (Xx : forall k i j, (k < length vs)%nat -> (i < N)%nat -> j ∈ seq 0 N -> (as_x a k i j == 0)%Q \/ (as_x a k i j == 1)%Q).
      { intros k i j Hk Hi Hj. apply elem_of_seq in Hj. apply Hx; lia. }
      assert (Xx' : forall k i j, (k < length vs)%nat -> (j < N)%nat -> i ∈ seq 0 N -> (as_x a k i j == 0)%Q \/ (as_x a k i j == 1)%Q).
      { intros k i j Hk Hi Hj. apply elem_of_seq in Hj. apply Hx; lia. }
      assert (Ht : holds (time_constraints vs ts odd a)).
      { unfold time_constraints, positions_indexer, routes_indexer. rewrite EN. apply holds_concat. intros k Hk. apply elem_of_seq in Hk.
        apply holds_concat. intros [i j] Hij. apply elem_of_product in Hij as [Hi Hj]. apply elem_of_seq in Hi, Hj.
        unfold arc_constraints. destruct (node_ok i ltac:(lia)) as (E1 & E2 & E3), (node_ok j ltac:(lia)) as (E4 & E5 & E6).
        rewrite E1, E2, E3, E5, E6. cbn [rbind]. pose proof (finite_window i ltac:(lia)) as Fi.
        specialize (H6 k i j ltac:(lia) ltac:(lia) ltac:(lia)). specialize (H6' k i j ltac:(lia) ltac:(lia) ltac:(lia)).
        specialize (H7 k i j ltac:(lia) ltac:(lia) ltac:(lia)). specialize (H7' k i j ltac:(lia) ltac:(lia) ltac:(lia)).
        destruct (nwin i) as [ei li], (nwin j) as [ej lj]. cbn [snd] in Fi. subst li. cbn [rbind]. rewrite (finite_capacity k ltac:(lia)). cbn [lim_add].
        eexists. split; [reflexivity|]. cbn [forallb id]. rewrite !andb_true_iff.
        destruct (Hx k i j ltac:(lia) ltac:(lia) ltac:(lia)) as [E0|E0].
        - split; [apply conditional_off; [done|]|split; [apply conditional_off; [done|]|done]]; [apply H6'|apply H7']; done.
        - split; [apply conditional_on; [done|]|split; [apply conditional_on; [done|]|done]]; [apply H6|apply H7]; done. }
      assert (Hf : holds (feasibility_constraints vs ts a)).
      { unfold feasibility_constraints, positions_indexer, routes_indexer, pickups_indexer. rewrite EN, EL. apply holds_concat. intros k Hk. apply elem_of_seq in Hk.
        assert (holds (rconcat (rmap (window_constraints vs ts a k) (seq 0 N)))) as (c1 & E1 & Hc1).
        { apply holds_concat. intros i Hi. apply elem_of_seq in Hi. unfold window_constraints. destruct (node_ok i ltac:(lia)) as (_ & -> & _).
          specialize (H9 k i ltac:(lia) ltac:(lia)). destruct (nwin i) as [ei li]. cbn in H9. eexists. split; [reflexivity|].
          cbn [forallb id]. rewrite !andb_true_iff, lim_ge_below. split; [lia|]. split; [by apply H9 || by apply H10 || by apply H11|done]. }
        assert (holds (rconcat (rmap (ride_constraints vs ts a k) (seq 1 (trip_count ts))))) as (c2 & E2 & Hc2).
        { apply holds_concat. unfold trip_count. intros i Hi. apply elem_of_seq in Hi. unfold ride_constraints. destruct (node_ok i ltac:(lia)) as (-> & _ & _).
          rewrite (timeout_ok i ltac:(lia)). cbn [rbind]. specialize (H10 k i ltac:(lia) ltac:(lia)). eexists. split; [reflexivity|].
          cbn [forallb id]. unfold trip_count. rewrite !andb_true_iff, lim_ge_below. split; [lia|]. split; [by apply H9 || by apply H10 || by apply H11|done]. }
        assert (holds (rconcat (rmap (load_constraints vs ts a k) (seq 0 N)))) as (c3 & E3 & Hc3).
        { apply holds_concat. intros i Hi. apply elem_of_seq in Hi. unfold load_constraints. destruct (node_ok i ltac:(lia)) as (_ & _ & ->). cbn [rbind].
          specialize (H11 k i ltac:(lia) ltac:(lia)). eexists. split; [reflexivity|].
          cbn [forallb id]. rewrite !andb_true_iff, lim_ge_below. split; [lia|]. split; [by apply H9 || by apply H10 || by apply H11|done]. }
        rewrite E1, E2, E3. cbn [rbind]. eexists. split; [reflexivity|]. cbn [forallb id]. rewrite !forallb_app, Hc1, Hc2, Hc3, !andb_true_r.
        apply lim_ge_below, H8. lia. }
      destruct Ht as (tc & Et & Ht), Hf as (fc & Ef & Hf). unfold constraints. cbn [positions rbind]. rewrite Et, Ef. cbn [rbind].
      eexists. split; [reflexivity|]. rewrite !forallb_app, Ht, Hf, !andb_true_r, andb_true_iff.
      unfold uniqueness_constraints, connectivity_constraints, pickups_indexer, nodes_indexer, positions_indexer, routes_indexer, trip_count.
      rewrite EN, EL, !forallb_flat. split.
      + intros i Hi. apply elem_of_seq in Hi. cbn [forallb id]. rewrite andb_true_iff, forallb_map. split.
        * apply sum_one; [|apply H1; lia]. intros [j k] Hjk. apply elem_of_product in Hjk as [Hj Hk]. apply elem_of_seq in Hj, Hk. apply Hx; lia.
        * intros k Hk. apply elem_of_seq in Hk. apply sum_same; [..|apply H2; lia]; intros j Hj; apply Xx; lia || done.
      + intros k Hk. apply elem_of_seq in Hk. cbn [forallb id]. rewrite forallb_app, !andb_true_iff, forallb_map. cbn [forallb id]. rewrite andb_true_r. split; [|split].
        * apply sum_one; [|apply H3; lia]. intros j Hj; apply Xx; lia || done.
        * intros i Hi. apply elem_of_seq in Hi. apply sum_same; [..|apply H4; lia]; intros j Hj; [apply Xx'|apply Xx]; lia || done.
        * apply sum_one; [|apply H5; lia]. intros j Hj; apply Xx'; lia || done.
  Qed.
End data.
