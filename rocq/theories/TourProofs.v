(** Facts about tours (Spec.v). *)
From Verif Require Export SchedProofs.

Lemma sublist1 {A} (a : A) l : [a] `sublist_of` l <-> a ∈ l.
Proof.
  split.
  - intros H. eapply elem_of_submseteq; [apply elem_of_list_singleton; done|by apply sublist_submseteq].
  - intros (l1 & l2 & ->)%elem_of_list_split.
    apply (sublist_app [] l1 [a] (a :: l2)); [apply sublist_nil_l|].
    constructor. apply sublist_nil_l.
Qed.
Lemma sublist2 {A} (a b : A) l :
  [a; b] `sublist_of` l <-> exists i j, (i < j)%nat /\ l !! i = Some a /\ l !! j = Some b.
Proof.
  split.
  - intros H. induction l as [|x l IH].
    { inversion H. }
    inversion H as [|x' l1 l2 H1|x' l1 l2 H1]; subst.
    + apply sublist1, elem_of_list_lookup in H1 as [j Hj]. exists 0%nat, (S j). split; [lia|]. done.
    + destruct (IH H1) as (i & j & ? & ? & ?). exists (S i), (S j). split; [lia|]. done.
  - intros (i & j & Hij & Hi & Hj).
    rewrite <- (take_drop_middle l i a Hi).
    apply (sublist_app [] (take i l) [a;b]); [apply sublist_nil_l|].
    constructor. apply sublist1.
    rewrite elem_of_list_lookup. exists (j - S i)%nat.
    rewrite lookup_drop. replace (S i + (j - S i))%nat with j by lia. done.
Qed.
Lemma sublist2_app {A} (a b : A) l1 l2 : a ∈ l1 -> b ∈ l2 -> [a; b] `sublist_of` l1 ++ l2.
Proof. intros H1 H2. apply (sublist_app [a] l1 [b] l2); by apply sublist1. Qed.
Lemma elem_of_flat_map {A B} (f : A -> list B) l y :
  y ∈ flat_map f l <-> exists x, x ∈ l /\ y ∈ f x.
Proof.
  rewrite elem_of_list_In, in_flat_map. split; intros (x & H1 & H2); exists x; split;
    by apply elem_of_list_In.
Qed.
Lemma flat_map_NoDup_lookup {A B} (f : A -> list B) l i j x y t :
  NoDup (flat_map f l) -> l !! i = Some x -> l !! j = Some y -> t ∈ f x -> t ∈ f y -> i = j.
Proof.
  revert i j. induction l as [|a l IH]; intros i j Hnd Hi Hj Hx Hy; [done|].
  cbn in Hnd. apply NoDup_app in Hnd as (H1 & H2 & H3).
  destruct i as [|i], j as [|j]; cbn in *.
  - done.
  - exfalso. injection Hi as ->. apply (H2 t Hx). apply elem_of_flat_map.
    exists y. split; [by eapply elem_of_list_lookup_2|done].
  - exfalso. injection Hj as ->. apply (H2 t Hy). apply elem_of_flat_map.
    exists x. split; [by eapply elem_of_list_lookup_2|done].
  - f_equal. by eapply IH.
Qed.

Lemma NoDup_perm {A} (l k : list A) : l ≡ₚ k -> NoDup k -> NoDup l.
Proof. intros H. by rewrite H. Qed.

Section tours.
  Context {W : World}.

  Lemma elem_of_boards t xs : t ∈ boards xs <-> exists x, x ∈ xs /\ t ∈ vi_board x.
  Proof. apply elem_of_flat_map. Qed.
  Lemma elem_of_alights t xs : t ∈ alights xs <-> exists x, x ∈ xs /\ t ∈ vi_alight x.
  Proof. apply elem_of_flat_map. Qed.

  Lemma tour_once v xs : tour v xs -> NoDup (boards xs).
  Proof. intros H. apply (tour_rides _ _ H). Qed.
  Lemma tour_all v xs : tour v xs -> alights xs ≡ₚ boards xs.
  Proof. intros H. apply (tour_rides _ _ H). Qed.
  Lemma tour_order v xs : tour v xs -> forall t, t ∈ boards xs -> exists a b, [a; b] `sublist_of` xs /\
                   t ∈ vi_board a /\ t ∈ vi_alight b.
  Proof. intros H. apply (tour_rides _ _ H). Qed.
  Lemma tour_places v xs : tour v xs -> forall x, x ∈ xs ->
                   (forall t, t ∈ vi_board x -> vi_place x = origin_position (w_trip t)) /\
                   (forall t, t ∈ vi_alight x -> vi_place x = destination_position (w_trip t)).
  Proof. intros H. apply (tour_rides _ _ H). Qed.

  Lemma rides_alights_nodup xs : rides xs -> NoDup (alights xs).
  Proof. intros H. eapply NoDup_perm; [apply (rides_all _ H)|apply (rides_once _ H)]. Qed.

  (** whoever alights within a prefix boarded within it, earlier *)
  Lemma rides_prefix xs n t :
    rides xs -> t ∈ alights (take n xs) -> t ∈ boards (take n xs).
  Proof.
    intros T Ht. pose proof Ht as Ht0.
    apply elem_of_alights in Ht as (x & Hx & Ht).
    apply elem_of_list_lookup in Hx as [k Hk].
    assert (Hkn : (k < n)%nat).
    { apply lookup_lt_Some in Hk. rewrite take_length in Hk. lia. }
    rewrite lookup_take in Hk by done.
    assert (Hb : t ∈ boards xs).
    { rewrite <- (rides_all _ T). apply elem_of_alights. exists x.
      split; [by eapply elem_of_list_lookup_2|done]. }
    destruct (rides_order _ T _ Hb) as (a & b & Hab & Ha & Hb').
    apply sublist2 in Hab as (i & j & Hij & Hi & Hj).
    assert (j = k) as -> by (eapply flat_map_NoDup_lookup; [by eapply rides_alights_nodup|..]; eauto).
    apply elem_of_boards. exists a. split; [|done].
    apply elem_of_list_lookup. exists i. rewrite lookup_take by lia. done.
  Qed.

  Lemma weight_perm a b : a ≡ₚ b -> weight a = weight b.
  Proof.
    unfold weight, sum_of. induction 1; cbn; lia.
  Qed.
  Lemma weight_nonneg ts : sane_capacities -> 0 <= weight ts.
  Proof.
    intros H. unfold weight. induction ts as [|t ts IH]; cbn; [lia|].
    pose proof (H t). unfold sum_of in IH. lia.
  Qed.
  (** load after a prefix = weight of the trips on board *)
  Lemma weight_on_board xs :
    NoDup (boards xs) -> NoDup (alights xs) -> (forall t, t ∈ alights xs -> t ∈ boards xs) ->
    weight (boards xs) - weight (alights xs) = weight (on_board xs).
  Proof.
    intros H1 H2 H3.
    assert (Hp : boards xs ≡ₚ on_board xs ++ alights xs).
    { apply NoDup_Permutation; [done| |].
      - apply NoDup_app. split; [by apply stdpp.list.NoDup_filter|]. split; [|done].
        intros t Ht Ha. apply elem_of_list_filter in Ht. tauto.
      - intros t. rewrite elem_of_app. unfold on_board. rewrite elem_of_list_filter.
        split; [|intros [[_ ?]|?]; auto].
        intros Ht. destruct (decide (t ∈ alights xs)); auto. }
    rewrite (weight_perm _ _ Hp), weight_app. lia.
  Qed.
  Lemma NoDup_take_flat_map {A B} (f : A -> list B) n xs :
    NoDup (flat_map f xs) -> NoDup (flat_map f (take n xs)).
  Proof.
    intros H. rewrite <- (take_drop n xs), flat_map_app in H.
    apply NoDup_app in H. tauto.
  Qed.
  Lemma rides_load v xs i x :
    rides xs -> xs !! i = Some x ->
    tm_load (tm v x (reverse (take i xs))) = weight (on_board (take (S i) xs)).
  Proof.
    intros T Hx.
    assert (E : tm_load (tm v x (reverse (take i xs))) = leg_load (back v (x :: reverse (take i xs)))) by done.
    rewrite E, back_load, reverse_cons, reverse_involutive, <- (take_S_r _ _ _ Hx).
    apply weight_on_board.
    - apply NoDup_take_flat_map, (rides_once _ T).
    - apply NoDup_take_flat_map. by apply rides_alights_nodup.
    - intros t. by eapply rides_prefix.
  Qed.

  Lemma reverse_split_lookup {A} (xs B C : list A) x :
    reverse xs = B ++ x :: C -> xs !! length C = Some x /\ C = reverse (take (length C) xs).
  Proof.
    intros E. apply (f_equal reverse) in E.
    rewrite reverse_involutive, reverse_app, reverse_cons in E. subst xs.
    rewrite <- (reverse_length C). split.
    - rewrite <- app_assoc, lookup_app_r by lia. by rewrite Nat.sub_diag.
    - rewrite <- app_assoc, take_app. by rewrite reverse_involutive.
  Qed.

  (** ** Requested start times do not matter for being a tour *)
  Lemma boards_anytime xs : boards (map anytime xs) = boards xs.
  Proof. unfold boards. induction xs; cbn; congruence. Qed.
  Lemma alights_anytime xs : alights (map anytime xs) = alights xs.
  Proof. unfold alights. induction xs; cbn; congruence. Qed.
  Lemma boards_same xs ys : map anytime xs = map anytime ys -> boards xs = boards ys.
  Proof. intros E. rewrite <- (boards_anytime xs), E. apply boards_anytime. Qed.
  Lemma alights_same xs ys : map anytime xs = map anytime ys -> alights xs = alights ys.
  Proof. intros E. rewrite <- (alights_anytime xs), E. apply alights_anytime. Qed.
  Lemma anytime_lookup xs ys i x :
    map anytime xs = map anytime ys -> xs !! i = Some x ->
    exists y, ys !! i = Some y /\ vi_place y = vi_place x /\ vi_board y = vi_board x /\ vi_alight y = vi_alight x.
  Proof.
    intros E Hx. assert (H : map anytime xs !! i = Some (anytime x)) by (by rewrite list_lookup_fmap, Hx).
    rewrite E in H. change (map anytime ys) with (anytime <$> ys) in H.
    rewrite list_lookup_fmap in H. destruct (ys !! i) as [y|]; [|done].
    cbn in H. injection H as H1 H2 H3. eauto.
  Qed.
  Lemma anytime_length xs ys : map anytime xs = map anytime ys -> length xs = length ys.
  Proof. intros E. apply (f_equal length) in E. by rewrite !map_length in E. Qed.

  Lemma rides_same xs ys : map anytime xs = map anytime ys -> rides xs -> rides ys.
  Proof.
    intros E T. split.
    - rewrite <- (boards_same _ _ E). apply T.
    - rewrite <- (boards_same _ _ E), <- (alights_same _ _ E). apply T.
    - rewrite <- (boards_same _ _ E). intros t Ht.
      destruct (rides_order _ T t Ht) as (a & b & Hab & Ha & Hb).
      apply sublist2 in Hab as (i & j & Hij & Hi & Hj).
      destruct (anytime_lookup _ _ _ _ E Hi) as (a' & Hi' & _ & Ea & _).
      destruct (anytime_lookup _ _ _ _ E Hj) as (b' & Hj' & _ & _ & Eb).
      exists a', b'. split; [apply sublist2; eauto|]. rewrite Ea, Eb. done.
    - intros y Hy. apply elem_of_list_lookup in Hy as [i Hi].
      destruct (anytime_lookup _ _ _ _ (eq_sym E) Hi) as (x & Hx & E1 & E2 & E3).
      destruct (rides_places _ T x) as [P1 P2]; [by eapply elem_of_list_lookup_2|].
      rewrite <- E1, <- E2, <- E3. done.
  Qed.
  Lemma tour_same v xs ys : map anytime xs = map anytime ys -> tour v xs -> tour v ys.
  Proof.
    intros E T. split; [| |by eapply rides_same, T].
    - destruct (tour_first _ _ T) as (x0 & rest & -> & Hr & H1 & H2 & H3).
      destruct ys as [|y0 ys]; [done|]. injection E as E1 E2 E3 E4.
      exists y0, ys. split; [done|]. split; [destruct rest, ys; done|]. repeat split; congruence.
    - destruct (tour_last _ _ T) as (fr & xn & -> & H1 & H2 & H3).
      destruct ys as [|yn fr' _] using rev_ind.
      { rewrite map_app in E. by destruct fr. }
      rewrite !map_app in E. apply app_inj_tail in E as [E1 E2].
      injection E2 as E2 E3 E4. exists fr', yn. split; [done|]. repeat split; congruence.
  Qed.
  Lemma events_anytime x : events (anytime x) = events x.
  Proof. done. Qed.
  Lemma simple_same xs ys : map anytime xs = map anytime ys -> simple xs -> simple ys.
  Proof.
    intros E (x0 & mid & xn & -> & F). destruct ys as [|y0 ys]; [done|].
    cbn in E. injection E as E1 E2 E3 E. rewrite map_app in E.
    destruct ys as [|yn mid' _] using rev_ind; [by destruct mid|].
    rewrite map_app in E. apply app_inj_tail in E as [E _].
    exists y0, mid', yn. split; [done|].
    clear E1 E2 E3. revert mid' E. induction F as [|x mid Hx F IH]; intros [|y mid'] E; try done.
    cbn in E. injection E as E1 E2 E3 E. constructor; [|by apply IH].
    unfold events in *. congruence.
  Qed.
  Lemma tour_length v xs : tour v xs -> (2 <= length xs)%nat.
  Proof.
    intros T. destruct (tour_first _ _ T) as (x0 & rest & -> & Hr & _). destruct rest; [done|]. cbn. lia.
  Qed.

  (** ** Serving one more trip *)
  Lemma tour_split v xs i j :
    tour v xs -> (i < j < length xs)%nat ->
    exists x0 a b c xn, take (S i) xs = x0 :: a /\ drop (S i) (take j xs) = b /\
      drop j xs = c ++ [xn] /\ xs = x0 :: a ++ b ++ c ++ [xn].
  Proof.
    intros T Hij. destruct (tour_first _ _ T) as (x0 & rest & E0 & _).
    assert (Hl : exists c xn, drop j xs = c ++ [xn]).
    { destruct (exists_last (l := drop j xs)) as (c & xn & ->); [|eauto].
      intros Hl. apply (f_equal length) in Hl. rewrite drop_length in Hl. cbn in Hl. lia. }
    destruct Hl as (c & xn & Hl).
    exists x0, (take i rest), (drop (S i) (take j xs)), c, xn.
    rewrite <- Hl. split; [by rewrite E0|]. split; [done|]. split; [done|].
    rewrite <- (take_drop j xs) at 1.
    rewrite <- (take_drop (S i) (take j xs)) at 1.
    rewrite take_take, Nat.min_l by lia. rewrite E0 at 1. cbn [take app]. by rewrite <- app_assoc.
  Qed.
  Lemma boards_serve t i j xs : (i < j)%nat -> boards (serve t i j xs) ≡ₚ t :: boards xs.
  Proof.
    intros Hij. unfold serve.
    assert (E : boards xs = boards (take (S i) xs) ++ boards (drop (S i) (take j xs)) ++ boards (drop j xs)).
    { rewrite <- !boards_app. f_equal.
      rewrite <- (take_drop j xs) at 1. rewrite <- (take_drop (S i) (take j xs)) at 1.
      rewrite take_take, Nat.min_l by lia. by rewrite <- app_assoc. }
    rewrite E, !boards_app. cbn [boards flat_map pick_up drop_off vi_board].
    rewrite flat_map_app. cbn [flat_map vi_board app].
    symmetry. apply Permutation_middle.
  Qed.
  Lemma alights_serve t i j xs : (i < j)%nat -> alights (serve t i j xs) ≡ₚ t :: alights xs.
  Proof.
    intros Hij. unfold serve.
    assert (E : alights xs = alights (take (S i) xs) ++ alights (drop (S i) (take j xs)) ++ alights (drop j xs)).
    { rewrite <- !alights_app. f_equal.
      rewrite <- (take_drop j xs) at 1. rewrite <- (take_drop (S i) (take j xs)) at 1.
      rewrite take_take, Nat.min_l by lia. by rewrite <- app_assoc. }
    rewrite E, !alights_app. cbn [alights flat_map pick_up drop_off vi_alight].
    rewrite flat_map_app. cbn [flat_map vi_alight app].
    unfold alights. cbn [drop_off vi_alight app]. rewrite !app_assoc. symmetry. apply Permutation_middle.
  Qed.
  Lemma serve_sublist t i j xs : (i < j)%nat -> xs `sublist_of` serve t i j xs.
  Proof.
    intros Hij. unfold serve.
    rewrite <- (take_drop j xs) at 1. rewrite <- (take_drop (S i) (take j xs)) at 1.
    rewrite take_take, Nat.min_l by lia. rewrite <- app_assoc.
    apply sublist_app; [done|]. apply sublist_cons. apply sublist_app; [done|]. by apply sublist_cons.
  Qed.
  Lemma tour_serve v t i j xs :
    tour v xs -> t ∉ boards xs -> (i < j < length xs)%nat -> tour v (serve t i j xs).
  Proof.
    intros T Ht Hij.
    assert (Hsub := serve_sublist t i j xs ltac:(lia)).
    assert (Hb := boards_serve t i j xs ltac:(lia)).
    assert (Ha := alights_serve t i j xs ltac:(lia)).
    destruct (tour_split v xs i j T Hij) as (x0 & a & b & c & xn & E1 & E2 & E3 & E).
    split.
    - destruct (tour_first _ _ T) as (y0 & rest & Ey & Hr & P1 & P2 & P3).
      rewrite E in Ey. injection Ey as <- _.
      unfold serve. rewrite E1. eexists x0, _. split; [done|]. split; [by destruct a|]. done.
    - destruct (tour_last _ _ T) as (fr & yn & Ey & P1 & P2 & P3).
      rewrite E in Ey. rewrite !app_comm_cons, !app_assoc in Ey.
      apply app_inj_tail in Ey as [_ <-].
      unfold serve. rewrite E3. eexists _, xn. split; [|done].
      rewrite !app_comm_cons, !app_assoc. reflexivity.
    - split.
      + rewrite Hb. apply NoDup_cons. split; [done|by eapply tour_once].
      + rewrite Ha, Hb, (tour_all _ _ T). done.
      + intros t' Ht'. rewrite Hb in Ht'. apply elem_of_cons in Ht' as [->|Ht'].
        * exists (pick_up t), (drop_off t). split; [|split; apply elem_of_list_singleton; done].
          unfold serve. apply (sublist_app [] _ [pick_up t; drop_off t]); [apply sublist_nil_l|].
          constructor. apply sublist1. set_solver.
        * destruct (tour_order _ _ T t' Ht') as (p & q & Hpq & ? & ?).
          exists p, q. split; [by etrans|done].
      + intros x Hx.
        assert (Hc : x = pick_up t \/ x = drop_off t \/ x ∈ xs).
        { unfold serve in Hx. rewrite E1, E2, E3 in Hx. rewrite E. set_solver. }
        destruct Hc as [->|[->|Hc]].
        * split; cbn; intros t' Hin; [apply elem_of_list_singleton in Hin as ->; done|inversion Hin].
        * split; cbn; intros t' Hin; [inversion Hin|apply elem_of_list_singleton in Hin as ->; done].
        * by apply (tour_places _ _ T).
  Qed.
  Lemma simple_serve v t i j xs :
    tour v xs -> simple xs -> (i < j < length xs)%nat -> simple (serve t i j xs).
  Proof.
    intros T (y0 & mid & yn & Ey & F) Hij.
    destruct (tour_split v xs i j T Hij) as (x0 & a & b & c & xn & E1 & E2 & E3 & E).
    unfold serve. rewrite E1, E2, E3.
    exists x0, (a ++ pick_up t :: b ++ drop_off t :: c), xn. split.
    { cbn. f_equal. rewrite <- app_assoc. cbn. f_equal. f_equal. by rewrite <- app_assoc. }
    rewrite E in Ey. injection Ey as -> Ey. rewrite !app_assoc in Ey.
    apply app_inj_tail in Ey as [Ey _]. rewrite <- Ey in F.
    apply Forall_app in F as [F Fc]. apply Forall_app in F as [Fa Fb].
    apply Forall_app. split; [done|]. constructor; [done|].
    apply Forall_app. split; [done|]. constructor; done.
  Qed.
  Lemma serve_same t i j xs ys :
    map anytime xs = map anytime ys -> map anytime (serve t i j xs) = map anytime (serve t i j ys).
  Proof.
    intros E. unfold serve. rewrite !map_app. cbn [map]. rewrite !map_app. cbn [map].
    rewrite !firstn_map || rewrite <- !firstn_map.
    rewrite <- !skipn_map, <- !firstn_map, E. done.
  Qed.

  (** the fresh route *)
  Definition idle (v : nat) : list visit :=
    [Visit (v_origin_position v) [] [] None; Visit (v_destination_position v) [] [] None].
  Lemma tour_idle v : tour v (idle v).
  Proof.
    split; [| |split].
    - eexists _, _. split; [reflexivity|]. done.
    - exists [Visit (v_origin_position v) [] [] None], (Visit (v_destination_position v) [] [] None). done.
    - constructor.
    - done.
    - intros t Ht. inversion Ht.
    - intros x Hx. assert (vi_board x = [] /\ vi_alight x = []) as [-> ->].
      { unfold idle in Hx. rewrite !elem_of_cons in Hx.
        destruct Hx as [->|[->|Hx]]; [done|done|inversion Hx]. }
      split; intros t Ht; inversion Ht.
  Qed.
  Lemma simple_idle v : simple (idle v).
  Proof. eexists _, [], _. split; [reflexivity|constructor]. Qed.
End tours.
