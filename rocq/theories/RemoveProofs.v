(** remove_trip: routes.py:285-297. *)
From Verif Require Export CloneProofs.

Lemma filter_sub {A} (P : A -> Prop) `{forall x, Decision (P x)} l k :
  l `sublist_of` k -> filter P l `sublist_of` filter P k.
Proof.
  induction 1 as [|x l k H' IH|x l k H' IH]; [constructor| |].
  - rewrite !filter_cons. case_decide; [by constructor|done].
  - rewrite filter_cons. case_decide; [by constructor|done].
Qed.

Section without.
  Context {W : World}.

  Lemma mentions_spec t x : mentions t x <-> t ∈ vi_board x ++ vi_alight x.
  Proof. unfold mentions. by rewrite elem_of_app. Qed.
  Lemma events_mention t x : events x = 1%nat -> mentions t x ->
    (vi_board x = [t] /\ vi_alight x = []) \/ (vi_board x = [] /\ vi_alight x = [t]).
  Proof.
    unfold events, mentions. intros E H.
    destruct (vi_board x) as [|a [|]], (vi_alight x) as [|b [|]]; cbn in *; try lia.
    - right. destruct H as [H|H]; [inversion H|]. apply elem_of_list_singleton in H as ->. done.
    - left. destruct H as [H|H]; [|inversion H]. apply elem_of_list_singleton in H as ->. done.
  Qed.
  Lemma boards_without t xs : dedicated t xs -> boards (without t xs) = filter (fun u => u <> t) (boards xs).
  Proof.
    induction xs as [|x xs IH]; intros D; [done|].
    unfold without in *. rewrite filter_cons. cbn [boards flat_map]. fold (boards xs).
    assert (D' : dedicated t xs) by (intros y Hy; apply D; by right).
    rewrite filter_app, <- IH by done. case_decide as Hx.
    - cbn. f_equal. symmetry. assert (Hn : t ∉ vi_board x) by set_solver. clear -Hn.
      induction (vi_board x) as [|u l IHl]; [done|]. rewrite filter_cons_True by set_solver. f_equal. set_solver.
    - assert (Mt : mentions t x) by (by apply mentions_spec).
      destruct (events_mention t x (D x (elem_of_list_here _ _) Mt) Mt) as [[-> _]|[-> _]]; [|done].
      by rewrite filter_cons_False by (intros ?; done).
  Qed.
  Lemma alights_without t xs : dedicated t xs -> alights (without t xs) = filter (fun u => u <> t) (alights xs).
  Proof.
    induction xs as [|x xs IH]; intros D; [done|].
    unfold without in *. rewrite filter_cons. cbn [alights flat_map]. fold (alights xs).
    assert (D' : dedicated t xs) by (intros y Hy; apply D; by right).
    rewrite filter_app, <- IH by done. case_decide as Hx.
    - cbn. f_equal. symmetry. assert (Hn : t ∉ vi_alight x) by set_solver. clear -Hn.
      induction (vi_alight x) as [|u l IHl]; [done|]. rewrite filter_cons_True by set_solver. f_equal. set_solver.
    - assert (Mt : mentions t x) by (by apply mentions_spec).
      destruct (events_mention t x (D x (elem_of_list_here _ _) Mt) Mt) as [[_ ->]|[_ ->]]; [done|].
      by rewrite filter_cons_False by (intros ?; done).
  Qed.
  Lemma without_elem t xs x : x ∈ without t xs <-> x ∈ xs /\ ~ mentions t x.
  Proof. unfold without. rewrite elem_of_list_filter, mentions_spec. tauto. Qed.
  Lemma without_nothing t xs : (forall x, x ∈ xs -> ~ mentions t x) -> without t xs = xs.
  Proof.
    unfold without. induction xs as [|x xs IH]; intros H; [done|].
    rewrite filter_cons_True; [|rewrite <- mentions_spec; apply H; left]. f_equal. apply IH.
    intros y Hy. apply H. by right.
  Qed.

  Lemma rides_without t xs : dedicated t xs -> rides xs -> rides (without t xs).
  Proof.
    intros D [R1 R2 R3 R4]. split.
    - rewrite boards_without by done. by apply NoDup_filter.
    - rewrite boards_without, alights_without by done. by rewrite R2.
    - intros u Hu. rewrite boards_without in Hu by done. apply elem_of_list_filter in Hu as [Hne Hu].
      destruct (R3 u Hu) as (a & b & Hsub & Ha & Hb). exists a, b. split; [|done].
      assert (Hin : forall x, x ∈ [a; b] -> x ∈ xs).
      { intros x Hx. eapply elem_of_submseteq; [exact Hx|by apply sublist_submseteq]. }
      assert (Hk : forall x, x ∈ [a; b] -> mentions u x -> ~ mentions t x).
      { intros x Hx Mu Mt.
        destruct (events_mention t x (D x (Hin x Hx) Mt) Mt) as [[E1 E2]|[E1 E2]];
          unfold mentions in Mu; rewrite E1, E2 in Mu; set_solver. }
      replace [a; b] with (without t [a; b]); [by apply filter_sub|].
      apply without_nothing. intros x Hx. apply (Hk x Hx).
      apply elem_of_cons in Hx as [->|Hx%elem_of_list_singleton]; [by left|subst; by right].
    - intros x Hx. apply without_elem in Hx as [Hx _]. by apply R4.
  Qed.
  Lemma tour_without v t xs : dedicated t xs -> tour v xs -> tour v (without t xs).
  Proof.
    intros D [(x0 & rest & -> & Hne & P0 & B0 & A0) (front & xn & E & Pn & Bn & An) R].
    pose proof (rides_without t _ D R) as R'. split; [| |done].
    - exists x0, (without t rest). split; [|split; [|done]].
      + unfold without. rewrite filter_cons_True; [done|]. rewrite B0, A0. apply not_elem_of_nil.
      + destruct rest as [|y rest _] using rev_ind; [done|]. rewrite app_comm_cons in E.
        apply app_inj_tail in E as [_ <-]. unfold without. rewrite filter_app, filter_cons_True; [by destruct (filter _ rest)|].
        rewrite Bn, An. apply not_elem_of_nil.
    - exists (without t front), xn. split; [|done]. rewrite E. unfold without.
      rewrite filter_app, filter_cons_True; [done|]. rewrite Bn, An. apply not_elem_of_nil.
  Qed.
  Lemma simple_without v t xs : tour v xs -> simple xs -> simple (without t xs).
  Proof.
    intros T (x0 & mid & xn & -> & Hm).
    destruct (tour_first _ _ T) as (y0 & rest & [= <- <-] & _ & _ & B0 & A0).
    destruct (tour_last _ _ T) as (front & yn & E & _ & Bn & An).
    rewrite app_comm_cons in E. apply app_inj_tail in E as [_ <-].
    exists x0, (without t mid), xn. split.
    - unfold without. rewrite filter_cons_True by (rewrite B0, A0; apply not_elem_of_nil).
      rewrite filter_app, filter_cons_True by (rewrite Bn, An; apply not_elem_of_nil). done.
    - apply Forall_forall. intros x Hx. apply without_elem in Hx as [Hx _].
      rewrite Forall_forall in Hm. auto.
  Qed.
  Lemma simple_dedicated v t xs : tour v xs -> simple xs -> dedicated t xs.
  Proof.
    intros T (x0 & mid & xn & -> & Hm) x Hx M.
    destruct (tour_first _ _ T) as (y0 & rest & [= <- <-] & _ & _ & B0 & A0).
    destruct (tour_last _ _ T) as (front & yn & E & _ & Bn & An).
    rewrite app_comm_cons in E. apply app_inj_tail in E as [_ <-].
    apply elem_of_cons in Hx as [->|Hx].
    { exfalso. unfold mentions in M. rewrite B0, A0 in M. destruct M as [M|M]; inversion M. }
    apply elem_of_app in Hx as [Hx|Hx%elem_of_list_singleton].
    - rewrite Forall_forall in Hm. auto.
    - subst x. exfalso. unfold mentions in M. rewrite Bn, An in M. destruct M as [M|M]; inversion M.
  Qed.

  (** the two visits of a trip *)
  Lemma rides_trip_split t xs : rides xs -> t ∈ boards xs ->
    exists A x B y C, xs = A ++ x :: B ++ y :: C /\ t ∈ vi_board x /\ t ∈ vi_alight y /\
      (forall z, z ∈ A ++ B ++ C -> ~ mentions t z).
  Proof.
    intros R Ht. pose proof (rides_alights_nodup _ R) as NA. destruct R as [NB _ R3 _].
    destruct (R3 t Ht) as (x & y & Hsub & Hx & Hy).
    apply sublist2 in Hsub as (i & j & Hij & Hi & Hj).
    pose proof (take_drop_middle xs j y Hj) as E1.
    assert (Hi' : take j xs !! i = Some x) by (by rewrite lookup_take).
    pose proof (take_drop_middle (take j xs) i x Hi') as E2.
    exists (take i (take j xs)), x, (drop (S i) (take j xs)), y, (drop (S j) xs).
    assert (E : xs = take i (take j xs) ++ x :: drop (S i) (take j xs) ++ y :: drop (S j) xs).
    { rewrite <- E1 at 1. rewrite <- E2 at 1. by rewrite <- app_assoc. }
    split; [done|]. split; [done|]. split; [done|].
    set (A := take i (take j xs)) in *. set (B := drop (S i) (take j xs)) in *. set (C := drop (S j) xs) in *.
    clearbody A B C. subst xs. clear E1 E2 Hi Hj Hi' R3 Ht.
    unfold boards, alights in NB, NA. rewrite !flat_map_app in NB, NA. cbn in NB, NA. rewrite !flat_map_app in NB, NA.
    cbn in NB, NA. fold (boards A) (boards B) (boards C) in NB. fold (alights A) (alights B) (alights C) in NA.
    assert (N1 : t ∉ boards A /\ t ∉ boards B /\ t ∉ boards C).
    { apply NoDup_app in NB as (_ & H1 & H2). apply NoDup_app in H2 as (_ & H2 & _).
      specialize (H2 t Hx). split; [|set_solver]. intros HA. specialize (H1 t HA). set_solver. }
    assert (N2 : t ∉ alights A /\ t ∉ alights B /\ t ∉ alights C).
    { rewrite (Permutation_app_comm (vi_alight x)), <- !app_assoc in NA.
      apply NoDup_app in NA as (_ & H1 & H2). apply NoDup_app in H2 as (_ & H2 & H3).
      apply NoDup_app in H3 as (_ & H3 & _).
      split; [intros HA; specialize (H1 t HA); set_solver|].
      split; [intros HA; specialize (H2 t HA); set_solver|].
      specialize (H3 t Hy). set_solver. }
    intros z Hz [M|M]; rewrite !elem_of_app in Hz.
    - assert (Hb : t ∈ boards A \/ t ∈ boards B \/ t ∈ boards C); [|tauto].
      rewrite !elem_of_boards. destruct Hz as [?|[?|?]]; eauto 6.
    - assert (Hb : t ∈ alights A \/ t ∈ alights B \/ t ∈ alights C); [|tauto].
      rewrite !elem_of_alights. destruct Hz as [?|[?|?]]; eauto 6.
  Qed.
  Lemma without_split t A x B y C :
    mentions t x -> mentions t y -> (forall z, z ∈ A ++ B ++ C -> ~ mentions t z) ->
    without t (A ++ x :: B ++ y :: C) = A ++ B ++ C.
  Proof.
    intros Mx My Hn.
    assert (E : without t (A ++ x :: B ++ y :: C) = without t A ++ without t B ++ without t C).
    { unfold without. rewrite filter_app, filter_cons_False, filter_app, filter_cons_False; [done| |];
        rewrite <- mentions_spec; tauto. }
    rewrite E, !without_nothing; [done| | |]; intros z Hz; apply Hn; set_solver.
  Qed.
  Lemma without_length t xs : rides xs -> t ∈ boards xs -> length xs = S (S (length (without t xs))).
  Proof.
    intros R Ht. destruct (rides_trip_split t xs R Ht) as (A & x & B & y & C & -> & Hx & Hy & Hn).
    rewrite without_split by (done || by (left + right)).
    rewrite !app_length. cbn. rewrite !app_length. cbn. lia.
  Qed.
  (** removing the trip that has just been added *)
  Lemma without_serve t i j xs : (i < j)%nat -> (forall z, z ∈ xs -> ~ mentions t z) -> without t (serve t i j xs) = xs.
  Proof.
    intros Hij Hn. unfold serve.
    assert (E : take (S i) xs ++ drop (S i) (take j xs) ++ drop j xs = xs).
    { rewrite app_assoc. assert (E1 : take (S i) xs = take (S i) (take j xs)) by (rewrite take_take; f_equal; lia).
      rewrite E1, take_drop. by rewrite take_drop. }
    rewrite without_split.
    - done.
    - left. cbn. left.
    - right. cbn. left.
    - intros z Hz. rewrite E in Hz. auto.
  Qed.
  Lemma tour_not_mentioned v t xs : tour v xs -> t ∉ boards xs -> forall z, z ∈ xs -> ~ mentions t z.
  Proof.
    intros T Ht z Hz [M|M]; apply Ht.
    - apply elem_of_boards. eauto.
    - rewrite <- (tour_all _ _ T). apply elem_of_alights. eauto.
  Qed.
End without.

Section remove.
  Context {W : World}.

  (** what editing a route may change: links and memoised times only *)
  Record edited (h h' : heap) : Prop := {
    ed_stops : forall q c, h_stops h !! q = Some c -> exists c', h_stops h' !! q = Some c' /\
      st_vehicle c' = st_vehicle c /\ st_position c' = st_position c /\ st_pickups c' = st_pickups c /\
      st_deliveries c' = st_deliveries c /\ st_starting c' = st_starting c;
    ed_pts : forall p c, h_pts h !! p = Some c -> exists c', h_pts h' !! p = Some c' /\ sk_pt c' = sk_pt c;
    ed_nstops : length (h_stops h') = length (h_stops h);
    ed_npts : length (h_pts h') = length (h_pts h);
    ed_nroutes : length (h_routes h') = length (h_routes h);
    ed_tick : h_tick h' = h_tick h
  }.
  Lemma edited_refl h : edited h h.
  Proof. split; eauto 10. Qed.
  Lemma edited_trans h1 h2 h3 : edited h1 h2 -> edited h2 h3 -> edited h1 h3.
  Proof.
    intros [A1 A2 A3 A4 A5 A6] [B1 B2 B3 B4 B5 B6]. split; try congruence.
    - intros q c Hc. destruct (A1 _ _ Hc) as (c1 & Hc1 & E1). destruct (B1 _ _ Hc1) as (c2 & Hc2 & E2).
      exists c2. split; [done|]. destruct E1 as (<- & <- & <- & <- & <-). done.
    - intros q c Hc. destruct (A2 _ _ Hc) as (c1 & Hc1 & E1). destruct (B2 _ _ Hc1) as (c2 & Hc2 & E2).
      exists c2. split; [done|congruence].
  Qed.
  Lemma edited_relink h h' f s l r x :
    touch h h' (relink f s l) -> h_routes h' = alter (set_route_stops x) r (h_routes h) -> h_tick h' = h_tick h ->
    edited h h'.
  Proof.
    intros T ER ET. destruct (touch_len _ _ _ T) as [L1 L2]. split; try done.
    - intros q c Hc. destruct T as [T _]. rewrite T, Hc. cbn. eexists. split; [done|]. apply relink_fields.
    - intros p c Hc. by eapply touch_pts.
    - by rewrite ER, alter_length.
  Qed.
  Lemma edited_ext h h' : edited h h' -> pts_ext h h'.
  Proof. intros E. apply pts_ext_sk, E. Qed.
  Lemma edited_abs h h' c c' : edited h h' -> known h c ->
    st_position c' = st_position c -> st_pickups c' = st_pickups c -> st_deliveries c' = st_deliveries c ->
    st_starting c' = st_starting c -> abs h' c' = abs h c.
  Proof.
    intros E K E1 E2 E3 E4. unfold abs. rewrite E1, E2, E3, E4.
    rewrite !(map_trip_of_grow h h') by (try (by apply edited_ext); intros p Hp; apply K; set_solver). done.
  Qed.

  Lemma runs_stop_has_trip h t s c (Q : bool -> heap -> Prop) :
    h_stops h !! s = Some c -> known h c ->
    Q (bool_decide (mentions t (abs h c))) h -> runs (stop_has_trip t s) h Q.
  Proof.
    intros Hc K HQ. unfold stop_has_trip. step. eapply runs_stop_get; [exact Hc|].
    step. apply runs_trips_of; [done|]. apply runs_ret.
    unfold memb. rewrite map_app. eapply (eq_ind _ (fun b => Q b h)); [exact HQ|].
    apply bool_decide_ext. apply mentions_spec.
  Qed.

  Fixpoint keep_ids (t : nat) (X : list nat) (A : list visit) : list nat :=
    match X, A with
    | s :: X, x :: A => if decide (t ∈ vi_board x ++ vi_alight x) then keep_ids t X A else s :: keep_ids t X A
    | _, _ => []
    end.
  Lemma keep_ids_snoc t X A s x : length X = length A ->
    keep_ids t (X ++ [s]) (A ++ [x]) =
    keep_ids t X A ++ (if decide (t ∈ vi_board x ++ vi_alight x) then [] else [s]).
  Proof.
    revert A. induction X as [|q X IH]; intros [|y A] Hl; cbn in Hl; try done.
    cbn. rewrite IH by lia. by destruct (decide (t ∈ vi_board y ++ vi_alight y)).
  Qed.
  Lemma without_snoc t A x : without t (A ++ [x]) = without t A ++ (if decide (t ∈ vi_board x ++ vi_alight x) then [] else [x]).
  Proof. unfold without. rewrite filter_app, filter_cons, filter_nil. by repeat case_decide. Qed.
  Lemma keep_ids_sublist t X A : keep_ids t X A `sublist_of` X.
  Proof.
    revert A. induction X as [|s X IH]; intros [|x A]; cbn; try done; [apply sublist_nil_l|].
    case_decide; [|]; by constructor.
  Qed.
  Lemma keep_ids_lookup t X A i s : keep_ids t X A !! i = Some s ->
    exists k x, X !! k = Some s /\ A !! k = Some x /\ ~ mentions t x.
  Proof.
    revert A i. induction X as [|q X IH]; intros [|x A] i Hi; cbn in Hi; try done.
    case_decide as Hd.
    - destruct (IH _ _ Hi) as (k & y & H). by exists (S k), y.
    - destruct i as [|i]; cbn in Hi.
      + injection Hi as ->. exists 0%nat, x. by rewrite mentions_spec.
      + destruct (IH _ _ Hi) as (k & y & H). by exists (S k), y.
  Qed.
  Lemma keep_ids_order t X A : forall k k' s s' x x', length X = length A ->
    (k < k')%nat -> X !! k = Some s -> A !! k = Some x -> ~ mentions t x ->
    X !! k' = Some s' -> A !! k' = Some x' -> ~ mentions t x' ->
    [s; s'] `sublist_of` keep_ids t X A.
  Proof.
    assert (Hin : forall X A k s x, X !! k = Some s -> A !! k = Some x -> ~ mentions t x -> s ∈ keep_ids t X A).
    { clear. induction X as [|q X IH]; intros [|y A] [|k] s x Hs Hx Hm; cbn in *; try done.
      - injection Hs as ->. injection Hx as ->. rewrite decide_False; [left|by rewrite <- mentions_spec].
      - case_decide; [by eapply IH|]. right. by eapply IH. }
    revert A. induction X as [|q X IH]; intros [|y A] k k' s s' x x' Hl Hk Hs Hx Hm Hs' Hx' Hm'; cbn in Hl; try done.
    destruct k' as [|k']; [lia|]. cbn in Hs', Hx'. destruct k as [|k]; cbn in Hs, Hx.
    - injection Hs as ->. injection Hx as ->. cbn. rewrite decide_False by (by rewrite <- mentions_spec).
      apply sublist_skip, sublist1. by eapply Hin.
    - cbn. assert (H : [s; s'] `sublist_of` keep_ids t X A) by (eapply (IH A k k'); eauto; lia).
      case_decide; [done|]. by apply sublist_cons.
  Qed.

  Lemma remove_at_mid {A} (X Y : list A) s : list_remove_at (length X) (X ++ s :: Y) = X ++ Y.
  Proof. by apply remove_at_split. Qed.

  Lemma remove_trip_loop_runs r v t Y B : Y <> [] -> forall n X A h Y' B',
    RouteP h r v (X ++ Y' ++ Y) (A ++ B' ++ B) -> length X = n -> length A = n -> length Y = length B ->
    (forall x, A !! 0%nat = Some x -> ~ mentions t x) ->
    runs (remove_trip_loop r t n) h (fun _ h' =>
      RouteP h' r v (keep_ids t X A ++ Y' ++ Y) (without t A ++ B' ++ B) /\ edited h h' /\
      (forall h0, grow h0 h -> (forall q, q ∈ X ++ Y' ++ Y -> (length (h_stops h0) <= q)%nat) ->
         (length (h_routes h0) <= r)%nat -> grow h0 h')).
  Proof.
    intros HY. induction n as [|i IH]; intros X A h Y' B' R HX HA HYB H0.
    { destruct X; [|done]. destruct A; [|done]. apply runs_ret. split; [done|]. split; [apply edited_refl|]. done. }
    destruct X as [|s X _] using rev_ind; [done|]. destruct A as [|x A _] using rev_ind; [done|].
    rewrite !app_length in HX, HA. cbn in HX, HA.
    assert (HX' : length X = i) by lia. assert (HA' : length A = i) by lia. clear HX HA.
    assert (Hl : length X = length A) by lia.
    cbn [remove_trip_loop]. step. pose proof R as [(c & Hc & E1 & E2) HP].
    unfold route_stops. step. eapply runs_route_get; [exact Hc|]. apply runs_ret. rewrite E2.
    assert (Hs : ((X ++ [s]) ++ Y' ++ Y) !! i = Some s).
    { rewrite <- app_assoc, lookup_app_r by lia. by replace (i - length X)%nat with 0%nat by lia. }
    step. eapply runs_nth; [exact Hs|].
    destruct (RouteP_lookup _ _ _ _ _ _ _ R Hs) as (cs & x' & Hcs & Hx & -> & K & _).
    rewrite <- app_assoc, lookup_app_r in Hx by lia. replace (i - length A)%nat with 0%nat in Hx by lia.
    cbn in Hx. injection Hx as ->.
    step. eapply runs_stop_has_trip; [exact Hcs|done|].
    rewrite keep_ids_snoc, without_snoc by done.
    case_bool_decide as Hm.
    - rewrite !decide_True by (by apply mentions_spec). rewrite !app_nil_r.
      assert (Hpos : exists k, i = S k).
      { destruct i as [|k]; [|eauto]. exfalso. apply (H0 (abs h cs)); [|done].
        destruct A; [done|]. cbn in HA'. lia. }
      destruct Hpos as [k Hk].
      destruct (lookup_lt_is_Some_2 X k) as [q Hq]; [lia|].
      set (Z := Y' ++ Y) in *. assert (HZ : exists f Z', Z = f :: Z').
      { destruct Z as [|f Z'] eqn:EZ; [|eauto]. unfold Z in EZ. apply app_eq_nil in EZ as [_ ->]. done. }
      destruct HZ as (f & Z' & HZ).
      rewrite <- !app_assoc in R. cbn [app] in R. rewrite HZ in R.
      step. step. rewrite Hk.
      eapply runs_mono; [eapply (remove_stop_at_runs _ _ _ _ _ k q s f R)|].
      { rewrite lookup_app_l by lia. done. }
      { rewrite lookup_app_r by lia. by replace (S k - length X)%nat with 0%nat by lia. }
      { rewrite lookup_app_r by lia. by replace (S (S k) - length X)%nat with 1%nat by lia. }
      intros ? h1 (R1 & T1 & ER1 & ET1 & _). apply runs_ret.
      replace (list_remove_at (S k) (X ++ s :: f :: Z')) with (X ++ Y' ++ Y) in R1
        by (fold Z; rewrite HZ; symmetry; rewrite <- (remove_at_mid X (f :: Z') s); f_equal; lia).
      replace (list_remove_at (S k) (A ++ abs h cs :: B' ++ B)) with (A ++ B' ++ B) in R1
        by (symmetry; rewrite <- (remove_at_mid A (B' ++ B) (abs h cs)); f_equal; lia).
      rewrite <- Hk. eapply runs_mono; [apply (IH X A h1 Y' B'); try done|].
      { intros y Hy. apply H0. by apply lookup_app_l_Some. }
      intros ? h2 (R2 & Ed2 & G2). split; [done|].
      split; [eapply edited_trans; [by eapply edited_relink|done]|].
      intros h0 G0 HZ0 Hr0. apply G2; [|intros y Hy; apply HZ0; set_solver|done].
      eapply grow_relink; [exact G0|exact T1|exact ER1| |done]. apply HZ0. fold Z. rewrite HZ. set_solver.
    - rewrite !decide_False by (by rewrite <- mentions_spec).
      step. apply runs_ret.
      rewrite <- !app_assoc in R. cbn [app] in R.
      eapply runs_mono; [apply (IH X A h (s :: Y') (abs h cs :: B')); try done|].
      { intros y Hy. apply H0. by apply lookup_app_l_Some. }
      intros ? h2 (R2 & Ed2 & G2). rewrite <- !app_assoc. cbn [app]. split; [done|]. split; [done|].
      intros h0 G0 HZ0 Hr0. apply G2; [done| |done]. intros y Hy. apply HZ0. set_solver.
  Qed.

  Lemma Links_keep h h' v ids L t :
    RouteP h 0 v ids L \/ length ids = length L -> edited h h' -> Links h v ids ->
    (forall i s, ids !! i = Some s -> exists c, h_stops h !! s = Some c /\ L !! i = Some (abs h c)) ->
    NoDup ids -> dedicated t L ->
    (forall s c p, s ∈ ids -> h_stops h !! s = Some c -> p ∈ st_pickups c ++ st_deliveries c -> is_Some (h_pts h !! p)) ->
    Links h' v (keep_ids t ids L).
  Proof.
    intros Hlen Ed HL Hat Hnd D Kn s c' Hs Hc'.
    assert (Hl : length ids = length L).
    { destruct Hlen as [R|?]; [by eapply RouteP_length|done]. }
    apply elem_of_list_lookup in Hs as [i0 Hs]. apply keep_ids_lookup in Hs as (i & x & Hi & Hx & Hm).
    destruct (Hat i s Hi) as (c & Hc & Hx'). rewrite Hx in Hx'. injection Hx' as ->.
    destruct (ed_stops _ _ Ed _ _ Hc) as (c2 & Hc2 & _ & _ & E1 & E2 & _). rewrite Hc' in Hc2. injection Hc2 as <-.
    rewrite E1, E2.
    assert (Hsin : s ∈ ids) by (by eapply elem_of_list_lookup_2).
    destruct (HL s c Hsin Hc) as [H1 H2].
    (* the other end of a ride of another trip stays *)
    assert (Hother : forall j d dc u, ids !! j = Some d -> h_stops h !! d = Some dc ->
               mentions u (abs h dc) -> mentions u (abs h c) -> L !! j = Some (abs h dc) /\ ~ mentions t (abs h dc)).
    { intros j d dc u Hj Hdc Mu Mu'. destruct (Hat j d Hj) as (dc' & Hdc' & Hy).
      rewrite Hdc in Hdc'. injection Hdc' as <-. split; [done|]. intros Mt.
      assert (u = t).
      { destruct (events_mention t _ (D _ (elem_of_list_lookup_2 _ _ _ Hy) Mt) Mt) as [[F1 F2]|[F1 F2]];
          unfold mentions in Mu; rewrite F1, F2 in Mu; set_solver. }
      subst u. done. }
    assert (Htr : forall p q, trip_of h p ∈ map (trip_of h) q <-> trip_of h p ∈ map (trip_of h) q) by done.
    split; intros p Hp.
    - destruct (H1 p Hp) as (d & dc & pc & Hsub & Hd & Hpd & Hpc & V1 & V2 & V3).
      apply sublist2 in Hsub as (i' & j & Hij & Hi' & Hj).
      pose proof (NoDup_lookup_eq _ _ _ _ Hnd Hi Hi') as <-.
      destruct (Hother j d dc (trip_of h p)) as [Hy Hn]; [done|done|right; cbn; by apply elem_of_list_fmap_1|
        left; cbn; by apply elem_of_list_fmap_1|].
      destruct (ed_stops _ _ Ed _ _ Hd) as (dc' & Hd' & _ & _ & _ & F2 & _).
      destruct (ed_pts _ _ Ed _ _ Hpc) as (pc' & Hpc' & Ep). apply sk_pt_eq in Ep as (G1 & G2 & G3 & G4).
      exists d, dc', pc'. rewrite F2, G1, G3, G4. split; [|done].
      eapply (keep_ids_order t ids L i j); eauto.
    - destruct (H2 p Hp) as (d & dc & pc & Hsub & Hd & Hpd & Hpc & V1 & V2 & V3).
      apply sublist2 in Hsub as (j & i' & Hij & Hj & Hi').
      pose proof (NoDup_lookup_eq _ _ _ _ Hnd Hi Hi') as <-.
      destruct (Hother j d dc (trip_of h p)) as [Hy Hn]; [done|done|left; cbn; by apply elem_of_list_fmap_1|
        right; cbn; by apply elem_of_list_fmap_1|].
      destruct (ed_stops _ _ Ed _ _ Hd) as (dc' & Hd' & _ & _ & F1 & _ & _).
      destruct (ed_pts _ _ Ed _ _ Hpc) as (pc' & Hpc' & Ep). apply sk_pt_eq in Ep as (G1 & G2 & G3 & G4).
      exists d, dc', pc'. rewrite F1, G1, G3, G4. split; [|done].
      eapply (keep_ids_order t ids L j i); eauto.
  Qed.

  Lemma keep_ids_length t X A : length X = length A -> length (keep_ids t X A) = length (without t A).
  Proof.
    revert A. induction X as [|s X IH]; intros [|x A] Hl; cbn in Hl; try done.
    replace (without t (x :: A)) with (without t ([x] ++ A)) by done.
    unfold without. rewrite filter_app, app_length. fold (without t A). cbn [keep_ids].
    rewrite filter_cons, filter_nil.
    repeat case_decide; try done; cbn [length]; rewrite IH; auto.
  Qed.

  Lemma remove_trip_runs h r v ids L t :
    RouteOK h r v ids L -> t ∈ boards L -> dedicated t L ->
    runs (remove_trip r t) h (fun _ h' =>
      RouteOK h' r v (keep_ids t ids L) (without t L) /\
      length (h_stops h') = length (h_stops h) /\ length (h_pts h') = length (h_pts h) /\
      length (h_routes h') = length (h_routes h) /\
      (forall h0, grow h0 h -> (forall q, q ∈ ids -> (length (h_stops h0) <= q)%nat) ->
         (length (h_routes h0) <= r)%nat -> grow h0 h') /\
      (forall x c, h_stops h !! x = Some c -> exists c', h_stops h' !! x = Some c' /\
         st_pickups c' = st_pickups c /\ st_deliveries c' = st_deliveries c)).
  Proof.
    intros RO Ht D. pose proof RO as [RW T]. pose proof (RouteW_P _ _ _ _ _ RW) as RP.
    pose proof (RouteW_length _ _ _ _ _ RW) as Hl.
    unfold remove_trip. step. eapply runs_route_stops; [exact RW|].
    destruct (tour_last _ _ T) as (front & xn & EL & _ & Bn & An).
    destruct (tour_first _ _ T) as (x0 & rest & EL0 & _ & _ & B0 & A0).
    assert (Hids : exists ids0 sn, ids = ids0 ++ [sn]).
    { destruct ids as [|sn ids0 _] using rev_ind; [|eauto]. rewrite EL, app_length in Hl. cbn in Hl. lia. }
    destruct Hids as (ids0 & sn & Hids).
    assert (Hlf : length ids0 = length front) by (rewrite Hids, EL, !app_length in Hl; cbn in Hl; lia).
    assert (Hnn : ~ mentions t xn) by (unfold mentions; rewrite Bn, An; intros [H|H]; inversion H).
    step.
    eapply (runs_mono _ _ (fun _ h' => RouteP h' r v (keep_ids t ids L) (without t L) /\ edited h h' /\
      (forall h0, grow h0 h -> (forall q, q ∈ ids -> (length (h_stops h0) <= q)%nat) ->
         (length (h_routes h0) <= r)%nat -> grow h0 h'))).
    { assert (Hsn : ids !! length ids0 = Some sn)
        by (rewrite Hids, lookup_app_r by done; by rewrite Nat.sub_diag).
      destruct (RouteP_lookup _ _ _ _ _ _ _ RP Hsn) as (cs & x' & Hcs & Hx & -> & K & _).
      rewrite EL, lookup_app_r, Hlf, Nat.sub_diag in Hx by lia. cbn in Hx. injection Hx as Hx.
      replace (length ids) with (S (length ids0)) by (rewrite Hids, app_length; cbn; lia).
      cbn [remove_trip_loop]. step. eapply runs_route_stops; [exact RW|].
      step. eapply runs_nth; [exact Hsn|]. step. eapply runs_stop_has_trip; [exact Hcs|done|].
      rewrite <- Hx, bool_decide_eq_false_2 by done. step. apply runs_ret.
      assert (EK : keep_ids t ids L = keep_ids t ids0 front ++ [sn]).
      { rewrite Hids, EL, keep_ids_snoc by done. by rewrite decide_False by (by rewrite <- mentions_spec). }
      assert (EW : without t L = without t front ++ [xn]).
      { rewrite EL, without_snoc. by rewrite decide_False by (by rewrite <- mentions_spec). }
      rewrite EK, EW.
      eapply runs_mono; [apply (remove_trip_loop_runs r v t [sn] [xn] ltac:(done) (length ids0) ids0 front h [] [])|];
        try done; [by rewrite Hids, EL in RP| |].
      { intros x Hx1. assert (x = x0) as ->.
        { assert (L !! 0%nat = Some x) by (rewrite EL; by apply lookup_app_l_Some). rewrite EL0 in H. by injection H. }
        unfold mentions. rewrite B0, A0. intros [H|H]; inversion H. }
      intros ? h' (R' & Ed & G'). split; [done|]. split; [done|]. intros h0 G0 Hq Hr. apply G'; [done| |done].
      intros q Hq1. apply Hq. by rewrite Hids. }
    intros ? h1 (R1 & Ed & G1).
    assert (W1 : RouteW h1 r v (keep_ids t ids L) (without t L)).
    { split; [apply R1|apply R1|apply rides_without; [done|apply T]|].
      eapply (Links_keep h h1); [right; exact Hl|done|apply RW| | |done|].
      - intros i s Hi. destruct (RouteP_lookup _ _ _ _ _ _ _ RP Hi) as (c & x & Hc & Hx & -> & _). eauto.
      - by eapply RouteW_NoDup.
      - intros s c p Hs Hc Hp. apply elem_of_list_lookup in Hs as [i Hi].
        destruct (RouteP_lookup _ _ _ _ _ _ _ RP Hi) as (c' & x & Hc' & Hx & -> & K & _).
        rewrite Hc in Hc'. injection Hc' as <-. by apply K. }
    step. eapply runs_route_stops; [exact W1|].
    step. apply runs_assert.
    { apply Nat.eqb_eq. rewrite keep_ids_length, Hl, (without_length t L) by (try done; apply T). lia. }
    step. eapply runs_mono; [by eapply assert_linked_runs|]. intros ? h2 ->.
    eapply runs_mono; [by eapply assert_monotone_runs|]. intros ? h2 Q.
    assert (RO1 : RouteOK h1 r v (keep_ids t ids L) (without t L)) by (split; [done|by apply tour_without]).
    pose proof (quiet_soft _ _ Q) as SQ. pose proof SQ as (G12 & L1 & L2 & L3 & _).
    split; [by eapply RouteOK_soft|].
    rewrite L1, L2, L3, (ed_nstops _ _ Ed), (ed_npts _ _ Ed), (ed_nroutes _ _ Ed).
    split; [done|]. split; [done|]. split; [done|]. split.
    - intros h0 G0 Hq Hr. eapply grow_trans; [by apply G1|done].
    - intros x c Hc. destruct (ed_stops _ _ Ed _ _ Hc) as (c1 & Hc1 & _ & _ & E1 & E2 & _).
      destruct (g_stops _ _ G12 _ _ Hc1) as (c2 & Hc2 & E). apply sk_stop_eq in E as (_ & _ & E3 & E4 & _).
      exists c2. split; [done|]. split; congruence.
  Qed.
End remove.
