(** Local search by reallocation: strategies/plannings/reallocation.py and
    strategies/abc.py. *)
From Verif Require Export RankingTheorems ValueTheorems.
From Verif Require Import Values.

(** kinds of tours that a trip can be taken out of *)
Class Loose {W : World} {Sh : Shape} : Prop := {
  good_simple : forall v xs, good v xs -> simple xs;
  good_without : forall v t xs, tour v xs -> good v xs -> t ∈ boards xs ->
    (trusted -> nearly v (without t xs)) -> good v (without t xs)
}.
Global Instance simple_loose {W : World} : @Loose W simple_shape.
Proof. split; [done|]. intros v t xs T S Ht _. by eapply simple_without. Qed.

Section reallocation.
  Context {W : World} {Sh : Shape} {Ls : Loose}.

  Lemma trust_evolves h h' : evolves h h' -> (trusted -> Trust h) -> trusted -> Trust h'.
  Proof. intros E HT T. exact (Trust_evolves _ _ E (HT T)). Qed.

  (** ** Plannings with their assignment of trips to vehicles *)
  Definition Plan (h : heap) (rs : list nat) (A : list (nat * list nat)) : Prop :=
    Forall2 (fun r a => Serves h r a.1 a.2) rs A /\ NoDup (map fst A) /\ NoDup (concat (map snd A)).
  Lemma Plan_evolves h h' rs A : evolves h h' -> Plan h rs A -> Plan h' rs A.
  Proof.
    intros E (F & H1 & H2). split; [|done]. eapply Forall2_impl; [exact F|]. intros r a S. by eapply Serves_evolves.
  Qed.
  Lemma concat_perm {A} (l l' : list (list A)) : l ≡ₚ l' -> concat l ≡ₚ concat l'.
  Proof.
    induction 1 as [|x l l' _ IH|x y l|l1 l2 l3 _ IH1 _ IH2]; cbn; [done|by rewrite IH| |by etrans].
    rewrite !app_assoc. apply Permutation_app_tail, Permutation_app_comm.
  Qed.
  Lemma Plan_perm h rs rs' A : rs ≡ₚ rs' -> Plan h rs A -> exists A', A ≡ₚ A' /\ Plan h rs' A'.
  Proof.
    intros P (F & H1 & H2). destruct (Permutation_Forall2 P F) as (A' & PA & F'). exists A'. split; [done|].
    split; [done|]. split; [by rewrite <- PA|]. by rewrite <- (concat_perm (map snd A)) by (by rewrite PA).
  Qed.
  Lemma Plan_served h rs A r : Plan h rs A -> r ∈ rs -> served h r.
  Proof.
    intros (F & _) Hr. apply elem_of_list_lookup_1 in Hr as [i Hi]. destruct (Forall2_lookup_l _ _ _ _ _ F Hi) as (a & _ & S).
    by exists a.1, a.2.
  Qed.
  Lemma concat_disjoint {A} (l : list (list A)) i j x y t : NoDup (concat l) -> l !! i = Some x -> l !! j = Some y ->
    t ∈ x -> t ∈ y -> i = j.
  Proof.
    revert i j. induction l as [|z l IH]; intros i j; cbn; [done|].
    intros (N1 & N2 & N3)%NoDup_app Hi Hj Hx Hy. destruct i as [|i], j as [|j]; cbn in *.
    - done.
    - injection Hi as ->. exfalso. apply (N2 t Hx). apply elem_of_list_In, in_concat. exists y.
      split; apply elem_of_list_In; [by eapply elem_of_list_lookup_2|done].
    - injection Hj as ->. exfalso. apply (N2 t Hy). apply elem_of_list_In, in_concat. exists x.
      split; apply elem_of_list_In; [by eapply elem_of_list_lookup_2|done].
    - f_equal. by apply IH.
  Qed.

  (** ** Taking a trip out of a copy of a route *)
  Lemma without_perm (t : nat) B : NoDup B -> t ∈ B -> B ≡ₚ t :: filter (fun u => u <> t) B.
  Proof.
    induction B as [|b B IH]; [inversion 2|]. intros [Hb Hn]%NoDup_cons Ht. rewrite filter_cons.
    destruct (decide (b = t)) as [->|Hne].
    - rewrite decide_False by (intros ?; done). constructor. clear IH Ht Hn. induction B as [|c B IH]; [done|].
      rewrite filter_cons_True by set_solver. constructor. apply IH. set_solver.
    - rewrite decide_True by done. apply elem_of_cons in Ht as [?|Ht]; [done|]. rewrite (IH Hn Ht) at 1. by constructor 3.
  Qed.
  Lemma keep_ids_new h th ids t L s : (th = 0)%nat -> s ∈ keep_ids t (clone_ids h th ids) L -> (length (h_stops h) <= s)%nat.
  Proof.
    intros -> Hs. assert (Hin : s ∈ clone_ids h 0 ids).
    { eapply elem_of_submseteq; [exact Hs|]. apply sublist_submseteq, keep_ids_sublist. }
    unfold clone_ids in Hin. cbn in Hin. apply elem_of_seq in Hin. lia.
  Qed.
  Lemma take_out_runs h r v B t : sane -> HInv h -> (trusted -> Trust h) -> Serves h r v B -> t ∈ B ->
    runs (let! r' := route_clone r 0 in remove_trip r' t ;;; route_flush r' ;;; let! b := route_feasible r' in ret (r', b)) h
      (fun x h' => evolves h h' /\ HInv h' /\ (x.2 = true -> exists B', Serves h' x.1 v B' /\ B ≡ₚ t :: B')).
  Proof.
    intros [SD SC] HI HT (ids & L & R & G & <-) Ht. step. unfold route_clone. step.
    eapply runs_mono; [eapply runs_hush; [apply hush_cloner_clone|by eapply cloner_clone_runs]|].
    intros [r' th] h1 [C Nc]. cbn [fst snd] in C. apply runs_ret.
    assert (th = 0%nat) as Hth by (destruct (cl_cut _ _ _ _ _ _ _ _ C) as [?|?]; lia).
    pose proof (cl_ok _ _ _ _ _ _ _ _ C) as R1. pose proof (Cloned_grow _ _ _ _ _ _ _ _ C) as G1.
    pose proof (cl_route _ _ _ _ _ _ _ _ C) as Er.
    assert (D : dedicated t L) by (eapply simple_dedicated; [apply R|by eapply good_simple]).
    assert (N1 : length (h_routes h1) = S (length (h_routes h))).
    { rewrite (cl_routes _ _ _ _ _ _ _ _ C), app_length. cbn. lia. }
    step. eapply runs_mono; [eapply runs_hush; [apply hush_remove_trip|by eapply remove_trip_runs]|].
    intros ? h2 ((R2 & L1 & L2 & L3 & MG & MP) & Nr).
    assert (G2 : grow h h2).
    { apply MG; [done| |lia]. intros q Hq. rewrite Hth in Hq. unfold clone_ids in Hq. cbn in Hq. apply elem_of_seq in Hq. lia. }
    assert (HI2 : HInv h2).
    { eapply (HInv_extend h h2); [done|by apply later_grow|lia|done|exact R2|]. intros s Hs. left.
      eapply keep_ids_new; [exact Hth|]. by eapply elem_of_list_lookup_2. }
    assert (E02 : evolves h h2).
    { split; [by apply later_grow|split; [lia|]].
      assert (N02 : hushes h h2) by by eapply hushes_trans.
      intros g. apply (Worth_extend g h h2); [done|done|by apply later_grow|done|].
      intros r0 rc s cs Hr0 Hrc Hs' Hcs Hcase. exfalso.
      assert (r0 = r') as -> by (apply lookup_lt_Some in Hrc; lia).
      destruct (rw_cell _ _ _ _ _ (proj1 R2)) as (c2 & Hc2 & _ & E2). rewrite Hrc in Hc2. injection Hc2 as <-. rewrite E2 in Hs'.
      assert (Hge : (length (h_stops h) <= s)%nat) by (by eapply keep_ids_new; [exact Hth|]).
      destruct N02 as (K1 & K2 & _). destruct Hcase as [Hf|(q & qc & Hq & Hqc & Hf)].
      { destruct (K1 s cs g Hcs Hf) as (c & Hc & _). apply lookup_lt_Some in Hc. lia. }
      destruct (K2 q qc g Hqc Hf) as (qc0 & Hqc0 & _). apply lookup_lt_Some in Hqc0.
      assert (Hs1 : exists c1, h_stops h1 !! s = Some c1) by (apply lookup_lt_is_Some; apply lookup_lt_Some in Hcs; lia).
      destruct Hs1 as [c1 Hc1]. destruct (MP s c1 Hc1) as (c3 & Hc3 & E & _). rewrite Hcs in Hc3. injection Hc3 as <-.
      rewrite E in Hq. destruct (cl_stops _ _ _ _ _ _ _ _ C) as (N & EN & HlN & HfN).
      rewrite EN in Hc1. apply lookup_app_Some in Hc1 as [Hc1|[_ Hc1]]; [apply lookup_lt_Some in Hc1; lia|].
      rewrite Forall_lookup in HfN. destruct (HfN _ _ Hc1) as (_ & _ & HN). specialize (HN q). rewrite elem_of_app in HN.
      specialize (HN (or_introl Hq)). lia. }
    step. eapply runs_mono; [eapply route_flush_runs, RouteW_P, R2|]. intros ? h3 (S3 & _).
    pose proof (RouteOK_soft _ _ _ _ _ _ S3 R2) as R3.
    assert (E03 : evolves h h3) by (eapply evolves_trans; [exact E02|by apply evolves_soft, S3]).
    step. eapply runs_mono; [eapply route_feasible_runs; [done|done|apply R3|by eapply RouteW_nonempty]|]. intros b h4 (S4 & _ & NB & _).
    pose proof (RouteOK_soft _ _ _ _ _ _ S4 R3) as R4. apply runs_ret. cbn [fst snd].
    split; [|split].
    - eapply evolves_trans; [exact E03|by apply evolves_soft, S4].
    - eapply HInv_soft; [|exact S4]. by eapply HInv_soft.
    - intros ->. exists (boards (without t L)). split.
      + eexists _, _. split; [exact R4|]. split; [|done]. apply good_without; [apply R|done|done|].
        intros HT'. apply NB; [|done]. exact (proj2 (proj2 E03) true (proj1 (HT HT'))).
      + rewrite boards_without by done. apply without_perm; [apply (rw_rides _ _ _ _ _ (proj1 R))|done].
  Qed.

  (** ** Values do not depend on when a vehicle leaves its origin *)
  Lemma driven_anytime here xs : driven here (map anytime xs) = driven here xs.
  Proof. revert here. induction xs as [|x xs IH]; intros here; cbn; [done|]. by rewrite IH. Qed.
  Lemma moment_same b (g : Z * Z * Z -> Z) (R : list visit) TX TY :
    map service_of TX = map service_of TY ->
    match List.filter (fun p : visit * timing => b p.1) (zip R TX) with [] => 0 | p :: _ => g (service_of p.2) end =
    match List.filter (fun p : visit * timing => b p.1) (zip R TY) with [] => 0 | p :: _ => g (service_of p.2) end.
  Proof.
    revert TX TY. induction R as [|x R IH]; intros [|T TX] [|S TY] E; try done. cbn [map] in E.
    assert (E1 : service_of T = service_of S) by congruence. assert (E2 : map service_of TX = map service_of TY) by congruence.
    cbn [zip zip_with List.filter fst]. destruct (b x); [cbn [snd]; by rewrite E1|]. by apply IH.
  Qed.
  Lemma similar_moment v xs ys b (g : Z * Z * Z -> Z) : tour v xs -> tour v ys -> similar v xs ys ->
    (forall x, vi_board x = [] -> vi_alight x = [] -> b x = false) ->
    moment b (fun T => g (service_of T)) v xs = moment b (fun T => g (service_of T)) v ys.
  Proof.
    intros Tx Ty (_ & E2 & E3) Hb. destruct (tour_first _ _ Tx) as (x0 & R & -> & _ & _ & Hx1 & Hx2).
    destruct (tour_first _ _ Ty) as (y0 & R' & -> & _ & _ & Hy1 & Hy2). rewrite !skipn_cons, !drop_0 in E2. subst R'.
    unfold moment, timetable in *. cbn [schedule map] in E3. rewrite !skipn_cons in E3. cbn [schedule zip zip_with List.filter fst].
    rewrite (Hb x0), (Hb y0) by done. rewrite !drop_0 in E3. by apply moment_same.
  Qed.
  Lemma value_similar o v xs ys : tour v xs -> tour v ys -> similar v xs ys -> value_of o v xs = value_of o v ys.
  Proof.
    intros Tx Ty S. assert (EB : boards xs = boards ys).
    { destruct S as [E _]. by rewrite <- (boards_anytime xs), E, boards_anytime. }
    assert (P : forall t, picked_up_at v xs t = picked_up_at v ys t).
    { intros t. apply (similar_moment v xs ys _ (fun s => s.1.2)); [done..|]. intros x H1 _. rewrite H1. apply bool_decide_eq_false_2. set_solver. }
    assert (D : forall t, dropped_off_at v xs t = dropped_off_at v ys t).
    { intros t. apply (similar_moment v xs ys _ (fun s => s.1.1)); [done..|]. intros x _ H1. rewrite H1. apply bool_decide_eq_false_2. set_solver. }
    destruct o; cbn.
    - rewrite EB. unfold travelled. destruct S as [E _]. by rewrite <- (driven_anytime _ xs), E, driven_anytime.
    - rewrite EB. f_equal. f_equal. apply map_ext. intros t. unfold ride_time. by rewrite P, D.
    - rewrite EB. f_equal. f_equal. apply map_ext. intros t. unfold ride_score. by rewrite P.
  Qed.

  (** the last component of the value of a route *)
  Definition Priced (o : objective) (h : heap) (r : nat) (z : Z) : Prop :=
    exists v ids L, RouteOK h r v ids L /\ last (value_of o v L) = Some z.
  Lemma Priced_evolves o h h' r z : evolves h h' -> Priced o h r z -> Priced o h' r z.
  Proof.
    intros E (v & ids & L & R & Hz). destruct (lt_routes _ _ (proj1 E) _ _ _ _ R) as (L' & R' & S).
    exists v, ids, L'. split; [done|]. by rewrite <- (value_similar o v L L' (proj2 R) (proj2 R') S).
  Qed.
  Lemma Priced_det o h r z z' : Priced o h r z -> Priced o h r z' -> z = z'.
  Proof.
    intros (v & ids & L & [R _] & Hz) (v' & ids' & L' & [R' _] & Hz'). destruct (RouteW_det _ _ _ _ _ _ _ _ R R') as (<- & <- & <-). congruence.
  Qed.
  (** the last component of the value of a planning *)
  Definition Sold (o : objective) (h : heap) (rs : list nat) (z : Z) : Prop :=
    exists zs, Forall2 (Priced o h) rs zs /\ z = sum_of zs.
  Lemma sum_of_perm l m : l ≡ₚ m -> sum_of l = sum_of m.
  Proof. unfold sum_of. induction 1; cbn; lia. Qed.
  Lemma Sold_perm o h rs rs' z : rs ≡ₚ rs' -> Sold o h rs z -> Sold o h rs' z.
  Proof.
    intros P (zs & F & ->). destruct (Permutation_Forall2 P F) as (zs' & Hz & F'). exists zs'. split; [done|]. by apply sum_of_perm.
  Qed.
  Lemma Sold_det o h rs z z' : Sold o h rs z -> Sold o h rs z' -> z = z'.
  Proof.
    intros (zs & F & ->) (zs' & F' & ->). f_equal. revert zs' F'. induction F as [|r a rs zs H F IH]; intros zs' F'; inversion F'; subst; [done|].
    f_equal; [by eapply Priced_det|by apply IH].
  Qed.
  Lemma Sold_evolves o h h' rs z : evolves h h' -> Sold o h rs z -> Sold o h' rs z.
  Proof. intros E (zs & F & ->). exists zs. split; [|done]. eapply Forall2_impl; [exact F|]. intros. by eapply Priced_evolves. Qed.
  Lemma value_of_last o v L : exists z, last (value_of o v L) = Some z /\
    value_of o v L = match o with DialARide => [Z.of_nat (length (boards L)); z] | _ => [z] end.
  Proof. destruct o; eexists; split; reflexivity. Qed.
  Lemma Serves_priced o h r v B : Serves h r v B -> exists z, Priced o h r z.
  Proof. intros (ids & L & R & _). destruct (value_of_last o v L) as (z & Hz & _). exists z, v, ids, L. done. Qed.
  Lemma Plan_sold o h rs A : Plan h rs A -> exists z, Sold o h rs z /\
    total_worth o h rs (match o with DialARide => [Z.of_nat (length (concat (map snd A))); z] | _ => [z] end).
  Proof.
    intros (F & _). induction F as [|r [v B] rs A S F (z & (zs & FZ & ->) & (xs & FX & E))].
    { exists 0. split; [by exists []|]. exists []. split; [constructor|]. by destruct o. }
    destruct S as (ids & L & R & _ & EB). cbn [fst snd] in *. destruct (value_of_last o v L) as (z & Hz & Ev).
    exists (z + sum_of zs). split.
    { exists (z :: zs). split; [|done]. constructor; [|done]. by exists v, ids, L. }
    exists (value_of o v L :: xs). split.
    { constructor; [|done]. exists v, ids, L. split; [|done]. apply well_formed_RouteW, R. }
    unfold total_value in *. cbn [foldr map concat snd]. rewrite <- E, Ev. rewrite app_length, EB. destruct o; cbn; f_equal; lia.
  Qed.

  Lemma Plan_worth o h rs A : Plan h rs A -> exists x, total_worth o h rs x /\ x <> [].
  Proof. intros (z & _ & Hx)%(Plan_sold o). eexists. split; [exact Hx|]. by destruct o. Qed.

  (** ** The best move so far: trip [t] goes from vehicle [v] to vehicle [w] *)
  Definition Move (o : objective) (h : heap) (rs : list nat) (a b : nat) (gain : Z) : Prop :=
    exists q r v B w C t B' C' zq zr za zb, v <> w /\ q ∈ rs /\ r ∈ rs /\ Serves h q v B /\ Serves h r w C /\
      Serves h a v B' /\ B ≡ₚ t :: B' /\ Serves h b w C' /\ C' ≡ₚ t :: C /\
      Priced o h q zq /\ Priced o h r zr /\ Priced o h a za /\ Priced o h b zb /\ gain = za + zb - zq - zr.
  Definition Found (o : objective) (base : Z) (h : heap) (rs : list nat) (st : realloc_state) : Prop :=
    ra_routes st = [] /\ ra_best st = base \/
    exists a b, ra_routes st = [a; b] /\ base < ra_best st /\ Move o h rs a b (ra_best st - base).
  Lemma Found_evolves o base h h' rs st : evolves h h' -> Found o base h rs st -> Found o base h' rs st.
  Proof.
    intros E [?|(a & b & Er & Hb & q & r & v & B & w & C & t & B' & C' & zq & zr & za & zb & H1 & H2 & H3 & H4 & H5 & H6 & H7 & H8 & H9 & H10 & H11 & H12 & H13 & H14)]; [by left|right].
    exists a, b. split; [done|]. split; [done|]. exists q, r, v, B, w, C, t, B', C', zq, zr, za, zb.
    repeat (split; [first [done|by eapply Serves_evolves|by eapply Priced_evolves]|]). done.
  Qed.

  Lemma last_component_runs (l : list Z) z (h : heap) (Q : Z -> heap -> Prop) : last l = Some z -> Q z h -> runs (last_component l) h Q.
  Proof. intros Hl HQ. unfold last_component. rewrite Hl. by apply runs_ret. Qed.
  Lemma serves_value_runs o h r v B (Q : list Z -> heap -> Prop) : Serves h r v B ->
    (forall x z h', last x = Some z -> Priced o h r z -> soft h h' -> Q x h') -> runs (route_value o r) h Q.
  Proof.
    intros (ids & L & R & _) HQ. eapply gives_det_runs; [eapply route_value_gives, R|]. intros h' [S _].
    destruct (value_of_last o v L) as (z & Hz & _). apply (HQ _ z); [done| |done]. by exists v, ids, L.
  Qed.

  Lemma realloc_insert_runs o base rs q r w C v B t a B' za zq zr cost st p h :
    sane -> HInv h -> (trusted -> Trust h) -> q ∈ rs -> r ∈ rs -> Serves h q v B -> Serves h r w C -> t ∉ C -> v <> w ->
    Serves h a v B' -> B ≡ₚ t :: B' -> Priced o h q zq -> Priced o h r zr -> Priced o h a za -> cost = base - zq - zr + za ->
    Found o base h rs st ->
    (p.1 < p.2 /\ forall ids L, RouteOK h r w ids L -> p.2 < length L)%nat ->
    runs (realloc_insert o a r t cost st p) h (fun st' h' => evolves h h' /\ HInv h' /\ Found o base h' rs st').
  Proof.
    intros Hs HI HT Hq Hr Sq Sr Ht Hne Sa HB Pq Pr Pa -> F [Hp1 Hp2]. pose proof Sr as Sr0.
    destruct Sr as (ids & L & R & G & <-). specialize (Hp2 ids L R).
    unfold realloc_insert. step. eapply runs_mono; [apply (compute_runs true h r w ids L [t] p.1 p.2)|]; [apply Hs|apply Hs|done|done| |done|].
    { intros u ->%elem_of_list_singleton. done. }
    intros ds h1 (HI1 & E1 & rss & -> & F2). inversion F2 as [|? l ? ? Hl F3]; subst. inversion F3; subst. cbn [concat].
    rewrite app_nil_r. destruct Hl as [[_ ->]|(d & -> & _ & (ids' & L' & R' & EL') & HN)].
    { apply runs_ret. split; [done|]. split; [done|]. by eapply Found_evolves. }
    assert (Sd : Serves h1 d w (boards L')).
    { exists ids', L'. split; [done|]. split; [|done]. eapply good_serve; [apply R|exact (conj Hp1 Hp2)|done|done|].
      intros HT'. exact (Fine_serve _ _ _ _ _ _ _ (HT HT') (HN eq_refl (proj1 (HT HT'))) R'). }
    step. eapply serves_value_runs; [exact Sd|]. intros x z h2 Hx Pz S2. step. eapply last_component_runs; [done|].
    assert (E2 : evolves h h2) by (eapply evolves_trans; [exact E1|by apply evolves_soft]).
    assert (HI2 : HInv h2) by by eapply HInv_soft.
    destruct (Z.ltb_spec (ra_best st) (base - zq - zr + za + z)) as [Hlt|Hge]; cbn [negb]; apply runs_ret; (split; [done|]; split; [done|]).
    2:{ by eapply Found_evolves. }
    right. exists a, d. split; [done|]. cbn [ra_best].
    assert (Hb : base <= ra_best st) by (destruct F as [[_ F]|(? & ? & _ & F & _)]; lia). split; [lia|].
    exists q, r, v, B, w, (boards L), t, B', (boards L'), zq, zr, za, z.
    do 3 (split; [done|]). split; [by eapply Serves_evolves; [exact E2|]|]. split; [by eapply Serves_evolves; [exact E2|]|].
    split; [by eapply Serves_evolves; [exact E2|]|]. split; [done|]. split; [by eapply Serves_soft|].
    split; [rewrite <- (boards_anytime L'), EL', boards_anytime; apply boards_serve; lia|].
    split; [by eapply Priced_evolves; [exact E2|]|]. split; [by eapply Priced_evolves; [exact E2|]|].
    split; [by eapply Priced_evolves; [exact E2|]|]. split; [by eapply Priced_evolves; [by apply evolves_soft|]|]. lia.
  Qed.

  Lemma realloc_trip_runs o base rs r w C v B q t zq zr partial st h :
    sane -> HInv h -> (trusted -> Trust h) -> q ∈ rs -> r ∈ rs -> Serves h q v B -> Serves h r w C -> t ∈ B -> t ∉ C -> v <> w ->
    Priced o h q zq -> Priced o h r zr -> partial = base - zq - zr -> Found o base h rs st ->
    runs (realloc_trip o q r partial st t) h (fun st' h' => evolves h h' /\ HInv h' /\ Found o base h' rs st').
  Proof.
    intros Hs HI HT Hq Hr Sq Sr HtB HtC Hne Pq Pr -> F. unfold realloc_trip.
    pose proof (take_out_runs h q v B t Hs HI HT Sq HtB) as T. apply runs_bind_inv in T. step.
    eapply runs_mono; [exact T|]. clear T. intros a h1 T. apply runs_bind_inv in T. step.
    eapply runs_mono; [exact T|]. clear T. intros ? h2 T. apply runs_bind_inv in T. step.
    eapply runs_mono; [exact T|]. clear T. intros ? h3 T. apply runs_bind_inv in T. step.
    eapply runs_mono; [exact T|]. clear T. intros b h4 T. unfold runs, ret in T. cbn in T.
    destruct T as (E4 & HI4 & Sa). destruct b; cbn [negb].
    2:{ clear Sa. apply runs_ret. split; [done|]. split; [done|]. by eapply Found_evolves. }
    destruct (Sa eq_refl) as (B' & Sa' & HB). clear Sa. rename Sa' into Sa.
    step. eapply serves_value_runs; [exact Sa|]. intros x z h5 Hx Pz S5. step. eapply last_component_runs; [done|].
    assert (E5 : evolves h h5) by (eapply evolves_trans; [exact E4|by apply evolves_soft]).
    assert (HI5 : HInv h5) by by eapply HInv_soft.
    pose proof (Serves_evolves _ _ _ _ _ E5 Sr) as Sr5. destruct Sr5 as (ids & L & R & G & EC).
    step. eapply runs_route_stops; [apply R|]. pose proof (RouteW_length _ _ _ _ _ (proj1 R)) as Hl.
    pose proof (tour_length _ _ (proj2 R)) as H2.
    step. apply sample_pairs_runs; [lia|]. intros ps k Hps. set (h6 := MkHeap _ _ _ _).
    assert (E6 : evolves h h6) by (eapply evolves_trans; [exact E5|apply evolves_tick]).
    assert (HI6 : HInv h6) by by apply HInv_tick.
    eapply runs_mono.
    { apply (runs_foldM _ (fun st' h' => evolves h6 h' /\ HInv h' /\ Found o base h' rs st')).
      - split; [apply evolves_refl|]. split; [done|]. by eapply Found_evolves.
      - intros st' [i j] h7 Hp (E7 & HI7 & F7).
        assert (E57 : evolves h5 h7) by (eapply evolves_trans; [apply evolves_tick|exact E7]).
        assert (E07 : evolves h h7) by (eapply evolves_trans; [exact E5|exact E57]).
        assert (E47 : evolves h4 h7) by (eapply evolves_trans; [by apply evolves_soft|exact E57]).
        eapply runs_mono; [apply (realloc_insert_runs o base rs q r w C v B t a B' z zq zr); try done|].
        + exact (trust_evolves _ _ E07 HT).
        + by eapply Serves_evolves; [exact E07|].
        + by eapply Serves_evolves; [exact E07|].
        + by eapply Serves_evolves; [exact E47|].
        + by eapply Priced_evolves; [exact E07|].
        + by eapply Priced_evolves; [exact E07|].
        + by eapply Priced_evolves; [exact E47|].
        + apply Hps in Hp. cbn. split; [lia|]. intros ids' L' R'.
          destruct (RouteOK_evolves _ _ _ _ _ _ R E57) as (L7 & R7 & E). destruct (RouteW_det _ _ _ _ _ _ _ _ (proj1 R') (proj1 R7)) as (_ & _ & ->).
          rewrite (anytime_length _ _ E). lia.
        + intros st'' h8 (E8 & HI8 & F8). split; [by eapply evolves_trans|done]. }
    intros st' h7 (E7 & HI7 & F7). split; [by eapply evolves_trans|done].
  Qed.

  Lemma permutations2_elem {T} (l : list T) a b : (a, b) ∈ permutations2 l -> exists i j, i <> j /\ l !! i = Some a /\ l !! j = Some b.
  Proof.
    unfold permutations2. intros H. apply elem_of_list_In in H. apply in_flat_map in H as (i & _ & H). apply in_flat_map in H as (j & _ & H).
    exists i, j. destruct (decide (i = j)) as [|Hne]; [done|]. split; [done|].
    destruct (l !! i) as [x|], (l !! j) as [y|]; try done. destruct H as [[= -> ->]|[]]. done.
  Qed.
  Lemma realloc_pair_runs o base rs A p st h :
    sane -> HInv h -> (trusted -> Trust h) -> Plan h rs A -> p ∈ permutations2 rs -> Found o base h rs st ->
    runs (realloc_pair o base st p) h (fun st' h' => evolves h h' /\ HInv h' /\ Found o base h' rs st').
  Proof.
    destruct p as [q r]. intros Hs HI HT (FS & N1 & N2) (i & j & Hij & Hi & Hj)%permutations2_elem F.
    destruct (Forall2_lookup_l _ _ _ _ _ FS Hi) as ([v B] & Ai & Sq). destruct (Forall2_lookup_l _ _ _ _ _ FS Hj) as ([w C] & Aj & Sr).
    cbn [fst snd] in Sq, Sr.
    assert (Hne : v <> w).
    { intros <-. apply Hij. eapply NoDup_lookup_eq; [exact N1| |]; rewrite list_lookup_fmap; [rewrite Ai|rewrite Aj]; done. }
    unfold realloc_pair. cbn [fst snd].
    step. eapply serves_value_runs; [exact Sq|]. intros x1 z1 h1 Hx1 P1 S1. step. eapply last_component_runs; [done|].
    pose proof (Serves_soft _ _ _ _ _ S1 Sr) as Sr1. pose proof (Serves_soft _ _ _ _ _ S1 Sq) as Sq1.
    step. eapply serves_value_runs; [exact Sr1|]. intros x2 z2 h2 Hx2 P2 S2. step. eapply last_component_runs; [done|].
    pose proof (Serves_soft _ _ _ _ _ S2 Sr1) as Sr2. pose proof (Serves_soft _ _ _ _ _ S2 Sq1) as Sq2.
    assert (E2 : evolves h h2) by (eapply evolves_trans; by apply evolves_soft).
    assert (HI2 : HInv h2) by (eapply HInv_soft; [|exact S2]; by eapply HInv_soft).
    step. eapply runs_serves_trips; [exact Sq2|].
    eapply runs_mono.
    { apply (runs_foldM _ (fun st' h' => evolves h2 h' /\ HInv h' /\ Found o base h' rs st')).
      - split; [apply evolves_refl|]. split; [done|]. by eapply Found_evolves.
      - intros st' t h3 Ht (E3 & HI3 & F3).
        eapply runs_mono; [apply (realloc_trip_runs o base rs r w C v B q t z1 z2); try done|].
        + exact (trust_evolves _ _ (evolves_trans _ _ _ E2 E3) HT).
        + by eapply elem_of_list_lookup_2.
        + by eapply elem_of_list_lookup_2.
        + by eapply Serves_evolves.
        + by eapply Serves_evolves.
        + intros HtC. apply Hij. eapply (concat_disjoint (map snd A) i j B C t); [done| | |done|done].
          * by rewrite list_lookup_fmap, Ai.
          * by rewrite list_lookup_fmap, Aj.
        + eapply Priced_evolves; [|exact P1]. by eapply evolves_trans.
        + eapply Priced_evolves; [|exact P2]. eapply evolves_trans; [by apply evolves_soft|done].
        + intros st'' h4 (E4 & HI4 & F4). split; [by eapply evolves_trans|done]. }
    intros st' h3 (E3 & HI3 & F3). split; [by eapply evolves_trans|done].
  Qed.

  (** ** Replacing two routes *)
  Definition vehicle_at (h : heap) (r : nat) : nat := default 0%nat (rt_vehicle <$> h_routes h !! r).
  Lemma Serves_vehicle h r v B : Serves h r v B -> vehicle_at h r = v.
  Proof. intros (c & Hc & <-)%Serves_cell. unfold vehicle_at. by rewrite Hc. Qed.
  Lemma Plan_vehicles h rs A : Plan h rs A -> map (vehicle_at h) rs = map fst A.
  Proof. intros (F & _). induction F as [|r a rs A S F IH]; [done|]. cbn. rewrite IH. f_equal. by eapply Serves_vehicle. Qed.
  Lemma Plan_split h rs A q r v B w C : Plan h rs A -> v <> w -> q ∈ rs -> r ∈ rs -> Serves h q v B -> Serves h r w C ->
    exists rs0 A0, rs ≡ₚ q :: r :: rs0 /\ A ≡ₚ (v, B) :: (w, C) :: A0 /\ Forall2 (fun r a => Serves h r a.1 a.2) rs0 A0 /\
      filter (fun r => vehicle_at h r <> v /\ vehicle_at h r <> w) rs ≡ₚ rs0.
  Proof.
    intros P Hne Hq Hr Sq Sr. apply elem_of_Permutation in Hq as [rs1 E1]. rewrite E1 in Hr.
    apply elem_of_cons in Hr as [->|Hr]; [by destruct (Serves_det _ _ _ _ _ _ Sq Sr) as [-> _]|].
    apply elem_of_Permutation in Hr as [rs0 E0]. rewrite E0 in E1.
    destruct (Plan_perm _ _ _ _ E1 P) as (A' & PA & P'). pose proof (Plan_vehicles _ _ _ P') as EV.
    destruct P' as (F & N1 & _). inversion F as [|? [v1 B1] ? A1 S1 F1]; subst. inversion F1 as [|? [w1 C1] ? A0 S2 F0]; subst. cbn in S1, S2.
    destruct (Serves_det _ _ _ _ _ _ Sq S1) as [<- <-]. destruct (Serves_det _ _ _ _ _ _ Sr S2) as [<- <-].
    exists rs0, A0. split; [done|]. split; [done|]. split; [done|]. rewrite E1.
    rewrite filter_cons_False by (rewrite (Serves_vehicle _ _ _ _ Sq); tauto). rewrite filter_cons_False by (rewrite (Serves_vehicle _ _ _ _ Sr); tauto).
    cbn in EV, N1. injection EV as _ _ EV. apply NoDup_cons in N1 as [Hv N1]. apply NoDup_cons in N1 as [Hw N1]. rewrite <- EV in Hv, Hw.
    assert (Hv' : v ∉ map (vehicle_at h) rs0) by set_solver. clear -Hv' Hw.
    induction rs0 as [|s rs0 IH]; [done|]. cbn in Hv', Hw. rewrite filter_cons_True by set_solver. constructor. apply IH; set_solver.
  Qed.
  Lemma update_routes_runs o h rs A a b z gain : Plan h rs A -> Sold o h rs z -> Move o h rs a b gain ->
    runs (update_routes rs [a; b]) h (fun rs' h' => h' = h /\ Sold o h rs' (z + gain) /\
      exists v B w C t B' C' A0, A ≡ₚ (v, B) :: (w, C) :: A0 /\ v <> w /\ B ≡ₚ t :: B' /\ C' ≡ₚ t :: C /\
        exists A', A' ≡ₚ (v, B') :: (w, C') :: A0 /\ Plan h rs' A').
  Proof.
    intros P Z (q & r & v & B & w & C & t & B' & C' & zq & zr & za & zb & Hne & Hq & Hr & Sq & Sr & Sa & HB & Sb & HC & Pq & Pr & Pa & Pb & ->).
    destruct (Plan_split _ _ _ _ _ _ _ _ _ P Hne Hq Hr Sq Sr) as (rs0 & A0 & E1 & PA & F0 & EK).
    unfold update_routes. step. cbn [mapM].
    step. step. eapply runs_serves_get; [exact Sa|]. intros ca ->. apply runs_ret. step.
    step. step. eapply runs_serves_get; [exact Sb|]. intros cb ->. apply runs_ret. step. apply runs_ret. apply runs_ret. apply runs_ret.
    assert (HF : runs (filterM (fun r => let! c := route_get r in ret (negb (memb (rt_vehicle c) [v; w]))) rs) h
      (fun keep h' => h' = h /\ keep = filter (fun r => vehicle_at h r <> v /\ vehicle_at h r <> w) rs)).
    { destruct P as (FS & _). clear -FS. induction FS as [|p [u D] rs A S FS IH]; [by apply runs_ret|]. cbn [filterM]. cbn in S.
      step. step. eapply runs_serves_get; [exact S|]. intros c Ec. apply runs_ret. step.
      eapply runs_mono; [exact IH|]. intros keep ? [-> ->]. apply runs_ret. split; [done|].
      pose proof (Serves_vehicle _ _ _ _ S) as EV. rewrite Ec. unfold memb. destruct (decide (u ∈ [v; w])) as [Hin|Hin].
      - rewrite bool_decide_eq_true_2 by done. cbn [negb]. rewrite filter_cons_False; [done|]. rewrite EV. set_solver.
      - rewrite bool_decide_eq_false_2 by done. cbn [negb]. rewrite filter_cons_True; [done|]. rewrite EV. set_solver. }
    step. eapply runs_mono; [exact HF|]. clear HF. intros keep ? [-> Ek]. rewrite <- Ek in EK. apply runs_ret. split; [done|].
    assert (Ha : a ∉ keep). { rewrite Ek, elem_of_list_filter, (Serves_vehicle _ _ _ _ Sa). tauto. }
    assert (Hb : b ∉ keep). { rewrite Ek, elem_of_list_filter, (Serves_vehicle _ _ _ _ Sb). tauto. }
    unfold set_union, set_diff. rewrite filter_cons_True, filter_cons_True, filter_nil by done.
    assert (ER : keep ++ [a; b] ≡ₚ a :: b :: rs0) by (by rewrite EK, Permutation_app_comm).
    split.
    - destruct (Sold_perm _ _ _ _ _ E1 Z) as (zs & FZ & ->). inversion FZ as [|? z1 ? zs1 H1 FZ1]; subst. inversion FZ1 as [|? z2 ? zs2 H2 FZ2]; subst.
      pose proof (Priced_det _ _ _ _ _ H1 Pq) as ->. pose proof (Priced_det _ _ _ _ _ H2 Pr) as ->.
      eapply Sold_perm; [symmetry; exact ER|]. exists (za :: zb :: zs2). split; [by repeat constructor|]. unfold sum_of. cbn. lia.
    - exists v, B, w, C, t, B', C', A0. do 4 (split; [done|]).
      assert (P' : Plan h (a :: b :: rs0) ((v, B') :: (w, C') :: A0)).
      { destruct P as (_ & N1 & N2). split; [by repeat constructor|]. split.
        - change (NoDup (map fst ((v, B) :: (w, C) :: A0))). by rewrite <- PA.
        - cbn. rewrite (concat_perm (map snd A) (map snd ((v, B) :: (w, C) :: A0))) in N2 by (by rewrite PA). cbn in N2.
          rewrite HC. rewrite HB in N2. cbn in N2 |- *. by rewrite <- Permutation_middle. }
      destruct (Plan_perm _ _ (keep ++ [a; b]) _ ltac:(by symmetry) P') as (A' & PA' & P2). exists A'. split; [by symmetry|done].
  Qed.

  Lemma check_routes_runs h rs A : Plan h rs A -> HInv h ->
    runs (check_routes rs) h (fun _ h' => soft h h').
  Proof.
    intros P HI. unfold check_routes. step. apply runs_set_order. intros l Hl. set (h0 := MkHeap _ _ _ _).
    assert (S0 : soft h h0) by apply soft_tick.
    apply (runs_iterM _ (fun h' => soft h h')); [done|].
    intros r h1 Hr S1. rewrite Hl in Hr. destruct (Plan_served _ _ _ _ P Hr) as (v & B & S).
    apply (Serves_soft _ _ _ _ _ S1) in S as (ids & L & [R _] & _). step.
    eapply runs_mono; [eapply assert_linked_runs, RouteW_P; exact R|]. intros ? ? ->.
    eapply runs_mono; [eapply assert_monotone_runs, RouteW_P; exact R|]. intros ? h2 [S2 _]. by eapply soft_trans.
  Qed.

  (** what one improvement does to the assignment of trips: nothing, or one
      trip goes from one vehicle to another and the value rises *)
  Definition Moved (A A' : list (nat * list nat)) : Prop :=
    exists v B w C t B' C' A0, A ≡ₚ (v, B) :: (w, C) :: A0 /\ v <> w /\ B ≡ₚ t :: B' /\ C' ≡ₚ t :: C /\
      A' ≡ₚ (v, B') :: (w, C') :: A0.
  Lemma Moved_same A A' : Moved A A' -> map fst A' ≡ₚ map fst A /\ concat (map snd A') ≡ₚ concat (map snd A).
  Proof.
    intros (v & B & w & C & t & B' & C' & A0 & E1 & Hne & HB & HC & E2). split; [by rewrite E1, E2|].
    rewrite (concat_perm (map snd A) (map snd ((v, B) :: (w, C) :: A0))) by (by rewrite E1).
    rewrite (concat_perm (map snd A') (map snd ((v, B') :: (w, C') :: A0))) by (by rewrite E2).
    cbn. rewrite HB, HC. cbn. by rewrite <- Permutation_middle.
  Qed.
  Definition Improved (o : objective) (h : heap) (rs' : list nat) (A A' : list (nat * list nat)) (z : Z) : Prop :=
    A' = A /\ Sold o h rs' z \/ Moved A A' /\ exists z', z < z' /\ Sold o h rs' z'.
  Lemma Improved_evolves o h h' rs' A A' z : evolves h h' -> Improved o h rs' A A' z -> Improved o h' rs' A A' z.
  Proof.
    intros E [[? ?]|(? & z' & ? & ?)]; [left; split; [done|by eapply Sold_evolves]|right].
    split; [done|]. exists z'. split; [done|by eapply Sold_evolves].
  Qed.
  Lemma Improved_same o h rs' A A' z : Improved o h rs' A A' z ->
    map fst A' ≡ₚ map fst A /\ concat (map snd A') ≡ₚ concat (map snd A).
  Proof. intros [[-> _]|[M _]]; [done|by apply Moved_same]. Qed.

  Lemma reallocation_runs o h rs A z : sane -> HInv h -> (trusted -> Trust h) -> Plan h rs A -> Sold o h rs z ->
    runs (reallocation_improve o rs) h (fun rs' h' => evolves h h' /\ HInv h' /\ exists A', Plan h' rs' A' /\ Improved o h' rs' A A' z).
  Proof.
    intros Hs HI HT P Z. unfold reallocation_improve. destruct (Plan_sold o h rs A P) as (z' & Z' & Hx).
    pose proof (Sold_det _ _ _ _ _ Z' Z) as ->.
    step. eapply gives_det_runs; [apply planning_value_gives, Hx|]. intros h1 [S1 _].
    step. eapply (last_component_runs _ z); [by destruct o|]. step. apply runs_set_order. intros rs1 Hrs1. set (h2 := MkHeap _ _ _ _).
    assert (S2 : soft h h2) by (eapply soft_trans; [exact S1|apply soft_tick]).
    assert (E2 : evolves h h2) by by apply evolves_soft. assert (HI2 : HInv h2) by by eapply HInv_soft.
    pose proof (Plan_evolves _ _ _ _ E2 P) as P2. destruct (Plan_perm _ _ rs1 _ ltac:(by symmetry) P2) as (A1 & PA & P1).
    step. eapply runs_mono.
    { apply (runs_foldM _ (fun st' h' => evolves h2 h' /\ HInv h' /\ Found o z h' rs1 st')).
      - split; [apply evolves_refl|]. split; [done|]. by left.
      - intros st' p h3 Hp (E3 & HI3 & F3).
        eapply runs_mono; [apply (realloc_pair_runs o z rs1 A1 p st' h3 Hs HI3 (trust_evolves _ _ (evolves_trans _ _ _ E2 E3) HT)); try done; by eapply Plan_evolves|].
        intros st'' h4 (E4 & HI4 & F4). split; [by eapply evolves_trans|done]. }
    intros st h3 (E3 & HI3 & F3). pose proof (Plan_evolves _ _ _ _ E3 P2) as P3.
    assert (E03 : evolves h h3) by by eapply evolves_trans.
    pose proof (Sold_evolves _ _ _ _ _ E03 Z) as Z3.
    destruct F3 as [[-> _]|(a & b & -> & Hb & M)].
    { apply runs_ret. split; [done|]. split; [done|]. exists A. split; [done|]. by left. }
    eapply runs_mono; [apply (update_routes_runs o h3 rs A a b z (ra_best st - z) P3 Z3)|].
    { destruct M as (q & r & M). exists q, r. destruct M as (v & B & w & C & t & B' & C' & zq & zr & za & zb & M1 & M2 & M3 & M4).
      rewrite Hrs1 in M2, M3. exists v, B, w, C, t, B', C', zq, zr, za, zb. by repeat (split; [done|]). }
    intros rs' ? (-> & HZ & v & B & w & C & t & B' & C' & A0 & H1 & H2 & H3 & H4 & A' & H5 & H6). split; [done|]. split; [done|].
    exists A'. split; [done|]. right. split; [by exists v, B, w, C, t, B', C', A0|]. eexists. split; [|exact HZ]. lia.
  Qed.

  Lemma improve_runs o h rs A z : sane -> HInv h -> (trusted -> Trust h) -> Plan h rs A -> Sold o h rs z ->
    runs (ls_improve Reallocation o rs) h (fun rs' h' => evolves h h' /\ HInv h' /\ exists A', Plan h' rs' A' /\ Improved o h' rs' A A' z).
  Proof.
    intros Hs HI HT P Z. unfold ls_improve. step. eapply runs_mono; [apply deepcopy_runs|].
    { intros r Hr. destruct (Plan_served _ _ _ _ P Hr) as (v & B & S). destruct (Serves_cell _ _ _ _ S) as (c & Hc & _). eauto. }
    intros rs1 h1 (HC & Ers & F). assert (HI1 : HInv h1) by by eapply Copied_HInv.
    assert (E1 : evolves h h1) by by apply Copied_evolves.
    assert (P1 : Plan h1 rs1 A).
    { destruct P as (FS & N). split; [|done]. clear -FS F HC. revert A FS. induction F as [|r r' rs rs1 (c & Hc & Hc') F IH]; intros A FS.
      - inversion FS. constructor.
      - inversion FS as [|? a ? A' S FS']; subst. constructor; [|by apply IH]. destruct S as (ids & L & R & G & EB).
        exists (map (up h) ids), L. split; [|done]. by eapply Copied_route. }
    assert (Z1 : Sold o h1 rs1 z).
    { destruct Z as (zs & FZ & ->). exists zs. split; [|done]. clear -FZ F HC. revert zs FZ. induction F as [|r r' rs rs1 (c & Hc & Hc') F IH]; intros zs FZ.
      - inversion FZ. constructor.
      - inversion FZ as [|? a ? A' S FS']; subst. constructor; [|by apply IH]. destruct S as (v & ids & L & R & G).
        exists v, (map (up h) ids), L. split; [|done]. by eapply Copied_route. }
    step. eapply runs_mono; [by eapply check_routes_runs|]. intros ? h2 S2.
    assert (HI2 : HInv h2) by by eapply HInv_soft. pose proof (Plan_evolves _ _ _ _ (evolves_soft _ _ S2) P1) as P2.
    pose proof (Sold_evolves _ _ _ _ _ (evolves_soft _ _ S2) Z1) as Z2.
    step. eapply runs_mono; [apply (reallocation_runs o h2 rs1 A z Hs HI2); [|done|done]|].
    { exact (trust_evolves _ _ (evolves_trans _ _ _ E1 (evolves_soft _ _ S2)) HT). }
    intros rs3 h3 (E3 & HI3 & A3 & P3 & K3).
    step. eapply runs_mono; [by eapply check_routes_runs|]. intros ? h4 S4. apply runs_ret.
    split.
    - eapply evolves_trans; [exact E1|]. eapply evolves_trans; [exact (evolves_soft _ _ S2)|].
      eapply evolves_trans; [exact E3|exact (evolves_soft _ _ S4)].
    - split; [by eapply HInv_soft|]. exists A3. split; [by eapply Plan_evolves; [exact (evolves_soft _ _ S4)|]|].
      by eapply Improved_evolves; [exact (evolves_soft _ _ S4)|].
  Qed.
End reallocation.
