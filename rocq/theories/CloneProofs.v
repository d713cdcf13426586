(** Cloning of routes: routes.py:300-376. *)
From Verif Require Export AppendProofs.

Lemma dict_get_set_eq {V} k (v : V) d : dict_get k (dict_set k v d) = Some v.
Proof. induction d as [|[k' v'] d IH]; cbn; repeat (case_decide; cbn; try done). Qed.
Lemma dict_get_set_ne {V} k k' (v : V) d : k <> k' -> dict_get k (dict_set k' v d) = dict_get k d.
Proof.
  intros Hne. induction d as [|[k2 v2] d IH]; cbn; repeat (case_decide; cbn; subst; try done).
Qed.
Lemma dict_get_set {V} k k' (v : V) d :
  dict_get k (dict_set k' v d) = if decide (k = k') then Some v else dict_get k d.
Proof. case_decide; [subst; apply dict_get_set_eq|by apply dict_get_set_ne]. Qed.

Lemma NoDup_lookup_eq {A} (l : list A) i j x : NoDup l -> l !! i = Some x -> l !! j = Some x -> i = j.
Proof. intros H Hi Hj. eapply NoDup_lookup; eauto. Qed.
Lemma drop_cons_lookup {A} (l : list A) i x : l !! i = Some x -> drop i l = x :: drop (S i) l.
Proof. intros H. by apply drop_S. Qed.
Lemma elem_of_drop {A} (l : list A) n x : x ∈ drop n l <-> exists k, (n <= k)%nat /\ l !! k = Some x.
Proof.
  rewrite elem_of_list_lookup. split.
  - intros [i Hi]. rewrite lookup_drop in Hi. exists (n + i)%nat. split; [lia|done].
  - intros (k & Hk & Hx). exists (k - n)%nat. rewrite lookup_drop. by replace (n + (k - n))%nat with k by lia.
Qed.
Lemma elem_of_take_lookup {A} (l : list A) n x : x ∈ take n l <-> exists k, (k < n)%nat /\ l !! k = Some x.
Proof. rewrite elem_of_take. split; intros (k & H1 & H2); eauto. Qed.

Section clone.
  Context {W : World}.

  Definition dels (h : heap) (ids : list nat) : list nat :=
    flat_map (fun s => match h_stops h !! s with Some c => st_deliveries c | None => [] end) ids.

  Lemma elem_of_pts_of h ids p : p ∈ pts_of h ids <->
    exists s c, s ∈ ids /\ h_stops h !! s = Some c /\ p ∈ st_pickups c.
  Proof.
    unfold pts_of. rewrite elem_of_flat_map. split.
    - intros (s & Hs & Hp). destruct (h_stops h !! s) as [c|] eqn:Hc; [eauto 6|inversion Hp].
    - intros (s & c & Hs & Hc & Hp). exists s. by rewrite Hc.
  Qed.
  Lemma elem_of_dels h ids p : p ∈ dels h ids <->
    exists s c, s ∈ ids /\ h_stops h !! s = Some c /\ p ∈ st_deliveries c.
  Proof.
    unfold dels. rewrite elem_of_flat_map. split.
    - intros (s & Hs & Hp). destruct (h_stops h !! s) as [c|] eqn:Hc; [eauto 6|inversion Hp].
    - intros (s & c & Hs & Hc & Hp). exists s. by rewrite Hc.
  Qed.

  (** positions of the pickup and of the delivery of a planned trip *)
  Lemma link_of_pickup h r v ids L i s c p :
    RouteW h r v ids L -> ids !! i = Some s -> h_stops h !! s = Some c -> p ∈ st_pickups c ->
    exists j d dc pc, (i < j)%nat /\ ids !! j = Some d /\ h_stops h !! d = Some dc /\ p ∈ st_deliveries dc /\
      h_pts h !! p = Some pc /\ pt_vehicle pc = v /\ pt_pickup pc = Some s /\ pt_delivery pc = Some d.
  Proof.
    intros R Hs Hc Hp. destruct (rw_links _ _ _ _ _ R s c) as [H _]; [by eapply elem_of_list_lookup_2|done|].
    destruct (H p Hp) as (d & dc & pc & Hsub & H1 & H2 & H3 & H4).
    apply sublist2 in Hsub as (i' & j & Hij & Hi' & Hj).
    pose proof (NoDup_lookup_eq _ _ _ _ (RouteW_NoDup _ _ _ _ _ R) Hs Hi') as <-.
    exists j, d, dc, pc. tauto.
  Qed.
  Lemma link_of_delivery h r v ids L j d dc p :
    RouteW h r v ids L -> ids !! j = Some d -> h_stops h !! d = Some dc -> p ∈ st_deliveries dc ->
    exists i s c pc, (i < j)%nat /\ ids !! i = Some s /\ h_stops h !! s = Some c /\ p ∈ st_pickups c /\
      h_pts h !! p = Some pc /\ pt_vehicle pc = v /\ pt_pickup pc = Some s /\ pt_delivery pc = Some d.
  Proof.
    intros R Hs Hc Hp. destruct (rw_links _ _ _ _ _ R d dc) as [_ H]; [by eapply elem_of_list_lookup_2|done|].
    destruct (H p Hp) as (s & c & pc & Hsub & H1 & H2 & H3 & H4).
    apply sublist2 in Hsub as (i & j' & Hij & Hi & Hj').
    pose proof (NoDup_lookup_eq _ _ _ _ (RouteW_NoDup _ _ _ _ _ R) Hs Hj') as <-.
    exists i, s, c, pc. tauto.
  Qed.
  (** a planned trip has one pickup and one delivery stop *)
  Lemma pickup_unique h r v ids L i i' s s' c c' p :
    RouteW h r v ids L -> ids !! i = Some s -> ids !! i' = Some s' ->
    h_stops h !! s = Some c -> h_stops h !! s' = Some c' -> p ∈ st_pickups c -> p ∈ st_pickups c' -> i = i'.
  Proof.
    intros R Hi Hi' Hc Hc' Hp Hp'.
    destruct (link_of_pickup _ _ _ _ _ _ _ _ _ R Hi Hc Hp) as (? & ? & ? & pc & _ & _ & _ & _ & H1 & _ & H2 & _).
    destruct (link_of_pickup _ _ _ _ _ _ _ _ _ R Hi' Hc' Hp') as (? & ? & ? & pc' & _ & _ & _ & _ & H1' & _ & H2' & _).
    rewrite H1 in H1'. injection H1' as <-. rewrite H2 in H2'. injection H2' as <-.
    eapply NoDup_lookup_eq; eauto using RouteW_NoDup.
  Qed.
  Lemma delivery_unique h r v ids L i i' s s' c c' p :
    RouteW h r v ids L -> ids !! i = Some s -> ids !! i' = Some s' ->
    h_stops h !! s = Some c -> h_stops h !! s' = Some c' -> p ∈ st_deliveries c -> p ∈ st_deliveries c' -> i = i'.
  Proof.
    intros R Hi Hi' Hc Hc' Hp Hp'.
    destruct (link_of_delivery _ _ _ _ _ _ _ _ _ R Hi Hc Hp) as (? & ? & ? & pc & _ & _ & _ & _ & H1 & _ & _ & H2).
    destruct (link_of_delivery _ _ _ _ _ _ _ _ _ R Hi' Hc' Hp') as (? & ? & ? & pc' & _ & _ & _ & _ & H1' & _ & _ & H2').
    rewrite H1 in H1'. injection H1' as <-. rewrite H2 in H2'. injection H2' as <-.
    eapply NoDup_lookup_eq; eauto using RouteW_NoDup.
  Qed.

  (** ** First pass: where to cut, and fresh planned trips *)
  Record Cut (h0 : heap) (l : list nat) (mapper : list (nat * nat)) (h : heap) : Prop := {
    cut_stops : h_stops h = h_stops h0;
    cut_routes : h_routes h = h_routes h0;
    cut_tick : h_tick h = h_tick h0;
    cut_pts : exists N, h_pts h = h_pts h0 ++ N /\ Forall (fun c => pt_feasible c = None) N;
    cut_keys : forall p, p ∈ dels h0 l <-> is_Some (dict_get p mapper);
    cut_new : forall p p', dict_get p mapper = Some p' -> (length (h_pts h0) <= p')%nat /\
        exists pc, h_pts h0 !! p = Some pc /\ h_pts h !! p' = Some (MkPtrip (pt_vehicle pc) (pt_trip pc) None None None);
    cut_inj : forall p q p', dict_get p mapper = Some p' -> dict_get q mapper = Some p' -> p = q
  }.

  (** cloning loop body over the deliveries of one stop *)
  Lemma cut_deliveries h0 l ds : forall mapper h l',
    Cut h0 l mapper h -> (forall p, p ∈ ds -> is_Some (h_pts h0 !! p)) ->
    (forall q, q ∈ dels h0 l' <-> q ∈ ds \/ q ∈ dels h0 l) ->
    runs (foldM (fun m p =>
              let! pc := pt_get p in
              let! p' := new_planned_trip (pt_vehicle pc) (pt_trip pc) None None in
              ret (dict_set p p' m)) mapper ds) h
      (fun m' h' => Cut h0 l' m' h').
  Proof.
    intros mapper h l' C. cbn [foldM].
    assert (Hgen : forall ds mapper h pre,
      (forall q, is_Some (dict_get q mapper) <-> q ∈ pre \/ q ∈ dels h0 l) ->
      (h_stops h = h_stops h0 /\ h_routes h = h_routes h0 /\ h_tick h = h_tick h0 /\
       (exists N, h_pts h = h_pts h0 ++ N /\ Forall (fun c => pt_feasible c = None) N) /\
       (forall p p', dict_get p mapper = Some p' -> (length (h_pts h0) <= p')%nat /\
        exists pc, h_pts h0 !! p = Some pc /\ h_pts h !! p' = Some (MkPtrip (pt_vehicle pc) (pt_trip pc) None None None)) /\
       (forall p q p', dict_get p mapper = Some p' -> dict_get q mapper = Some p' -> p = q)) ->
      (forall p, p ∈ ds -> is_Some (h_pts h0 !! p)) ->
      (forall q, q ∈ dels h0 l' <-> q ∈ pre ++ ds \/ q ∈ dels h0 l) ->
      runs (foldM (fun m p =>
              let! pc := pt_get p in
              let! p' := new_planned_trip (pt_vehicle pc) (pt_trip pc) None None in
              ret (dict_set p p' m)) mapper ds) h
        (fun m' h' => Cut h0 l' m' h')).
    { clear C mapper h ds. induction ds as [|p ds IH]; intros mapper h pre Hk (C1 & C2 & C3 & (N & C4 & C4') & C6 & C7) Ha Hd.
      - apply runs_ret. split; eauto. intros q. rewrite Hd, Hk, app_nil_r. done.
      - cbn [foldM]. step. destruct (Ha p) as [pc Hpc]; [left|].
        assert (Hpc' : h_pts h !! p = Some pc) by (rewrite C4; by apply lookup_app_l_Some).
        step. eapply runs_pt_get; [exact Hpc'|]. step. unfold new_planned_trip. step.
        unfold alloc_pt, runs. cbn.
        apply (IH _ _ (pre ++ [p])).
        + intros q. rewrite dict_get_set, elem_of_app, elem_of_list_singleton.
          case_decide; [naive_solver|]. rewrite Hk. naive_solver.
        + cbn. split; [done|]. split; [done|]. split; [done|].
          split; [rewrite C4, <- app_assoc; eexists; split; [done|]; apply Forall_app; split; [done|]; by constructor|].
          split.
          * intros q q'. rewrite dict_get_set. case_decide as Hq.
            -- intros [= <-]. subst q. split; [rewrite C4, app_length; lia|]. exists pc. split; [done|].
               rewrite lookup_app_r by lia. by rewrite Nat.sub_diag.
            -- intros Hq'. destruct (C6 _ _ Hq') as (H1 & qc & H2 & H3). split; [done|]. exists qc. split; [done|].
               rewrite lookup_app_l; [done|]. by eapply lookup_lt_Some.
          * assert (Hlt : forall q q', dict_get q mapper = Some q' -> (q' < length (h_pts h))%nat).
            { intros q q' Hq. destruct (C6 _ _ Hq) as (_ & qc & _ & H3). by eapply lookup_lt_Some. }
            intros q1 q2 q'. rewrite !dict_get_set. do 2 case_decide; subst; try done.
            -- intros [= <-] H2. apply Hlt in H2. lia.
            -- intros H2 [= <-]. apply Hlt in H2. lia.
            -- apply C7.
        + intros q Hq. apply Ha. by right.
        + intros q. rewrite Hd, !elem_of_app, elem_of_cons, elem_of_list_singleton. tauto. }
    intros Ha Hd. apply (Hgen _ _ _ []); [|by destruct C|done|done].
    intros q. rewrite <- (cut_keys _ _ _ _ C q). split; [by right|]. intros [Hq|?]; [inversion Hq|done].
  Qed.

  Lemma cloner_loop_runs h0 r v ids L desired : RouteW h0 r v ids L ->
    forall idx mapper mism h,
    (idx <= length ids)%nat ->
    Cut h0 (drop idx ids) mapper h ->
    (forall p, p ∈ mism <-> p ∈ dels h0 (drop idx ids) /\ p ∉ pts_of h0 (drop idx ids)) ->
    runs (cloner_loop ids desired idx mapper mism) h (fun x h' =>
      exists n m', x = (n, m', []) /\ (n <= idx)%nat /\ (n = 0 \/ n < desired)%nat /\
        Cut h0 (drop n ids) m' h' /\ (forall p, p ∈ dels h0 (drop n ids) -> p ∈ pts_of h0 (drop n ids))).
  Proof.
    intros R. induction idx as [|i IH]; intros mapper mism h Hi C Hm.
    - cbn [cloner_loop]. apply runs_ret. exists 0%nat, mapper.
      assert (Hcl : forall p, p ∈ dels h0 (drop 0 ids) -> p ∈ pts_of h0 (drop 0 ids)).
      { intros p (d & dc & Hd & Hdc & Hp)%elem_of_dels. apply elem_of_list_lookup in Hd as [j Hj]. cbn in Hj.
        destruct (link_of_delivery _ _ _ _ _ _ _ _ _ R Hj Hdc Hp) as (i & s & c & pc & _ & Hs & Hc & Hpc & _).
        apply elem_of_pts_of. exists s, c. split; [|done]. by eapply elem_of_list_lookup_2. }
      split; [|split; [done|]; split; [by left|]; split; done].
      f_equal. destruct mism as [|p mism]; [done|].
      destruct (Hm p) as [H _]. destruct H as [H1 H2]; [left|]. exfalso. auto.
    - cbn [cloner_loop].
      destruct (bool_decide (mism ≠ []) || negb (S i <? desired)%nat) eqn:Eb.
      + destruct (lookup_lt_is_Some_2 ids i) as [s Hs]; [lia|].
        step. eapply runs_nth; [exact Hs|].
        destruct (RouteW_ids_alloc _ _ _ _ _ s R) as [c Hc]; [by eapply elem_of_list_lookup_2|].
        step. eapply runs_stop_get; [by rewrite (cut_stops _ _ _ _ C)|].
        pose proof (drop_cons_lookup _ _ _ Hs) as Ed.
        eapply runs_seq.
        { eapply (cut_deliveries h0 (drop (S i) ids) (st_deliveries c) mapper h (drop i ids)); [done| |].
          - intros p Hp. destruct (link_of_delivery _ _ _ _ _ _ _ _ _ R Hs Hc Hp) as (? & ? & ? & pc & _ & _ & _ & _ & H & _). eauto.
          - intros q. rewrite Ed. unfold dels. cbn. rewrite Hc, elem_of_app. done. }
        intros m' h' C'. eapply runs_mono; [apply (IH m' _ h')|].
        * lia.
        * done.
        * intros p. unfold set_diff, set_union. rewrite elem_of_list_filter, elem_of_app.
          unfold set_diff. rewrite elem_of_list_filter, Hm, Ed. unfold dels, pts_of. cbn. rewrite Hc, !elem_of_app.
          fold (dels h0 (drop (S i) ids)) (pts_of h0 (drop (S i) ids)).
          assert (Hx : p ∈ st_deliveries c -> p ∉ pts_of h0 (drop (S i) ids)).
          { intros Hp (s' & c' & Hs' & Hc' & Hp')%elem_of_pts_of.
            apply elem_of_drop in Hs' as (k & Hk & Hk').
            destruct (link_of_delivery _ _ _ _ _ _ _ _ _ R Hs Hc Hp) as (i0 & s0 & c0 & pc & Hlt & Hs0 & Hc0 & Hp0 & _).
            pose proof (pickup_unique _ _ _ _ _ _ _ _ _ _ _ _ R Hs0 Hk' Hc0 Hc' Hp0 Hp'). lia. }
          destruct (decide (p ∈ dels h0 (drop (S i) ids))), (decide (p ∈ pts_of h0 (drop (S i) ids)));
            destruct (decide (p ∈ st_deliveries c)); tauto.
        * intros x h'' (n & m'' & -> & H1 & H2 & H3). exists n, m''. split; [done|]. split; [lia|]. done.
      + apply orb_false_iff in Eb as [E1 E2]. apply bool_decide_eq_false in E1.
        apply negb_false_iff, Nat.ltb_lt in E2.
        assert (mism = []) as -> by (destruct mism; [done|]; exfalso; by apply E1).
        apply runs_ret. exists (S i), mapper. split; [done|]. split; [done|]. split; [by right|]. split; [done|].
        intros p Hp. destruct (decide (p ∈ pts_of h0 (drop (S i) ids))) as [?|Hn]; [done|].
        exfalso. assert (H : p ∈ @nil nat) by (by apply Hm). inversion H.
  Qed.

  (** the first stop of a tour serves nobody *)
  Lemma tour_first_stop h r v ids L s c :
    RouteOK h r v ids L -> ids !! 0%nat = Some s -> h_stops h !! s = Some c -> st_pickups c = [] /\ st_deliveries c = [].
  Proof.
    intros [R T] Hs Hc. destruct (tour_first _ _ T) as (x0 & rest & -> & _ & _ & B & A).
    destruct (RouteW_lookup _ _ _ _ _ _ _ R Hs) as (c' & x & Hc' & Hx & -> & _).
    rewrite Hc in Hc'. injection Hc' as <-. cbn in Hx. injection Hx as ->. cbn in *.
    by apply map_eq_nil in B; apply map_eq_nil in A.
  Qed.

  Lemma cloner_init_runs h0 r v ids L desired : RouteOK h0 r v ids L ->
    runs (cloner_init ids desired) h0 (fun x h' =>
      exists n m', x = (n, m') /\ (n <= length ids)%nat /\ (n = 0 \/ 2 <= n < desired)%nat /\
        Cut h0 (drop n ids) m' h' /\ (forall p, p ∈ dels h0 (drop n ids) -> p ∈ pts_of h0 (drop n ids))).
  Proof.
    intros RO. pose proof RO as [R T]. unfold cloner_init. step.
    eapply runs_mono; [apply (cloner_loop_runs h0 r v ids L desired R (length ids) [] [] h0)|].
    - done.
    - rewrite drop_all. split; try done.
      + exists []. rewrite app_nil_r. split; [done|constructor].
      + intros p. cbn. split; [intros H; inversion H|intros [? ?]; done].
    - intros p. rewrite drop_all. cbn. split; [intros H; inversion H|intros [H _]; inversion H].
    - intros x h' (n & m & -> & H1 & H2 & C & Hcl). cbn.
      case_decide as Hn; [|exists n, m; split; [done|]; split; [done|]; split; [lia|]; by split].
      subst n. exists 0%nat, m. split; [done|]. split; [lia|]. split; [lia|].
      destruct (lookup_lt_is_Some_2 ids 0) as [s Hs]; [lia|].
      destruct (RouteW_ids_alloc _ _ _ _ _ s R) as [c Hc]; [by eapply elem_of_list_lookup_2|].
      destruct (tour_first_stop _ _ _ _ _ _ _ RO Hs Hc) as [P0 D0].
      assert (E1 : dels h0 (drop 0 ids) = dels h0 (drop 1 ids)).
      { rewrite (drop_cons_lookup _ _ _ Hs). unfold dels. cbn. by rewrite Hc, D0. }
      assert (E2 : pts_of h0 (drop 0 ids) = pts_of h0 (drop 1 ids)).
      { rewrite (drop_cons_lookup _ _ _ Hs). unfold pts_of. cbn. by rewrite Hc, P0. }
      split; [|by rewrite E1, E2].
      destruct C as [C1 C2 C3 C4 C5 C6 C7]. split; try done. by rewrite E1.
  Qed.

  (** ** Second pass: fresh stops *)
  Definition look (mapper : list (nat * nat)) (p : nat) : nat := default 0%nat (dict_get p mapper).

  Lemma map_planned_runs mapper f l : (forall c, f (f c) = f c) ->
    forall h, (forall p, p ∈ l -> is_Some (dict_get p mapper)) ->
    runs (mapM (map_planned mapper f) l) h (fun ys h' =>
      ys = map (look mapper) l /\ h_stops h' = h_stops h /\ h_routes h' = h_routes h /\ h_tick h' = h_tick h /\
      forall x, h_pts h' !! x = (fun c => if bool_decide (x ∈ map (look mapper) l) then f c else c) <$> h_pts h !! x).
  Proof.
    intros Hf. induction l as [|p l IH]; intros h Hk.
    - apply runs_ret. split; [done|]. split; [done|]. split; [done|]. split; [done|].
      intros x. cbn. by destruct (h_pts h !! x).
    - cbn [mapM]. step. destruct (Hk p) as [p' Hp']; [left|].
      unfold map_planned at 1. rewrite Hp'. step. apply runs_pt_upd. apply runs_ret. step.
      eapply runs_mono; [apply IH; intros q Hq; apply Hk; by right|].
      intros ys h' (-> & E1 & E2 & E3 & E4). apply runs_ret.
      assert (Hl : look mapper p = p') by (unfold look; by rewrite Hp'). cbn [map]. rewrite Hl.
      split; [done|]. split; [done|]. split; [done|]. split; [done|].
      intros x. rewrite E4. cbn. destruct (decide (x = p')) as [->|Hne].
      + rewrite list_lookup_alter. destruct (h_pts h !! p') as [c|]; [|done]. cbn. f_equal.
        rewrite (bool_decide_eq_true_2 (p' ∈ p' :: map (look mapper) l)) by left.
        case_bool_decide; [apply Hf|done].
      + rewrite list_lookup_alter_ne by done. destruct (h_pts h !! x) as [c|]; [|done]. cbn. f_equal.
        assert (E : bool_decide (x ∈ p' :: map (look mapper) l) = bool_decide (x ∈ map (look mapper) l)); [|by rewrite E].
        apply bool_decide_ext. rewrite elem_of_cons. tauto.
  Qed.

  Definition copy_cell (m : nat -> nat) (prev : option nat) (c : stop) : stop :=
    MkStop (st_vehicle c) (st_position c) (map m (st_pickups c)) (map m (st_deliveries c)) prev
      (st_starting c) None None None None.
  Fixpoint copies (cell : nat -> stop) (m : nat -> nat) (prev : option nat) (a : nat) (todo : list nat) : list stop :=
    match todo with
    | [] => []
    | s :: todo => copy_cell m prev (cell s) :: copies cell m (Some a) (S a) todo
    end.
  Fixpoint rewire (cell : nat -> stop) (m : nat -> nat) (a : nat) (todo : list nat) (x : nat) (pc : ptrip) : ptrip :=
    match todo with
    | [] => pc
    | s :: todo =>
        rewire cell m (S a) todo x
          ((fun c => if bool_decide (x ∈ map m (st_deliveries (cell s))) then set_delivery (Some a) c else c)
            ((fun c => if bool_decide (x ∈ map m (st_pickups (cell s))) then set_pickup (Some a) c else c) pc))
    end.

  Lemma clone_stops_runs cell mapper todo : forall h cloned,
    (forall s, s ∈ todo -> h_stops h !! s = Some (cell s)) ->
    (forall s p, s ∈ todo -> p ∈ st_pickups (cell s) ++ st_deliveries (cell s) -> is_Some (dict_get p mapper)) ->
    runs (foldM (clone_stop mapper) cloned todo) h (fun cl h' =>
      cl = cloned ++ seq (length (h_stops h)) (length todo) /\
      h_stops h' = h_stops h ++ copies cell (look mapper) (last cloned) (length (h_stops h)) todo /\
      h_routes h' = h_routes h /\ h_tick h' = h_tick h /\
      forall x, h_pts h' !! x = rewire cell (look mapper) (length (h_stops h)) todo x <$> h_pts h !! x).
  Proof.
    induction todo as [|s todo IH]; intros h cloned Hs Hk.
    - apply runs_ret. cbn. rewrite !app_nil_r. repeat split. intros x. by destruct (h_pts h !! x).
    - cbn [foldM]. step. unfold clone_stop at 1. step. eapply runs_stop_get; [apply Hs; left|].
      set (m := look mapper) in *.
      step. unfold new_stop, alloc_stop, runs at 1. cbn [fst snd].
      step. eapply runs_mono; [apply map_planned_runs|].
      { by intros []. }
      { intros p Hp. apply (Hk s); [left|]. set_solver. }
      intros ps h1 (-> & S1 & R1 & T1 & P1). cbn [with_stops h_stops h_routes h_tick h_pts] in *.
      fold m in P1. fold m.
      step. apply runs_stop_upd. step. eapply runs_mono; [apply map_planned_runs|].
      { by intros []. }
      { intros p Hp. apply (Hk s); [left|]. set_solver. }
      intros ds h2 (-> & S2 & R2 & T2 & P2). cbn [with_stops h_stops h_routes h_tick h_pts] in *.
      fold m in P2. fold m. step. apply runs_stop_upd. apply runs_ret.
      assert (ES : alter (set_deliveries (map m (st_deliveries (cell s)))) (length (h_stops h)) (h_stops h2) =
                   h_stops h ++ [copy_cell m (last cloned) (cell s)]).
      { rewrite S2, S1.
        by rewrite !alter_app_r_alt, Nat.sub_diag by lia. }
      eapply runs_mono; [apply IH|].
      + intros q Hq. cbn. rewrite ES. apply lookup_app_l_Some. apply Hs. by right.
      + intros q p Hq. apply Hk. by right.
      + cbn. rewrite ES. intros cl h' (-> & S3 & R3 & T3 & P3).
        rewrite app_length in *. cbn in *. rewrite Nat.add_1_r in *.
        rewrite last_snoc in S3. split; [by rewrite <- app_assoc|].
        split; [by rewrite S3, <- app_assoc|]. split; [congruence|]. split; [congruence|].
        intros x. rewrite P3, P2, P1. by destruct (h_pts h !! x).
  Qed.

  Lemma copies_length cell m prev a todo : length (copies cell m prev a todo) = length todo.
  Proof. revert prev a. induction todo; intros; cbn; auto. Qed.
  Lemma copies_lookup cell m prev a todo k s :
    todo !! k = Some s ->
    copies cell m prev a todo !! k =
      Some (copy_cell m (match k with O => prev | S k' => Some (a + k')%nat end) (cell s)).
  Proof.
    revert prev a k. induction todo as [|s' todo IH]; intros prev a k Hk; [done|].
    destruct k as [|k]; cbn in *; [by injection Hk as ->|].
    rewrite (IH _ _ _ Hk). destruct k; do 2 f_equal; f_equal; lia.
  Qed.

  Lemma rewire_same cell m a todo x pc :
    pt_vehicle (rewire cell m a todo x pc) = pt_vehicle pc /\ pt_trip (rewire cell m a todo x pc) = pt_trip pc /\
      pt_feasible (rewire cell m a todo x pc) = pt_feasible pc.
  Proof.
    revert a pc. induction todo as [|s todo IH]; intros a pc; cbn; [done|].
    rewrite !(proj1 (IH _ _)), !(proj1 (proj2 (IH _ _))), !(proj2 (proj2 (IH _ _))).
    by repeat case_bool_decide.
  Qed.
  Lemma rewire_none cell m a todo x pc :
    (forall s p, s ∈ todo -> p ∈ st_pickups (cell s) ++ st_deliveries (cell s) -> m p <> x) ->
    rewire cell m a todo x pc = pc.
  Proof.
    revert a pc. induction todo as [|s todo IH]; intros a pc Hn; cbn; [done|].
    rewrite !bool_decide_eq_false_2.
    - apply IH. intros q p Hq. apply Hn. by right.
    - intros (p & -> & Hp)%elem_of_list_fmap. apply (Hn s p); [left|set_solver|done].
    - intros (p & -> & Hp)%elem_of_list_fmap. apply (Hn s p); [left|set_solver|done].
  Qed.
  Lemma rewire_pickup cell m a todo x pc :
    (exists k s p, todo !! k = Some s /\ p ∈ st_pickups (cell s) /\ m p = x /\
      pt_pickup (rewire cell m a todo x pc) = Some (a + k)%nat) \/
    (pt_pickup (rewire cell m a todo x pc) = pt_pickup pc /\
      forall s p, s ∈ todo -> p ∈ st_pickups (cell s) -> m p <> x).
  Proof.
    revert a pc. induction todo as [|s todo IH]; intros a pc; cbn.
    { right. split; [done|]. intros s p Hs. inversion Hs. }
    match goal with |- context [rewire cell m (S a) todo x ?pc'] => destruct (IH (S a) pc') as [(k & q & p & H1 & H2 & H3 & H4)|[H1 H2]] end.
    - left. exists (S k), q, p. split; [done|]. split; [done|]. split; [done|]. rewrite H4. f_equal. lia.
    - destruct (decide (x ∈ map m (st_pickups (cell s)))) as [Hin|Hin].
      + left. rewrite (bool_decide_eq_true_2 _ Hin) in *. apply elem_of_list_fmap in Hin as (p & -> & Hp). exists 0%nat, s, p. split; [done|].
        split; [done|]. split; [done|]. rewrite H1. case_bool_decide; cbn; f_equal; lia.
      + right. rewrite (bool_decide_eq_false_2 _ Hin) in *. split; [rewrite H1; by case_bool_decide|].
        intros q p [->|Hq]%elem_of_cons Hp; [|by apply (H2 q p)]. intros <-. apply Hin. by apply elem_of_list_fmap_1.
  Qed.
  Lemma rewire_delivery cell m a todo x pc :
    (exists k s p, todo !! k = Some s /\ p ∈ st_deliveries (cell s) /\ m p = x /\
      pt_delivery (rewire cell m a todo x pc) = Some (a + k)%nat) \/
    (pt_delivery (rewire cell m a todo x pc) = pt_delivery pc /\
      forall s p, s ∈ todo -> p ∈ st_deliveries (cell s) -> m p <> x).
  Proof.
    revert a pc. induction todo as [|s todo IH]; intros a pc; cbn.
    { right. split; [done|]. intros s p Hs. inversion Hs. }
    match goal with |- context [rewire cell m (S a) todo x ?pc'] => destruct (IH (S a) pc') as [(k & q & p & H1 & H2 & H3 & H4)|[H1 H2]] end.
    - left. exists (S k), q, p. split; [done|]. split; [done|]. split; [done|]. rewrite H4. f_equal. lia.
    - destruct (decide (x ∈ map m (st_deliveries (cell s)))) as [Hin|Hin].
      + left. rewrite (bool_decide_eq_true_2 _ Hin) in *. apply elem_of_list_fmap in Hin as (p & -> & Hp). exists 0%nat, s, p. split; [done|].
        split; [done|]. split; [done|]. rewrite H1. case_bool_decide; cbn; f_equal; lia.
      + right. rewrite (bool_decide_eq_false_2 _ Hin) in *. split; [rewrite H1; by case_bool_decide|].
        intros q p [->|Hq]%elem_of_cons Hp; [|by apply (H2 q p)]. intros <-. apply Hin. by apply elem_of_list_fmap_1.
  Qed.

  Lemma chain_copies h h' cell m v todo : forall oprev prev a L0,
    chain h v oprev todo L0 ->
    (forall s, s ∈ todo -> h_stops h !! s = Some (cell s)) ->
    (forall k c, copies cell m prev a todo !! k = Some c -> h_stops h' !! (a + k)%nat = Some c) ->
    (forall s p, s ∈ todo -> p ∈ st_pickups (cell s) ++ st_deliveries (cell s) ->
       is_Some (h_pts h' !! m p) /\ trip_of h' (m p) = trip_of h p) ->
    chain h' v prev (seq a (length todo)) L0.
  Proof.
    induction todo as [|s todo IH]; intros oprev prev a [|x L0] Hc Hs Hk Hp; try done.
    cbn in Hc. destruct Hc as [(c & Hc & V & _ & K & ->) Hch].
    assert (c = cell s) as -> by (pose proof (Hs s) as H; rewrite Hc in H; injection H as ->; [done|left]).
    cbn [length seq chain]. split.
    - exists (copy_cell m prev (cell s)). split; [|split; [|split; [|split]]]; try done.
      + specialize (Hk 0%nat _ eq_refl). by rewrite Nat.add_0_r in Hk.
      + intros p'. cbn. rewrite <- map_app. intros (p & -> & Hin)%elem_of_list_fmap.
        apply (Hp s p); [left|done].
      + unfold abs. cbn. f_equal; rewrite map_map; apply map_ext_in; intros p Hin; symmetry;
          apply (Hp s p); try left; apply elem_of_app; [left|right]; by apply elem_of_list_In.
    - eapply IH; [exact Hch| | |].
      + intros q Hq. apply Hs. by right.
      + intros k c Hkc. specialize (Hk (S k) c Hkc). by rewrite <- Nat.add_succ_comm in Hk.
      + intros q p Hq. apply Hp. by right.
  Qed.

  Definition clone_ids (h : heap) (th : nat) (ids : list nat) : list nat :=
    take th ids ++ seq (length (h_stops h)) (length ids - th).
  Lemma clone_ids_old h th ids i : (i < th)%nat -> (th <= length ids)%nat -> clone_ids h th ids !! i = ids !! i.
  Proof.
    intros H1 H2. unfold clone_ids. rewrite lookup_app_l by (rewrite take_length; lia). by apply lookup_take.
  Qed.
  Lemma clone_ids_new h th ids k : (th + k < length ids)%nat ->
    clone_ids h th ids !! (th + k)%nat = Some (length (h_stops h) + k)%nat.
  Proof.
    intros H1. unfold clone_ids. rewrite lookup_app_r by (rewrite take_length; lia).
    rewrite take_length, Nat.min_l by lia. rewrite lookup_seq. split; [lia|lia].
  Qed.
  Lemma clone_ids_elem h th ids s : (th <= length ids)%nat -> s ∈ clone_ids h th ids ->
    (exists i, (i < th)%nat /\ ids !! i = Some s) \/
    (exists k, (th + k < length ids)%nat /\ s = (length (h_stops h) + k)%nat).
  Proof.
    intros Hth. unfold clone_ids. rewrite elem_of_app, elem_of_take_lookup, elem_of_seq.
    intros [?|[H1 H2]]; [by left|]. right. exists (s - length (h_stops h))%nat. lia.
  Qed.
  Lemma clone_ids_length h th ids : (th <= length ids)%nat -> length (clone_ids h th ids) = length ids.
  Proof. intros H. unfold clone_ids. rewrite app_length, take_length, seq_length. lia. Qed.

  Record Cloned (h : heap) (v : nat) (ids : list nat) (L : list visit) (desired r' th : nat) (h' : heap) : Prop := {
    cl_route : r' = length (h_routes h);
    cl_th : (th <= length ids)%nat;
    cl_cut : (th = 0 \/ 2 <= th < desired)%nat;
    cl_stops : exists N, h_stops h' = h_stops h ++ N /\ length N = (length ids - th)%nat /\
        Forall (fun c => cleared c /\ st_feasible c = None /\
                  (forall p, p ∈ st_pickups c ++ st_deliveries c -> (length (h_pts h) <= p)%nat)) N;
    cl_pts : forall p pc, h_pts h !! p = Some pc -> h_pts h' !! p = Some pc;
    cl_new_pts : forall p pc, (length (h_pts h) <= p)%nat -> h_pts h' !! p = Some pc -> pt_feasible pc = None;
    cl_routes : h_routes h' = h_routes h ++ [MkRoute v (clone_ids h th ids) None];
    cl_tick : h_tick h' = h_tick h;
    cl_ok : RouteOK h' r' v (clone_ids h th ids) L
  }.

  Lemma Cloned_grow h v ids L desired r' th h' : Cloned h v ids L desired r' th h' -> grow h h'.
  Proof.
    intros C. destruct (cl_stops _ _ _ _ _ _ _ _ C) as (N & ES & _ & _). apply grow_intro.
    - intros s c Hc. exists c. rewrite ES. split; [by apply lookup_app_l_Some|]. split; [done|apply weaker_refl].
    - intros p c Hc. exists c. split; [by apply C|done].
    - intros r c Hc. exists c. rewrite (cl_routes _ _ _ _ _ _ _ _ C). split; [by apply lookup_app_l_Some|done].
  Qed.

  Lemma cloner_clone_runs h r v ids L desired : RouteOK h r v ids L ->
    runs (cloner_clone r desired) h (fun x h' => Cloned h v ids L desired x.1 x.2 h').
  Proof.
    intros RO. pose proof RO as [R T]. unfold cloner_clone.
    destruct (rw_cell _ _ _ _ _ R) as (rc & Hrc & EV & EI).
    step. eapply runs_route_get; [exact Hrc|]. rewrite EI. step.
    eapply runs_mono; [by eapply cloner_init_runs|].
    intros x h1 (th & mapper & -> & Hth & Hcut & C & Hcl).
    set (cell := fun s => default (MkStop 0 [] [] [] None None None None None None) (h_stops h !! s)).
    assert (Hcell : forall s, s ∈ ids -> h_stops h !! s = Some (cell s)).
    { intros s Hs. destruct (RouteW_ids_alloc _ _ _ _ _ s R Hs) as [c Hc]. unfold cell. by rewrite Hc. }
    assert (Hcell' : forall i s, ids !! i = Some s -> h_stops h !! s = Some (cell s)).
    { intros i s Hs. apply Hcell. by eapply elem_of_list_lookup_2. }
    assert (Hd : forall k s, drop th ids !! k = Some s <-> ids !! (th + k)%nat = Some s).
    { intros k s. by rewrite lookup_drop. }
    assert (Hdin : forall s, s ∈ drop th ids -> s ∈ ids).
    { intros s (k & _ & Hk)%elem_of_drop. by eapply elem_of_list_lookup_2. }
    assert (Hpick : forall i s p, (th <= i)%nat -> ids !! i = Some s -> p ∈ st_pickups (cell s) -> p ∈ dels h (drop th ids)).
    { intros i s p Hi Hs Hp.
      destruct (link_of_pickup _ _ _ _ _ _ _ _ _ R Hs (Hcell' _ _ Hs) Hp) as (j & d & dc & pc & Hij & Hj & Hdc & Hpd & _).
      apply elem_of_dels. exists d, dc. split; [|done]. apply elem_of_drop. exists j. split; [lia|done]. }
    assert (Hkey : forall s p, s ∈ drop th ids -> p ∈ st_pickups (cell s) ++ st_deliveries (cell s) -> is_Some (dict_get p mapper)).
    { intros s p Hs Hp. apply (cut_keys _ _ _ _ C). apply elem_of_app in Hp as [Hp|Hp].
      - apply elem_of_drop in Hs as (i & Hi & Hs). by eapply Hpick.
      - apply elem_of_dels. exists s, (cell s). split; [done|]. split; [by apply Hcell, Hdin|done]. }
    step. eapply runs_mono; [apply (clone_stops_runs cell mapper)|].
    { intros s Hs. rewrite (cut_stops _ _ _ _ C). by apply Hcell, Hdin. }
    { exact Hkey. }
    intros cl h2 (-> & ES & ER & ET & EP). cbn [fst snd].
    rewrite (cut_stops _ _ _ _ C) in *. rewrite (cut_routes _ _ _ _ C) in ER. rewrite (cut_tick _ _ _ _ C) in ET.
    set (a := length (h_stops h)) in *. set (m := look mapper) in *.
    assert (Eids : take th ids ++ seq a (length (drop th ids)) = clone_ids h th ids) by (unfold clone_ids; by rewrite drop_length).
    rewrite Eids.
    assert (Hm : forall p, is_Some (dict_get p mapper) -> dict_get p mapper = Some (m p)).
    { intros p [p' Hp]. unfold m, look. by rewrite Hp. }
    assert (Hminj : forall p q, is_Some (dict_get p mapper) -> is_Some (dict_get q mapper) -> m p = m q -> p = q).
    { intros p q Hp Hq E. apply Hm in Hp, Hq. rewrite E in Hp. by eapply (cut_inj _ _ _ _ C). }
    assert (Hnew : forall p, is_Some (dict_get p mapper) -> (length (h_pts h) <= m p)%nat /\
      exists pc, h_pts h !! p = Some pc /\
        h_pts h2 !! m p = Some (rewire cell m a (drop th ids) (m p) (MkPtrip (pt_vehicle pc) (pt_trip pc) None None None))).
    { intros p Hp. apply Hm in Hp. destruct (cut_new _ _ _ _ C _ _ Hp) as (H1 & pc & H2 & H3).
      split; [done|]. exists pc. split; [done|]. by rewrite EP, H3. }
    destruct (cut_pts _ _ _ _ C) as (NP & ENP & FNP).
    assert (Hold : forall p pc, h_pts h !! p = Some pc -> h_pts h2 !! p = Some pc).
    { intros p pc Hp. rewrite EP, ENP. rewrite (lookup_app_l_Some _ _ _ _ Hp). cbn. f_equal.
      apply rewire_none. intros s q Hs Hq Em. destruct (Hnew q) as [H1 _]; [by eapply Hkey|].
      apply lookup_lt_Some in Hp. lia. }
    assert (Hcopy : forall k s, ids !! (th + k)%nat = Some s -> exists prev,
      h_stops h2 !! (a + k)%nat = Some (copy_cell m prev (cell s))).
    { intros k s Hs. apply Hd in Hs. rewrite ES.
      exists (match k with O => last (take th ids) | S k' => Some (a + k')%nat end).
      rewrite lookup_app_r by (unfold a; lia). replace (a + k - length (h_stops h))%nat with k by (unfold a; lia).
      by apply copies_lookup. }
    unfold alloc_route, runs at 1. cbn [fst snd with_routes].
    set (h3 := MkHeap (h_stops h2) (h_pts h2) (h_routes h2 ++ [MkRoute (rt_vehicle rc) (clone_ids h th ids) None]) (h_tick h2)).
    assert (Eh3 : with_routes (fun l => l ++ [MkRoute (rt_vehicle rc) (clone_ids h th ids) None]) h2 = h3) by done.
    apply runs_ret. cbn [fst snd]. fold h3.
    assert (Hlen : length ids = length L) by (by eapply RouteW_length).
    split.
    - by rewrite ER.
    - done.
    - done.
    - exists (copies cell m (last (take th ids)) a (drop th ids)). split; [done|].
      split; [by rewrite copies_length, drop_length|].
      apply Forall_lookup. intros k c Hk.
      destruct (drop th ids !! k) as [s|] eqn:Hs.
      + rewrite (copies_lookup _ _ _ _ _ _ _ Hs) in Hk. injection Hk as <-. split; [done|]. split; [done|].
        cbn. intros p'. rewrite <- map_app. intros (p & -> & Hp)%elem_of_list_fmap.
        apply Hnew, (Hkey s); [by eapply elem_of_list_lookup_2|done].
      + apply lookup_ge_None in Hs. apply lookup_lt_Some in Hk. rewrite copies_length in Hk. lia.
    - done.
    - cbn. intros p pc Hp Hpc. rewrite EP, ENP in Hpc. rewrite lookup_app_r in Hpc by lia.
      destruct (NP !! _) as [pc0|] eqn:E0; [|done]. cbn in Hpc. injection Hpc as <-.
      rewrite (proj2 (proj2 (rewire_same _ _ _ _ _ _))).
      by eapply (Forall_lookup_1 _ _ _ _ FNP).
    - cbn. by rewrite ER, EV.
    - cbn. done.
    - split; [|done]. split.
      + exists (MkRoute v (clone_ids h th ids) None). split; [|done]. cbn.
        rewrite ER, EV, lookup_app_r by lia. by rewrite Nat.sub_diag.
      + eapply (chain_Path _ _ (take th ids) (seq a (length ids - th)) L (reverse (take th L))).
        * pose proof (Path_chain _ _ _ _ (rw_path _ _ _ _ _ R)) as Hch.
          rewrite <- (take_drop th ids), <- (take_drop th L) in Hch.
          rewrite <- (take_drop th L).
          apply chain_app in Hch as [H1 H2]; [|rewrite !take_length; lia].
          apply chain_app; [rewrite !take_length; lia|]. split.
          -- eapply chain_frame; [exact H1| |].
             ++ intros s c _ Hc. exists c. split; [|done]. cbn. rewrite ES. by apply lookup_app_l_Some.
             ++ apply pts_ext_sk. cbn. intros p c Hp. exists c. split; [by apply Hold|done].
          -- rewrite <- drop_length. eapply (chain_copies h h3 cell m); [exact H2| | |].
             ++ intros s Hs. by apply Hcell, Hdin.
             ++ intros k c Hk. cbn. rewrite ES. rewrite lookup_app_r by (unfold a; lia).
                replace (a + k - length (h_stops h))%nat with k by (unfold a; lia).
                replace (last_or None (take th ids)) with (last (take th ids)) in Hk; [done|].
                unfold last_or. by destruct (last (take th ids)).
             ++ intros s p Hs Hp. destruct (Hnew p) as (_ & pc & Hpc & Hpc'); [by eapply Hkey|].
                cbn. split; [eauto|]. unfold trip_of. cbn. rewrite Hpc, Hpc'.
                by rewrite (proj1 (proj2 (rewire_same _ _ _ _ _ _))).
        * assert (HP : Path h v (reverse (take th ids)) (reverse (take th L))).
          { pose proof (rw_path _ _ _ _ _ R) as HP. rewrite <- (take_drop th ids), reverse_app in HP.
            apply Path_app_inv in HP as (A1 & A2 & E & Hl & HP).
            assert (A2 = reverse (take th L)) as ->; [|done].
            rewrite <- (take_drop th L), reverse_app in E. apply app_inj_1 in E as [_ ->]; [done|].
            rewrite Hl, !reverse_length, !drop_length. lia. }
          eapply Path_frame; [exact HP| |].
          -- intros s c _ Hc. exists c. cbn. rewrite ES. split; [by apply lookup_app_l_Some|].
             split; [done|apply weaker_refl].
          -- apply pts_ext_sk. cbn. intros p c Hp. exists c. split; [by apply Hold|done].
        * intros s c (H1 & H2)%elem_of_seq Hc. cbn in Hc.
          destruct (lookup_lt_is_Some_2 ids (th + (s - a))) as [q Hq]; [lia|].
          destruct (Hcopy _ _ Hq) as [prev Hq']. replace (a + (s - a))%nat with s in Hq' by lia.
          rewrite Hc in Hq'. by injection Hq' as ->.
      + apply R.
      + (* links *)
        intros s' c' Hs' Hc'. cbn in Hc'.
        apply clone_ids_elem in Hs' as [(i & Hi & Hs)|(k & Hk & ->)]; [| |done].
        * pose proof (Hcell' _ _ Hs) as Hc.
          assert (c' = cell s') as ->.
          { rewrite ES, (lookup_app_l_Some _ _ _ _ Hc) in Hc'. by injection Hc' as <-. }
          split; intros p Hp.
          -- destruct (link_of_pickup _ _ _ _ _ _ _ _ _ R Hs Hc Hp) as (j & d & dc & pc & Hij & Hj & Hdc & Hpd & Hpc & V1 & V2 & V3).
             assert (Hjth : (j < th)%nat).
             { destruct (decide (j < th)%nat) as [?|Hn]; [done|]. exfalso.
               assert (Hx : p ∈ pts_of h (drop th ids)).
               { apply Hcl, elem_of_dels. exists d, dc. split; [|done]. apply elem_of_drop. exists j. split; [lia|done]. }
               apply elem_of_pts_of in Hx as (s2 & c2 & (k & Hk & Hs2)%elem_of_drop & Hc2 & Hp2).
               pose proof (pickup_unique _ _ _ _ _ _ _ _ _ _ _ _ R Hs Hs2 Hc Hc2 Hp Hp2). lia. }
             exists d, dc, pc. cbn. split.
             { apply sublist2. exists i, j. split; [lia|]. rewrite !clone_ids_old by lia. done. }
             split; [rewrite ES; by apply lookup_app_l_Some|]. split; [done|]. split; [by apply Hold|done].
          -- destruct (link_of_delivery _ _ _ _ _ _ _ _ _ R Hs Hc Hp) as (j & d & dc & pc & Hij & Hj & Hdc & Hpd & Hpc & V1 & V2 & V3).
             exists d, dc, pc. cbn. split.
             { apply sublist2. exists j, i. split; [lia|]. rewrite !clone_ids_old by lia. done. }
             split; [rewrite ES; by apply lookup_app_l_Some|]. split; [done|]. split; [by apply Hold|done].
        * destruct (lookup_lt_is_Some_2 ids (th + k)) as [s Hs]; [lia|].
          pose proof (Hcell' _ _ Hs) as Hc.
          destruct (Hcopy _ _ Hs) as [prev Hcp]. fold a in Hc'. rewrite Hc' in Hcp. injection Hcp as ->.
          cbn [copy_cell st_pickups st_deliveries].
          (* the new planned trip of [p] *)
          assert (Hpt : forall p i j s1 s2, (th <= i)%nat -> ids !! i = Some s1 -> p ∈ st_pickups (cell s1) ->
                     (th <= j)%nat -> ids !! j = Some s2 -> p ∈ st_deliveries (cell s2) ->
                     forall pc0, h_pts h !! p = Some pc0 -> pt_vehicle pc0 = v ->
                     exists pc, h_pts h2 !! m p = Some pc /\ pt_vehicle pc = v /\
                       pt_pickup pc = Some (a + (i - th))%nat /\ pt_delivery pc = Some (a + (j - th))%nat).
          { intros p i j s1 s2 Hi Hs1 Hp1 Hj Hs2 Hp2 pc0 Hpc0 V0.
            assert (Hp : is_Some (dict_get p mapper)).
            { apply (Hkey s1); [apply elem_of_drop; eauto|set_solver]. }
            destruct (Hnew p Hp) as (_ & pc & Hpc & Hpc'). rewrite Hpc0 in Hpc. injection Hpc as <-.
            eexists. split; [exact Hpc'|]. split; [by rewrite (proj1 (rewire_same _ _ _ _ _ _))|]. split.
            - destruct (rewire_pickup cell m a (drop th ids) (m p) (MkPtrip (pt_vehicle pc0) (pt_trip pc0) None None None))
                as [(k2 & q2 & p2 & H1 & H2 & H3 & ->)|[_ H]].
              + apply Hd in H1. assert (p2 = p) as ->.
                { apply Hminj; [|done|done]. apply (Hkey q2); [apply elem_of_drop; exists (th + k2)%nat; split; [lia|done]|set_solver]. }
                pose proof (pickup_unique _ _ _ _ _ _ _ _ _ _ _ _ R Hs1 H1 (Hcell' _ _ Hs1) (Hcell' _ _ H1) Hp1 H2).
                f_equal. lia.
              + exfalso. apply (H s1 p); [apply elem_of_drop; eauto|done|done].
            - destruct (rewire_delivery cell m a (drop th ids) (m p) (MkPtrip (pt_vehicle pc0) (pt_trip pc0) None None None))
                as [(k2 & q2 & p2 & H1 & H2 & H3 & ->)|[_ H]].
              + apply Hd in H1. assert (p2 = p) as ->.
                { apply Hminj; [|done|done]. apply (Hkey q2); [apply elem_of_drop; exists (th + k2)%nat; split; [lia|done]|set_solver]. }
                pose proof (delivery_unique _ _ _ _ _ _ _ _ _ _ _ _ R Hs2 H1 (Hcell' _ _ Hs2) (Hcell' _ _ H1) Hp2 H2).
                f_equal. lia.
              + exfalso. apply (H s2 p); [apply elem_of_drop; eauto|done|done]. }
          assert (Hidx : forall j, (th <= j)%nat -> (j < length ids)%nat -> clone_ids h th ids !! j = Some (a + (j - th))%nat).
          { intros j Hj Hj'. replace j with (th + (j - th))%nat at 1 by lia. by rewrite clone_ids_new by lia. }
          split; intros p' (p & -> & Hp)%elem_of_list_fmap.
          -- destruct (link_of_pickup _ _ _ _ _ _ _ _ _ R Hs Hc Hp) as (j & d & dc & pc & Hij & Hj & Hdc & Hpd & Hpc & V1 & V2 & V3).
             pose proof (Hcell' _ _ Hj) as Hdc'. rewrite Hdc in Hdc'. injection Hdc' as ->.
             destruct (Hpt p (th + k)%nat j s d) with (pc0 := pc) as (pc' & Hpc' & U1 & U2 & U3); try done; try lia.
             pose proof (lookup_lt_Some _ _ _ Hj) as Hjl.
             destruct (Hcopy (j - th)%nat d) as [prev' Hcd]; [by replace (th + (j - th))%nat with j by lia|].
             exists (a + (j - th))%nat, (copy_cell m prev' (cell d)), pc'. cbn. split.
             { apply sublist2. exists (th + k)%nat, j. split; [lia|]. rewrite !Hidx by lia. split; [f_equal; lia|done]. }
             split; [done|]. split; [by apply elem_of_list_fmap_1|]. split; [done|]. split; [done|].
             split; [|done]. rewrite U2. f_equal. lia.
          -- destruct (link_of_delivery _ _ _ _ _ _ _ _ _ R Hs Hc Hp) as (j & d & dc & pc & Hij & Hj & Hdc & Hpd & Hpc & V1 & V2 & V3).
             pose proof (Hcell' _ _ Hj) as Hdc'. rewrite Hdc in Hdc'. injection Hdc' as ->.
             assert (Hjth : (th <= j)%nat).
             { assert (Hx : p ∈ pts_of h (drop th ids)).
               { apply Hcl, elem_of_dels. exists s, (cell s). split; [|done]. apply elem_of_drop. exists (th + k)%nat. split; [lia|done]. }
               apply elem_of_pts_of in Hx as (s2 & c2 & (k2 & Hk2 & Hs2)%elem_of_drop & Hc2 & Hp2).
               pose proof (pickup_unique _ _ _ _ _ _ _ _ _ _ _ _ R Hj Hs2 Hdc Hc2 Hpd Hp2). lia. }
             destruct (Hpt p j (th + k)%nat d s) with (pc0 := pc) as (pc' & Hpc' & U1 & U2 & U3); try done; try lia.
             pose proof (lookup_lt_Some _ _ _ Hj) as Hjl.
             destruct (Hcopy (j - th)%nat d) as [prev' Hcd]; [by replace (th + (j - th))%nat with j by lia|].
             exists (a + (j - th))%nat, (copy_cell m prev' (cell d)), pc'. cbn. split.
             { apply sublist2. exists j, (th + k)%nat. split; [lia|]. rewrite !Hidx by lia. split; [done|f_equal; lia]. }
             split; [done|]. split; [by apply elem_of_list_fmap_1|]. split; [done|]. split; [done|].
             split; [done|]. rewrite U3. f_equal. lia.
  Qed.
End clone.
