(** Proofs about the drawing of solutions (C61). *)
From Verif Require Import SpecPlot ComputeProofs TimeTheorems ValueTheorems StoreTheorems Witness.

Section gdict.
  Context {K V : Type} `{EqDecision K}.
  Implicit Types d : list (K * V).
  Lemma gd_get_set k v d k' : gd_get k' (gd_set k v d) = if decide (k' = k) then Some v else gd_get k' d.
  Proof. induction d as [|[a b] d IH]; cbn; repeat (case_decide; cbn); subst; try done; by rewrite IH, ?decide_True, ?decide_False. Qed.
  Lemma gd_keys_set k v d : map fst (gd_set k v d) = if decide (k ∈ map fst d) then map fst d else map fst d ++ [k].
  Proof.
    induction d as [|[a b] d IH]; cbn; [by rewrite decide_False by apply not_elem_of_nil|].
    destruct (decide (k = a)) as [E|E]; cbn.
    - subst. by rewrite decide_True by left.
    - rewrite IH. destruct (decide (k ∈ map fst d)).
      + by rewrite decide_True by by right.
      + rewrite decide_False; [done|]. rewrite elem_of_cons. tauto.
  Qed.
  Lemma gd_nodup_set k v d : NoDup (map fst d) -> NoDup (map fst (gd_set k v d)).
  Proof.
    intros H. rewrite gd_keys_set. case_decide as E; [done|]. apply NoDup_app. split; [done|]. split; [|apply NoDup_singleton].
    intros x Hx. rewrite elem_of_list_singleton. by intros ->.
  Qed.
  Lemma gd_get_elem d k v : NoDup (map fst d) -> (k, v) ∈ d <-> gd_get k d = Some v.
  Proof.
    induction d as [|[a b] d IH]; cbn; intros Hn; [split; [by intros ?%elem_of_nil|done]|]. apply NoDup_cons in Hn as [Ha Hn].
    rewrite elem_of_cons, (IH Hn). case_decide as E.
    - subst. split; [|intros [= ->]; by left]. intros [[= ->]|Hg]; [done|]. exfalso. apply Ha.
      apply (IH Hn) in Hg. by apply (elem_of_list_fmap_1 fst) in Hg.
    - split; [intros [[= -> ->]|]; done|by right].
  Qed.
  Lemma gd_get_key d k : k ∈ map fst d <-> is_Some (gd_get k d).
  Proof.
    induction d as [|[a b] d IH]; cbn; [split; [by intros ?%elem_of_nil|by intros [? ?]]|]. rewrite elem_of_cons, IH.
    case_decide as E; [subst; split; [by eexists|by left]|]. naive_solver.
  Qed.
  (** the last assignment wins *)
  Lemma gd_get_sets (kvs : list (K * V)) d k v :
    gd_get k (foldl (fun d kv => gd_set kv.1 kv.2 d) d kvs) = Some v <->
    (exists i, kvs !! i = Some (k, v) /\ forall j v', (i < j)%nat -> kvs !! j = Some (k, v') -> False) \/
    gd_get k d = Some v /\ k ∉ map fst kvs.
  Proof.
    revert d. induction kvs as [|[a b] kvs IH]; intros d; cbn.
    - split; [|by intros [(i & Hi & _)|[? _]]]. intros H. right. split; [done|apply not_elem_of_nil].
    - rewrite IH, gd_get_set, not_elem_of_cons. split.
      + intros [(i & Hi & Hl)|[Hg Hk]].
        * left. exists (S i). split; [done|]. intros [|j] v' Hj Hv; [lia|]. eapply (Hl j); [lia|done].
        * case_decide as E; [injection Hg as ->; subst|by right]. left. exists 0%nat. split; [done|].
          intros [|j] v' Hj Hv; [lia|]. cbn in Hv. apply Hk. apply elem_of_list_fmap. exists (a, v'). split; [done|by eapply elem_of_list_lookup_2].
      + intros [([|i] & Hi & Hl)|[Hg [Hk Hk']]].
        * injection Hi as -> ->. right. rewrite decide_True by done. split; [done|]. intros Hin. apply elem_of_list_fmap in Hin as ([k' v'] & -> & Hin).
          apply elem_of_list_lookup in Hin as [j Hj]. eapply (Hl (S j) v'); [lia|done].
        * left. exists i. split; [done|]. intros j v' Hj Hv. eapply (Hl (S j)); [lia|done].
        * right. by rewrite decide_False.
  Qed.
  Lemma gd_key_sets (kvs : list (K * V)) d k : k ∈ map fst (foldl (fun d kv => gd_set kv.1 kv.2 d) d kvs) <-> k ∈ map fst d \/ k ∈ map fst kvs.
  Proof.
    revert d. induction kvs as [|[a b] kvs IH]; intros d; cbn; [rewrite elem_of_nil; tauto|].
    rewrite IH, elem_of_cons, gd_keys_set. case_decide as E; [|rewrite elem_of_app, elem_of_list_singleton; tauto].
    split; [tauto|]. intros [?|[->|?]]; auto.
  Qed.
  Lemma gd_nodup_sets (kvs : list (K * V)) d : NoDup (map fst d) -> NoDup (map fst (foldl (fun d kv => gd_set kv.1 kv.2 d) d kvs)).
  Proof. revert d. induction kvs as [|kv kvs IH]; intros d Hd; [done|]. by apply IH, gd_nodup_set. Qed.
End gdict.

Section edges.
  Context {W : World}.
  Definition legs (xs : list visit) : list (position * position) := combine (map vi_place xs) (tail (map vi_place xs)).
  Lemma elem_legs xs p q : (p, q) ∈ legs xs <-> exists i x y, xs !! i = Some x /\ xs !! S i = Some y /\ vi_place x = p /\ vi_place y = q.
  Proof.
    unfold legs. induction xs as [|x xs IH]; cbn; [split; [by intros ?%elem_of_nil|by intros (i & ? & ? & ? & _)]|].
    destruct xs as [|y xs]; cbn in *.
    - split; [by intros ?%elem_of_nil|by intros ([|i] & ? & ? & ? & ? & _)].
    - rewrite elem_of_cons, IH. split.
      + intros [[= -> ->]|(i & H)]; [by exists 0%nat, x, y|by exists (S i)].
      + intros ([|i] & x' & y' & H1 & H2 & <- & <-); [left; cbn in *; congruence|right; by exists i, x', y'].
  Qed.
  Lemma legs_runs h r v ids L (c : nat) edges : RouteW h r v ids L ->
    runs (let! stops := route_stops r in
          foldM (fun edges (ss : nat * nat) =>
            let! a := stop_get (fst ss) in let! b := stop_get (snd ss) in
            ret (gd_set (st_position a, st_position b) c edges)) edges (combine (removelast stops) (tail stops))) h
      (fun edges' h' => quiet h h' /\ edges' = foldl (fun d kv => gd_set kv.1 kv.2 d) edges (map (fun l => (l, c)) (legs L))).
  Proof.
    intros R. step. eapply runs_route_stops; [exact R|].
    assert (H : forall i s, ids !! i = Some s -> exists cl x, h_stops h !! s = Some cl /\ L !! i = Some x /\ st_position cl = vi_place x).
    { intros i s Hs. destruct (RouteW_lookup _ _ _ _ _ _ _ R Hs) as (cl & x & Hc & Hx & -> & _). by exists cl, (abs h cl). }
    pose proof (RouteW_length _ _ _ _ _ R) as Hl. clear R. revert L edges H Hl.
    induction ids as [|s ids IH]; intros [|x L] edges H Hl; try done; [split; [apply quiet_refl|done]|].
    destruct ids as [|s' ids], L as [|x' L]; try done; [split; [apply quiet_refl|done]|].
    destruct (H 0%nat s eq_refl) as (c0 & y0 & H0 & [= <-] & E0). destruct (H 1%nat s' eq_refl) as (c1 & y1 & H1 & [= <-] & E1).
    change (combine (removelast (s :: s' :: ids)) (tail (s :: s' :: ids))) with ((s, s') :: combine (removelast (s' :: ids)) (tail (s' :: ids))).
    cbn [foldM fst snd]. step. step. eapply runs_stop_get; [exact H0|]. step. eapply runs_stop_get; [exact H1|]. apply runs_ret. rewrite E0, E1.
    change (legs (x :: x' :: L)) with ((vi_place x, vi_place x') :: legs (x' :: L)). cbn [map foldl fst snd].
    apply IH; [|cbn in Hl |- *; lia]. intros i. apply (H (S i)).
  Qed.
End edges.

Section graph.
  Context {W : World}.
  Notation sets := (foldl (fun d kv => gd_set kv.1 kv.2 d)).

  Lemma edges_runs h pl : well_planned h pl ->
    runs (generate_edges pl) h (fun edges h' => quiet h h' /\ exists order, order ≡ₚ pl /\ NoDup (map fst edges) /\
      (forall p q, (p, q) ∈ map fst edges <-> exists r, r ∈ pl /\ drives h r p q) /\
      forall p q c, ((p, q), c) ∈ edges <->
        (exists r, order !! c = Some r /\ drives h r p q) /\
        (forall c' r', (c < c')%nat -> order !! c' = Some r' -> ~ drives h r' p q)).
  Proof.
    intros HW. unfold generate_edges. step. apply runs_set_order. intros order Ho.
    set (h0 := MkHeap _ _ _ _). assert (Q0 : quiet h h0) by (split; [apply soft_tick|done]). clearbody h0.
    assert (HR : forall r, r ∈ order -> exists v ids L, RouteW h r v ids L).
    { intros r Hr. rewrite Ho in Hr. destruct (HW r Hr) as (v & ids & xs & R). exists v, ids, xs. by apply well_formed_RouteW. }
    assert (Hd : forall r v ids L p q, RouteW h r v ids L -> drives h r p q <-> (p, q) ∈ legs L).
    { intros r v ids L p q R. rewrite elem_legs. split.
      - intros (v' & ids' & xs & i & x & y & R' & H). apply well_formed_RouteW in R'.
        destruct (RouteW_det _ _ _ _ _ _ _ _ R R') as (-> & -> & ->). by exists i, x, y.
      - intros (i & x & y & H). exists v, ids, L, i, x, y. split; [by apply well_formed_RouteW|done]. }
    (* all assignments, in order *)
    cut (runs (foldM (fun edges (rc : nat * nat) =>
      let! stops := route_stops (fst rc) in
      foldM (fun edges (ss : nat * nat) =>
        let! a := stop_get (fst ss) in
        let! b := stop_get (snd ss) in
        ret (gd_set (st_position a, st_position b) (snd rc) edges))
        edges (combine (removelast stops) (tail stops))) [] (combine order (seq 0 (length order)))) h0
      (fun edges h' => quiet h h' /\ exists kvs, edges = sets [] kvs /\
         (forall p q c, ((p, q), c) ∈ kvs <-> exists r, order !! c = Some r /\ drives h r p q) /\
         (forall i j k k' c c', (i <= j)%nat -> kvs !! i = Some (k, c) -> kvs !! j = Some (k', c') -> (c <= c')%nat))).
    { intros H. eapply runs_mono; [exact H|]. cbn. intros edges h1 (Q1 & kvs & -> & HK & HL). split; [done|].
      exists order. split; [done|]. assert (Hn : NoDup (map fst (sets [] kvs))) by (apply gd_nodup_sets; constructor).
      split; [done|]. split.
      { intros p q. rewrite gd_key_sets. cbn. rewrite elem_of_nil, elem_of_list_fmap. split.
        - intros [[]|([[p' q'] c] & [= -> ->] & Hin)]. apply HK in Hin as (r & Hr & Hdr). exists r. split; [|done].
          rewrite <- Ho. by eapply elem_of_list_lookup_2.
        - intros (r & Hr & Hdr). rewrite <- Ho in Hr. apply elem_of_list_lookup in Hr as [c Hc]. right. exists (p, q, c). split; [done|]. apply HK. eauto. }
      intros p q c. rewrite gd_get_elem by done. rewrite gd_get_sets. split.
      - intros [(i & Hi & Hl)|[? _]]; [|done]. split; [apply HK; by eapply elem_of_list_lookup_2|].
        intros c' r' Hc Hr' Hdr. assert (((p, q), c') ∈ kvs) as Hin by (apply HK; eauto). apply elem_of_list_lookup in Hin as [j Hj].
        destruct (decide (i < j)%nat) as [Hij|Hij]; [by eapply Hl|]. specialize (HL j i _ _ _ _ ltac:(lia) Hj Hi). lia.
      - intros [Hex Hlast]. left. apply HK in Hex.
        (* the last occurrence of the key *)
        assert (exists i c0, kvs !! i = Some (p, q, c0) /\ forall j v', (i < j)%nat -> kvs !! j = Some (p, q, v') -> False) as (i & c0 & Hi & Hl).
        { destruct (gd_get (p, q) (sets [] kvs)) as [c0|] eqn:E.
          - apply gd_get_sets in E as [(i & Hi & Hl)|[? _]]; [by exists i, c0|done].
          - exfalso. assert ((p, q) ∈ map fst (sets [] kvs)) as Hin by (apply gd_key_sets; right; apply elem_of_list_fmap; by exists (p, q, c)).
            apply gd_get_key in Hin as [? ?]. congruence. }
        assert (c0 = c) as ->; [|by exists i].
        assert ((p, q, c0) ∈ kvs) as Hin by (by eapply elem_of_list_lookup_2). apply HK in Hin as (r0 & Hr0 & Hd0).
        apply elem_of_list_lookup in Hex as [j Hj]. 
        destruct (decide (j <= i)%nat) as [Hij|Hij]; [|exfalso; eapply (Hl j); [lia|done]].
        pose proof (HL j i _ _ _ _ Hij Hj Hi). destruct (decide (c < c0)%nat); [|lia]. exfalso. by eapply Hlast. }
    (* one route after the other *)
    cut (forall todo done kvs h1, order = done ++ todo -> quiet h h1 ->
      (forall p q c, ((p, q), c) ∈ kvs <-> exists r, done !! c = Some r /\ drives h r p q) ->
      (forall i j k k' c c', (i <= j)%nat -> kvs !! i = Some (k, c) -> kvs !! j = Some (k', c') -> (c <= c')%nat) ->
      runs (foldM (fun edges (rc : nat * nat) =>
      let! stops := route_stops (fst rc) in
      foldM (fun edges (ss : nat * nat) =>
        let! a := stop_get (fst ss) in
        let! b := stop_get (snd ss) in
        ret (gd_set (st_position a, st_position b) (snd rc) edges))
        edges (combine (removelast stops) (tail stops))) (sets [] kvs) (combine todo (seq (length done) (length todo)))) h1
      (fun edges h' => quiet h h' /\ exists kvs, edges = sets [] kvs /\
         (forall p q c, ((p, q), c) ∈ kvs <-> exists r, order !! c = Some r /\ drives h r p q) /\
         (forall i j k k' c c', (i <= j)%nat -> kvs !! i = Some (k, c) -> kvs !! j = Some (k', c') -> (c <= c')%nat))).
    { intros H. apply (H order [] [] h0); [done|done| |done]. intros p q c. split; [by intros ?%elem_of_nil|by intros (r & ? & _)]. }
    intros todo. induction todo as [|r todo IH]; intros dn kvs h1 -> Q1 HK HL.
    - cbn. apply runs_ret. rewrite app_nil_r. split; [done|]. by exists kvs.
    - cbn [length seq combine foldM fst snd]. step. destruct (HR r) as (v & ids & L & R); [apply elem_of_app; right; left|].
      eapply runs_mono; [apply (legs_runs h1 r v ids L); by eapply RouteW_quiet|]. cbn. intros e h2 [Q2 ->].
      rewrite <- foldl_app.
      specialize (IH (dn ++ [r]) (kvs ++ map (fun l => (l, length dn)) (legs L)) h2). rewrite app_length in IH. cbn [length] in IH.
      rewrite Nat.add_1_r in IH. apply IH; [by rewrite <- app_assoc|by eapply quiet_trans| |].
      + intros p q c. rewrite elem_of_app, HK. split.
        * intros [(r' & Hr' & Hdr)|Hin].
          -- exists r'. split; [by apply lookup_app_l_Some|done].
          -- apply elem_of_list_fmap in Hin as (l & [= <- ->] & Hin). exists r. split; [by rewrite lookup_app_r, Nat.sub_diag by lia|]. by eapply Hd.
        * intros (r' & Hr' & Hdr). apply lookup_app_Some in Hr' as [Hr'|[Hc Hr']]; [left; by exists r'|].
          right. destruct (c - length dn)%nat eqn:Ec; [|done]. injection Hr' as <-. assert (c = length dn) as -> by lia.
          apply elem_of_list_fmap. exists (p, q). split; [done|]. by eapply Hd.
      + assert (Hlt : forall i k c, kvs !! i = Some (k, c) -> (c < length dn)%nat).
        { intros i [p q] c Hi. apply elem_of_list_lookup_2, HK in Hi as (r' & Hr' & _). by apply lookup_lt_Some in Hr'. }
        intros i j k k' c c' Hij Hi Hj. apply lookup_app_Some in Hi as [Hi|[Hi1 Hi]], Hj as [Hj|[Hj1 Hj]].
        * by eapply HL.
        * apply list_lookup_fmap_Some in Hj as (? & _ & [= _ ->]). apply Hlt in Hi. lia.
        * apply lookup_lt_Some in Hj. lia.
        * apply list_lookup_fmap_Some in Hj as (? & _ & [= _ ->]). apply list_lookup_fmap_Some in Hi as (? & _ & [= _ ->]). lia.
  Qed.

  Definition labels (ts : list nat) : list (position * string) :=
    flat_map (fun t => [(origin_position (w_trip t), "+" +:+ tr_identifier (w_trip t));
                        (destination_position (w_trip t), "-" +:+ tr_identifier (w_trip t))]) ts.
  Lemma sets_labels ts nodes :
    foldl (fun nodes t => gd_set (destination_position (w_trip t)) ("-" +:+ tr_identifier (w_trip t))
      (gd_set (origin_position (w_trip t)) ("+" +:+ tr_identifier (w_trip t)) nodes)) nodes ts = sets nodes (labels ts).
  Proof. revert nodes. induction ts as [|t ts IH]; intros nodes; [done|]. apply IH. Qed.
  Lemma elem_labels ts p l : (p, l) ∈ labels ts <-> names_trip_at ts p l.
  Proof.
    unfold labels, names_trip_at. rewrite elem_of_list_In, in_flat_map. split.
    - intros (t & Ht & Hin). exists t. split; [by apply elem_of_list_In|]. cbn in Hin. destruct Hin as [[= <- <-]|[[= <- <-]|[]]]; auto.
    - intros (t & Ht & H). exists t. split; [by apply elem_of_list_In|]. cbn. destruct H as [[<- ->]|[<- ->]]; auto.
  Qed.
  Lemma label_keys ts p : p ∈ map fst (labels ts) <-> meeting_place ts p.
  Proof.
    rewrite elem_of_list_fmap. split.
    - intros ([p' l] & -> & H). apply elem_labels in H as (t & Ht & [[H _]|[H _]]); exists t; auto.
    - intros (t & Ht & [<-|<-]); (eexists (_, _); split; [reflexivity|]; apply elem_labels; exists t; split; [done|]); [by left|by right].
  Qed.
  Notation missing p nodes := (match gd_get p nodes%list with None => gd_set p EmptyString nodes%list | Some _ => nodes%list end).
  Lemma missing_get (p : position) (nodes : list (position * string)) q : gd_get q (missing p nodes) = match gd_get q nodes with Some l => Some l | None => if decide (q = p) then Some EmptyString else None end.
  Proof.
    destruct (gd_get p nodes) eqn:E.
    - destruct (gd_get q nodes) eqn:E'; [done|]. rewrite decide_False; [done|]. intros ->. congruence.
    - rewrite gd_get_set. case_decide as H; [|by destruct (gd_get q nodes)]. subst. by rewrite E.
  Qed.
  Lemma missing_nodup (p : position) (nodes : list (position * string)) : NoDup (map fst nodes) -> NoDup (map fst (missing p nodes)).
  Proof. destruct (gd_get p nodes); [done|apply gd_nodup_set]. Qed.
  Definition ends (edges : list ((position * position) * nat)) (p : position) : Prop :=
    exists e, e ∈ edges /\ (e.1.1 = p \/ e.1.2 = p).
  Lemma missing_all edges nodes q : NoDup (map fst nodes) ->
    let nodes' := foldl (fun nodes (e : (position * position) * nat) =>
      (fun nodes => missing (snd (fst e)) nodes) (missing (fst (fst e)) nodes)) nodes edges in
    NoDup (map fst nodes') /\
    forall l, gd_get q nodes' = Some l <-> gd_get q nodes = Some l \/ gd_get q nodes = None /\ ends edges q /\ l = EmptyString.
  Proof.
    revert nodes. induction edges as [|e edges IH]; intros nodes Hn; cbn [foldl].
    - split; [done|]. intros l. split; [by left|]. intros [?|(_ & (e & He & _) & _)]; [done|by apply elem_of_nil in He].
    - destruct (IH (missing (snd (fst e)) (missing (fst (fst e)) nodes))) as [H1 H2]; [by apply missing_nodup, missing_nodup|].
      split; [exact H1|]. intros l. etransitivity; [apply H2|]. clear H1 H2 IH. rewrite !missing_get.
      assert (Hends : ends (e :: edges) q <-> q = e.1.1 \/ q = e.1.2 \/ ends edges q).
      { unfold ends. split.
        - intros (e' & He & Hq). apply elem_of_cons in He as [->|He]; [naive_solver|]. right. right. by exists e'.
        - intros [->|[->|(e' & He & Hq)]]; [exists e; split; [left|by left]|exists e; split; [left|by right]|exists e'; split; [by right|done]]. }
      rewrite Hends. destruct (gd_get q nodes); [naive_solver|]. repeat case_decide; naive_solver.
  Qed.
  Lemma nodes_runs h edges job :
    runs (generate_nodes edges job) h (fun nodes h' => quiet h h' /\ NoDup (map fst nodes) /\
      (forall p, p ∈ map fst nodes <-> meeting_place job p \/ ends edges p) /\
      (forall p l, (p, l) ∈ nodes -> names_trip_at job p l \/ ~ meeting_place job p /\ l = EmptyString)).
  Proof.
    unfold generate_nodes. step. apply runs_set_order. intros ts Ht. apply runs_ret.
    split; [split; [apply soft_tick|done]|]. rewrite sets_labels.
    assert (Hn0 : NoDup (map fst (sets [] (labels ts)))) by (apply gd_nodup_sets; constructor).
    pose proof (fun q => missing_all edges (sets [] (labels ts)) q Hn0) as H. set (nodes := foldl _ _ edges) in *.
    destruct (H []) as [Hn _]. assert (Hg := fun q => proj2 (H q)). clear H. cbn beta in Hg. split; [done|].
    assert (Hm : forall p, meeting_place job p <-> meeting_place ts p).
    { intros p. unfold meeting_place. split; intros (t & Hin & H); exists t; (split; [|done]); [by rewrite Ht|by rewrite <- Ht]. }
    assert (Hnt : forall p l, names_trip_at job p l <-> names_trip_at ts p l).
    { intros p l. unfold names_trip_at. split; intros (t & Hin & H); exists t; (split; [|done]); [by rewrite Ht|by rewrite <- Ht]. }
    assert (Hk : forall p, is_Some (gd_get p (sets [] (labels ts))) <-> meeting_place ts p).
    { intros p. rewrite <- label_keys, <- gd_get_key, gd_key_sets. cbn. rewrite elem_of_nil. tauto. }
    split.
    - intros p. rewrite gd_get_key, Hm, <- Hk. unfold is_Some at 1. setoid_rewrite Hg.
      destruct (gd_get p (sets [] (labels ts))) as [l|]; split.
      + intros _. left. by exists l.
      + intros _. exists l. by left.
      + intros (l & [?|(_ & He & _)]); [done|by right].
      + intros [[? ?]|He]; [done|]. exists EmptyString. by right.
    - intros p l Hin. apply gd_get_elem in Hin; [|done]. apply Hg in Hin as [Hl|(Hno & _ & ->)].
      + left. apply gd_get_sets in Hl as [(i & Hi & _)|[? _]]; [|done]. apply Hnt, elem_labels. by eapply elem_of_list_lookup_2.
      + right. split; [|done]. rewrite Hm, <- Hk, Hno. by intros [? ?].
  Qed.
End graph.

(** ** C61 *)
Lemma c61_graph `{W : World} : forall h pl job, well_planned h pl ->
  exists nodes edges h' order, generate_graph pl job h = (Ok (nodes, edges), h') /\ only_memoised h h' /\
    NoDup (map fst nodes) /\ NoDup (map fst edges) /\ order ≡ₚ pl /\
    (forall p, p ∈ map fst nodes <-> meeting_place job p \/ exists r q, r ∈ pl /\ (drives h r p q \/ drives h r q p)) /\
    (forall p l, (p, l) ∈ nodes -> names_trip_at job p l \/ ~ meeting_place job p /\ l = EmptyString) /\
    (forall p q, (p, q) ∈ map fst edges <-> exists r, r ∈ pl /\ drives h r p q) /\
    (forall p q c, ((p, q), c) ∈ edges <->
       (exists r, order !! c = Some r /\ drives h r p q) /\
       (forall c' r', (c < c')%nat -> order !! c' = Some r' -> ~ drives h r' p q)).
Proof.
  intros h pl job HW.
  assert (runs (generate_graph pl job) h (fun g h' => quiet h h' /\ exists order, NoDup (map fst g.1) /\ NoDup (map fst g.2) /\ order ≡ₚ pl /\
    (forall p, p ∈ map fst g.1 <-> meeting_place job p \/ ends g.2 p) /\
    (forall p l, (p, l) ∈ g.1 -> names_trip_at job p l \/ ~ meeting_place job p /\ l = EmptyString) /\
    (forall p q, (p, q) ∈ map fst g.2 <-> exists r, r ∈ pl /\ drives h r p q) /\
    (forall p q c, ((p, q), c) ∈ g.2 <->
        (exists r, order !! c = Some r /\ drives h r p q) /\
        (forall c' r', (c < c')%nat -> order !! c' = Some r' -> ~ drives h r' p q)))) as G.
  { unfold generate_graph. step. eapply runs_mono; [by apply edges_runs|]. cbn beta. intros edges h1 (Q1 & order & Ho & Hn & Hke & He).
    step. eapply runs_mono; [apply nodes_runs|]. cbn beta. intros nodes h2 (Q2 & Hnn & Hk & Hl). apply runs_ret. cbn.
    split; [by eapply quiet_trans|]. by exists order. }
  apply runs_eq in G as ([nodes edges] & h' & E & Q & order & Hn & Hne & Ho & Hk & Hl & Hke & He). cbn in *.
  exists nodes, edges, h', order. split; [done|]. split; [by apply quiet_memoised|]. split; [done|]. split; [done|]. split; [done|].
  split; [|split; [done|split; [done|exact He]]].
  intros p. rewrite Hk. unfold ends. split.
  - intros [?|([[p' q'] c] & Hin & [<-|<-])]; [by left| |]; right; cbn;
      apply (elem_of_list_fmap_1 fst), Hke in Hin as (r & Hr & Hd); exists r; eauto.
  - intros [?|(r & q & Hr & [Hd|Hd])]; [by left| |]; right.
    + assert ((p, q) ∈ map fst edges) as Hin by (apply Hke; eauto). apply elem_of_list_fmap in Hin as (e & Ee & Hin).
      exists e. split; [done|]. left. by rewrite <- Ee.
    + assert ((q, p) ∈ map fst edges) as Hin by (apply Hke; eauto). apply elem_of_list_fmap in Hin as (e & Ee & Hin).
      exists e. split; [done|]. right. by rewrite <- Ee.
Qed.
(** when no leg is driven by two routes, colours tell the routes apart *)
Lemma c61_colours `{W : World} : forall h pl job nodes edges h', well_planned h pl -> NoDup pl ->
  generate_graph pl job h = (Ok (nodes, edges), h') ->
  (forall r r' p q, r ∈ pl -> r' ∈ pl -> drives h r p q -> drives h r' p q -> r = r') ->
  forall r r' p q p' q' c c', r ∈ pl -> r' ∈ pl -> drives h r p q -> drives h r' p' q' ->
    ((p, q), c) ∈ edges -> ((p', q'), c') ∈ edges -> (c = c' <-> r = r').
Proof.
  intros h pl job nodes edges h' HW Hn E Hd r r' p q p' q' c c' Hr Hr' H H' Hin Hin'.
  destruct (c61_graph h pl job HW) as (nodes' & edges' & h1 & order & E' & _ & _ & Hne & Ho & _ & _ & _ & He).
  rewrite E in E'. injection E' as <- <- <-.
  destruct (proj1 (He _ _ _) Hin) as [(r1 & H1 & D1) _]. destruct (proj1 (He _ _ _) Hin') as [(r2 & H2 & D2) _].
  assert (r1 = r) as -> by (eapply Hd; [rewrite <- Ho; by eapply elem_of_list_lookup_2|done|done|done]).
  assert (r2 = r') as -> by (eapply Hd; [rewrite <- Ho; by eapply elem_of_list_lookup_2|done|done|done]).
  split; [intros ->; congruence|]. intros ->. apply (NoDup_lookup order _ _ r'); [by rewrite Ho|done|done].
Qed.
(** every place of a trip is labelled with it, when no two places coincide *)
Lemma c61_labels `{W : World} : forall h pl job nodes edges h', well_planned h pl -> places_apart job ->
  generate_graph pl job h = (Ok (nodes, edges), h') ->
  forall t, t ∈ job -> (origin_position (w_trip t), "+" +:+ tr_identifier (w_trip t)) ∈ nodes /\
                     (destination_position (w_trip t), "-" +:+ tr_identifier (w_trip t)) ∈ nodes.
Proof.
  intros h pl job nodes edges h' HW (A1 & A2 & A3) E t Ht.
  destruct (c61_graph h pl job HW) as (nodes' & edges' & h1 & order & E' & _ & _ & _ & _ & Hk & Hl & _).
  rewrite E in E'. injection E' as <- <- <-. split.
  - assert (origin_position (w_trip t) ∈ map fst nodes) as Hin by (apply Hk; left; exists t; auto).
    apply elem_of_list_fmap in Hin as ([p l] & Ep & Hin). cbn in Ep. rewrite Ep. 
    destruct (Hl _ _ Hin) as [(t' & Ht' & [[H1 ->]|[H1 ->]])|[Hno _]].
    + assert (t' = t) as -> by (apply A2; [done|done|congruence]). done.
    + exfalso. apply (A1 t t' Ht Ht'). congruence.
    + exfalso. apply Hno. exists t. auto.
  - assert (destination_position (w_trip t) ∈ map fst nodes) as Hin by (apply Hk; left; exists t; auto).
    apply elem_of_list_fmap in Hin as ([p l] & Ep & Hin). cbn in Ep. rewrite Ep. 
    destruct (Hl _ _ Hin) as [(t' & Ht' & [[H1 ->]|[H1 ->]])|[Hno _]].
    + exfalso. apply (A1 t' t Ht' Ht). congruence.
    + assert (t' = t) as -> by (apply A3; [done|done|congruence]). done.
    + exfalso. apply Hno. exists t. auto.
Qed.
(** trips that share a place: only the last one is named there *)
Lemma c61_naive : ~ forall (W : World) h pl job nodes edges h', well_planned h pl -> NoDup pl -> NoDup job ->
  generate_graph pl job h = (Ok (nodes, edges), h') ->
  forall t, t ∈ job -> (origin_position (w_trip t), "+" +:+ tr_identifier (w_trip t)) ∈ nodes /\
                     (destination_position (w_trip t), "-" +:+ tr_identifier (w_trip t)) ∈ nodes.
Proof.
  intros H. assert (HW : @well_planned town busy_town [2%nat]).
  { intros r Hr. apply elem_of_list_singleton in Hr as ->. exists 0%nat, busy_stops, busy_visits. by apply well_formedb_sound. }
  specialize (H town busy_town [2%nat] [0; 3]%nat _ _ _ HW (NoDup_singleton _) ltac:(by apply (bool_decide_unpack _)) eq_refl 0%nat ltac:(left)).
  destruct H as [H _]. apply gd_get_elem in H; [|by apply (bool_decide_unpack _)]. by vm_compute in H.
Qed.
(** routes that share a leg: it is drawn once, in the colour of the last of them *)
Lemma c61_overdrawn : ~ forall (W : World) h pl job nodes edges h', well_planned h pl -> NoDup pl -> NoDup job ->
  generate_graph pl job h = (Ok (nodes, edges), h') ->
  exists colour : nat -> nat, (forall r r', r ∈ pl -> r' ∈ pl -> colour r = colour r' -> r = r') /\
    forall r p q, r ∈ pl -> drives h r p q -> ((p, q), colour r) ∈ edges.
Proof.
  intros H.
  assert (R2 : @well_formed town busy_town 2 0 busy_stops busy_visits) by (by apply well_formedb_sound).
  assert (R1 : @well_formed town busy_town 1 0 (stops_in busy_town 1) (visits_of busy_town 1)) by (by apply well_formedb_sound).
  assert (HW : @well_planned town busy_town [1; 2]%nat).
  { intros r Hr. apply elem_of_cons in Hr as [->|Hr]; [|apply elem_of_list_singleton in Hr as ->]; by do 3 eexists. }
  edestruct (H town busy_town [1; 2]%nat [] _ _ _ HW ltac:(by apply (bool_decide_unpack _)) (NoDup_nil_2) eq_refl) as (col & Hi & Hd).
  assert (Hn : NoDup (map fst (fst (match fst (@generate_graph town [1; 2]%nat [] busy_town) with Ok g => (snd g, tt) | Raise _ => ([], tt) end))))
    by (by apply (bool_decide_unpack _)).
  assert (D1 : @drives town busy_town 1 [0] [1000]). { eexists _, _, _, 0%nat, _, _. split; [exact R1|]. by vm_compute. }
  assert (D2 : @drives town busy_town 2 [0] [1000]). { eexists _, _, _, 0%nat, _, _. split; [exact R2|]. by vm_compute. }
  pose proof (Hd 1%nat [0] [1000] ltac:(left) D1) as E1. pose proof (Hd 2%nat [0] [1000] ltac:(right; left) D2) as E2.
  assert (1%nat = 2%nat); [|done]. apply Hi; [left|right; left|].
  apply gd_get_elem in E1; [|exact Hn]. apply gd_get_elem in E2; [|exact Hn]. congruence.
Qed.
