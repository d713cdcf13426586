(** Whole runs of the insertion algorithm with the ranking iterator. *)
From Verif Require Export RankingProofs Plannings.

Section runs.
  Context {W : World} {Sh : Shape}.

  (** what vehicles serve only grows *)
  Definition GrowsTo (h : heap) (k : ranking) (h' : heap) (k' : ranking) : Prop :=
    evolves h h' /\ it_job (rk_it k') = it_job (rk_it k) /\
    map fst (it_routes (rk_it k')) = map fst (it_routes (rk_it k)) /\
    (forall v B, assigned h (it_routes (rk_it k)) v B ->
       exists B', assigned h' (it_routes (rk_it k')) v B' /\ forall t, t ∈ B -> t ∈ B').
  Lemma GrowsTo_refl h k : GrowsTo h k h k.
  Proof. split; [apply evolves_refl|]. split; [done|]. split; [done|]. intros v B A. by exists B. Qed.
  Lemma GrowsTo_trans h1 k1 h2 k2 h3 k3 : GrowsTo h1 k1 h2 k2 -> GrowsTo h2 k2 h3 k3 -> GrowsTo h1 k1 h3 k3.
  Proof.
    intros (E1 & J1 & K1 & G1) (E2 & J2 & K2 & G2). split; [by eapply evolves_trans|]. split; [congruence|].
    split; [congruence|]. intros v B A. destruct (G1 v B A) as (B' & A' & H1). destruct (G2 v B' A') as (B'' & A'' & H2).
    exists B''. split; [done|]. auto.
  Qed.
  Lemma GrowsTo_evolves h k h' : evolves h h' -> GrowsTo h k h' k.
  Proof.
    intros E. split; [done|]. split; [done|]. split; [done|]. intros v B A. exists B.
    split; [by eapply assigned_evolves|done].
  Qed.

  Lemma feasible_step h U k v sub r : sane -> RankInv h U k -> dict_get v (rk_table k) = Some sub -> r ∈ sub ->
    runs (route_feasible r) h (fun _ h' => evolves h h' /\ RankInv h' U k).
  Proof.
    intros Hs RI G Hr. destruct (ri_table _ _ _ RI v sub G r Hr) as (? & ? & B' & _ & _ & (ids & L & R & _) & _).
    eapply runs_mono; [apply (route_feasible_mono h r v ids L); [apply Hs|apply Hs|done]|].
    intros b h' (M & _). assert (E : evolves h h') by (by apply evolves_soft, mono_soft). split; [done|].
    by eapply RankInv_mono.
  Qed.
  Lemma accept_step h U k v sub r : sane -> RankInv h U k -> dict_get v (rk_table k) = Some sub -> r ∈ sub ->
    runs (ranking_set_route k r) h (fun k' h' => RankInv h' U k' /\ GrowsTo h k h' k' /\
      length (it_pending (rk_it k)) = S (length (it_pending (rk_it k')))).
  Proof.
    intros Hs RI G Hr. eapply runs_mono; [by eapply ranking_set_route_runs|].
    intros k' h' (E & RI' & _ & Ej & Er & B & t & B' & A & Ht & SB & P & Ep & _). split; [done|]. split.
    - split; [done|]. split; [done|]. split.
      { rewrite Er. apply dict_set_in. destruct A as (q & ? & _). eauto. }
      rewrite Er. intros w C AC. destruct (decide (w = v)) as [->|Hne].
      + exists B'. split; [exists r; split; [apply dict_get_set_eq|by eapply Serves_evolves]|].
        destruct A as (q & Hq & S1), AC as (q' & Hq' & S2). assert (q' = q) as -> by congruence.
        destruct (Serves_det _ _ _ _ _ _ S1 S2) as [_ <-]. intros u Hu. rewrite P. by right.
      + exists C. split; [|done]. destruct AC as (q & Hq & S1). exists q.
        split; [by rewrite dict_get_set_ne|by eapply Serves_evolves].
    - rewrite Ep. apply filter_out_length; [apply (ii_pending _ _ _ (ri_it _ _ _ RI))|done].
  Qed.

  Lemma ranking_loop_runs U n : forall k h, sane -> RankInv h U k -> (length (it_pending (rk_it k)) < n)%nat ->
    runs (ranking_loop n k) h (fun k' h' => RankInv h' U k' /\ GrowsTo h k h' k').
  Proof.
    induction n as [|n IH]; intros k h Hs RI Hlen; [lia|]. cbn [ranking_loop]. step.
    eapply runs_mono; [by apply (ranking_next_runs h U k)|]. intros o h1 (E1 & K1 & HI1 & Ho).
    assert (RI1 : RankInv h1 U k) by by eapply RankInv_mono.
    destruct o as [r|].
    2:{ apply runs_ret. split; [done|]. by apply GrowsTo_evolves. }
    destruct Ho as (v & sub & G & Hr). step.
    eapply runs_mono; [by eapply (feasible_step h1 U k v sub r)|]. intros b h2 [E2 RI2].
    assert (E02 : evolves h h2) by by eapply evolves_trans.
    destruct b; cbn [negb].
    2:{ apply runs_ret. split; [done|]. by apply GrowsTo_evolves. }
    step. eapply runs_mono; [by eapply (accept_step h2 U k v sub r)|]. intros k' h3 (RI3 & G3 & El).
    eapply runs_mono; [apply (IH k' h3 Hs RI3); lia|]. intros k'' h4 [RI4 G4]. split; [done|].
    eapply GrowsTo_trans; [by apply GrowsTo_evolves|]. by eapply GrowsTo_trans.
  Qed.
  (** more fuel does not matter *)
  Lemma ranking_loop_fuel U n : forall m k h, sane -> RankInv h U k -> (length (it_pending (rk_it k)) < n)%nat ->
    (n <= m)%nat -> ranking_loop m k h = ranking_loop n k h.
  Proof.
    induction n as [|n IH]; intros m k h Hs RI Hlen Hm; [lia|]. destruct m as [|m]; [lia|]. cbn [ranking_loop].
    pose proof (ranking_next_runs h U k Hs RI) as N. apply runs_eq in N as (o & h1 & En & E1 & K1 & HI1 & Ho).
    rewrite !(bind_ok _ _ _ _ _ En).
    destruct o as [r|]; [|done]. destruct Ho as (v & sub & G & Hr).
    assert (RI1 : RankInv h1 U k) by by eapply RankInv_mono.
    pose proof (feasible_step h1 U k v sub r Hs RI1 G Hr) as F. apply runs_eq in F as (b & h2 & Ef & E2 & RI2).
    rewrite !(bind_ok _ _ _ _ _ Ef). destruct b; [|done]. cbn [negb].
    pose proof (accept_step h2 U k v sub r Hs RI2 G Hr) as A. apply runs_eq in A as (k' & h3 & Ea & RI3 & _ & El).
    unfold bind. rewrite Ea. apply IH; [done|done|lia|lia].
  Qed.
  Lemma rounds_inv U n k h k' h' : sane -> rounds n k h k' h' -> RankInv h U k ->
    RankInv h' U k' /\ GrowsTo h k h' k' /\
    length (it_pending (rk_it k)) = (n + length (it_pending (rk_it k')))%nat.
  Proof.
    intros Hs HR. induction HR as [k h|n k h r h1 h2 k' h3 k'' h'' En Ef Ea HR IH]; intros RI.
    { split; [done|]. split; [apply GrowsTo_refl|done]. }
    pose proof (ranking_next_runs h U k Hs RI) as N. unfold runs in N. rewrite En in N.
    destruct N as (E1 & K1 & HI1 & v & sub & G & Hr).
    assert (RI1 : RankInv h1 U k) by by eapply RankInv_mono.
    pose proof (feasible_step h1 U k v sub r Hs RI1 G Hr) as F. unfold runs in F. rewrite Ef in F. destruct F as (E2 & RI2).
    pose proof (accept_step h2 U k v sub r Hs RI2 G Hr) as A. unfold runs in A. rewrite Ea in A. destruct A as (RI3 & G3 & El).
    destruct (IH RI3) as (RI' & G' & El'). split; [done|]. split; [|lia].
    eapply GrowsTo_trans; [apply GrowsTo_evolves; by eapply evolves_trans|]. by eapply GrowsTo_trans.
  Qed.

  (** ** Starting *)
  Lemma routes_dict_runs h rs :
    (forall r, r ∈ rs -> served h r) ->
    (forall r r' v B B', r ∈ rs -> r' ∈ rs -> Serves h r v B -> Serves h r' v B' -> r = r') ->
    runs (routes_dict rs) h (fun d h' => h' = h /\ NoDup (map fst d) /\
      forall v r, dict_get v d = Some r <-> r ∈ rs /\ exists B, Serves h r v B).
  Proof.
    intros Hs Hu. unfold routes_dict.
    assert (Gen : forall l d, (forall r, r ∈ l -> r ∈ rs) -> NoDup (map fst d) ->
      (forall v r, dict_get v d = Some r -> r ∈ rs /\ exists B, Serves h r v B) ->
      runs (foldM (fun d r => let! c := route_get r in ret (dict_set (rt_vehicle c) r d)) d l) h (fun d' h' =>
        h' = h /\ NoDup (map fst d') /\
        (forall v r, dict_get v d' = Some r -> r ∈ rs /\ exists B, Serves h r v B) /\
        (forall v r, dict_get v d = Some r \/ r ∈ l /\ (exists B, Serves h r v B) -> dict_get v d' = Some r))).
    { induction l as [|r l IH]; intros d Hl Hn Hd.
      { apply runs_ret. split; [done|]. split; [done|]. split; [done|]. intros v r [?|[Hr _]]; [done|inversion Hr]. }
      cbn [foldM]. step. step. destruct (Hs r) as (v & B & S); [apply Hl; left|].
      eapply runs_serves_get; [exact S|]. intros c ->. apply runs_ret.
      eapply runs_mono; [apply (IH (dict_set v r d))|].
      - intros q Hq. apply Hl. by right.
      - by apply dict_set_NoDup.
      - intros w q. rewrite dict_get_set. destruct (decide (w = v)) as [->|]; [|by apply Hd].
        intros [= <-]. split; [apply Hl; left|]. by exists B.
      - intros d' h' (-> & Hn' & Hd1 & Hd2). split; [done|]. split; [done|]. split; [done|].
        intros w q [Hq|[Hq [C SC]]].
        + destruct (decide (w = v)) as [->|Hne].
          * destruct (Hd v q Hq) as [Hq1 [C SC]]. assert (q = r) as ->.
            { apply (Hu q r v C B); [done|apply Hl; left|done|done]. }
            apply Hd2. left. apply dict_get_set_eq.
          * apply Hd2. left. by rewrite dict_get_set_ne.
        + apply elem_of_cons in Hq as [->|Hq].
          * destruct (Serves_det _ _ _ _ _ _ S SC) as [-> _]. apply Hd2. left. apply dict_get_set_eq.
          * apply Hd2. right. split; [done|]. by exists C. }
    eapply runs_mono; [apply (Gen rs [])|].
    - done.
    - constructor.
    - done.
    - intros d h' (-> & Hn & H1 & H2). split; [done|]. split; [done|]. intros v r. split; [by apply H1|].
      intros Hr. apply H2. by right.
  Qed.

  Lemma init_cold_runs st of kr fleet job h :
    HInv h -> (trusted -> of = true /\ Trust h) -> NoDup fleet -> NoDup job ->
    runs (iterator_init st of kr fleet job None) h (fun i h' => evolves h h' /\ ItInv h' job i /\
      map fst (it_routes i) ≡ₚ fleet /\ it_attractive i = None /\ it_job i = job /\ it_pending i = job).
  Proof.
    intros HI Htr Hf Hj. unfold iterator_init. step. apply runs_set_order. intros vs Hvs. set (h0 := MkHeap _ _ _ _).
    assert (E0 : evolves h h0) by apply evolves_tick.
    assert (HI0 : HInv h0) by by apply HInv_tick.
    step. eapply runs_mono.
    { apply (runs_mapM_mono (S := heap) evolves evolves_refl evolves_trans new_route HInv (fun v r h => Serves h r v [])).
      - intros v r h1 h2 S E. by eapply Serves_evolves.
      - exact HI0.
      - intros v h1 _ HI1. pose proof (new_route_runs v h1) as N. apply runs_eq in N as (r & h2 & En & Er & G & Eh & R).
        apply runs_eq. exists r, h2. split; [done|]. split; [by eapply new_route_HInv|]. split.
        + by eapply new_route_evolves.
        + exists [length (h_stops h1); Datatypes.S (length (h_stops h1))], (idle v). split; [done|]. split; [apply good_idle|done]. }
    intros rs h1 (HI1 & E1 & F). step. apply runs_set_order. intros rs' Hrs'. set (h2 := MkHeap _ _ _ _).
    assert (E2 : evolves h1 h2) by apply evolves_tick.
    assert (HI2 : HInv h2) by by apply HInv_tick.
    assert (E02 : evolves h h2) by (eapply evolves_trans; [exact E0|by eapply evolves_trans]).
    assert (F2 : Forall2 (fun v r => Serves h2 r v []) vs rs).
    { eapply Forall2_impl; [exact F|]. intros v r S. by eapply Serves_evolves; [exact E2|]. }
    assert (Hnd : NoDup vs) by by rewrite Hvs.
    step. eapply runs_mono; [apply routes_dict_runs|].
    { intros r Hr. rewrite Hrs' in Hr. apply elem_of_list_lookup_1 in Hr as [n Hn].
      destruct (Forall2_lookup_r _ _ _ _ _ F2 Hn) as (v & Hv & S). by exists v, []. }
    { intros r r' v B B' Hr Hr' S S'. rewrite Hrs' in Hr, Hr'.
      apply elem_of_list_lookup_1 in Hr as [n Hn]. apply elem_of_list_lookup_1 in Hr' as [n' Hn'].
      destruct (Forall2_lookup_r _ _ _ _ _ F2 Hn) as (w & Hw & Sw).
      destruct (Forall2_lookup_r _ _ _ _ _ F2 Hn') as (w' & Hw' & Sw').
      destruct (Serves_det _ _ _ _ _ _ S Sw) as [-> _]. destruct (Serves_det _ _ _ _ _ _ S' Sw') as [-> _].
      assert (n = n') as -> by (by eapply NoDup_lookup_eq). congruence. }
    intros d h3 (-> & Hk & Hd). apply runs_ret. split; [done|].
    assert (Hd0 : forall v r, dict_get v d = Some r -> Serves h2 r v []).
    { intros v r G. apply Hd in G as [Hr [B S]]. rewrite Hrs' in Hr. apply elem_of_list_lookup_1 in Hr as [n Hn].
      destruct (Forall2_lookup_r _ _ _ _ _ F2 Hn) as (w & Hw & Sw). by destruct (Serves_det _ _ _ _ _ _ S Sw) as [-> _]. }
    assert (Ha : forall v B, assigned h2 d v B -> B = []).
    { intros v B (r & G & S). apply Hd0 in G. by destruct (Serves_det _ _ _ _ _ _ S G). }
    split; [|split; [|done]].
    - split; cbn; try done.
      + intros v r G. exists []. by apply Hd0.
      + intros v v' B B' t A _ Hin. rewrite (Ha v B A) in Hin. inversion Hin.
      + intros v B t A Hin. rewrite (Ha v B A) in Hin. inversion Hin.
      + intros v B t A Hin. rewrite (Ha v B A) in Hin. inversion Hin.
      + intros t Ht. by left.
      + intros Tr. destruct (Htr Tr) as [Hof Fr]. split; [done|]. by eapply Trust_evolves.
    - cbn. rewrite <- Hvs. apply NoDup_Permutation; [done|done|]. intros v. rewrite <- dict_get_key. split.
      + intros [r G]. apply Hd in G as [Hr [B S]]. rewrite Hrs' in Hr. apply elem_of_list_lookup_1 in Hr as [n Hn].
        destruct (Forall2_lookup_r _ _ _ _ _ F2 Hn) as (w & Hw & Sw). destruct (Serves_det _ _ _ _ _ _ S Sw) as [-> _].
        by eapply elem_of_list_lookup_2.
      + intros Hv. apply elem_of_list_lookup_1 in Hv as [n Hn].
        destruct (Forall2_lookup_l _ _ _ _ _ F2 Hn) as (r & Hr & S). exists r. apply Hd. split; [|by exists []].
        rewrite Hrs'. by eapply elem_of_list_lookup_2.
  Qed.

  Lemma NoDup_sublist {A} (l k : list A) : l `sublist_of` k -> NoDup k -> NoDup l.
  Proof.
    induction 1 as [|x l k Hs IH|x l k Hs IH]; [done| |]; intros [Hx Hk]%NoDup_cons; [|by apply IH].
    apply NoDup_cons. split; [|by apply IH]. intros Hin. apply Hx. eapply elem_of_submseteq; [done|by apply sublist_submseteq].
  Qed.
  Lemma pend_loop_runs h l : forall acc, NoDup acc -> (forall r, r ∈ l -> served h r) ->
    runs (foldM (fun acc r => let! ts := route_trips r in ret (set_diff acc ts)) acc l) h (fun p h' => h' = h /\
      p `sublist_of` acc /\ (forall t, t ∈ p <-> t ∈ acc /\ forall r v B, r ∈ l -> Serves h r v B -> t ∉ B) /\
      (forall t, t ∈ acc -> t ∈ p \/ exists r v B, r ∈ l /\ Serves h r v B /\ t ∈ B)).
  Proof.
    induction l as [|r l IH]; intros acc Hn Hl.
    { apply runs_ret. split; [done|]. split; [done|]. split; [|by left]. intros t. split; [|tauto]. intros Ht. split; [done|].
      intros r v B Hr. inversion Hr. }
    cbn [foldM]. step. step. destruct (Hl r) as (v & B & S); [left|]. eapply runs_serves_trips; [exact S|]. apply runs_ret.
    eapply runs_mono; [apply IH|].
    - apply NoDup_filter. done.
    - intros q Hq. apply Hl. by right.
    - intros p h' (-> & Hsub & Hp & Hall). split; [done|]. split.
      { etrans; [done|]. unfold set_diff. clear. induction acc as [|x acc IH]; [done|]. rewrite filter_cons.
        destruct (decide (x ∉ B)); [by apply sublist_skip|by apply sublist_cons]. }
      split.
      2:{ intros t Ht. destruct (decide (t ∈ B)) as [Hb|Hb].
        - right. exists r, v, B. split; [left|done].
        - destruct (Hall t) as [?|(q & w & C & ? & ? & ?)]; [|by left|].
          + unfold set_diff. by apply elem_of_list_filter.
          + right. exists q, w, C. split; [by right|done]. }
      intros t. rewrite Hp. unfold set_diff. rewrite elem_of_list_filter. split.
      + intros [[H1 H2] H3]. split; [done|]. intros q w C [->|Hq]%elem_of_cons SC.
        * by destruct (Serves_det _ _ _ _ _ _ S SC) as [_ <-].
        * by eapply H3.
      + intros [H1 H2]. split; [split; [|done]|].
        * eapply H2; [left|exact S].
        * intros q w C Hq. apply H2. by right.
  Qed.

  Lemma init_warm_runs st of kr fleet job rs0 U h :
    HInv h -> (trusted -> of = true /\ Trust h) -> NoDup job ->
    (forall r, r ∈ rs0 -> served h r) ->
    (forall i j r r' v B B', rs0 !! i = Some r -> rs0 !! j = Some r' -> Serves h r v B -> Serves h r' v B' -> i = j) ->
    (forall r r' v v' B B' t, r ∈ rs0 -> r' ∈ rs0 -> Serves h r v B -> Serves h r' v' B' -> t ∈ B -> t ∈ B' -> v = v') ->
    (forall t, t ∈ job -> t ∈ U) -> (forall r v B t, r ∈ rs0 -> Serves h r v B -> t ∈ B -> t ∈ U) ->
    runs (iterator_init st of kr fleet job (Some rs0)) h (fun i h' => evolves h h' /\ ItInv h' U i /\
      it_attractive i = None /\ it_job i = job /\ it_pending i `sublist_of` job /\
      (forall v B, (exists r, r ∈ rs0 /\ Serves h r v B) <-> assigned h' (it_routes i) v B)).
  Proof.
    intros HI Htr Hj Hrs Hveh Honce HU1 HU2. unfold iterator_init. step.
    eapply runs_mono; [apply deepcopy_runs|].
    { intros r Hr. destruct (Hrs r Hr) as (v & B & S). destruct (Serves_cell _ _ _ _ S) as (c & Hc & _). eauto. }
    intros rs h1 (HC & Ers & F).
    assert (HI1 : HInv h1) by by eapply Copied_HInv.
    assert (E1 : evolves h h1) by by apply Copied_evolves.
    assert (F1 : Forall2 (fun r r' => forall v B, Serves h r v B -> Serves h1 r' v B) rs0 rs).
    { eapply Forall2_impl; [exact F|]. intros r r' (c & Hc & Hc') v B (ids & L & R & GL & <-).
      exists (map (up h) ids), L. split; [|done]. by eapply Copied_route. }
    step. apply runs_set_order. intros rs1 Hrs1. set (h2 := MkHeap _ _ _ _).
    assert (E2 : evolves h1 h2) by apply evolves_tick.
    assert (HI2 : HInv h2) by by apply HInv_tick.
    (* every copy has its original *)
    assert (Hback : forall hh r', evolves h1 hh -> r' ∈ rs -> exists i r, rs0 !! i = Some r /\ rs !! i = Some r' /\
        exists v B, Serves h r v B /\ Serves hh r' v B).
    { intros hh r' E Hr'. apply elem_of_list_lookup_1 in Hr' as [i Hi].
      destruct (Forall2_lookup_r _ _ _ _ _ F1 Hi) as (r & Hr & HS). exists i, r. split; [done|]. split; [done|].
      destruct (Hrs r) as (v & B & S); [by eapply elem_of_list_lookup_2|]. exists v, B. split; [done|].
      eapply Serves_evolves; [exact E|]. by apply HS. }
    assert (Hforth : forall hh r v B, evolves h1 hh -> r ∈ rs0 -> Serves h r v B -> exists r', r' ∈ rs /\ Serves hh r' v B).
    { intros hh r v B E Hr S. apply elem_of_list_lookup_1 in Hr as [i Hi].
      destruct (Forall2_lookup_l _ _ _ _ _ F1 Hi) as (r' & Hr' & HS). exists r'. split; [by eapply elem_of_list_lookup_2|].
      eapply Serves_evolves; [exact E|]. by apply HS. }
    step. eapply runs_mono; [apply (pend_loop_runs h2 rs1 job Hj)|].
    { intros r Hr. rewrite Hrs1 in Hr. destruct (Hback h2 r E2 Hr) as (_ & _ & _ & _ & v & B & _ & S). by exists v, B. }
    intros pend ? (-> & Hsub & Hp & Hall). step. apply runs_set_order. intros rs2 Hrs2. set (h3 := MkHeap _ _ _ _).
    assert (E3 : evolves h2 h3) by apply evolves_tick.
    assert (HI3 : HInv h3) by by apply HInv_tick.
    assert (E13 : evolves h1 h3) by by eapply evolves_trans.
    step. eapply runs_mono; [apply routes_dict_runs|].
    { intros r Hr. rewrite Hrs2 in Hr. destruct (Hback h3 r E13 Hr) as (_ & _ & _ & _ & v & B & _ & S). by exists v, B. }
    { intros r r' v B B' Hr Hr' S S'. rewrite Hrs2 in Hr, Hr'.
      destruct (Hback h3 r E13 Hr) as (i & q & Hi & Hi' & w & C & SC & SC').
      destruct (Hback h3 r' E13 Hr') as (j & q' & Hj' & Hj'' & w' & C' & SC1 & SC1').
      destruct (Serves_det _ _ _ _ _ _ S SC') as [-> ->]. destruct (Serves_det _ _ _ _ _ _ S' SC1') as [-> ->].
      assert (i = j) as -> by (by eapply Hveh). congruence. }
    intros d ? (-> & Hk & Hd). apply runs_ret.
    assert (Ha : forall v B, (exists r, r ∈ rs0 /\ Serves h r v B) <-> assigned h3 d v B).
    { intros v B. split.
      - intros (r & Hr & S). destruct (Hforth h3 r v B E13 Hr S) as (r' & Hr' & S'). exists r'. split; [|done].
        apply Hd. split; [by rewrite Hrs2|by exists B].
      - intros (r' & G & S'). apply Hd in G as [Hr' _]. rewrite Hrs2 in Hr'.
        destruct (Hback h3 r' E13 Hr') as (i & q & Hi & _ & w & C & SC & SC').
        destruct (Serves_det _ _ _ _ _ _ S' SC') as [-> ->]. exists q. split; [by eapply elem_of_list_lookup_2|done]. }
    assert (Hpd : forall t, t ∈ pend <-> t ∈ job /\ forall v B, assigned h3 d v B -> t ∉ B).
    { intros t. rewrite Hp. split; intros [H1 H2]; (split; [done|]).
      - intros v B A. apply Ha in A as (r & Hr & S). destruct (Hforth h2 r v B E2 Hr S) as (r' & Hr' & S').
        apply (H2 r' v B); [by rewrite Hrs1|done].
      - intros r' v B Hr' S'. rewrite Hrs1 in Hr'. apply (H2 v B).
        exists r'. split; [|by eapply Serves_evolves; [exact E3|]]. apply Hd. split; [by rewrite Hrs2|].
        exists B. by eapply Serves_evolves; [exact E3|]. }
    split; [eapply evolves_trans; [exact E1|done]|]. split; [|cbn; done].
    split; cbn; try done.
    - intros v r G. apply Hd in G as [_ ?]. done.
    - intros v v' B B' t A A' Ht Ht'. apply Ha in A as (r & Hr & S). apply Ha in A' as (r' & Hr' & S'). by apply (Honce r r' v v' B B' t).
    - by eapply NoDup_sublist.
    - intros v B t A Ht Hpt. apply Hpd in Hpt as [_ Hpt]. by eapply Hpt.
    - intros v B t A Ht. apply Ha in A as (r & Hr & S). by eapply HU2.
    - intros t Ht. apply Hpd in Ht as [Ht _]. auto.
    - intros t Ht. destruct (decide (t ∈ pend)) as [|Hn]; [by left|right].
      destruct (Hall t Ht) as [?|(r' & v & B & Hr' & S' & HtB)]; [done|]. rewrite Hrs1 in Hr'.
      exists v, B. split; [|done]. exists r'. split; [|by eapply Serves_evolves; [exact E3|]].
      apply Hd. split; [by rewrite Hrs2|]. exists B. by eapply Serves_evolves; [exact E3|].
    - intros Tr. destruct (Htr Tr) as [Hof Fr]. split; [done|]. eapply Trust_evolves; [exact E13|by eapply Trust_evolves].
  Qed.
End runs.
