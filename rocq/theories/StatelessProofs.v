(** Runs of the insertion algorithm with the stateless iterators. *)
From Verif Require Export RankingTheorems Iterators.
#[local] Existing Instance any_shape.

Section stateless_runs.
  Context {W : World}.

  (** [Base v B]: vehicle [v] served [B] when the iterator was created.  The
      iterator proposes only extensions of these routes, by one trip. *)
  Definition Extra (J : list nat) (Base : nat -> list nat -> Prop) (v : nat) (B' : list nat) : Prop :=
    Base v B' \/ exists B t, Base v B /\ t ∈ J /\ (forall w C, Base w C -> t ∉ C) /\ B' ≡ₚ t :: B.
  Record SInv (h : heap) (U J : list nat) (Base : nat -> list nat -> Prop) (i : iterator) : Prop := {
    si_heap : HInv h;
    si_nodup : NoDup (map fst (it_routes i));
    si_routes : forall v r, dict_get v (it_routes i) = Some r -> exists B, Serves h r v B /\ Extra J Base v B;
    si_once : forall v v' B B' t, assigned h (it_routes i) v B -> assigned h (it_routes i) v' B' ->
      t ∈ B -> t ∈ B' -> v = v';
    si_pending : NoDup (it_pending i);
    si_free : forall v B t, assigned h (it_routes i) v B -> t ∈ B -> t ∉ it_pending i;
    si_todo : forall t, t ∈ it_pending i -> t ∈ J;
    si_fun : forall v B B', Base v B -> Base v B' -> B = B';
    si_base_once : forall v v' B B' t, Base v B -> Base v' B' -> t ∈ B -> t ∈ B' -> v = v';
    si_base_free : forall v B t, Base v B -> t ∈ B -> t ∉ it_pending i;
    si_base_known : forall v B t, Base v B -> t ∈ B -> t ∈ U;
    si_attractive : forall l r, it_attractive i = Some l -> r ∈ l ->
      exists v B, Serves h r v B /\ Base v B /\ is_Some (dict_get v (it_routes i));
    si_fresh : it_attractive i = None -> forall v B, assigned h (it_routes i) v B -> Base v B
  }.
  Lemma SInv_assigned h U J Base i v B : SInv h U J Base i -> assigned h (it_routes i) v B -> Extra J Base v B.
  Proof.
    intros I (r & Hr & S). destruct (si_routes _ _ _ _ _ I v r Hr) as (B' & S' & X).
    by destruct (Serves_det _ _ _ _ _ _ S S') as [_ ->].
  Qed.
  Lemma SInv_assigned_inv h h' U J Base i v B : SInv h U J Base i -> evolves h h' -> assigned h' (it_routes i) v B -> assigned h (it_routes i) v B.
  Proof.
    intros I E (r & Hr & S). destruct (si_routes _ _ _ _ _ I v r Hr) as (B' & S' & _).
    exists r. split; [done|]. destruct (Serves_det _ _ _ _ _ _ S (Serves_evolves _ _ _ _ _ E S')) as [_ ->]. done.
  Qed.
  Lemma SInv_evolves h h' U J Base i : SInv h U J Base i -> evolves h h' -> HInv h' -> SInv h' U J Base i.
  Proof.
    intros I E HI. assert (Inv : forall v B, assigned h' (it_routes i) v B -> assigned h (it_routes i) v B).
    { intros v B. by eapply SInv_assigned_inv. }
    destruct I as [H1 H2 H3 H4 H5 H6 H7 H8 H9 H10 H11 H12 H13]. split; try done.
    - intros v r Hr. destruct (H3 v r Hr) as (B & S & X). exists B. split; [|done]. by eapply Serves_evolves.
    - intros v v' B B' t A1 A2. by apply (H4 v v' B B' t); apply Inv.
    - intros v B t A. apply (H6 v B t). by apply Inv.
    - intros l r El Hr. destruct (H12 l r El Hr) as (v & B & S & ? & ?). exists v, B. split; [|done]. by eapply Serves_evolves.
    - intros En v B A. apply H13; auto.
  Qed.
  Lemma SInv_start h U J i : ItInv h U i -> (forall t, t ∈ it_pending i -> t ∈ J) -> it_attractive i = None ->
    SInv h U J (assigned h (it_routes i)) i.
  Proof.
    intros [H1 H2 H3 H4 H5 H6 H7 H8 H9 H10 _] HJ Ea. split; try done.
    - intros v r Hr. destruct (H3 v r Hr) as [B S]. exists B. split; [done|]. left. by exists r.
    - intros v B B' (r & Hr & S) (r' & Hr' & S'). assert (r' = r) as -> by congruence. by destruct (Serves_det _ _ _ _ _ _ S S').
    - intros l r. by rewrite Ea.
  Qed.

  Lemma SInv_set h U J Base i r : SInv h U J Base i -> r ∈ it_route_set i ->
    exists v B, Serves h r v B /\ dict_get v (it_routes i) = Some r.
  Proof.
    intros I Hr. unfold it_route_set in Hr. apply elem_of_list_fmap in Hr as ([v r0] & -> & Hin).
    pose proof (dict_in_get v r0 _ (si_nodup _ _ _ _ _ I) Hin) as G.
    destruct (si_routes _ _ _ _ _ I v r0 G) as (B & S & _). exists v, B. done.
  Qed.
  Lemma find_empty_serves l : forall h, (forall r, r ∈ l -> served h r) ->
    runs (find_empty l) h (fun o h' => h' = h /\ forall r, o = Some r -> r ∈ l /\ exists v, Serves h r v []).
  Proof.
    induction l as [|r l IH]; intros h Hl; [by apply runs_ret|].
    cbn. step. destruct (Hl r) as (v & B & S); [left|]. eapply runs_serves_loaded; [done|].
    case_bool_decide as Eb; cbn.
    - apply runs_ret. split; [done|]. intros q [= <-]. split; [left|]. exists v. by subst.
    - eapply runs_mono; [apply IH; intros; apply Hl; by right|]. intros o h' [-> Ho]. split; [done|].
      intros q Hq. split; [right|]; by apply Ho.
  Qed.
  Lemma attractive_base_runs h U J Base i : SInv h U J Base i ->
    runs (attractive_routes i) h (fun '(l, i') h' => evolves h h' /\ SInv h' U J Base i' /\ i' = set_attractive (Some l) i).
  Proof.
    intros I. unfold attractive_routes.
    assert (Hsetv : forall r hh, soft h hh -> r ∈ it_route_set i ->
       exists v B, Serves hh r v B /\ assigned h (it_routes i) v B /\ dict_get v (it_routes i) = Some r).
    { intros r hh So Hr. destruct (SInv_set _ _ _ _ _ _ I Hr) as (v & B & S & G). exists v, B.
      split; [by eapply Serves_soft|]. split; [|done]. by exists r. }
    eapply (runs_seq _ _ _ (fun l h1 => soft h h1 /\
      (forall r, r ∈ l -> exists v B, Serves h1 r v B /\ Base v B /\ is_Some (dict_get v (it_routes i))))).
    { destruct (it_attractive i) as [l0|] eqn:E.
      - apply runs_ret. split; [apply soft_refl|]. intros r Hr. by apply (si_attractive _ _ _ _ _ I l0).
      - step. apply runs_set_order. intros l' Hl'. set (h1 := MkHeap _ _ _ _).
        assert (So : soft h h1) by apply soft_tick.
        eapply runs_mono.
        + apply (runs_filterM route_loaded (fun h2 => h2 = h1) (fun _ _ => True)); [done|].
          intros r h2 Hr ->. rewrite Hl' in Hr. destruct (Hsetv r h1 So Hr) as (v & B & S & _).
          by eapply runs_serves_loaded.
        + intros l h2 (-> & Hin & _ & _). split; [done|].
          intros r Hr. apply Hin in Hr as [Hr _]. rewrite Hl' in Hr. destruct (Hsetv r h1 So Hr) as (v & B & S & A & G).
          exists v, B. split; [done|]. split; [|by eauto]. by apply (si_fresh _ _ _ _ _ I E). }
    intros base h1 (So1 & Hb). step. apply runs_set_order. intros l Hl. step. set (h2 := MkHeap _ _ _ _).
    assert (So12 : soft h1 h2) by apply soft_tick.
    assert (So2 : soft h h2) by by eapply soft_trans.
    assert (Hb2 : forall r, r ∈ base -> exists v B, Serves h2 r v B /\ Base v B /\ is_Some (dict_get v (it_routes i))).
    { intros r Hr. destruct (Hb r Hr) as (v & B & S & Hv). exists v, B. split; [|done]. by eapply Serves_soft; [exact So12|]. }
    eapply runs_mono.
    { apply (runs_anyM route_loaded (fun h3 => h3 = h2) (fun _ _ => True)); [done|].
      intros r h3 Hr ->. rewrite Hl in Hr. destruct (Hb2 r Hr) as (v & B & S & Hv). by eapply runs_serves_loaded. }
    assert (Hend : forall l' h', soft h h' ->
        (forall r, r ∈ l' -> exists v B, Serves h' r v B /\ Base v B /\ is_Some (dict_get v (it_routes i))) ->
        SInv h' U J Base (set_attractive (Some l') i)).
    { intros l' h' So' Hl'. pose proof (SInv_evolves _ _ _ _ _ _ I (evolves_soft _ _ So') (HInv_soft _ _ (si_heap _ _ _ _ _ I) So')) as [].
      split; try done. cbn. intros ? r [= <-] Hr. by apply Hl'. }
    intros b h3 [-> _]. destruct b.
    { apply runs_ret. split; [by apply evolves_soft|]. split; [by apply Hend|done]. }
    step. apply runs_set_order. intros rs Hrs. set (h3 := MkHeap _ _ _ _). step.
    assert (So23 : soft h2 h3) by apply soft_tick.
    assert (So3 : soft h h3) by by eapply soft_trans.
    eapply runs_mono; [apply find_empty_serves|].
    { intros r Hr. rewrite Hrs in Hr. destruct (Hsetv r h3 So3 Hr) as (v & B & S & _). by exists v, B. }
    intros o h4 [-> Ho]. apply runs_ret. split; [by apply evolves_soft|]. split; [|done]. apply Hend; [done|].
    intros r Hr. assert (o = Some r \/ r ∈ base) as [->|Hr'].
    { destruct o as [q|]; [|by right]. apply elem_of_set_add in Hr as [->|?]; [by left|by right]. }
    - destruct (Ho r eq_refl) as [Hin [w S]]. rewrite Hrs in Hin. destruct (Hsetv r h3 So3 Hin) as (v & B & S' & A & G).
      destruct (Serves_det _ _ _ _ _ _ S S') as [-> <-]. exists v, []. split; [done|]. split; [|by eauto].
      destruct (SInv_assigned _ _ _ _ _ _ _ I A) as [?|(B & t & _ & _ & _ & P)]; [done|]. by apply Permutation_nil in P.
    - destruct (Hb2 r Hr') as (v & B & S & Hv). exists v, B. split; [|done]. by eapply Serves_soft; [exact So23|].
  Qed.

  (** a candidate: a vehicle's first route and one pending trip more *)
  Definition SCand (h : heap) (Base : nat -> list nat -> Prop) (i : iterator) (c : nat) : Prop :=
    exists v B t B', Serves h c v B' /\ Base v B /\ B' ≡ₚ t :: B /\ t ∈ it_pending i /\ is_Some (dict_get v (it_routes i)).
  Definition SPair (h : heap) (Base : nat -> list nat -> Prop) (i : iterator) (p : nat * nat) : Prop :=
    exists v B, Serves h p.1 v B /\ Base v B /\ p.2 ∈ it_pending i /\ is_Some (dict_get v (it_routes i)).
  Lemma SCand_evolves h h' Base i c : evolves h h' -> SCand h Base i c -> SCand h' Base i c.
  Proof. intros E (v & B & t & B' & S & H). exists v, B, t, B'. split; [|done]. by eapply Serves_evolves. Qed.
  Lemma SPair_evolves h h' Base i p : evolves h h' -> SPair h Base i p -> SPair h' Base i p.
  Proof. intros E (v & B & S & H). exists v, B. split; [|done]. by eapply Serves_evolves. Qed.

  Lemma one_trip_runs h U J Base i r t st of : sane -> SInv h U J Base i -> SPair h Base i (r, t) ->
    runs (strategy_compute st of r [t]) h (fun l h' => evolves h h' /\ HInv h' /\ forall c, c ∈ l -> SCand h' Base i c).
  Proof.
    intros Hs I (v & B & S & HB & Ht & Hv). cbn in S, Ht. pose proof S as (ids & L & R & _ & EB).
    eapply runs_mono.
    { apply (strategy_compute_runs st of h r v ids L [t]); [apply Hs|apply Hs|apply (si_heap _ _ _ _ _ I)|done|].
      intros u Hu Hb. apply elem_of_list_singleton in Hu as ->. rewrite EB in Hb.
      by apply (si_base_free _ _ _ _ _ I v B t). }
    intros l h' (HI & E & Hl). split; [done|]. split; [done|]. intros c Hc.
    destruct (Hl c Hc) as (_ & (u & i0 & j & Hu & Hij & ids' & L' & R' & EL') & _).
    apply elem_of_list_singleton in Hu as ->. exists v, B, t, (boards L'). split; [by exists ids', L'|]. split; [done|].
    split; [|done]. rewrite <- EB, <- (boards_anytime L'), EL', boards_anytime. apply boards_serve. lia.
  Qed.
  Lemma gen_next_runs h U J Base i st of pairs : sane -> SInv h U J Base i -> (forall p, p ∈ pairs -> SPair h Base i p) ->
    runs (gen_next st of pairs []) h (fun o h' => evolves h h' /\ HInv h' /\
      match o with Some (c, _) => SCand h' Base i c | None => True end).
  Proof.
    revert h. induction pairs as [|[r t] pairs IH]; intros h Hs I Hp.
    { apply runs_ret. split; [apply evolves_refl|]. split; [apply (si_heap _ _ _ _ _ I)|done]. }
    cbn. step. eapply runs_mono; [apply (one_trip_runs h U J Base i r t); [done|done|apply Hp; left]|].
    intros l h1 (E1 & HI1 & Hl). destruct l as [|c l].
    - eapply runs_mono; [apply (IH h1); [done|by eapply SInv_evolves|]|].
      { intros p Hin. eapply SPair_evolves; [exact E1|]. apply Hp. by right. }
      intros o h2 (E2 & HI2 & Ho). split; [by eapply evolves_trans|]. done.
    - apply runs_ret. split; [done|]. split; [done|]. apply Hl. left.
  Qed.
  Lemma gen_all_runs h U J Base i st of pairs : sane -> SInv h U J Base i -> (forall p, p ∈ pairs -> SPair h Base i p) ->
    runs (gen_all st of pairs []) h (fun l h' => evolves h h' /\ HInv h' /\ forall c, c ∈ l -> SCand h' Base i c).
  Proof.
    intros Hs I Hp. unfold gen_all. step. eapply runs_mono.
    { apply (runs_mapM_mono (S := heap) evolves evolves_refl evolves_trans _
        (fun h' => evolves h h' /\ HInv h') (fun _ l h' => forall c, c ∈ l -> SCand h' Base i c)).
      - intros p l h1 h2 Hl E c Hc. eapply SCand_evolves; [exact E|]. by apply Hl.
      - split; [apply evolves_refl|apply (si_heap _ _ _ _ _ I)].
      - intros [r t] h1 Hin [E1 HI1]. eapply runs_mono; [apply (one_trip_runs h1 U J Base i r t); [done|by eapply SInv_evolves|]|].
        { eapply SPair_evolves; [exact E1|]. by apply Hp. }
        intros l h2 (E2 & HI2 & Hl). split; [split; [by eapply evolves_trans|done]|]. done. }
    intros ls h' ([E HI] & _ & F). apply runs_ret. split; [done|]. split; [done|]. cbn. intros c Hc.
    apply elem_of_concat in Hc as (l & Hc & Hl). apply elem_of_list_lookup_1 in Hl as [n Hn].
    destruct (Forall2_lookup_r _ _ _ _ _ F Hn) as (p & _ & H). by apply H.
  Qed.
  Lemma elem_of_product2 {A B} (a : A) (b : B) l m : (a, b) ∈ product2 l m <-> a ∈ l /\ b ∈ m.
  Proof.
    unfold product2. rewrite elem_of_list_In, in_flat_map. split.
    - intros (x & Hx & Hin). apply in_map_iff in Hin as (y & [= -> ->] & Hy). by rewrite !elem_of_list_In.
    - intros [Ha Hb]. apply elem_of_list_In in Ha. apply elem_of_list_In in Hb. exists a. split; [done|]. apply in_map_iff. by exists b.
  Qed.
  (** what the iterators do first: start the generator *)
  Lemma open_runs h U J Base k : sane -> SInv h U J Base (sl_it k) -> sl_gen k = None ->
    runs (match sl_gen k with
      | Some (pairs, buf) => ret (k, pairs, buf)
      | None =>
          let! (attr, i') := attractive_routes (sl_it k) in
          let! rs := set_order attr in
          let! ts := set_order (it_pending i') in
          ret (MkStateless i' None, product2 rs ts, [])
      end) h (fun '(k', pairs, buf) h' => evolves h h' /\ buf = [] /\ SInv h' U J Base (sl_it k') /\
        it_routes (sl_it k') = it_routes (sl_it k) /\ it_pending (sl_it k') = it_pending (sl_it k) /\
        (exists a, it_attractive (sl_it k') = Some a) /\
        (forall p, p ∈ pairs -> SPair h' Base (sl_it k') p)).
  Proof.
    intros Hs I ->. step. eapply runs_mono; [by apply attractive_base_runs|]. intros [attr i'] h1 (E1 & I1 & Ei).
    step. apply runs_set_order. intros rs Hrs. set (h2 := MkHeap _ _ _ _). step. apply runs_set_order. intros ts Hts.
    set (h3 := MkHeap _ _ _ _). apply runs_ret.
    assert (E2 : evolves h1 h2) by apply evolves_tick. assert (E3 : evolves h2 h3) by apply evolves_tick.
    assert (E13 : evolves h1 h3) by by eapply evolves_trans.
    assert (I3 : SInv h3 U J Base i').
    { eapply SInv_evolves; [exact I1|done|]. apply HInv_tick, HInv_tick, (si_heap _ _ _ _ _ I1). }
    split; [by eapply evolves_trans|]. split; [done|]. split; [exact I3|]. subst i'. cbn. split; [done|]. split; [done|]. split; [eauto|].
    intros [r t] Hin. apply elem_of_product2 in Hin as [Hr Ht]. rewrite Hrs in Hr. rewrite Hts in Ht.
    destruct (si_attractive _ _ _ _ _ I3 attr r eq_refl Hr) as (v & B & S & HB & Hv). exists v, B. done.
  Qed.
  Lemma stateless_next_runs h U J Base k : sane -> SInv h U J Base (sl_it k) -> sl_gen k = None ->
    runs (stateless_next k) h (fun '(o, k') h' => evolves h h' /\ SInv h' U J Base (sl_it k') /\
      it_routes (sl_it k') = it_routes (sl_it k) /\ it_pending (sl_it k') = it_pending (sl_it k) /\
      (exists a, it_attractive (sl_it k') = Some a) /\
      match o with Some c => SCand h' Base (sl_it k') c | None => True end).
  Proof.
    intros Hs I Eg. unfold stateless_next. step. eapply runs_mono; [by apply open_runs|].
    intros [[k1 pairs] buf] h1 (E1 & -> & I1 & Er & Ep & Ha & Hp). step.
    eapply runs_mono; [by apply (gen_next_runs h1 U J Base (sl_it k1))|]. intros o h2 (E2 & HI2 & Ho).
    destruct o as [[c g]|]; apply runs_ret; cbn.
    all: split; [by eapply evolves_trans|]; split; [by eapply SInv_evolves|]; done.
  Qed.

  (** accepting a candidate *)
  Lemma SInv_accept h U J Base i v r B t B' a :
    SInv h U J Base i -> Base v B -> t ∈ it_pending i -> Serves h r v B' -> B' ≡ₚ t :: B ->
    is_Some (dict_get v (it_routes i)) -> it_attractive i = Some a ->
    SInv h U J Base (set_pending (List.filter (fun x => negb (x =? t)%nat) (it_pending i))
                 (set_routes (dict_set v r (it_routes i)) i)).
  Proof.
    intros I HB Ht S P Hv Ea.
    assert (Hd : forall w C, assigned h (dict_set v r (it_routes i)) w C ->
        (w = v /\ C = B') \/ (w <> v /\ assigned h (it_routes i) w C)).
    { intros w C (q & Hq & SC). rewrite dict_get_set in Hq. destruct (decide (w = v)) as [->|Hne].
      - injection Hq as <-. left. split; [done|]. by destruct (Serves_det _ _ _ _ _ _ S SC) as [_ ->].
      - right. split; [done|]. by exists q. }
    pose proof (fun w C => SInv_assigned h U J Base i w C I) as HX.
    destruct I as [H1 H2 H3 H4 H5 H6 H7 H8 H9 H10 H11 H12 H13].
    assert (HB' : forall u, u ∈ B' <-> u = t \/ u ∈ B) by (intros u; rewrite P; apply elem_of_cons).
    assert (Hot : forall w C u, w <> v -> assigned h (it_routes i) w C -> u ∈ C -> u ∉ B').
    { intros w C u Hne A Hu HuB. apply HB' in HuB as [->|HuB]; [by apply (H6 w C t)|].
      destruct (HX w C A) as [HC|(C0 & x & HC0 & _ & Hx & PC)].
      - apply Hne. by apply (H9 w v C B u).
      - rewrite PC in Hu. apply elem_of_cons in Hu as [->|Hu]; [by apply (Hx v B)|].
        apply Hne. by apply (H9 w v C0 B u). }
    split; cbn; try done.
    - by apply dict_set_NoDup.
    - intros w q. rewrite dict_get_set. destruct (decide (w = v)) as [->|]; [|by apply H3].
      intros [= <-]. exists B'. split; [done|]. right. exists B, t. split; [done|]. split; [by apply H7|]. split; [|done].
      intros w C HC HtC. by apply (H10 w C t).
    - intros w w' C C' u A1 A2 Hu Hu'.
      destruct (Hd w C A1) as [[-> ->]|[Hne A1']], (Hd w' C' A2) as [[-> ->]|[Hne' A2']]; [done| | |].
      + exfalso. by apply (Hot w' C' u).
      + exfalso. by apply (Hot w C u).
      + by eapply H4.
    - by apply filter_out_NoDup.
    - intros w C u A1 Hu [Hp Hne]%elem_of_filter_out. destruct (Hd w C A1) as [[-> ->]|[_ A1']].
      + apply HB' in Hu as [->|Hu]; [done|]. by apply (H10 v B u).
      + by apply (H6 w C u).
    - intros u [Hu _]%elem_of_filter_out. by apply H7.
    - intros w C u HC Hu [Hp _]%elem_of_filter_out. by apply (H10 w C u).
    - intros l q El Hq. destruct (H12 l q El Hq) as (w & C & SC & HC & [q' Hq']). exists w, C. split; [done|]. split; [done|].
      rewrite dict_get_set. destruct (decide (w = v)); eauto.
    - congruence.
  Qed.

  Lemma skip_loop_pc_runs {K} (f : K -> nat -> ptrip -> M K) old l : forall k h,
    (forall p, p ∈ l -> exists pc, h_pts h !! p = Some pc /\ pt_trip pc ∈ old) ->
    runs (foldM (fun k p => let! pc := pt_get p in if memb (pt_trip pc) old then ret k else f k p pc) k l) h
      (fun k' h' => k' = k /\ h' = h).
  Proof.
    induction l as [|p l IH]; intros k h Hl; [done|]. cbn [foldM]. step. step.
    destruct (Hl p) as (pc & Hpc & Hin); [left|]. eapply runs_pt_get; [done|].
    unfold memb. rewrite bool_decide_eq_true_2 by done. apply runs_ret. apply IH. intros q Hq. apply Hl. by right.
  Qed.
  Lemma stateless_accept_runs h U J Base k c a : SInv h U J Base (sl_it k) -> it_attractive (sl_it k) = Some a ->
    SCand h Base (sl_it k) c ->
    runs (stateless_set_route k c) h (fun k' h' => h' = h /\ SInv h U J Base (sl_it k') /\ sl_gen k' = None /\
      map fst (it_routes (sl_it k')) ≡ₚ map fst (it_routes (sl_it k)) /\
      length (it_pending (sl_it k)) = S (length (it_pending (sl_it k')))).
  Proof.
    intros I Ea (v & B & t & B' & S & HB & P & Ht & [old Hold]).
    unfold stateless_set_route. step. eapply runs_serves_get; [exact S|]. intros cc ->. cbv zeta. rewrite Hold.
    destruct (si_routes _ _ _ _ _ I v old Hold) as (C & SC & XC). step.
    eapply runs_serves_trips; [exact SC|]. step. eapply runs_serves_planned; [exact S|].
    intros ps Eps Hps.
    assert (HBC : forall u, u ∈ B -> u ∈ C).
    { intros u Hu. destruct XC as [HC|(C0 & x & HC0 & _ & _ & PC)].
      - by rewrite <- (si_fun _ _ _ _ _ I v B C HB HC).
      - rewrite PC. right. by rewrite <- (si_fun _ _ _ _ _ I v B C0 HB HC0). }
    assert (HtC : t ∉ C). { intros HC. apply (si_free _ _ _ _ _ I v C t); [by exists old|done|done]. }
    assert (HtB' : t ∈ B') by (rewrite P; left). pose proof HtB' as Hin. rewrite <- Eps in Hin.
    apply elem_of_list_fmap in Hin as (p & Etp & Hp). apply elem_of_list_split in Hp as (ps1 & ps2 & ->).
    assert (Hnd := Serves_NoDup _ _ _ _ S). rewrite <- Eps in Hnd.
    assert (Hother : forall q, q ∈ ps1 ++ ps2 -> trip_of h q ∈ C).
    { intros q Hq. apply HBC. rewrite map_app in Hnd, Eps. cbn [map] in Hnd, Eps.
      assert (Hne : trip_of h q <> t).
      { rewrite <- Permutation_middle in Hnd. apply NoDup_cons in Hnd as [Hn _]. rewrite <- Etp, <- map_app in Hn.
        intros E. apply Hn. rewrite <- E. by apply elem_of_list_fmap_1. }
      assert (Hq' : trip_of h q ∈ B').
      { rewrite <- Eps, <- Permutation_middle, <- map_app. right. by apply elem_of_list_fmap_1. }
      rewrite P in Hq'. apply elem_of_cons in Hq' as [?|?]; done. }
    apply runs_foldM_app. eapply runs_mono; [apply (skip_loop_pc_runs (fun k p pc => let! i' := mark_trip_as_done (sl_it k) (pt_trip pc) in ret (MkStateless i' None)))|].
    { intros q Hq. destruct (Hps q) as (pc & ? & _ & E); [apply elem_of_app; by left|]. exists pc. split; [done|].
      rewrite E. apply Hother. apply elem_of_app; by left. }
    intros ? ? [-> ->]. cbn [foldM]. step. step.
    destruct (Hps p) as (pc & Hpc & Hpv & Hpt); [apply elem_of_app; right; left|]. eapply runs_pt_get; [done|].
    assert (Ept : pt_trip pc = t) by congruence. rewrite Ept.
    unfold memb at 1. rewrite bool_decide_eq_false_2 by done. step. unfold mark_trip_as_done. cbn [sl_it it_pending set_routes].
    unfold memb at 1. rewrite bool_decide_eq_true_2 by done. apply runs_ret. apply runs_ret.
    eapply runs_mono; [apply (skip_loop_pc_runs (fun k p pc => let! i' := mark_trip_as_done (sl_it k) (pt_trip pc) in ret (MkStateless i' None)))|].
    { intros q Hq. destruct (Hps q) as (qc & Hqc & _ & Eq); [apply elem_of_app; right; by right|].
      exists qc. split; [done|]. rewrite Eq. apply Hother. apply elem_of_app; by right. }
    intros ? ? [-> ->]. split; [done|]. split; [by eapply SInv_accept|]. split; [done|]. split.
    - cbn. by rewrite RankingProofs.dict_set_in by eauto.
    - cbn. apply filter_out_length; [apply (si_pending _ _ _ _ _ I)|done].
  Qed.

  Lemma feasible_keeps h U J Base i r : sane -> SInv h U J Base i -> served h r ->
    runs (route_feasible r) h (fun _ h' => evolves h h' /\ SInv h' U J Base i).
  Proof.
    intros Hs I (v & B & ids & L & R & _).
    eapply runs_mono; [apply (route_feasible_mono h r v ids L); [apply Hs|apply Hs|done]|].
    intros b h' (M & _). assert (E : evolves h h') by (by apply evolves_soft, mono_soft). split; [done|].
    eapply SInv_evolves; [done|done|]. eapply HInv_soft; [apply (si_heap _ _ _ _ _ I)|by apply mono_soft].
  Qed.

  (** one turn of the loop, from a state whose generator is not running *)
  Definition SState (h : heap) (U J : list nat) (Base : nat -> list nat -> Prop) (k : stateless) : Prop :=
    SInv h U J Base (sl_it k) /\ sl_gen k = None.
  Lemma SCand_served h Base i c : SCand h Base i c -> served h c.
  Proof. intros (v & B & t & B' & S & _). by exists v, B'. Qed.
  Lemma stateless_turn h U J Base k r k1 h1 h2 k' h3 : sane -> SState h U J Base k ->
    stateless_next k h = (Ok (Some r, k1), h1) -> route_feasible r h1 = (Ok true, h2) ->
    stateless_set_route k1 r h2 = (Ok k', h3) ->
    evolves h h3 /\ SState h3 U J Base k' /\ map fst (it_routes (sl_it k')) ≡ₚ map fst (it_routes (sl_it k)).
  Proof.
    intros Hs [I Eg] En Ef Ea. pose proof (stateless_next_runs h U J Base k Hs I Eg) as N. unfold runs in N. rewrite En in N.
    destruct N as (E1 & I1 & Er & Ep & [a Hat] & Hc).
    pose proof (feasible_keeps h1 U J Base (sl_it k1) r Hs I1 (SCand_served _ _ _ _ Hc)) as F. unfold runs in F. rewrite Ef in F.
    destruct F as [E2 I2].
    pose proof (stateless_accept_runs h2 U J Base k1 r a I2 Hat (SCand_evolves _ _ _ _ _ E2 Hc)) as A. unfold runs in A. rewrite Ea in A.
    destruct A as (-> & I3 & Eg3 & Ek & El). split; [by eapply evolves_trans|]. split; [done|]. by rewrite Ek, Er.
  Qed.
  Lemma turns_state U J Base n k h k' h' : sane -> SState h U J Base k -> turns n k h k' h' ->
    evolves h h' /\ SState h' U J Base k' /\ map fst (it_routes (sl_it k')) ≡ₚ map fst (it_routes (sl_it k)).
  Proof.
    intros Hs I T. induction T as [k h|n k h r k1 h1 h2 k' h3 k'' h'' En Ef Ea T IH]; [by split; [apply evolves_refl|]|].
    destruct (stateless_turn h U J Base k r k1 h1 h2 k' h3 Hs I En Ef Ea) as (E & I3 & Ek).
    destruct (IH I3) as (E' & I' & Ek'). split; [by eapply evolves_trans|]. split; [done|]. by rewrite Ek', Ek.
  Qed.
  Lemma stateless_loop_runs U J Base n : forall k h, sane -> SState h U J Base k -> (length (it_pending (sl_it k)) < n)%nat ->
    runs (stateless_loop n k) h (fun k' h' => evolves h h' /\ SInv h' U J Base (sl_it k') /\
      map fst (it_routes (sl_it k')) ≡ₚ map fst (it_routes (sl_it k))).
  Proof.
    induction n as [|n IH]; intros k h Hs [I Eg] Hlen; [lia|]. cbn [stateless_loop]. step.
    eapply runs_mono; [by apply stateless_next_runs|]. intros [o k1] h1 (E1 & I1 & Er & Ep & [a Hat] & Hc).
    destruct o as [c|]; [|apply runs_ret; split; [done|]; split; [done|]; by rewrite Er].
    step. eapply runs_mono; [apply (feasible_keeps h1 U J Base (sl_it k1) c Hs I1), (SCand_served _ _ _ _ Hc)|].
    intros b h2 [E2 I2]. destruct b; cbn [negb].
    2:{ apply runs_ret. split; [by eapply evolves_trans|]. split; [done|]. by rewrite Er. }
    step. eapply runs_mono; [apply (stateless_accept_runs h2 U J Base k1 c a I2 Hat), (SCand_evolves _ _ _ _ _ E2 Hc)|].
    intros k2 h3 (-> & I3 & Eg3 & Ek & El). rewrite Ep in El.
    eapply runs_mono; [apply (IH k2 h2 Hs); [done|lia]|]. intros k3 h4 (E4 & I4 & Ek4).
    split; [eapply evolves_trans; [exact E1|by eapply evolves_trans]|]. split; [done|]. by rewrite Ek4, Ek, Er.
  Qed.

  (** the planning held *)
  Lemma holds_get h U J Base i r : SInv h U J Base i -> r ∈ it_route_set i <-> exists v, dict_get v (it_routes i) = Some r.
  Proof.
    intros I. unfold it_route_set. rewrite elem_of_list_fmap. split.
    - intros ([v q] & -> & Hin). exists v. apply dict_in_get; [apply I|done].
    - intros (v & G). exists (v, r). split; [done|by apply dict_get_in].
  Qed.
  Lemma planned_for_held h U J Base i v ts : SInv h U J Base i ->
    planned_for h (it_route_set i) v ts <-> assigned h (it_routes i) v ts.
  Proof.
    intros I. unfold planned_for, assigned. split.
    - intros (r & Hr & S). apply route_serves_Serves in S. apply (holds_get h U J Base) in Hr as (w & G); [|done].
      exists r. split; [|done]. destruct (si_routes _ _ _ _ _ I w r G) as (B & S' & _).
      by destruct (Serves_det _ _ _ _ _ _ S S') as [-> _].
    - intros (r & G & S). exists r. split; [apply (holds_get h U J Base); eauto|by apply route_serves_Serves].
  Qed.
  Lemma SInv_valid h U J Base i vs : SInv h U J Base i -> map fst (it_routes i) ≡ₚ vs -> (forall t, t ∈ J -> t ∈ U) -> valid_planning h vs U (it_route_set i).
  Proof.
    intros I Hk HJ. split.
    - rewrite <- Hk. apply I.
    - exists (map fst (it_routes i)). split; [done|]. unfold it_route_set.
      pose proof (si_nodup _ _ _ _ _ I) as Hn. pose proof (si_routes _ _ _ _ _ I) as Hr.
      assert (Hin : forall e, e ∈ it_routes i -> exists B, Serves h e.2 e.1 B).
      { intros [v r] He. destruct (Hr v r) as (B & S & _); [by apply dict_in_get|]. by exists B. }
      clear -Hin. induction (it_routes i) as [|e d IH]; [constructor|]. cbn. constructor.
      + destruct (Hin e) as [B S]; [left|]. exists B. by apply route_serves_Serves.
      + apply IH. intros e' He'. apply Hin. by right.
    - intros r v ts t Hr S Ht.
      assert (A : assigned h (it_routes i) v ts) by (apply (planned_for_held h U J Base); [done|by exists r]).
      destruct (SInv_assigned _ _ _ _ _ _ _ I A) as [HB|(B & u & HB & Hu & _ & P)].
      + by apply (si_base_known _ _ _ _ _ I v ts).
      + rewrite P in Ht. apply elem_of_cons in Ht as [->|Ht]; [by apply HJ|]. by apply (si_base_known _ _ _ _ _ I v B).
    - intros r r' v v' ts ts' t Hr Hr' S S' Ht Ht'.
      assert (A : assigned h (it_routes i) v ts) by (apply (planned_for_held h U J Base); [done|by exists r]).
      assert (A' : assigned h (it_routes i) v' ts') by (apply (planned_for_held h U J Base); [done|by exists r']).
      pose proof (si_once _ _ _ _ _ I v v' ts ts' t A A' Ht Ht') as <-.
      apply route_serves_Serves in S, S'.
      apply (holds_get h U J Base) in Hr as (w & G); [|done]. apply (holds_get h U J Base) in Hr' as (w' & G'); [|done].
      destruct (si_routes _ _ _ _ _ I w r G) as (C & SC & _). destruct (si_routes _ _ _ _ _ I w' r' G') as (C' & SC' & _).
      destruct (Serves_det _ _ _ _ _ _ S SC) as [-> _]. destruct (Serves_det _ _ _ _ _ _ S' SC') as [<- _]. congruence.
  Qed.

  (** the iterator at the start *)
  Lemma init_warm_valid st of kr fleet job rs0 vs ts h :
    HInv h -> valid_planning h vs ts rs0 -> NoDup job ->
    runs (iterator_init st of kr fleet job (Some rs0)) h (fun i h' => evolves h h' /\ ItInv h' (job ++ ts) i /\
      it_attractive i = None /\ map fst (it_routes i) ≡ₚ vs /\ it_pending i `sublist_of` job /\
      (forall v B, planned_for h rs0 v B <-> assigned h' (it_routes i) v B)).
  Proof.
    intros HI V Hj. destruct V as [V1 (ws & Hws & V2) V3 V4].
    assert (Hnd : NoDup ws) by by rewrite Hws.
    assert (Hw : forall i r v B, rs0 !! i = Some r -> Serves h r v B -> ws !! i = Some v).
    { intros i r v B Hi S. destruct (Forall2_lookup_l _ _ _ _ _ V2 Hi) as (w & Hi' & C & SC).
      apply route_serves_Serves in SC. by destruct (Serves_det _ _ _ _ _ _ S SC) as [-> _]. }
    assert (Hex : forall i v, ws !! i = Some v -> exists r B, rs0 !! i = Some r /\ Serves h r v B).
    { intros i v Hi. destruct (Forall2_lookup_r _ _ _ _ _ V2 Hi) as (r & Hi' & C & SC).
      apply route_serves_Serves in SC. eauto. }
    eapply runs_mono; [apply (init_warm_runs _ _ _ fleet job rs0 (job ++ ts) h)|].
    - done.
    - by intros [].

    - done.
    - intros r Hin. apply elem_of_list_lookup_1 in Hin as [i Hi].
      destruct (Forall2_lookup_l _ _ _ _ _ V2 Hi) as (w & Hi' & C & SC). exists w, C. by apply route_serves_Serves.
    - intros i j r r' v B B' Hi Hj' S S'. pose proof (Hw i r v B Hi S). pose proof (Hw j r' v B' Hj' S').
      by eapply NoDup_lookup_eq.
    - intros r r' v v' B B' t Hr1 Hr2 S S' Ht Ht'.
      assert (r = r') as <-.
      { apply (V4 r r' v v' B B' t); try done; by apply route_serves_Serves. }
      by destruct (Serves_det _ _ _ _ _ _ S S').
    - intros t Ht. apply elem_of_app. by left.
    - intros r v B t Hr1 S Ht. apply elem_of_app. right. apply (V3 r v B t); [done|by apply route_serves_Serves|done].
    - intros i h1 (E1 & I1 & Ha & Hjob & Hp & Has). split; [done|]. split; [done|]. split; [done|].
      assert (Has' : forall v B, planned_for h rs0 v B <-> assigned h1 (it_routes i) v B).
      { intros v B. rewrite <- Has. unfold planned_for.
        split; intros (r & Hr1 & S); exists r; (split; [done|]); by apply route_serves_Serves. }
      split; [|done]. rewrite <- Hws. apply NoDup_Permutation; [apply I1|done|].
      intros v. rewrite <- dict_get_key. split.
      + intros [r G]. destruct (ii_routes _ _ _ I1 v r G) as [B S].
        assert (A : assigned h1 (it_routes i) v B) by by exists r. apply Has in A as (r0 & Hr0 & S0).
        apply elem_of_list_lookup_1 in Hr0 as [n Hn]. eapply elem_of_list_lookup_2. by eapply Hw.
      + intros Hv. apply elem_of_list_lookup_1 in Hv as [n Hn]. destruct (Hex n v Hn) as (r & B & Hr1 & S).
        assert (A : exists r, r ∈ rs0 /\ Serves h r v B) by (exists r; split; [by eapply elem_of_list_lookup_2|done]).
        apply Has in A as (q & G & _). eauto.
  Qed.
End stateless_runs.
