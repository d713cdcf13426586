(** The ranking iterator keeps its books right: one route per vehicle, no trip
    in two routes, every trip either pending or planned. *)
From Verif Require Export CopyProofs AsideProofs Choices InsertTheorems.

(** ** Dictionaries *)
Section dicts.
  Context {V : Type}.
  Implicit Types d : list (nat * V).
  Lemma dict_get_in k v d : dict_get k d = Some v -> (k, v) ∈ d.
  Proof.
    induction d as [|[k' v'] d IH]; [done|]. cbn. destruct (decide (k = k')) as [->|].
    - intros [= ->]. left.
    - intros E. right. auto.
  Qed.
  Lemma dict_in_get k v d : NoDup (map fst d) -> (k, v) ∈ d -> dict_get k d = Some v.
  Proof.
    induction d as [|[k' v'] d IH]; cbn; [by inversion 2|]. intros [Hn Hd]%NoDup_cons [[= -> ->]|Hin]%elem_of_cons.
    - by rewrite decide_True.
    - rewrite decide_False; [by auto|]. intros ->. apply Hn. apply elem_of_list_fmap. by exists (k', v).
  Qed.
  Lemma dict_get_key k d : is_Some (dict_get k d) <-> k ∈ map fst d.
  Proof.
    induction d as [|[k' v'] d IH]; cbn.
    - split; [intros [? ?]; done|inversion 1].
    - destruct (decide (k = k')) as [->|].
      + split; [left|eauto].
      + rewrite IH. split; [by right|]. intros [->|?]%elem_of_cons; done.
  Qed.
  Lemma dict_set_keys k v d : map fst (dict_set k v d) = if decide (k ∈ map fst d) then map fst d else map fst d ++ [k].
  Proof.
    induction d as [|[k' v'] d IH]; cbn; [done|]. destruct (decide (k = k')) as [->|Hn]; cbn.
    - rewrite decide_True by left. done.
    - rewrite IH. destruct (decide (k ∈ map fst d)) as [Hi|Hi].
      + rewrite decide_True; [done|by right].
      + rewrite decide_False; [done|]. intros [?|?]%elem_of_cons; done.
  Qed.
  Lemma dict_set_NoDup k v d : NoDup (map fst d) -> NoDup (map fst (dict_set k v d)).
  Proof.
    intros H. rewrite dict_set_keys. destruct (decide _); [done|]. apply NoDup_app. split; [done|]. split; [|apply NoDup_singleton].
    intros x Hx. rewrite elem_of_list_singleton. by intros ->.
  Qed.
  Lemma dict_set_in k v d : is_Some (dict_get k d) -> map fst (dict_set k v d) = map fst d.
  Proof. intros H. rewrite dict_set_keys, decide_True; [done|]. by apply dict_get_key. Qed.
End dicts.

(** ** Kinds of routes that serving trips does not leave *)
Class Shape {W : World} : Type := {
  good : nat -> list visit -> Prop;
  (** whether recorded answers are known to be [fair], and only routes found
      feasible are candidates *)
  trusted : Prop;
  (** whether moreover no trip limits its riding time, so that start times are
      requested for none of these tours *)
  relaxed : Prop;
  good_same : forall v xs ys, tour v ys -> similar v xs ys -> good v xs -> good v ys;
  good_idle : forall v, good v (idle v);
  good_serve : forall v t i j xs ys, tour v xs -> (i < j < length xs)%nat -> good v xs ->
    map anytime ys = map anytime (serve t i j xs) -> 
    (trusted -> nearly v ys /\ (relaxed -> calm xs (length xs) -> calm ys (length ys))) -> good v ys
}.

(** as far as the kind of tours considered needs it, recorded answers can be
    trusted *)
Definition Trust {W : World} {Sh : Shape} (h : heap) : Prop := Fair h /\ (relaxed -> limitless /\ Worth false h).

Section ranking.
  Context {W : World} {Sh : Shape}.

  Lemma Trust_evolves h h' : evolves h h' -> Trust h -> Trust h'.
  Proof. intros (_ & _ & E) [F R]. split; [exact (E true F)|]. intros Rl. destruct (R Rl). split; [done|by apply E]. Qed.
  Lemma Fine_serve h L h' r v ids L' : Trust h -> Fine h L h' r -> RouteOK h' r v ids L' ->
    nearly v L' /\ (relaxed -> calm L (length L) -> calm L' (length L')).
  Proof.
    intros [_ T] [(w & ids2 & L2 & [R2 _] & N2) C] R.
    destruct (RouteW_det _ _ _ _ _ _ _ _ R2 (proj1 R)) as (-> & _ & ->). split; [done|]. intros Rl Hc. destruct (T Rl) as [Hl Ff].
    destruct (C Hl Ff Hc) as (w & ids3 & L3 & [R3 _] & C3). by destruct (RouteW_det _ _ _ _ _ _ _ _ R3 (proj1 R)) as (_ & _ & ->).
  Qed.

  (** ** Routes seen from far: the trips they serve *)
  Definition Serves (h : heap) (r v : nat) (B : list nat) : Prop :=
    exists ids L, RouteOK h r v ids L /\ good v L /\ boards L = B.
  Lemma Serves_evolves h h' r v B : evolves h h' -> Serves h r v B -> Serves h' r v B.
  Proof.
    intros E (ids & L & R & G & <-). destruct (lt_routes _ _ (proj1 E) _ _ _ _ R) as (L' & R' & EL).
    exists ids, L'. split; [done|]. split; [by eapply good_same; [apply R'|..]|]. destruct EL as [EL _]. by rewrite <- (boards_anytime L'), <- EL, boards_anytime.
  Qed.
  Lemma Serves_soft h h' r v B : soft h h' -> Serves h r v B -> Serves h' r v B.
  Proof. intros E. by apply Serves_evolves, evolves_soft. Qed.
  Lemma Serves_det h r v v' B B' : Serves h r v B -> Serves h r v' B' -> v = v' /\ B = B'.
  Proof.
    intros (ids & L & [R _] & _ & <-) (ids' & L' & [R' _] & _ & <-).
    destruct (RouteW_det _ _ _ _ _ _ _ _ R R') as (-> & _ & ->). done.
  Qed.
  Lemma Serves_NoDup h r v B : Serves h r v B -> NoDup B.
  Proof. intros (ids & L & [R _] & _ & <-). apply (rw_rides _ _ _ _ _ R). Qed.
  Lemma Serves_cell h r v B : Serves h r v B -> exists c, h_routes h !! r = Some c /\ rt_vehicle c = v.
  Proof. intros (ids & L & [R _] & _ & <-). destruct (rw_cell _ _ _ _ _ R) as (c & ? & ? & _). eauto. Qed.
  Lemma runs_serves_get h r v B (Q : route -> heap -> Prop) :
    Serves h r v B -> (forall c, rt_vehicle c = v -> Q c h) -> runs (route_get r) h Q.
  Proof. intros (c & Hc & Hv)%Serves_cell HQ. eapply runs_route_get; [done|]. by apply HQ. Qed.
  Lemma runs_serves_trips h r v B (Q : list nat -> heap -> Prop) :
    Serves h r v B -> Q B h -> runs (route_trips r) h Q.
  Proof. intros (ids & L & [R _] & _ & <-) HQ. by eapply runs_route_trips. Qed.
  Lemma runs_serves_loaded h r v B (Q : bool -> heap -> Prop) :
    Serves h r v B -> Q (negb (bool_decide (B = []))) h -> runs (route_loaded r) h Q.
  Proof. intros (ids & L & [R _] & _ & <-) HQ. by eapply runs_route_loaded. Qed.
  Lemma runs_serves_planned h r v B (Q : list nat -> heap -> Prop) :
    Serves h r v B ->
    (forall ps, map (trip_of h) ps = B ->
       (forall p, p ∈ ps -> exists pc, h_pts h !! p = Some pc /\ pt_vehicle pc = v /\ pt_trip pc = trip_of h p) ->
       Q ps h) ->
    runs (planned_trips r) h Q.
  Proof.
    intros (ids & L & [R _] & _ & <-) HQ. eapply runs_planned_trips; [exact R|]. apply HQ.
    - by eapply trips_pts_of.
    - intros p Hp. destruct (pts_of_known _ _ _ _ _ _ R Hp) as (s & c & d & dc & pc & _ & _ & _ & _ & _ & _ & Hpc & Hv & _).
      exists pc. unfold trip_of. by rewrite Hpc.
  Qed.

  Lemma evolves_tick h n : evolves h (MkHeap (h_stops h) (h_pts h) (h_routes h) n).
  Proof. apply evolves_soft, soft_tick. Qed.
  Lemma HInv_tick h n : HInv h -> HInv (MkHeap (h_stops h) (h_pts h) (h_routes h) n).
  Proof. intros HI. eapply HInv_soft; [done|apply soft_tick]. Qed.

  Definition served (h : heap) (r : nat) : Prop := exists v B, Serves h r v B.
  Lemma served_evolves h h' r : evolves h h' -> served h r -> served h' r.
  Proof. intros E (v & B & S). exists v, B. by eapply Serves_evolves. Qed.

  (** ** Sorting by a criterion *)
  Lemma served_soft h h' r : soft h h' -> served h r -> served h' r.
  Proof. intros E. by apply served_evolves, evolves_soft. Qed.
  Lemma mono_soft h h' : mono h h' -> soft h h'.
  Proof. by intros [? _]. Qed.
  Lemma mapM_scoring_runs k l : forall h, sane -> (forall r, r ∈ l -> served h r) ->
    runs (mapM (scoring k) l) h (fun ks h' => mono h h' /\ Forall2 (Score k h') l ks).
  Proof.
    induction l as [|r l IH]; intros h Hs Hl.
    { apply runs_ret. split; [apply mono_refl|constructor]. }
    cbn [mapM]. step. destruct (Hl r) as (v & B & ids & L & R & _); [left|].
    eapply runs_mono; [apply (scoring_runs k h r v ids L); [apply Hs|apply Hs|done]|].
    intros x h1 [M1 S1]. step. eapply runs_mono; [apply (IH h1 Hs)|].
    { intros q Hq. apply (served_soft h); [by apply mono_soft|]. apply Hl. by right. }
    intros xs h2 [M2 F2]. apply runs_ret. split; [by eapply mono_trans|].
    constructor; [by eapply Score_mono|done].
  Qed.
  Definition rev_of (k : criterion) : bool :=
    match criterion_direction k with Maximization => true | Minimization => false end.
  Lemma criterion_sorted_runs k l h : sane -> (forall r, r ∈ l -> served h r) ->
    runs (criterion_sorted k l) h (fun l' h' => mono h h' /\ l' ≡ₚ l /\
      exists ks, Forall2 (Score k h') l ks /\
        l' = map snd (sort_keyed score_ltb (rev_of k) (zip ks l))).
  Proof.
    intros Hs Hl. unfold criterion_sorted. step. eapply runs_mono; [by apply mapM_scoring_runs|].
    intros ks h' [M F]. apply runs_ret. split; [done|]. unfold dir_sorted. fold (rev_of k). split.
    - rewrite sort_keyed_perm. change (map snd) with (fmap (M := list) (@snd score nat)). rewrite snd_zip; [done|].
      apply Forall2_length in F. lia.
    - exists ks. done.
  Qed.

  (** ** The iterator *)
  Definition assigned (h : heap) (d : list (nat * nat)) (v : nat) (B : list nat) : Prop :=
    exists r, dict_get v d = Some r /\ Serves h r v B.
  (** [U]: the trips that may be planned at all *)
  Record ItInv (h : heap) (U : list nat) (i : iterator) : Prop := {
    ii_heap : HInv h;
    ii_nodup : NoDup (map fst (it_routes i));
    ii_routes : forall v r, dict_get v (it_routes i) = Some r -> exists B, Serves h r v B;
    ii_once : forall v v' B B' t, assigned h (it_routes i) v B -> assigned h (it_routes i) v' B' ->
      t ∈ B -> t ∈ B' -> v = v';
    ii_pending : NoDup (it_pending i);
    ii_free : forall v B t, assigned h (it_routes i) v B -> t ∈ B -> t ∉ it_pending i;
    ii_known : forall v B t, assigned h (it_routes i) v B -> t ∈ B -> t ∈ U;
    ii_todo : forall t, t ∈ it_pending i -> t ∈ U;
    ii_all : forall t, t ∈ it_job i -> t ∈ it_pending i \/ exists v B, assigned h (it_routes i) v B /\ t ∈ B;
    ii_attractive : forall l r, it_attractive i = Some l -> r ∈ l ->
      exists v B, Serves h r v B /\ is_Some (dict_get v (it_routes i));
    ii_trust : trusted -> it_only_feasible i = true /\ Trust h
  }.
  Lemma assigned_evolves h h' d v B : evolves h h' -> assigned h d v B -> assigned h' d v B.
  Proof. intros E (r & ? & ?). exists r. split; [done|]. by eapply Serves_evolves. Qed.
  Lemma assigned_evolves_inv h h' U i v B : ItInv h U i -> evolves h h' -> assigned h' (it_routes i) v B -> assigned h (it_routes i) v B.
  Proof.
    intros I E (r & Hr & S). destruct (ii_routes _ _ _ I v r Hr) as [B' S'].
    exists r. split; [done|]. destruct (Serves_det _ _ _ _ _ _ S (Serves_evolves _ _ _ _ _ E S')) as [_ ->]. done.
  Qed.
  Lemma ItInv_evolves h h' U i : ItInv h U i -> evolves h h' -> HInv h' -> ItInv h' U i.
  Proof.
    intros I E HI. pose proof (assigned_evolves_inv h h' U i) as Inv. destruct I as [H1 H2 H3 H4 H5 H6 H7 H8 H9 H10 H11] eqn:EI.
    assert (Inv' : forall v B, assigned h' (it_routes i) v B -> assigned h (it_routes i) v B) by (intros; by apply Inv).
    split; try done.
    - intros v r Hr. destruct (H3 v r Hr) as [B S]. exists B. by eapply Serves_evolves.
    - intros v v' B B' t A1 A2. by apply (H4 v v' B B' t); apply Inv'.
    - intros v B t A. apply (H6 v B t). by apply Inv'.
    - intros v B t A. apply (H7 v B t). by apply Inv'.
    - intros t Ht. destruct (H9 t Ht) as [?|(v & B & A & ?)]; [by left|right]. exists v, B. split; [|done]. by eapply assigned_evolves.
    - intros l r El Hr. destruct (H10 l r El Hr) as (v & B & S & ?). exists v, B. split; [|done]. by eapply Serves_evolves.
    - intros Tr. destruct (H11 Tr) as [Hof Fr]. split; [done|]. by apply (Trust_evolves h h').
  Qed.

  Lemma find_empty_runs l : forall h, (forall r, r ∈ l -> served h r) ->
    runs (find_empty l) h (fun o h' => h' = h /\ forall r, o = Some r -> r ∈ l).
  Proof.
    induction l as [|r l IH]; intros h Hl; [by apply runs_ret|].
    cbn. step. destruct (Hl r) as (v & B & S); [left|]. eapply runs_serves_loaded; [done|].
    destruct (negb _).
    - eapply runs_mono; [apply IH; intros; apply Hl; by right|]. intros o h' [-> Ho]. split; [done|].
      intros q Hq. right. by apply Ho.
    - apply runs_ret. split; [done|]. intros q [= <-]. left.
  Qed.
  Lemma elem_of_set_add x y l : x ∈ set_add y l <-> x = y \/ x ∈ l.
  Proof.
    unfold set_add, memb. case_bool_decide; [|rewrite elem_of_app, elem_of_list_singleton; tauto].
    split; [by right|]. by intros [->|].
  Qed.
  (** [r] serves at least one trip *)
  Definition busy (h : heap) (r : nat) : Prop := exists v B, Serves h r v B /\ B <> [].
  Lemma busy_evolves h h' r : evolves h h' -> busy h r -> busy h' r.
  Proof. intros E (v & B & S & H). exists v, B. split; [|done]. by eapply Serves_evolves. Qed.
  Lemma attractive_runs h U i : ItInv h U i ->
    runs (attractive_routes i) h (fun '(l, i') h' => soft h h' /\ ItInv h' U i' /\ i' = set_attractive (Some l) i /\
      (forall l0, it_attractive i = Some l0 -> forall r, r ∈ l0 -> r ∈ l) /\
      (it_attractive i = None -> forall r, r ∈ l -> r ∈ it_route_set i) /\
      (forall l0, it_attractive i = Some l0 -> (exists r, r ∈ l0 /\ busy h r) -> l = l0) /\
      (it_attractive i = None -> (exists r, r ∈ it_route_set i /\ busy h r) ->
         (forall r, r ∈ l -> busy h r) /\ exists r, r ∈ l /\ busy h r) /\
      (it_attractive i = None -> forall r, r ∈ it_route_set i -> busy h r -> r ∈ l)).
  Proof.
    intros I. unfold attractive_routes.
    assert (Hset : forall r hh, soft h hh -> r ∈ it_route_set i -> exists v B, Serves hh r v B /\ is_Some (dict_get v (it_routes i))).
    { intros r hh So Hr. unfold it_route_set in Hr. apply elem_of_list_fmap in Hr as ([v r0] & -> & Hin).
      pose proof (dict_in_get v r0 _ (ii_nodup _ _ _ I) Hin) as G.
      destruct (ii_routes _ _ _ I v r0 G) as [B S]. exists v, B. split; [|by eauto].
      eapply Serves_evolves; [by apply evolves_soft|done]. }
    eapply (runs_seq _ _ _ (fun l h1 => soft h h1 /\
      (forall r, r ∈ l -> exists v B, Serves h1 r v B /\ is_Some (dict_get v (it_routes i))) /\
      (forall l0, it_attractive i = Some l0 -> forall r, r ∈ l0 -> r ∈ l) /\
      (it_attractive i = None -> forall r, r ∈ l -> r ∈ it_route_set i) /\
      (forall l0, it_attractive i = Some l0 -> l = l0) /\
      (it_attractive i = None -> forall r, r ∈ it_route_set i -> r ∈ l <-> busy h r))).
    { destruct (it_attractive i) as [l0|] eqn:E.
      - apply runs_ret. split; [apply soft_refl|]. split; [|split; [by intros ? [= <-]|split; [done|split; [by intros ? [= <-]|done]]]].
        intros r Hr. by apply (ii_attractive _ _ _ I l0).
      - step. apply runs_set_order. intros l' Hl'. set (h1 := MkHeap _ _ _ _).
        assert (So : soft h h1) by apply soft_tick.
        eapply runs_mono.
        + apply (runs_filterM route_loaded (fun h2 => h2 = h1) (fun r b => b = true <-> busy h r)); [done|].
          intros r h2 Hr ->. rewrite Hl' in Hr. destruct (Hset r h (soft_refl h) Hr) as (v & B & S & _).
          eapply runs_serves_loaded; [by eapply Serves_soft|]. split; [done|]. rewrite negb_true_iff, bool_decide_eq_false.
          split; [by exists v, B|]. intros (v' & B' & S' & HB). by destruct (Serves_det _ _ _ _ _ _ S S') as [_ ->].
        + intros l h2 (-> & Hin & _ & Hout). split; [done|]. split; [|split; [done|split; [|split; [done|]]]].
          * intros r Hr. apply Hset; [done|]. rewrite <- Hl'. by apply Hin.
          * intros _ r Hr. rewrite <- Hl'. by apply Hin.
          * intros _ r Hr. rewrite <- Hl' in Hr. split; [intros Hrl; by apply Hin in Hrl as [_ Hrl]; apply Hrl|].
            intros Hbr. destruct (decide (r ∈ l)) as [|Hn]; [done|]. apply (Hout r Hr) in Hn. by apply Hn in Hbr. }
    intros base h1 (So1 & Hb & Hk & Hcur & Hsame & Hall). step. apply runs_set_order. intros l Hl. step. set (h2 := MkHeap _ _ _ _).
    assert (So12 : soft h1 h2) by apply soft_tick.
    assert (So2 : soft h h2) by by eapply soft_trans.
    assert (Hb2 : forall r, r ∈ base -> exists v B, Serves h2 r v B /\ is_Some (dict_get v (it_routes i))).
    { intros r Hr. destruct (Hb r Hr) as (v & B & S & Hv). exists v, B. split; [|done].
      by eapply Serves_soft; [exact So12|]. }
    eapply runs_mono.
    { apply (runs_anyM route_loaded (fun h3 => h3 = h2) (fun r b => busy h r -> b = true)); [done|].
      intros r h3 Hr ->. rewrite Hl in Hr. destruct (Hb2 r Hr) as (v & B & S & Hv).
      eapply runs_serves_loaded; [exact S|]. split; [done|]. intros (v' & B' & S' & HB).
      destruct (Serves_det _ _ _ _ _ _ S (Serves_soft _ _ _ _ _ So2 S')) as [_ ->]. by rewrite bool_decide_eq_false_2. }
    assert (Hend : forall l' h', soft h h' -> (forall r, r ∈ l' -> exists v B, Serves h' r v B /\ is_Some (dict_get v (it_routes i))) ->
        ItInv h' U (set_attractive (Some l') i)).
    { intros l' h' So' Hl'. pose proof (ItInv_evolves _ _ _ _ I (evolves_soft _ _ So') (HInv_soft _ _ (ii_heap _ _ _ I) So')) as [].
      split; try done. cbn. intros ? r [= <-] Hr. by apply Hl'. }
    intros b h3 [-> Hany].
    assert (Hfound : it_attractive i = None -> (exists r, r ∈ it_route_set i /\ busy h r) ->
         (forall r, r ∈ base -> busy h r) /\ exists r, r ∈ base /\ busy h r).
    { intros En (r & Hr & Hbr). split.
      - intros q Hq. apply (Hall En); [by apply (Hcur En)|done].
      - exists r. split; [|done]. by apply (Hall En). }
    destruct b.
    { apply runs_ret. split; [done|]. split; [by apply Hend|]. split; [done|]. split; [exact Hk|].
      split; [exact Hcur|]. split; [intros l0 El0 _; by apply Hsame|]. split; [exact Hfound|].
      intros En r Hr. by apply (Hall En). }
    assert (Hno : ~ exists r, r ∈ base /\ busy h r).
    { intros (r & Hr & Hbr). rewrite <- Hl in Hr. by apply (Hany r Hr) in Hbr. }
    step. apply runs_set_order. intros rs Hrs. set (h3 := MkHeap _ _ _ _). step.
    assert (So23 : soft h2 h3) by apply soft_tick.
    assert (So3 : soft h h3) by by eapply soft_trans.
    eapply runs_mono; [apply find_empty_runs|].
    { intros r Hr. rewrite Hrs in Hr. destruct (Hset r h3 So3 Hr) as (v & B & S & _). by exists v, B. }
    intros o h4 [-> Ho]. apply runs_ret.
    assert (Hb3 : forall r, r ∈ match o with Some r => set_add r base | None => base end ->
       exists v B, Serves h3 r v B /\ is_Some (dict_get v (it_routes i))).
    { intros r Hr. assert (o = Some r \/ r ∈ base) as [->|Hr'].
      { destruct o as [q|]; [|by right]. apply elem_of_set_add in Hr as [->|?]; [by left|by right]. }
      - apply Hset; [done|]. rewrite <- Hrs. by apply Ho.
      - destruct (Hb2 r Hr') as (v & B & S & Hv). exists v, B. split; [|done].
        by eapply Serves_soft; [exact So23|]. }
    split; [done|]. split; [by apply Hend|]. split; [done|].
    split.
    - intros l0 El0 r Hr. specialize (Hk l0 El0 r Hr). destruct o; [|done]. apply elem_of_set_add. by right.
    - split.
      { intros En r Hr. destruct o as [q|]; [|by apply Hcur].
        apply elem_of_set_add in Hr as [->|Hr]; [|by apply Hcur]. rewrite <- Hrs. by apply Ho. }
      split.
      + intros l0 El0 Hbu. destruct Hno. by rewrite (Hsame l0 El0).
      + split; [intros En Hbu; destruct Hno; by apply Hfound|].
        intros En r Hr Hbr. destruct Hno. exists r. split; [|done]. by apply (Hall En).
  Qed.

  (** ** Sorted lists of candidates *)
  (** [a] may stand before [b] *)
  Definition precedes (c : criterion) (h : heap) (a b : nat) : Prop :=
    forall x y, Score c h a x -> Score c h b y -> before score_ltb (rev_of c) y x = false.
  Definition Ordered (c : criterion) (h : heap) (v : nat) (sub : list nat) : Prop :=
    (forall r, r ∈ sub -> of_vehicle h r v /\ exists x, Score c h r x) /\ StronglySorted (precedes c h) sub.
  Lemma Ordered_keep c h h' v sub :
    (forall r x, r ∈ sub -> of_vehicle h r v -> Score c h r x -> of_vehicle h' r v) ->
    (forall r x, r ∈ sub -> of_vehicle h r v -> Score c h r x -> Score c h' r x) -> Ordered c h v sub -> Ordered c h' v sub.
  Proof.
    intros V K [H1 H2]. split.
    - intros r Hr. destruct (H1 r Hr) as [Hv [x Hx]]. split; [by eapply V|]. exists x. auto.
    - clear V. induction H2 as [|a sub Hs IH Ha]; [constructor|]. constructor.
      + apply IH; intros; [apply K|apply H1]; try done; by right.
      + rewrite Forall_forall in *. intros b Hb x y Sx Sy.
        destruct (H1 a) as [Va [x0 Hx0]]; [left|]. destruct (H1 b) as [Vb [y0 Hy0]]; [by right|].
        rewrite (Score_det _ _ _ _ _ Sx (K a x0 ltac:(left) Va Hx0)),
          (Score_det _ _ _ _ _ Sy (K b y0 ltac:(by right) Vb Hy0)). by apply (Ha b Hb).
  Qed.
  Lemma Ordered_mono c h h' v sub : mono h h' -> Ordered c h v sub -> Ordered c h' v sub.
  Proof.
    intros M. apply Ordered_keep.
    - intros r x _ (rc & Hrc & Hv) (w & ids & L & b & R & _).
      destruct (rw_cell _ _ _ _ _ (proj1 R)) as (rc1 & Hrc1 & Hw & _).
      apply (RouteOK_soft _ _ _ _ _ _ (mono_soft _ _ M)) in R. destruct (rw_cell _ _ _ _ _ (proj1 R)) as (rc' & Hrc' & E & _).
      exists rc'. split; [done|]. congruence.
    - intros r x _ _. by apply Score_mono.
  Qed.
  Lemma Ordered_aside c h h' v w sub : aside v h h' -> evolves h h' -> w <> v -> Ordered c h w sub -> Ordered c h' w sub.
  Proof.
    intros A E Hne. apply Ordered_keep.
    - intros r x _ (rc & Hrc & Hv) _. exists rc. split; [|done]. apply (as_route _ _ _ A); [done|congruence].
    - intros r x _ Hv. by eapply Score_aside; [exact A|apply E|..].
  Qed.
  Lemma Ordered_sublist c h v sub sub' : sub' `sublist_of` sub -> Ordered c h v sub -> Ordered c h v sub'.
  Proof.
    intros Hs [H1 H2]. split.
    - intros r Hr. apply H1. by eapply sublist_mem.
    - clear H1. induction Hs as [|a l1 l2 Hs IH|a l1 l2 Hs IH]; [done| |].
      + apply StronglySorted_inv in H2 as [H2 Ha]. constructor; [by apply IH|].
        rewrite Forall_forall in *. intros b Hb. apply Ha. by eapply sublist_mem.
      + apply StronglySorted_inv in H2 as [H2 _]. by apply IH.
  Qed.
  Lemma sorted_Ordered c h v l ks : Forall2 (Score c h) l ks -> (forall r, r ∈ l -> of_vehicle h r v) ->
    Ordered c h v (map snd (sort_keyed score_ltb (rev_of c) (zip ks l))).
  Proof.
    intros F Hv.
    pose proof (sort_keyed_sorted score_ltb score_nlt_trans score_lt_nlt (rev_of c) (zip ks l)) as HS.
    assert (HF : forall e, e ∈ sort_keyed score_ltb (rev_of c) (zip ks l) -> of_vehicle h e.2 v /\ Score c h e.2 e.1).
    { intros [x a] He. rewrite sort_keyed_perm in He. apply elem_of_list_lookup in He as [i Hi].
      apply lookup_zip_with_Some in Hi as (? & ? & [= <- <-] & Hx & Ha). split.
      - apply Hv. by eapply elem_of_list_lookup_2.
      - exact (Forall2_lookup_lr _ _ _ _ _ _ F Ha Hx). }
    revert HS HF. generalize (sort_keyed score_ltb (rev_of c) (zip ks l)) as m. intros m HS HF. split.
    - intros r Hr. apply elem_of_list_fmap in Hr as ([x a] & -> & He). destruct (HF (x, a) He) as [H1 H2]. split; [done|]. by exists x.
    - induction HS as [|[x a] m HS IH Hx]; [constructor|]. cbn. constructor; [apply IH; intros; apply HF; by right|].
      apply Forall_forall. intros b Hb x' y' Sx Sy. rewrite Forall_forall in Hx. apply elem_of_list_fmap in Hb as ([y b'] & -> & Hb). cbn in *.
      rewrite (Score_det _ _ _ _ _ Sx (proj2 (HF (x, a) ltac:(left)))), (Score_det _ _ _ _ _ Sy (proj2 (HF (y, b') ltac:(by right)))).
      by apply (Hx (y, b')).
  Qed.

  (** ** The table of candidates *)
  (** every candidate for [v] serves one pending trip more than [v]'s route *)
  Definition GoodSub (h : heap) (d : list (nat * nat)) (pend : list nat) (v : nat) (sub : list nat) : Prop :=
    forall c, c ∈ sub -> exists B t B', assigned h d v B /\ t ∈ pend /\ Serves h c v B' /\ B' ≡ₚ t :: B.
  Lemma GoodSub_evolves h h' d pend v sub : evolves h h' -> GoodSub h d pend v sub -> GoodSub h' d pend v sub.
  Proof.
    intros E G c Hc. destruct (G c Hc) as (B & t & B' & A & Ht & S & P). exists B, t, B'.
    split; [by eapply assigned_evolves|]. split; [done|]. split; [by eapply Serves_evolves|done].
  Qed.
  Lemma create_sub_ranking_runs h U k v r :
    sane -> ItInv h U (rk_it k) -> dict_get v (it_routes (rk_it k)) = Some r ->
    runs (create_sub_ranking k r) h (fun sub h' => evolves h h' /\ HInv h' /\
      GoodSub h' (it_routes (rk_it k)) (it_pending (rk_it k)) v sub /\
      aside v h h' /\ Ordered (it_criterion (rk_it k)) h' v sub).
  Proof.
    intros Hs I Hr.
    assert (As : aside v h (create_sub_ranking k r h).2).
    { destruct (ii_routes _ _ _ I v r Hr) as (B & ids & L & [R _] & _).
      eapply fr_aside; [exact R|]. apply fr_create_sub_ranking. by left. }
    enough (runs (create_sub_ranking k r) h (fun sub h' => evolves h h' /\ HInv h' /\
      GoodSub h' (it_routes (rk_it k)) (it_pending (rk_it k)) v sub /\ Ordered (it_criterion (rk_it k)) h' v sub)) as Hruns.
    { unfold runs in *. destruct (create_sub_ranking k r h) as [[sub|e] h']; [|done]. cbn in As.
      destruct Hruns as (? & ? & ? & ?). split; [done|]. split; [done|]. split; [done|]. by split. }
    clear As. unfold create_sub_ranking. step. apply runs_set_order. intros pend Hp. set (h1 := MkHeap _ _ _ _).
    assert (E1 : evolves h h1) by apply evolves_tick.
    pose proof (ItInv_evolves _ _ _ _ I E1 (HInv_tick _ _ (ii_heap _ _ _ I))) as I1.
    destruct (ii_routes _ _ _ I1 v r Hr) as [B S]. pose proof S as (ids & L & R & GL & EB).
    step. eapply runs_mono.
    { apply (strategy_compute_runs (it_strategy (rk_it k)) (it_only_feasible (rk_it k)) h1 r v ids L
        (take (rk_size k) pend)); [apply Hs|apply Hs|apply (ii_heap _ _ _ I1)|done|].
      intros t Ht Hb. apply (elem_of_list_lookup_1 _ _) in Ht as [n Hn]. apply lookup_take_Some in Hn as [Hn _].
      apply elem_of_list_lookup_2 in Hn. rewrite Hp in Hn.
      apply (ii_free _ _ _ I1 v (boards L) t); [|done|done]. exists r. by subst. }
    intros raw h2 (HI2 & E2 & Hraw).
    assert (G2 : GoodSub h2 (it_routes (rk_it k)) (it_pending (rk_it k)) v raw).
    { intros c Hc. destruct (Hraw c Hc) as (_ & (t & i & j & Ht & Hij & ids' & L' & R' & EL') & Nr).
      exists B, t, (boards L'). split; [|split; [|split]].
      - eapply assigned_evolves; [exact E2|]. by exists r.
      - apply (elem_of_list_lookup_1 _ _) in Ht as [n Hn]. apply lookup_take_Some in Hn as [Hn _].
        apply elem_of_list_lookup_2 in Hn. by rewrite Hp in Hn.
      - exists ids', L'. split; [done|]. split; [|done]. eapply good_serve; [apply R|exact Hij|done|done|].
        intros Tr. destruct (ii_trust _ _ _ I1 Tr) as [Hof Fr]. exact (Fine_serve _ _ _ _ _ _ _ Fr (Nr Hof (proj1 Fr)) R').
      - rewrite <- EB, <- (boards_anytime L'), EL', boards_anytime. apply boards_serve. lia. }
    eapply runs_mono; [apply criterion_sorted_runs; [done|]|].
    { intros c Hc. destruct (G2 c Hc) as (? & ? & B' & _ & _ & ? & _). by exists v, B'. }
    intros sub h3 (M & Hperm & ks & F & Esub). pose proof (evolves_soft _ _ (mono_soft _ _ M)) as E3.
    split; [by eapply evolves_trans; [exact E1|eapply evolves_trans]|].
    split; [by eapply HInv_soft; [|apply mono_soft]|]. split.
    - eapply GoodSub_evolves; [exact E3|]. intros c Hc. rewrite Hperm in Hc. by apply G2.
    - rewrite Esub. apply sorted_Ordered; [done|]. intros c Hc. destruct (G2 c Hc) as (? & ? & B' & _ & _ & S' & _).
      apply (Serves_evolves _ _ _ _ _ E3) in S'. by apply Serves_cell in S'.
  Qed.

  Record RankInv (h : heap) (U : list nat) (k : ranking) : Prop := {
    ri_it : ItInv h U (rk_it k);
    ri_random : (1 <= rk_random k)%nat;
    ri_keys : NoDup (map fst (rk_table k));
    ri_table : forall v sub, dict_get v (rk_table k) = Some sub ->
      GoodSub h (it_routes (rk_it k)) (it_pending (rk_it k)) v sub;
    ri_seen : forall v, is_Some (dict_get v (rk_table k)) ->
      exists l r B, it_attractive (rk_it k) = Some l /\ r ∈ l /\ Serves h r v B;
    ri_order : forall v sub, dict_get v (rk_table k) = Some sub -> Ordered (it_criterion (rk_it k)) h v sub
  }.

  Lemma dict_get_nil {V} v : dict_get (V := V) v [] = None.
  Proof. done. Qed.
  Lemma initialize_runs h U k :
    sane -> ItInv h U (rk_it k) -> (1 <= rk_random k)%nat -> rk_table k = [] -> it_attractive (rk_it k) = None ->
    runs (initialize_ranking k) h (fun k' h' => evolves h h' /\ RankInv h' U k' /\
      it_routes (rk_it k') = it_routes (rk_it k) /\ it_pending (rk_it k') = it_pending (rk_it k) /\
      it_job (rk_it k') = it_job (rk_it k) /\ (it_criterion (rk_it k') = it_criterion (rk_it k) /\ rk_random k' = rk_random k) /\
      ((exists r, r ∈ it_route_set (rk_it k) /\ busy h r) ->
         exists l, it_attractive (rk_it k') = Some l /\ (forall r, r ∈ l -> r ∈ it_route_set (rk_it k) /\ busy h r) /\
           exists r, r ∈ l /\ busy h r)).
  Proof.
    intros Hs I Hrd Et Ea. unfold initialize_ranking. step.
    eapply runs_mono; [by apply attractive_runs|]. intros [attr i'] h1 (E1%evolves_soft & I1 & -> & _ & Hcur & _ & Hfound & _).
    specialize (Hcur Ea). specialize (Hfound Ea).
    set (k1 := set_rk_it _ k). cbv zeta. step. apply runs_set_order. intros l Hl. step. set (h2 := MkHeap _ _ _ _).
    assert (E2 : evolves h1 h2) by apply evolves_tick.
    assert (I2 : ItInv h2 U (rk_it k1)) by (eapply ItInv_evolves; [exact I1|done|apply HInv_tick, (ii_heap _ _ _ I1)]).
    eapply runs_mono.
    { apply (runs_foldM _ (fun tb h' => evolves h2 h' /\ HInv h' /\ NoDup (map fst tb) /\
        forall v sub, dict_get v tb = Some sub ->
          GoodSub h' (it_routes (rk_it k1)) (it_pending (rk_it k1)) v sub /\
          Ordered (it_criterion (rk_it k)) h' v sub /\
          exists r B, r ∈ attr /\ Serves h' r v B)).
      - split; [apply evolves_refl|]. split; [apply (ii_heap _ _ _ I2)|]. cbn. rewrite Et. split; [constructor|].
        intros v sub. by rewrite dict_get_nil.
      - intros tb r h3 Hr (E3 & HI3 & Hn & Htb). rewrite Hl in Hr.
        pose proof (ItInv_evolves _ _ _ _ I2 E3 HI3) as I3.
        destruct (ii_attractive _ _ _ I3 attr r eq_refl Hr) as (v & B & S & _).
        assert (Hg : dict_get v (it_routes (rk_it k1)) = Some r).
        { pose proof (Hcur r Hr) as Hin. unfold it_route_set in Hin. apply elem_of_list_fmap in Hin as ([v' r0] & -> & Hin).
          apply (dict_in_get _ _ _ (ii_nodup _ _ _ I)) in Hin.
          destruct (ii_routes _ _ _ I3 v' r0 Hin) as [B' S']. destruct (Serves_det _ _ _ _ _ _ S S') as [-> _]. done. }
        step. eapply runs_serves_get; [exact S|]. intros c Hv. step.
        eapply runs_mono; [by apply (create_sub_ranking_runs h3 U k1 v r)|].
        intros sub h4 (E4 & HI4 & G4 & K4 & O4). apply runs_ret.
        split; [by eapply evolves_trans|]. split; [done|]. split; [by apply dict_set_NoDup|].
        intros v' sub'. rewrite Hv, dict_get_set. destruct (decide (v' = v)) as [->|].
        + intros [= <-]. split; [done|]. split; [done|]. exists r, B. split; [done|]. by eapply Serves_evolves.
        + intros G. destruct (Htb v' sub' G) as (G1 & O1 & r1 & B1 & ? & ?). split; [by eapply GoodSub_evolves|].
          split; [by eapply Ordered_aside|].
          exists r1, B1. split; [done|]. by eapply Serves_evolves. }
    intros tb h3 (E3 & HI3 & Hn & Htb). apply runs_ret.
    split; [eapply evolves_trans; [exact E1|by eapply evolves_trans]|].
    split; [|split; [done|split; [done|split; [done|split; [done|]]]]].
    2:{ intros Hbu. destruct (Hfound Hbu) as [H1 H2]. exists attr. split; [done|]. split; [|done]. auto. }
    split; cbn.
    - by eapply ItInv_evolves.
    - done.
    - done.
    - intros v sub G. apply Htb in G as [G _]. exact G.
    - intros v [sub G]. apply Htb in G as (_ & _ & r & B & ? & ?). by exists attr, r, B.
    - intros v sub G. by apply Htb in G as (_ & O & _).
  Qed.

  (** ** Accepting a candidate *)
  (** candidates that may still propose trip [t], which has just been planned *)
  Definition OldSub (h : heap) (d : list (nat * nat)) (pend : list nat) (t v : nat) (sub : list nat) : Prop :=
    forall c, c ∈ sub -> exists B u B', assigned h d v B /\ (u ∈ pend \/ u = t) /\ Serves h c v B' /\ B' ≡ₚ u :: B.
  Lemma OldSub_evolves h h' d pend t v sub : evolves h h' -> OldSub h d pend t v sub -> OldSub h' d pend t v sub.
  Proof.
    intros E G c Hc. destruct (G c Hc) as (B & u & B' & A & Ht & S & P). exists B, u, B'.
    split; [by eapply assigned_evolves|]. split; [done|]. split; [by eapply Serves_evolves|done].
  Qed.
  Definition pt_is (h : heap) (p v t : nat) : Prop :=
    exists pc, h_pts h !! p = Some pc /\ pt_vehicle pc = v /\ pt_trip pc = t.
  Lemma pt_is_evolves h h' p v t : evolves h h' -> pt_is h p v t -> pt_is h' p v t.
  Proof.
    intros [E _] (pc & Hp & Hv & Ht). destruct (lt_pts _ _ E p pc Hp) as (pc' & Hp' & Sk).
    apply sk_pt_eq in Sk as (? & ? & _). exists pc'. split; [done|]. split; congruence.
  Qed.

  Lemma update_vehicle_runs h U k p v t v' :
    sane -> ItInv h U (rk_it k) -> NoDup (map fst (rk_table k)) -> pt_is h p v t ->
    is_Some (dict_get v' (it_routes (rk_it k))) ->
    (forall sub, v' <> v -> dict_get v' (rk_table k) = Some sub ->
       OldSub h (it_routes (rk_it k)) (it_pending (rk_it k)) t v' sub) ->
    (forall v sub, dict_get v (rk_table k) = Some sub -> Ordered (it_criterion (rk_it k)) h v sub) ->
    runs (update_vehicle_ranking k p v') h (fun k' h' => evolves h h' /\ HInv h' /\
      exists sub', k' = set_rk_table (dict_set v' sub' (rk_table k)) k /\
        GoodSub h' (it_routes (rk_it k)) (it_pending (rk_it k)) v' sub' /\
        aside v' h h' /\ Ordered (it_criterion (rk_it k)) h' v' sub').
  Proof.
    intros Hs I Hn (pc & Hpc & Hv & Ht) [r Hr] Hold Hord. unfold update_vehicle_ranking. step.
    eapply runs_pt_get; [done|]. rewrite Hv, Ht.
    assert (Hcreate : runs (let! sub' := create_sub_ranking k r in ret (set_rk_table (dict_set v' sub' (rk_table k)) k)) h
      (fun k' h' => evolves h h' /\ HInv h' /\
      exists sub', k' = set_rk_table (dict_set v' sub' (rk_table k)) k /\
        GoodSub h' (it_routes (rk_it k)) (it_pending (rk_it k)) v' sub' /\
        aside v' h h' /\ Ordered (it_criterion (rk_it k)) h' v' sub')).
    { step. eapply runs_mono; [by apply (create_sub_ranking_runs h U k v' r)|].
      intros sub h1 (? & ? & ? & ? & ?). apply runs_ret. split; [done|]. split; [done|]. by exists sub. }
    destruct (dict_get v' (rk_table k)) as [sub|] eqn:Esub.
    - destruct (Nat.eqb_spec v' v) as [->|Hne].
      + rewrite Hr. exact Hcreate.
      + specialize (Hold sub Hne eq_refl). step. eapply runs_mono.
        { apply (runs_filterM _ (fun h1 => h1 = h) (fun c b => forall w B', Serves h c w B' -> b = true -> t ∉ B')); [done|].
          intros c h1 Hc ->. destruct (Hold c Hc) as (B & u & B' & A & Hu & S & P). step.
          eapply runs_serves_trips; [exact S|]. apply runs_ret. split; [done|].
          intros w B'' S'' Eb. destruct (Serves_det _ _ _ _ _ _ S S'') as [_ <-]. unfold memb in Eb.
          case_bool_decide; done. }
        intros sub' h1 (-> & Hin & Hsl & _). apply runs_ret. split; [apply evolves_refl|].
        split; [apply (ii_heap _ _ _ I)|]. exists sub'. split; [done|].
        split; [|split; [apply aside_refl|eapply Ordered_sublist; [done|by eapply Hord]]].
        intros c Hc. destruct (Hin c Hc) as [Hc' Hg]. destruct (Hold c Hc') as (B & u & B' & A & Hu & S & P).
        specialize (Hg v' B' S eq_refl). exists B, u, B'. split; [done|]. split; [|done].
        destruct Hu as [?| ->]; [done|]. exfalso. apply Hg. rewrite P. left.
    - rewrite Hr. exact Hcreate.
  Qed.

  Lemma update_loop_runs U p v t l : forall h k,
    sane -> ItInv h U (rk_it k) -> NoDup (map fst (rk_table k)) -> pt_is h p v t ->
    (forall r, r ∈ l -> exists v' B, Serves h r v' B /\ is_Some (dict_get v' (it_routes (rk_it k)))) ->
    (forall v' sub, dict_get v' (rk_table k) = Some sub ->
       GoodSub h (it_routes (rk_it k)) (it_pending (rk_it k)) v' sub \/
       (exists r B, r ∈ l /\ Serves h r v' B) /\
       (v' <> v -> OldSub h (it_routes (rk_it k)) (it_pending (rk_it k)) t v' sub)) ->
    (forall v sub, dict_get v (rk_table k) = Some sub -> Ordered (it_criterion (rk_it k)) h v sub) ->
    runs (foldM (fun k r => let! c := route_get r in update_vehicle_ranking k p (rt_vehicle c)) k l) h
      (fun k' h' => evolves h h' /\ HInv h' /\ rk_it k' = rk_it k /\ rk_random k' = rk_random k /\
        rk_size k' = rk_size k /\ NoDup (map fst (rk_table k')) /\
        (forall v' sub, dict_get v' (rk_table k') = Some sub ->
           GoodSub h' (it_routes (rk_it k)) (it_pending (rk_it k)) v' sub) /\
        (forall v', is_Some (dict_get v' (rk_table k')) ->
           is_Some (dict_get v' (rk_table k)) \/ exists r B, r ∈ l /\ Serves h' r v' B) /\
        (forall v sub, dict_get v (rk_table k') = Some sub -> Ordered (it_criterion (rk_it k)) h' v sub)).
  Proof.
    induction l as [|r l IH]; intros h k Hs I Hn Hp Hl Ht Hord.
    { apply runs_ret. split; [apply evolves_refl|]. split; [apply (ii_heap _ _ _ I)|].
      split; [done|]. split; [done|]. split; [done|]. split; [done|].
      split; [|split; [by left|done]].
      intros v' sub G. destruct (Ht v' sub G) as [?|[(r & B & Hr & _) _]]; [done|inversion Hr]. }
    cbn [foldM]. destruct (Hl r) as (v1 & B1 & S1 & Hv1); [left|]. step. step.
    eapply runs_serves_get; [exact S1|]. intros c ->.
    assert (GO : forall d pend v' sub, GoodSub h d pend v' sub -> OldSub h d pend t v' sub).
    { intros d pend v' sub G x Hx. destruct (G x Hx) as (B & u & B' & ? & ? & ? & ?). exists B, u, B'. tauto. }
    eapply runs_mono; [apply (update_vehicle_runs h U k p v t v1); try done|].
    { intros sub Hne G. destruct (Ht v1 sub G) as [?|[_ ?]]; auto. }
    intros k1 h1 (E1 & HI1 & sub1 & -> & G1 & K1 & O1).
    eapply runs_mono; [apply (IH h1 (set_rk_table (dict_set v1 sub1 (rk_table k)) k))|].
    - done.
    - by eapply ItInv_evolves.
    - by apply dict_set_NoDup.
    - by eapply pt_is_evolves.
    - intros q Hq. destruct (Hl q) as (v' & B & S & ?); [by right|]. exists v', B. split; [|done]. by eapply Serves_evolves.
    - cbn. intros v' sub. rewrite dict_get_set. destruct (decide (v' = v1)) as [->|Hne].
      + intros [= <-]. by left.
      + intros G. destruct (Ht v' sub G) as [?|[(q & B & Hq & S) Ho]]; [left; by eapply GoodSub_evolves|right].
        split; [|intros; eapply OldSub_evolves; [exact E1|by apply Ho]].
        apply elem_of_cons in Hq as [->|Hq].
        * destruct (Serves_det _ _ _ _ _ _ S S1) as [-> _]. done.
        * exists q, B. split; [done|]. by eapply Serves_evolves.
    - cbn. intros v' sub. rewrite dict_get_set. destruct (decide (v' = v1)) as [->|Hne].
      + by intros [= <-].
      + intros G. eapply Ordered_aside; [exact K1|exact E1|done|by eapply Hord].
    - cbn. intros k2 h2 (E2 & HI2 & Ei & Er & Es & Hn2 & Hg & Hseen & O2).
      split; [by eapply evolves_trans|]. do 6 (split; [done|]). split; [|done].
      intros v' Hv'. destruct (Hseen v' Hv') as [Hs'|(q & B & Hq & S)].
      + rewrite dict_get_set in Hs'. destruct (decide (v' = v1)) as [->|]; [|by left].
        right. exists r, B1. split; [left|]. by eapply Serves_evolves; [exact E2|]; eapply Serves_evolves; [exact E1|].
      + right. exists q, B. split; [by right|done].
  Qed.

  Lemma filter_out_length t l : NoDup l -> t ∈ l ->
    length l = S (length (List.filter (fun x => negb (x =? t)%nat) l)).
  Proof.
    induction l as [|x l IH]; [by inversion 2|]. intros [Hx Hl]%NoDup_cons Hin. cbn.
    destruct (Nat.eqb_spec x t) as [->|Hne]; cbn.
    - f_equal. clear IH Hin Hl. induction l as [|y l IH]; [done|]. cbn.
      destruct (Nat.eqb_spec y t) as [->|]; cbn; [exfalso; apply Hx; left|]. f_equal. apply IH. intros ?; apply Hx; by right.
    - f_equal. apply IH; [done|]. apply elem_of_cons in Hin as [->|?]; done.
  Qed.
  Lemma elem_of_filter_out t x l : x ∈ List.filter (fun x => negb (x =? t)%nat) l <-> x ∈ l /\ x <> t.
  Proof.
    rewrite !elem_of_list_In, List.filter_In, negb_true_iff, Nat.eqb_neq. done.
  Qed.
  Lemma filter_out_NoDup t l : NoDup l -> NoDup (List.filter (fun x => negb (x =? t)%nat) l).
  Proof. rewrite !NoDup_ListNoDup. apply List.NoDup_filter. Qed.

  (** the step of the books when [v]'s route becomes [r], serving [t] too *)
  Lemma ItInv_accept h U i v r B t B' :
    ItInv h U i -> assigned h (it_routes i) v B -> t ∈ it_pending i -> Serves h r v B' -> B' ≡ₚ t :: B ->
    ItInv h U (set_pending (List.filter (fun x => negb (x =? t)%nat) (it_pending i))
                 (set_routes (dict_set v r (it_routes i)) i)).
  Proof.
    intros I A Ht S P.
    assert (Hd : forall w C, assigned h (dict_set v r (it_routes i)) w C ->
        (w = v /\ C = B') \/ (w <> v /\ assigned h (it_routes i) w C)).
    { intros w C (q & Hq & SC). rewrite dict_get_set in Hq. destruct (decide (w = v)) as [->|Hne].
      - injection Hq as <-. left. split; [done|]. by destruct (Serves_det _ _ _ _ _ _ S SC) as [_ ->].
      - right. split; [done|]. by exists q. }
    assert (Hd' : forall w C, w <> v -> assigned h (it_routes i) w C -> assigned h (dict_set v r (it_routes i)) w C).
    { intros w C Hne (q & Hq & SC). exists q. split; [|done]. by rewrite dict_get_set_ne. }
    assert (Hdv : assigned h (dict_set v r (it_routes i)) v B').
    { exists r. split; [apply dict_get_set_eq|done]. }
    destruct I as [H1 H2 H3 H4 H5 H6 H7 H8 H9 H10 H11].
    assert (HB' : forall u, u ∈ B' <-> u = t \/ u ∈ B) by (intros u; rewrite P; apply elem_of_cons).
    split; cbn.
    - done.
    - by apply dict_set_NoDup.
    - intros w q. rewrite dict_get_set. destruct (decide (w = v)) as [->|]; [|by apply H3].
      intros [= <-]. by exists B'.
    - intros w w' C C' u A1 A2 Hu Hu'.
      destruct (Hd w C A1) as [[-> ->]|[Hne A1']], (Hd w' C' A2) as [[-> ->]|[Hne' A2']]; [done| | |].
      + apply HB' in Hu as [->|Hu]; [|by eapply H4]. exfalso. by apply (H6 w' C' t).
      + apply HB' in Hu' as [->|Hu']; [|by eapply H4]. exfalso. by apply (H6 w C t).
      + by eapply H4.
    - by apply filter_out_NoDup.
    - intros w C u A1 Hu [Hp Hne]%elem_of_filter_out. destruct (Hd w C A1) as [[-> ->]|[_ A1']].
      + apply HB' in Hu as [->|Hu]; [done|]. by apply (H6 v B u).
      + by apply (H6 w C u).
    - intros w C u A1 Hu. destruct (Hd w C A1) as [[-> ->]|[_ A1']]; [|by eapply H7].
      apply HB' in Hu as [->|Hu]; [by apply H8|by eapply H7].
    - intros u [Hu _]%elem_of_filter_out. by apply H8.
    - intros u Hu. destruct (decide (u = t)) as [->|Hne].
      { right. exists v, B'. split; [done|]. apply HB'. by left. }
      destruct (H9 u Hu) as [?|(w & C & A1 & HuC)]; [left; by apply elem_of_filter_out|right].
      destruct (decide (w = v)) as [->|Hw].
      + assert (C = B) as ->.
        { destruct A as (q & Hq & SB), A1 as (q' & Hq' & SC). assert (q' = q) as -> by congruence.
          by destruct (Serves_det _ _ _ _ _ _ SC SB). }
        exists v, B'. split; [done|]. apply HB'. by right.
      + exists w, C. split; [by apply Hd'|done].
    - intros l q El Hq. destruct (H10 l q El Hq) as (w & C & SC & [q' Hq']). exists w, C. split; [done|].
      rewrite dict_get_set. destruct (decide (w = v)); eauto.
    - done.
  Qed.

  Lemma ranking_mark_runs h U k k0 p v t B r B' :
    sane -> RankInv h U k0 -> assigned h (it_routes (rk_it k0)) v B -> t ∈ it_pending (rk_it k0) ->
    Serves h r v B' -> B' ≡ₚ t :: B -> pt_is h p v t ->
    k = set_rk_it (set_routes (dict_set v r (it_routes (rk_it k0))) (rk_it k0)) k0 ->
    runs (ranking_mark k p) h (fun k' h' => evolves h h' /\ RankInv h' U k' /\
      (it_criterion (rk_it k') = it_criterion (rk_it k0) /\ rk_random k' = rk_random k0) /\
      it_routes (rk_it k') = dict_set v r (it_routes (rk_it k0)) /\ it_job (rk_it k') = it_job (rk_it k0) /\
      it_pending (rk_it k') = List.filter (fun x => negb (x =? t)%nat) (it_pending (rk_it k0)) /\
      (forall l0, it_attractive (rk_it k0) = Some l0 -> (exists r, r ∈ l0 /\ busy h r) -> it_attractive (rk_it k') = Some l0)).
  Proof.
    intros Hs RI A Ht S P Hp Ek. unfold ranking_mark. pose proof Hp as (pc & Hpc & _ & Htp). step.
    eapply runs_pt_get; [done|]. step. rewrite Htp. unfold mark_trip_as_done.
    replace (it_pending (rk_it k)) with (it_pending (rk_it k0)) by (by subst k).
    unfold memb. rewrite bool_decide_eq_true_2 by done. apply runs_ret.
    pose proof (ItInv_accept h U (rk_it k0) v r B t B' (ri_it _ _ _ RI) A Ht S P) as I1.
    replace (rk_it k) with (set_routes (dict_set v r (it_routes (rk_it k0))) (rk_it k0)) by (by subst k).
    set (i1 := set_pending _ _) in *. unfold update_ranking.
    set (k1 := set_rk_it i1 k). change (rk_it k1) with i1.
    assert (Hold : forall w sub, w <> v -> dict_get w (rk_table k0) = Some sub ->
       OldSub h (it_routes i1) (it_pending i1) t w sub).
    { intros w sub Hne G c Hc. destruct (ri_table _ _ _ RI w sub G c Hc) as (C & u & C' & AC & Hu & SC & PC).
      exists C, u, C'. split.
      { destruct AC as (q & Hq & ?). exists q. split; [|done]. cbn. by rewrite dict_get_set_ne. }
      split; [|done]. destruct (decide (u = t)) as [->|]; [by right|left]. apply elem_of_filter_out. done. }
    assert (Tk : rk_table k = rk_table k0 /\ rk_random k = rk_random k0) by (by subst k). destruct Tk as [Tk Rk].
    step. eapply runs_mono; [apply runs_keeps; [apply keeps_attractive|apply (attractive_runs h U i1 I1)]|].
    intros [attr i2] h1 ((So1 & I2 & -> & Hsup & _ & Hsame & _) & K1). step. apply runs_set_order. intros l Hl. set (h2 := MkHeap _ _ _ _).
    assert (M02 : mono h h2).
    { eapply mono_trans; [exact (conj So1 K1)|]. split; [apply soft_tick|done]. }
    assert (E2 : evolves h1 h2) by apply evolves_tick.
    assert (E02 : evolves h h2) by (by apply evolves_soft, mono_soft).
    assert (I3 : ItInv h2 U (set_attractive (Some attr) i1)).
    { eapply ItInv_evolves; [exact I2|done|apply HInv_tick, (ii_heap _ _ _ I2)]. }
    set (k2 := set_rk_it _ k1).
    eapply runs_mono; [apply (update_loop_runs U p v t l h2 k2)|].
    - done.
    - exact I3.
    - change (rk_table k2) with (rk_table k). rewrite Tk. apply (ri_keys _ _ _ RI).
    - by eapply pt_is_evolves.
    - intros q Hq. rewrite Hl in Hq. apply (ii_attractive _ _ _ I3 attr q eq_refl Hq).
    - change (rk_table k2) with (rk_table k). rewrite Tk. intros w sub G. right. split.
      + destruct (ri_seen _ _ _ RI w ltac:(eauto)) as (l0 & q & C & El0 & Hq & SC). exists q, C. split.
        * rewrite Hl. apply (Hsup l0); done.
        * by eapply Serves_evolves.
      + intros Hne. eapply OldSub_evolves; [exact E02|]. by apply Hold.
    - change (rk_table k2) with (rk_table k). rewrite Tk. change (it_criterion (rk_it k2)) with (it_criterion (rk_it k0)).
      intros w sub G. eapply Ordered_mono; [exact M02|by apply (ri_order _ _ _ RI)].
    - intros k3 h3 (E3 & HI3 & Ei & Er & Es & Hn & Hg & Hseen & Hord3).
      split; [by eapply evolves_trans|]. split.
      2:{ rewrite Ei. split; [by rewrite Er, <- Rk|]. do 3 (split; [done|]). intros l0 El0 Hbu. cbn. f_equal. by apply Hsame. }
      split.
      + rewrite Ei. by eapply ItInv_evolves.
      + rewrite Er. change (rk_random k2) with (rk_random k). rewrite Rk. apply RI.
      + done.
      + intros w sub G. rewrite Ei. by apply Hg.
      + intros w Hw. exists attr. rewrite Ei. destruct (Hseen w Hw) as [Hw'|(q & C & Hq & SC)].
        * change (rk_table k2) with (rk_table k) in Hw'. rewrite Tk in Hw'.
          destruct (ri_seen _ _ _ RI w Hw') as (l0 & q & C & El0 & Hq & SC). exists q, C. split; [done|].
          split; [by apply (Hsup l0)|]. eapply Serves_evolves; [exact E3|]. by eapply Serves_evolves.
        * exists q, C. split; [done|]. split; [by rewrite <- Hl|done].
      + rewrite Ei. exact Hord3.
  Qed.

  Lemma runs_foldM_app {S A B} (f : B -> A -> ST S B) l l' b (h : S) Q :
    runs (foldM f b l) h (fun b' h' => runs (foldM f b' l') h' Q) -> runs (foldM f b (l ++ l')) h Q.
  Proof.
    revert b h. induction l as [|x l IH]; intros b h; cbn; [done|]. intros H. apply runs_bind_inv in H. step.
    eapply runs_mono; [exact H|]. intros b' h'. apply IH.
  Qed.
  (** planned trips already known are skipped *)
  Lemma skip_loop_runs {K} (f : K -> nat -> M K) old l : forall k h,
    (forall p, p ∈ l -> exists pc, h_pts h !! p = Some pc /\ pt_trip pc ∈ old) ->
    runs (foldM (fun k p => let! pc := pt_get p in if memb (pt_trip pc) old then ret k else f k p) k l) h
      (fun k' h' => k' = k /\ h' = h).
  Proof.
    induction l as [|p l IH]; intros k h Hl; [done|]. cbn [foldM]. step. step.
    destruct (Hl p) as (pc & Hpc & Hin); [left|]. eapply runs_pt_get; [done|].
    unfold memb. rewrite bool_decide_eq_true_2 by done. apply runs_ret. apply IH. intros q Hq. apply Hl. by right.
  Qed.

  Lemma ranking_set_route_runs h U k v sub r :
    sane -> RankInv h U k -> dict_get v (rk_table k) = Some sub -> r ∈ sub ->
    runs (ranking_set_route k r) h (fun k' h' => evolves h h' /\ RankInv h' U k' /\
      (it_criterion (rk_it k') = it_criterion (rk_it k) /\ rk_random k' = rk_random k) /\
      it_job (rk_it k') = it_job (rk_it k) /\
      it_routes (rk_it k') = dict_set v r (it_routes (rk_it k)) /\
      exists B t B', assigned h (it_routes (rk_it k)) v B /\ t ∈ it_pending (rk_it k) /\
        Serves h r v B' /\ B' ≡ₚ t :: B /\
        it_pending (rk_it k') = List.filter (fun x => negb (x =? t)%nat) (it_pending (rk_it k)) /\
        (forall l0, it_attractive (rk_it k) = Some l0 -> (exists r, r ∈ l0 /\ busy h r) -> it_attractive (rk_it k') = Some l0)).
  Proof.
    intros Hs RI G Hr. destruct (ri_table _ _ _ RI v sub G r Hr) as (B & t & B' & A & Ht & S & P).
    unfold ranking_set_route. step. eapply runs_serves_get; [exact S|]. intros c ->.
    pose proof A as (old & Hold & SB). rewrite Hold. step.
    eapply runs_serves_trips; [exact SB|]. step. eapply runs_serves_planned; [exact S|].
    intros ps Eps Hps.
    assert (HtB' : t ∈ B') by (rewrite P; left). pose proof HtB' as Hin. rewrite <- Eps in Hin.
    apply elem_of_list_fmap in Hin as (p & Etp & Hp). apply elem_of_list_split in Hp as (ps1 & ps2 & ->).
    assert (Hnd := Serves_NoDup _ _ _ _ S). rewrite <- Eps in Hnd.
    assert (Hother : forall q, q ∈ ps1 ++ ps2 -> trip_of h q ∈ B).
    { intros q Hq. rewrite map_app in Hnd, Eps. cbn [map] in Hnd, Eps.
      assert (Hne : trip_of h q <> t).
      { rewrite <- Permutation_middle in Hnd. apply NoDup_cons in Hnd as [Hn _]. rewrite <- Etp, <- map_app in Hn.
        intros E. apply Hn. rewrite <- E. by apply elem_of_list_fmap_1. }
      assert (Hq' : trip_of h q ∈ B').
      { rewrite <- Eps, <- Permutation_middle, <- map_app. right. by apply elem_of_list_fmap_1. }
      rewrite P in Hq'. apply elem_of_cons in Hq' as [?|?]; done. }
    apply runs_foldM_app. eapply runs_mono; [apply skip_loop_runs|].
    { intros q Hq. destruct (Hps q) as (pc & ? & _ & E); [apply elem_of_app; by left|]. exists pc. split; [done|].
      rewrite E. apply Hother. apply elem_of_app; by left. }
    intros ? ? [-> ->]. cbn [foldM]. step. step.
    destruct (Hps p) as (pc & Hpc & Hpv & Hpt); [apply elem_of_app; right; left|]. eapply runs_pt_get; [done|].
    assert (Ept : pt_trip pc = t) by congruence.
    unfold memb at 1. rewrite bool_decide_eq_false_2.
    2:{ rewrite Ept. intros HB. by apply (ii_free _ _ _ (ri_it _ _ _ RI) v B t). }
    eapply runs_mono; [eapply (ranking_mark_runs h U _ k p v t B r B'); try done; by exists pc|].
    intros k' h' (E & RI' & Ec & Er & Ej & Ep & Ea).
    eapply runs_mono; [apply skip_loop_runs|].
    { intros q Hq. destruct (Hps q) as (qc & Hqc & _ & Eq); [apply elem_of_app; right; by right|].
      destruct E as [E _]. destruct (lt_pts _ _ E q qc Hqc) as (qc' & Hq' & Sk). apply sk_pt_eq in Sk as (_ & Sk & _).
      exists qc'. split; [done|]. rewrite Sk, Eq. apply Hother. apply elem_of_app; by right. }
    intros ? ? [-> ->]. split; [done|]. split; [done|]. split; [done|]. split; [done|]. split; [done|].
    exists B, t, B'. done.
  Qed.

  (** ** Choosing a candidate *)
  Lemma RankInv_mono h h' U k : RankInv h U k -> mono h h' -> RankInv h' U k.
  Proof.
    intros [H1 H2 H3 H4 H5 H6] M. pose proof (evolves_soft _ _ (mono_soft _ _ M)) as E. split; try done.
    - eapply ItInv_evolves; [done|done|]. eapply HInv_soft; [apply (ii_heap _ _ _ H1)|by apply mono_soft].
    - intros v sub G. eapply GoodSub_evolves; [done|]. by apply H4.
    - intros v Hv. destruct (H5 v Hv) as (l & r & B & ? & ? & S). exists l, r, B. split; [done|]. split; [done|].
      by eapply Serves_evolves.
    - intros v sub G. eapply Ordered_mono; [done|by apply H6].
  Qed.
  Lemma criterion_best_runs k l h : sane -> (forall r, r ∈ l -> served h r) ->
    runs (criterion_best k l) h (fun o h' => mono h h' /\
      exists ks, Forall2 (Score k h') l ks /\ o = dir_best score_ltb (criterion_direction k) (zip ks l)).
  Proof.
    intros Hs Hl. unfold criterion_best. step. eapply runs_mono; [by apply mapM_scoring_runs|].
    intros ks h' [M F]. apply runs_ret. split; [done|]. by exists ks.
  Qed.
  Lemma removelast_elem {A} (l : list A) x : x ∈ removelast l -> x ∈ l.
  Proof.
    induction l as [|y l IH]; [done|]. cbn. destruct l as [|z l]; [by inversion 1|].
    intros [->|H]%elem_of_cons; [left|right; by apply IH].
  Qed.
  Lemma removelast_length {A} (l : list A) : length (removelast l) = (length l - 1)%nat.
  Proof. induction l as [|y l IH]; [done|]. cbn. destruct l as [|z l]; [done|]. cbn in *. rewrite IH. lia. Qed.
  Lemma candidates_loop_runs k rs sub : forall cands h, sane -> (1 <= rs)%nat -> (length cands <= rs)%nat ->
    (forall r, r ∈ cands ++ sub -> served h r) ->
    runs (candidates_loop k rs cands sub) h (fun cs h' => mono h h' /\ (forall r, r ∈ cs -> r ∈ cands ++ sub) /\
      (length cs <= rs)%nat /\ (cs = [] -> cands = [] /\ sub = [])).
  Proof.
    induction sub as [|cur sub IH]; intros cands h Hs Hrs Hlen Hl.
    { apply runs_ret. rewrite app_nil_r. split; [apply mono_refl|]. done. }
    cbn [candidates_loop].
    eapply (runs_seq _ _ _ (fun b h' => mono h h' /\ (b = true -> length cands = rs))).
    { destruct (Nat.eqb_spec (length cands) rs) as [E|]; [|apply runs_ret; split; [apply mono_refl|done]].
      destruct (last cands) as [c|] eqn:El.
      2:{ apply last_None in El. subst cands. cbn in E. lia. }
      step. eapply runs_mono; [apply criterion_best_runs; [done|]|].
      { intros r Hr. apply Hl. apply elem_of_app. apply elem_of_cons in Hr as [->|Hr].
        - left. by apply last_Some_elem_of.
        - apply elem_of_list_singleton in Hr as ->. right. left. }
      intros o h1 [M _]. apply runs_ret. split; [done|]. done. }
    intros b h1 [M Hb]. destruct b.
    { apply runs_ret. split; [done|]. split; [intros r Hr; apply elem_of_app; by left|]. split; [done|].
      intros ->. specialize (Hb eq_refl). cbn in Hb. lia. }
    set (cands' := if (rs <=? length cands)%nat then _ else _).
    assert (Hsub : forall r, r ∈ cands' -> r ∈ cands).
    { intros r. unfold cands'. destruct (rs <=? length cands)%nat; [apply removelast_elem|done]. }
    assert (Hlen' : (length cands' < rs)%nat).
    { unfold cands'. destruct (Nat.leb_spec rs (length cands)); [rewrite removelast_length|]; lia. }
    eapply runs_mono; [apply (IH (cands' ++ [cur]) h1); [done|done| |]|].
    - rewrite app_length. cbn. lia.
    - intros r Hr. apply (served_soft h); [by apply mono_soft|]. apply Hl.
      rewrite elem_of_app in Hr. rewrite elem_of_app, elem_of_cons. destruct Hr as [[Hr|Hr]%elem_of_app|Hr]; [left; auto| |tauto].
      apply elem_of_list_singleton in Hr. tauto.
    - intros cs h2 (M2 & Hcs & Hl2 & Hn). split; [by eapply mono_trans|]. split; [|split; [done|]].
      + intros r Hr. specialize (Hcs r Hr). rewrite elem_of_app in Hcs. rewrite elem_of_app, elem_of_cons.
        destruct Hcs as [[Hr'|Hr']%elem_of_app|Hr']; [left; auto| |tauto].
        apply elem_of_list_singleton in Hr'. tauto.
      + intros E. destruct (Hn E) as [E' _]. by destruct cands'.
  Qed.
  Lemma all_cands_runs k rs subs : forall cands h, sane -> (1 <= rs)%nat -> (length cands <= rs)%nat ->
    (forall r, r ∈ cands ++ concat subs -> served h r) ->
    runs (foldM (fun cands sub =>
            match sub with
            | [] => ret cands
            | _ => let! cs := candidates_loop k rs cands sub in criterion_sorted k cs
            end) cands subs) h
      (fun cs h' => mono h h' /\ (forall r, r ∈ cs -> r ∈ cands ++ concat subs) /\
        (length cs <= rs)%nat /\ (cs = [] -> cands = [] /\ concat subs = [])).
  Proof.
    induction subs as [|sub subs IH]; intros cands h Hs Hrs Hlen Hl.
    { apply runs_ret. cbn. rewrite app_nil_r. split; [apply mono_refl|]. done. }
    cbn [foldM]. step.
    eapply (runs_mono _ _ (fun cs h' => mono h h' /\ (forall r, r ∈ cs -> r ∈ cands ++ sub) /\
      (length cs <= rs)%nat /\ (cs = [] -> cands = [] /\ sub = []))).
    { destruct sub as [|c0 sub].
      { apply runs_ret. rewrite app_nil_r. split; [apply mono_refl|]. done. }
      step. eapply runs_mono; [apply (candidates_loop_runs k rs (c0 :: sub) cands h); try done|].
      { intros r Hr. apply Hl. cbn [concat]. rewrite !elem_of_app in *. tauto. }
      intros cs h1 (M & Hcs & Hlc & Hn). eapply runs_mono; [apply criterion_sorted_runs; [done|]|].
      { intros r Hr. apply (served_soft h); [by apply mono_soft|]. apply Hl. cbn [concat].
        specialize (Hcs r Hr). rewrite !elem_of_app in *. tauto. }
      intros cs' h2 (M2 & P & _). split; [by eapply mono_trans|]. split; [intros r Hr; apply Hcs; by rewrite <- P|].
      split; [by rewrite P|]. intros ->. apply Hn. by apply Permutation_nil. }
    intros cs h1 (M & Hcs & Hlc & Hn). eapply runs_mono; [apply (IH cs h1); try done|].
    { intros r Hr. apply (served_soft h); [by apply mono_soft|]. apply Hl. cbn [concat].
      rewrite !elem_of_app in *. destruct Hr as [Hr|Hr]; [|tauto]. specialize (Hcs r Hr). rewrite elem_of_app in Hcs. tauto. }
    intros cs' h2 (M2 & Hcs' & Hl' & Hn'). split; [by eapply mono_trans|]. split; [|split; [done|]].
    - intros r Hr. specialize (Hcs' r Hr). cbn [concat]. rewrite !elem_of_app in *.
      destruct Hcs' as [Hr'|?]; [|tauto]. specialize (Hcs r Hr'). rewrite elem_of_app in Hcs. tauto.
    - intros E. destruct (Hn' E) as [E1 E2]. destruct (Hn E1) as [-> ->]. cbn. done.
  Qed.

  Lemma elem_of_concat {A} (x : A) ls : x ∈ concat ls <-> exists l, x ∈ l /\ l ∈ ls.
  Proof.
    rewrite elem_of_list_In, in_concat. split; intros (l & H1 & H2); exists l; rewrite ?elem_of_list_In in *; done.
  Qed.
  Lemma ranking_next_runs h U k : sane -> RankInv h U k ->
    runs (ranking_next k) h (fun o h' => evolves h h' /\ mono h h' /\ HInv h' /\
      match o with
      | Some r => exists v sub, dict_get v (rk_table k) = Some sub /\ r ∈ sub
      | None => forall v sub, dict_get v (rk_table k) = Some sub -> sub = []
      end).
  Proof.
    intros Hs RI. unfold ranking_next. destruct (rk_table k) as [|e tb] eqn:Et.
    { apply runs_ret. split; [apply evolves_refl|]. split; [apply mono_refl|]. split; [apply (ii_heap _ _ _ (ri_it _ _ _ RI))|done]. }
    rewrite <- Et. clear e tb Et.
    assert (Hin : forall r, r ∈ concat (map snd (rk_table k)) -> exists v sub, dict_get v (rk_table k) = Some sub /\ r ∈ sub).
    { intros r Hr. apply elem_of_concat in Hr as (sub & Hr & Hsub).
      apply elem_of_list_fmap in Hsub as ([v sub'] & -> & Hsub). exists v, sub'.
      split; [|done]. apply dict_in_get; [apply RI|done]. }
    step. eapply runs_mono; [apply all_cands_runs; [done|apply RI|cbn; lia|]|].
    { cbn. intros r Hr. destruct (Hin r Hr) as (v & sub & G & Hr').
      destruct (ri_table _ _ _ RI v sub G r Hr') as (? & ? & B' & _ & _ & S & _). by exists v, B'. }
    intros cs h1 (M & Hcs & _ & Hn). cbn [app] in *.
    assert (E1 : evolves h h1) by (by apply evolves_soft, mono_soft).
    assert (HI1 : HInv h1) by (eapply HInv_soft; [apply (ii_heap _ _ _ (ri_it _ _ _ RI))|by apply mono_soft]).
    destruct cs as [|c cs].
    { apply runs_ret. split; [done|]. split; [done|]. split; [done|]. intros v sub G. destruct (Hn eq_refl) as [_ Hc].
      apply dict_get_in in G. apply elem_of_nil_inv. intros r Hr. 
      assert (Hbad : r ∈ concat (map snd (rk_table k))).
      { apply elem_of_concat. exists sub. split; [done|]. by apply (elem_of_list_fmap_1 snd _ (v, sub)). }
      rewrite Hc in Hbad. inversion Hbad. }
    step. unfold tick, runs at 1. cbv beta iota zeta.
    match goal with |- runs _ ?hh _ => set (h2 := hh) end.
    assert (E2 : evolves h1 h2) by apply evolves_tick.
    assert (HI2 : HInv h2) by by apply HInv_tick.
    step. destruct (lookup_lt_is_Some_2 (c :: cs) (w_choice (h_tick h1) (length (c :: cs)))) as [b Hb].
    { apply w_choice_lt. cbn. lia. }
    eapply runs_nth; [exact Hb|]. apply runs_ret. split; [by eapply evolves_trans|].
    split; [by eapply mono_trans; [exact M|split; [apply soft_tick|done]]|]. split; [done|].
    apply Hin, Hcs. by eapply elem_of_list_lookup_2.
  Qed.
End ranking.
