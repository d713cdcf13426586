(** Chains of stops in the heap, validity of the memoised times, and the
    behaviour of the getters of stops.py on valid chains. *)
From Verif Require Export SchedProofs Runs SpecFair.

(** ** Skeletons: cells without their caches *)
Definition sk_stop (c : stop) : stop :=
  MkStop (st_vehicle c) (st_position c) (st_pickups c) (st_deliveries c)
    (st_previous c) (st_starting c) None None None None.
Definition sk_pt (p : ptrip) : ptrip := cache_pt_feasible None p.
Definition sk_route (r : route) : route := cache_route_feasible None r.

Lemma sk_stop_eq c c' : sk_stop c = sk_stop c' <->
  st_vehicle c = st_vehicle c' /\ st_position c = st_position c' /\ st_pickups c = st_pickups c' /\
  st_deliveries c = st_deliveries c' /\ st_previous c = st_previous c' /\ st_starting c = st_starting c'.
Proof. destruct c, c'. unfold sk_stop; cbn. split; [intros [=]; subst; done|intros (?&?&?&?&?&?); congruence]. Qed.
Lemma sk_pt_eq c c' : sk_pt c = sk_pt c' <->
  pt_vehicle c = pt_vehicle c' /\ pt_trip c = pt_trip c' /\ pt_pickup c = pt_pickup c' /\
  pt_delivery c = pt_delivery c'.
Proof. destruct c, c'. unfold sk_pt, cache_pt_feasible; cbn. split; [intros [=]; subst; done|intros (?&?&?&?); congruence]. Qed.
Lemma sk_route_eq c c' : sk_route c = sk_route c' <->
  rt_vehicle c = rt_vehicle c' /\ rt_stops c = rt_stops c'.
Proof. destruct c, c'. unfold sk_route, cache_route_feasible; cbn. split; [intros [=]; subst; done|intros (?&?); congruence]. Qed.

(** ** The visit a stop stands for *)
Definition trip_of (h : heap) (p : nat) : nat :=
  match h_pts h !! p with Some c => pt_trip c | None => 0%nat end.
Definition abs (h : heap) (c : stop) : visit :=
  Visit (st_position c) (map (trip_of h) (st_pickups c)) (map (trip_of h) (st_deliveries c))
        (st_starting c).
Definition known (h : heap) (c : stop) : Prop :=
  forall p, p ∈ st_pickups c ++ st_deliveries c -> is_Some (h_pts h !! p).

Definition cached {B} (o : option B) (b : B) : Prop :=
  match o with None => True | Some b' => b' = b end.

Section path.
  Context {W : World}.

  Definition caches_ok (v : nat) (c : stop) (x : visit) (A : list visit) : Prop :=
    cached (st_arrival c) (tm_arrival (tm v x A)) /\
    cached (st_departure c) (tm_departure (tm v x A)) /\
    cached (st_capacity c) (tm_load (tm v x A)).

  (** [Path h v ids A]: [ids] is a chain of stops of vehicle [v], latest first,
      linked by [previous] down to a stop without predecessor; [A] are the
      visits they stand for; the memoised times are absent or right. *)
  Inductive Path (h : heap) (v : nat) : list nat -> list visit -> Prop :=
  | Path_nil : Path h v [] []
  | Path_cons s c ids A :
      h_stops h !! s = Some c ->
      st_vehicle c = v ->
      st_previous c = head ids ->
      known h c ->
      caches_ok v c (abs h c) A ->
      Path h v ids A ->
      Path h v (s :: ids) (abs h c :: A).

  Lemma Path_length h v ids A : Path h v ids A -> length ids = length A.
  Proof. induction 1; cbn; congruence. Qed.

  Lemma Path_cons_inv h v s ids x A :
    Path h v (s :: ids) (x :: A) ->
    exists c, h_stops h !! s = Some c /\ st_vehicle c = v /\ st_previous c = head ids /\
      known h c /\ x = abs h c /\ caches_ok v c x A /\ Path h v ids A.
  Proof. inversion 1; subst. eauto 10. Qed.

  Lemma Path_cons_inv' h v s ids A0 :
    Path h v (s :: ids) A0 ->
    exists c A, A0 = abs h c :: A /\ h_stops h !! s = Some c /\ st_vehicle c = v /\ st_previous c = head ids /\
      known h c /\ caches_ok v c (abs h c) A /\ Path h v ids A.
  Proof. inversion 1; subst. eauto 10. Qed.

  Lemma Path_det h v v' s ids ids' A A' :
    Path h v (s :: ids) A -> Path h v' (s :: ids') A' -> v = v' /\ ids = ids' /\ A = A'.
  Proof.
    revert s ids' A A'. induction ids as [|q ids IH]; intros s ids' A A' H1 H2;
      apply Path_cons_inv' in H1 as (c1 & A1 & -> & L1 & V1 & P1 & K1 & C1 & H1);
      apply Path_cons_inv' in H2 as (c2 & A2 & -> & L2 & V2 & P2 & K2 & C2 & H2);
      rewrite L1 in L2; injection L2 as <-; rewrite P1 in P2.
    - destruct ids' as [|q' ids']; [|done]. inversion H1; inversion H2; subst. done.
    - destruct ids' as [|q' ids']; [done|]. injection P2 as <-.
      destruct (IH _ _ _ _ H1 H2) as (-> & -> & ->). done.
  Qed.

  Lemma Path_app_inv h v X Y A :
    Path h v (X ++ Y) A ->
    exists A1 A2, A = A1 ++ A2 /\ length A1 = length X /\ Path h v Y A2.
  Proof.
    revert A. induction X as [|s X IH]; intros A H; cbn in *.
    - exists [], A. done.
    - apply Path_cons_inv' in H as (c & A' & -> & _ & _ & _ & _ & _ & H).
      destruct (IH _ H) as (A1 & A2 & -> & HL & HP).
      exists (abs h c :: A1), A2. cbn. rewrite HL. done.
  Qed.

  Lemma Path_NoDup h v ids A : Path h v ids A -> NoDup ids.
  Proof.
    intros H. assert (Hp : exists B, Path h v ids B) by eauto. clear H A.
    induction ids as [|s ids IH]; [constructor|].
    destruct Hp as [A H]. constructor.
    - intros Hin. apply elem_of_list_split in Hin as (X & Y & ->).
      assert (HS : Path h v ((s :: X) ++ s :: Y) A) by exact H.
      apply Path_app_inv in HS as (A1 & A2 & -> & _ & H2).
      destruct (Path_det _ _ _ _ _ _ _ _ H H2) as (_ & E & _).
      apply (f_equal length) in E. rewrite app_length in E. cbn in E. lia.
    - apply IH. apply Path_cons_inv' in H as (c & A' & -> & _ & _ & _ & _ & _ & H). eauto.
  Qed.

  Lemma Path_lookup h v ids A s : Path h v ids A -> s ∈ ids -> is_Some (h_stops h !! s).
  Proof.
    induction 1 as [|s' c ids A L V P K C H IH]; intros Hin; [inversion Hin|].
    apply elem_of_cons in Hin as [->|Hin]; eauto.
  Qed.

  Lemma Path_ids_length h v ids A : Path h v ids A -> (length ids <= length (h_stops h))%nat.
  Proof.
    intros H. pose proof (Path_NoDup _ _ _ _ H) as Hnd.
    rewrite <- (seq_length (length (h_stops h)) 0).
    apply submseteq_length, NoDup_submseteq; [done|].
    intros s Hs. apply elem_of_seq.
    destruct (Path_lookup _ _ _ _ _ H Hs) as [c Hc]. apply lookup_lt_Some in Hc. lia.
  Qed.

  (** ** Heap growth *)
  Definition weaker (c' c : stop) : Prop :=
    (st_arrival c' = None \/ st_arrival c' = st_arrival c) /\
    (st_departure c' = None \/ st_departure c' = st_departure c) /\
    (st_capacity c' = None \/ st_capacity c' = st_capacity c).
  Lemma weaker_refl c : weaker c c.
  Proof. unfold weaker; auto. Qed.
  Lemma weaker_trans c1 c2 c3 : weaker c1 c2 -> weaker c2 c3 -> weaker c1 c3.
  Proof.
    unfold weaker. intros (H1&H2&H3) (H4&H5&H6).
    repeat split; [destruct H1 as [->| ->]|destruct H2 as [->| ->]|destruct H3 as [->| ->]]; auto.
  Qed.

  (** [grow h h']: every object of [h] is in [h'] with the same fields (caches
      apart), and every valid chain of [h] is a valid chain of [h']. *)
  Record grow (h h' : heap) : Prop := {
    g_stops : forall s c, h_stops h !! s = Some c ->
                exists c', h_stops h' !! s = Some c' /\ sk_stop c' = sk_stop c;
    g_pts : forall p c, h_pts h !! p = Some c ->
                exists c', h_pts h' !! p = Some c' /\ sk_pt c' = sk_pt c;
    g_routes : forall r c, h_routes h !! r = Some c ->
                exists c', h_routes h' !! r = Some c' /\ sk_route c' = sk_route c;
    g_path : forall v ids A, Path h v ids A -> Path h' v ids A
  }.
  (** ** What recorded feasibility answers are worth, told without memoised times *)
  Definition at_stop (h : heap) (s : nat) : visit :=
    match h_stops h !! s with Some c => abs h c | None => Visit [] [] [] None end.
  Definition chained (h : heap) (v : nat) (ids : list nat) : Prop :=
    forall k s, ids !! k = Some s -> exists c, h_stops h !! s = Some c /\ st_vehicle c = v /\ st_previous c = last (take k ids).
  Definition stop_worth (g : bool) (v : nat) (L : list visit) (i : nat) : Prop := if g then heeded v L i else late v L i.
  Definition ride_worth (g : bool) (v t : nat) (L : list visit) (i j : nat) : Prop := if g then ridden v t L i j else missed v t L i j.
  Definition tour_worth (g : bool) (v : nat) (L : list visit) : Prop := if g then nearly v L else True.
  Record Worth (g : bool) (h : heap) : Prop := {
    fair_stops : forall r rc i s c, h_routes h !! r = Some rc -> chained h (rt_vehicle rc) (rt_stops rc) ->
      rt_stops rc !! i = Some s -> h_stops h !! s = Some c -> st_feasible c = Some g ->
      stop_worth g (rt_vehicle rc) (map (at_stop h) (rt_stops rc)) i;
    fair_pts : forall r rc i j s d c p pc, h_routes h !! r = Some rc -> chained h (rt_vehicle rc) (rt_stops rc) ->
      rt_stops rc !! i = Some s -> rt_stops rc !! j = Some d -> h_stops h !! s = Some c -> p ∈ st_pickups c ->
      h_pts h !! p = Some pc -> pt_pickup pc = Some s -> pt_delivery pc = Some d -> pt_feasible pc = Some g ->
      ride_worth g (rt_vehicle rc) (pt_trip pc) (map (at_stop h) (rt_stops rc)) i j;
    fair_routes : forall r rc, h_routes h !! r = Some rc -> chained h (rt_vehicle rc) (rt_stops rc) ->
      rt_feasible rc = Some g -> tour_worth g (rt_vehicle rc) (map (at_stop h) (rt_stops rc))
  }.
  (** same, nothing new is allocated, and recorded answers stay as good as they were *)
  Definition soft (h h' : heap) : Prop :=
    grow h h' /\ length (h_stops h') = length (h_stops h) /\
    length (h_pts h') = length (h_pts h) /\ length (h_routes h') = length (h_routes h) /\ (forall g, Worth g h -> Worth g h').

  Lemma grow_refl h : grow h h.
  Proof. split; eauto. Qed.
  Lemma grow_trans h1 h2 h3 : grow h1 h2 -> grow h2 h3 -> grow h1 h3.
  Proof.
    intros [S1 P1 R1 Q1] [S2 P2 R2 Q2]. split.
    - intros s c Hc. destruct (S1 _ _ Hc) as (c1 & H1 & E1).
      destruct (S2 _ _ H1) as (c2 & H2 & E2). exists c2. split; [done|congruence].
    - intros s c Hc. destruct (P1 _ _ Hc) as (c1 & H1 & E1).
      destruct (P2 _ _ H1) as (c2 & H2 & E2). exists c2. split; [done|congruence].
    - intros s c Hc. destruct (R1 _ _ Hc) as (c1 & H1 & E1).
      destruct (R2 _ _ H1) as (c2 & H2 & E2). exists c2. split; [done|congruence].
    - eauto.
  Qed.
  Lemma soft_refl h : soft h h.
  Proof. split; [apply grow_refl|done]. Qed.
  Lemma soft_trans h1 h2 h3 : soft h1 h2 -> soft h2 h3 -> soft h1 h3.
  Proof. intros (?&?&?&?&?) (?&?&?&?&?). split; [eapply grow_trans; eauto|]. split; [congruence|]. split; [congruence|]. split; [congruence|eauto]. Qed.
  Lemma soft_grow h h' : soft h h' -> grow h h'.
  Proof. by intros [? _]. Qed.

  (** planned trips keep their trip *)
  Definition pts_ext (h h' : heap) : Prop := forall p c, h_pts h !! p = Some c ->
       exists c', h_pts h' !! p = Some c' /\ pt_trip c' = pt_trip c.
  Lemma pts_ext_refl h : pts_ext h h.
  Proof. intros p c Hc. eauto. Qed.
  Lemma pts_ext_eq h h' : h_pts h' = h_pts h -> pts_ext h h'.
  Proof. intros E p c Hc. rewrite E. eauto. Qed.
  Lemma pts_ext_sk h h' : (forall p c, h_pts h !! p = Some c ->
       exists c', h_pts h' !! p = Some c' /\ sk_pt c' = sk_pt c) -> pts_ext h h'.
  Proof.
    intros H p c Hc. destruct (H p c Hc) as (c' & ? & E). exists c'. split; [done|].
    apply sk_pt_eq in E. tauto.
  Qed.
  Lemma trip_of_grow h h' p : pts_ext h h' ->
    is_Some (h_pts h !! p) -> trip_of h' p = trip_of h p.
  Proof.
    intros H [c Hc]. unfold trip_of. destruct (H _ _ Hc) as (c' & Hc' & E).
    by rewrite Hc, Hc'.
  Qed.
  Lemma map_trip_of_grow h h' l : pts_ext h h' ->
    (forall p, p ∈ l -> is_Some (h_pts h !! p)) -> map (trip_of h') l = map (trip_of h) l.
  Proof.
    intros H K. apply map_ext_in. intros p Hin. apply trip_of_grow; [done|]. apply K.
    by apply elem_of_list_In.
  Qed.
  Lemma abs_grow h h' c c' : pts_ext h h' ->
    known h c -> sk_stop c' = sk_stop c -> abs h' c' = abs h c.
  Proof.
    intros Hp K E. apply sk_stop_eq in E as (E1 & E2 & E3 & E4 & E5 & E6).
    unfold abs. rewrite E2, E3, E4, E6.
    f_equal; apply map_trip_of_grow; [done| |done|]; intros p Hin; apply K; set_solver.
  Qed.
  Lemma known_grow h h' c c' : pts_ext h h' ->
    known h c -> sk_stop c' = sk_stop c -> known h' c'.
  Proof.
    intros Hp K E p Hin. apply sk_stop_eq in E as (E1 & E2 & E3 & E4 & E5 & E6).
    rewrite E3, E4 in Hin. destruct (K p Hin) as [d Hd].
    destruct (Hp _ _ Hd) as (d' & ? & _). eauto.
  Qed.

  Lemma caches_ok_weaker v c c' x A : weaker c' c -> caches_ok v c x A -> caches_ok v c' x A.
  Proof.
    intros (H1&H2&H3) (K1&K2&K3). unfold caches_ok.
    destruct H1 as [->| ->], H2 as [->| ->], H3 as [->| ->]; cbn; auto.
  Qed.

  (** a heap whose old cells are unchanged up to dropped caches *)
  Lemma grow_intro h h' :
    (forall s c, h_stops h !! s = Some c ->
        exists c', h_stops h' !! s = Some c' /\ sk_stop c' = sk_stop c /\ weaker c' c) ->
    (forall p c, h_pts h !! p = Some c ->
        exists c', h_pts h' !! p = Some c' /\ sk_pt c' = sk_pt c) ->
    (forall r c, h_routes h !! r = Some c ->
        exists c', h_routes h' !! r = Some c' /\ sk_route c' = sk_route c) ->
    grow h h'.
  Proof.
    intros HS HP HR. split.
    - intros s c Hc. destruct (HS _ _ Hc) as (c' & ? & ? & _). eauto.
    - done.
    - done.
    - induction 1 as [|s c ids A L V P K C H IH]; [constructor|].
      destruct (HS _ _ L) as (c' & L' & E & Wk).
      rewrite <- (abs_grow h h' c c' (pts_ext_sk _ _ HP) K E).
      econstructor.
      + exact L'.
      + apply sk_stop_eq in E. destruct E as (-> & _). done.
      + apply sk_stop_eq in E. destruct E as (_ & _ & _ & _ & -> & _). done.
      + eapply known_grow; eauto using pts_ext_sk.
      + rewrite (abs_grow h h' c c' (pts_ext_sk _ _ HP) K E). eapply caches_ok_weaker; eauto.
      + done.
  Qed.

  (** the same objects up to memoised values *)
  Definition same_sk (h h' : heap) : Prop :=
    (forall s, sk_stop <$> h_stops h' !! s = sk_stop <$> h_stops h !! s) /\
    (forall p, sk_pt <$> h_pts h' !! p = sk_pt <$> h_pts h !! p) /\
    (forall r, sk_route <$> h_routes h' !! r = sk_route <$> h_routes h !! r).
  Lemma sk_all {A B} (sk : A -> B) (l l' : list A) : length l' = length l ->
    (forall s c, l !! s = Some c -> exists c', l' !! s = Some c' /\ sk c' = sk c) ->
    forall s, sk <$> l' !! s = sk <$> l !! s.
  Proof.
    intros Hl H s. destruct (l !! s) as [c|] eqn:E.
    - destruct (H s c E) as (c' & -> & E'). cbn. by rewrite E'.
    - apply lookup_ge_None in E. rewrite <- Hl in E. apply lookup_ge_None in E. by rewrite E.
  Qed.
  Lemma grow_same_sk h h' : grow h h' -> length (h_stops h') = length (h_stops h) ->
    length (h_pts h') = length (h_pts h) -> length (h_routes h') = length (h_routes h) -> same_sk h h'.
  Proof. intros G L1 L2 L3. split; [|split]; apply sk_all; [done|apply G|done|apply G|done|apply G]. Qed.
  Lemma same_sk_sym h h' : same_sk h h' -> same_sk h' h.
  Proof. intros (A & B & C). done. Qed.
  Lemma fmap_back {A B} (f : A -> B) (o o' : option A) c : f <$> o' = f <$> o -> o' = Some c -> exists c0, o = Some c0 /\ f c = f c0.
  Proof. intros E ->. destruct o as [c0|]; [|done]. apply (inj Some) in E. eauto. Qed.
  Lemma same_sk_trip h h' p : same_sk h h' -> trip_of h' p = trip_of h p.
  Proof.
    intros (_ & E & _). specialize (E p). unfold trip_of. destruct (h_pts h' !! p), (h_pts h !! p); try done.
    apply (inj Some) in E. by apply sk_pt_eq in E as (_ & E & _).
  Qed.
  Lemma same_sk_abs h h' c c' : same_sk h h' -> sk_stop c' = sk_stop c -> abs h' c' = abs h c.
  Proof.
    intros S E. apply sk_stop_eq in E as (E1 & E2 & E3 & E4 & E5 & E6). unfold abs. rewrite E2, E3, E4, E6.
    f_equal; apply map_ext; intros p; by apply same_sk_trip.
  Qed.
  Lemma same_sk_at h h' s : same_sk h h' -> at_stop h' s = at_stop h s.
  Proof.
    intros S. pose proof S as (E & _). specialize (E s). unfold at_stop. destruct (h_stops h' !! s), (h_stops h !! s); try done.
    apply same_sk_abs; [done|]. by apply (inj Some) in E.
  Qed.
  Lemma same_sk_visits h h' ids : same_sk h h' -> map (at_stop h') ids = map (at_stop h) ids.
  Proof. intros S. apply map_ext. intros s. by apply same_sk_at. Qed.
  Lemma same_sk_chained h h' v ids : same_sk h h' -> chained h v ids -> chained h' v ids.
  Proof.
    intros (E & _) C k s Hk. destruct (C k s Hk) as (c & Hc & V & P). specialize (E s). symmetry in E.
    destruct (fmap_back _ _ _ _ E Hc) as (c' & Hc' & F). apply sk_stop_eq in F as (F1 & _ & _ & _ & F5 & _).
    exists c'. split; [done|]. split; congruence.
  Qed.
  (** a heap with no more answers than another one *)
  Definition hushes (h h' : heap) : Prop :=
    (forall s c' g, h_stops h' !! s = Some c' -> st_feasible c' = Some g -> exists c, h_stops h !! s = Some c /\ st_feasible c = Some g) /\
    (forall p c' g, h_pts h' !! p = Some c' -> pt_feasible c' = Some g -> exists c, h_pts h !! p = Some c /\ pt_feasible c = Some g) /\
    (forall r c' g, h_routes h' !! r = Some c' -> rt_feasible c' = Some g -> exists c, h_routes h !! r = Some c /\ rt_feasible c = Some g).
  Lemma Fair_hushes h h' : same_sk h h' -> hushes h h' -> forall g, Worth g h -> Worth g h'.
  Proof.
    intros S (N1 & N2 & N3) g [F1 F2 F3]. pose proof (same_sk_sym _ _ S) as S'. pose proof S as (E1 & E2 & E3).
    assert (Hr : forall r rc', h_routes h' !! r = Some rc' -> exists rc, h_routes h !! r = Some rc /\ rt_vehicle rc' = rt_vehicle rc /\ rt_stops rc' = rt_stops rc).
    { intros r rc' Hrc. destruct (fmap_back _ _ _ _ (E3 r) Hrc) as (rc & H & E). apply sk_route_eq in E as [? ?]. eauto. }
    split.
    - intros r rc' i s c' Hrc. destruct (Hr r rc' Hrc) as (rc & H & -> & ->). rewrite (same_sk_visits h h') by done.
      intros C Hi Hc Hf. destruct (N1 s c' g Hc Hf) as (c & Hc0 & Hf0). eapply F1; eauto. by eapply same_sk_chained.
    - intros r rc' i j s d c' p pc' Hrc. destruct (Hr r rc' Hrc) as (rc & H & -> & ->). rewrite (same_sk_visits h h') by done.
      intros C Hi Hj Hc Hp Hpc Hs Hd Hf. destruct (N2 p pc' g Hpc Hf) as (pc & Hpc0 & Hf0).
      destruct (fmap_back _ _ _ _ (E2 p) Hpc) as (pc1 & Hpc1 & E). rewrite Hpc0 in Hpc1. injection Hpc1 as <-.
      apply sk_pt_eq in E as (_ & G2 & G3 & G4). rewrite G2.
      destruct (fmap_back _ _ _ _ (E1 s) Hc) as (c & Hc0 & E). apply sk_stop_eq in E as (_ & _ & G5 & _).
      eapply (F2 r rc i j s d c p pc); try done; try congruence. by eapply same_sk_chained.
    - intros r rc' Hrc C Hf. destruct (N3 r rc' g Hrc Hf) as (rc & H & Hf0). destruct (Hr r rc' Hrc) as (rc1 & H1 & E4 & E5).
      rewrite H in H1. injection H1 as <-. rewrite E4, E5 in *. rewrite (same_sk_visits h h') by done.
      eapply F3; eauto. by eapply same_sk_chained.
  Qed.
  Lemma soft_intro h h' : grow h h' -> length (h_stops h') = length (h_stops h) ->
    length (h_pts h') = length (h_pts h) -> length (h_routes h') = length (h_routes h) -> hushes h h' -> soft h h'.
  Proof. intros G L1 L2 L3 N. do 4 (split; [done|]). apply Fair_hushes; [by apply grow_same_sk|done]. Qed.
  Lemma soft_same_sk h h' : soft h h' -> same_sk h h'.
  Proof. intros (G & L1 & L2 & L3 & _). by apply grow_same_sk. Qed.
  Lemma hushes_stops h s f : (forall c g, h_stops h !! s = Some c -> st_feasible (f c) = Some g -> st_feasible c = Some g) ->
    hushes h (with_stops (alter f s) h).
  Proof.
    intros Hf. split; [|split; cbn; eauto]. intros q c' g Hc'. cbn in Hc'. destruct (decide (q = s)) as [->|Hne].
    - rewrite list_lookup_alter in Hc'. destruct (h_stops h !! s) as [c|]; [|done]. injection Hc' as <-. eauto.
    - rewrite list_lookup_alter_ne in Hc' by done. eauto.
  Qed.
  Lemma hushes_pts h p f : (forall c g, h_pts h !! p = Some c -> pt_feasible (f c) = Some g -> pt_feasible c = Some g) ->
    hushes h (with_pts (alter f p) h).
  Proof.
    intros Hf. split; [cbn; eauto|split; cbn; eauto]. intros q c' g Hc'. destruct (decide (q = p)) as [->|Hne].
    - rewrite list_lookup_alter in Hc'. destruct (h_pts h !! p) as [c|]; [|done]. injection Hc' as <-. eauto.
    - rewrite list_lookup_alter_ne in Hc' by done. eauto.
  Qed.
  Lemma hushes_routes h p f : (forall c g, h_routes h !! p = Some c -> rt_feasible (f c) = Some g -> rt_feasible c = Some g) ->
    hushes h (with_routes (alter f p) h).
  Proof.
    intros Hf. split; [cbn; eauto|split; cbn; eauto]. intros q c' g Hc'. destruct (decide (q = p)) as [->|Hne].
    - rewrite list_lookup_alter in Hc'. destruct (h_routes h !! p) as [c|]; [|done]. injection Hc' as <-. eauto.
    - rewrite list_lookup_alter_ne in Hc' by done. eauto.
  Qed.

  (** ** Single cell updates *)
  Lemma with_stops_id h f : f (h_stops h) = h_stops h -> with_stops f h = h.
  Proof. unfold with_stops. intros ->. by destruct h. Qed.

  (** memoising a right value *)
  Lemma soft_fill h v s ids x A c f :
    Path h v (s :: ids) (x :: A) ->
    h_stops h !! s = Some c ->
    sk_stop (f c) = sk_stop c -> st_feasible (f c) = st_feasible c -> caches_ok v (f c) x A ->
    soft h (with_stops (alter f s) h).
  Proof.
    intros HP Hc Hsk Hfl Hok.
    assert (Hlk : forall q d, h_stops h !! q = Some d ->
        exists d', h_stops (with_stops (alter f s) h) !! q = Some d' /\ sk_stop d' = sk_stop d /\
                   (q = s /\ d' = f c /\ d = c \/ q <> s /\ d' = d)).
    { intros q d Hd. cbn. destruct (decide (q = s)) as [->|Hne].
      - rewrite list_lookup_alter, Hd. cbn. rewrite Hc in Hd. injection Hd as <-. eauto 10.
      - rewrite list_lookup_alter_ne by done. eauto 10. }
    apply soft_intro; [|cbn; by rewrite alter_length|done|done|apply hushes_stops; intros d g Hd; rewrite Hc in Hd; injection Hd as <-; congruence].
    split.
    - intros q d Hd. destruct (Hlk _ _ Hd) as (d' & ? & ? & _). eauto.
    - intros p d Hd. cbn. eauto.
    - intros p d Hd. cbn. eauto.
    - intros v' ids' A' HP'.
      induction HP' as [|q d ids' A' L V P K C H IH]; [constructor|].
      destruct (Hlk _ _ L) as (d' & L' & E & Hcase).
      assert (Habs : abs (with_stops (alter f s) h) d' = abs h d).
      { apply abs_grow; [by apply pts_ext_eq|done|done]. }
      rewrite <- Habs. econstructor; [exact L'| | | | |exact IH].
      + apply sk_stop_eq in E. destruct E as (-> & _). done.
      + apply sk_stop_eq in E. destruct E as (_ & _ & _ & _ & -> & _). done.
      + eapply known_grow; [by apply pts_ext_eq|exact K|done].
      + rewrite Habs. destruct Hcase as [(-> & -> & ->)|[Hne ->]]; [|done].
        assert (HPq : Path h v' (s :: ids') (abs h c :: A')) by (econstructor; eauto).
        destruct (Path_det _ _ _ _ _ _ _ _ HP HPq) as (-> & -> & E2).
        injection E2 as -> ->. done.
  Qed.

  (** dropping caches / changing feasibility flags *)
  Lemma soft_weaken h s f :
    (forall c, sk_stop (f c) = sk_stop c /\ weaker (f c) c /\ st_feasible (f c) = st_feasible c) ->
    soft h (with_stops (alter f s) h).
  Proof.
    intros Hf. apply soft_intro; [|cbn; by rewrite alter_length|done|done|apply hushes_stops; intros c g _; destruct (Hf c) as (_ & _ & ->); done].
    apply grow_intro; [|cbn; eauto|cbn; eauto].
    intros q c Hc. cbn. destruct (decide (q = s)) as [->|Hne].
    - rewrite list_lookup_alter, Hc. cbn. destruct (Hf c) as (? & ? & _). eauto.
    - rewrite list_lookup_alter_ne by done. exists c. auto using weaker_refl.
  Qed.
  Lemma soft_grow_pt h p f :
    (forall c, sk_pt (f c) = sk_pt c) -> grow h (with_pts (alter f p) h).
  Proof.
    intros Hf. apply grow_intro; [cbn| |cbn; eauto].
    - intros s c Hc. exists c. auto using weaker_refl.
    - intros q c Hc. cbn. destruct (decide (q = p)) as [->|Hne].
      + rewrite list_lookup_alter, Hc. cbn. eauto.
      + rewrite list_lookup_alter_ne by done. eauto.
  Qed.
  Lemma soft_pt h p f :
    (forall c, sk_pt (f c) = sk_pt c /\ (forall g, pt_feasible (f c) = Some g -> pt_feasible c = Some g)) -> soft h (with_pts (alter f p) h).
  Proof.
    intros Hf. apply soft_intro; [apply soft_grow_pt; apply Hf|done|cbn; by rewrite alter_length|done|].
    apply hushes_pts. intros c g _. apply Hf.
  Qed.
  Lemma grow_route h r f :
    (forall c, sk_route (f c) = sk_route c) -> grow h (with_routes (alter f r) h).
  Proof.
    intros Hf. apply grow_intro; [cbn|cbn; eauto|].
    - intros s c Hc. exists c. auto using weaker_refl.
    - intros q c Hc. cbn. destruct (decide (q = r)) as [->|Hne].
      + rewrite list_lookup_alter, Hc. cbn. eauto.
      + rewrite list_lookup_alter_ne by done. eauto.
  Qed.
  Lemma soft_tick h n : soft h (MkHeap (h_stops h) (h_pts h) (h_routes h) n).
  Proof.
    apply soft_intro; [|done|done|done|split; [|split]; cbn; eauto]. apply grow_intro; cbn; eauto.
    intros s c Hc. exists c. auto using weaker_refl.
  Qed.

  Lemma soft_path h h' v ids A : soft h h' -> Path h v ids A -> Path h' v ids A.
  Proof. intros ([_ _ _ H] & _). apply H. Qed.

  (** ** Chains without any claim about memoised values *)
  Inductive SPath (h : heap) (v : nat) : list nat -> list visit -> Prop :=
  | SPath_nil : SPath h v [] []
  | SPath_cons s c ids A :
      h_stops h !! s = Some c ->
      st_vehicle c = v ->
      st_previous c = head ids ->
      known h c ->
      SPath h v ids A ->
      SPath h v (s :: ids) (abs h c :: A).
  Lemma Path_SPath h v ids A : Path h v ids A -> SPath h v ids A.
  Proof. induction 1; econstructor; eauto. Qed.
  Lemma SPath_cons_inv' h v s ids A0 :
    SPath h v (s :: ids) A0 ->
    exists c A, A0 = abs h c :: A /\ h_stops h !! s = Some c /\ st_vehicle c = v /\ st_previous c = head ids /\
      known h c /\ SPath h v ids A.
  Proof. inversion 1; subst. eauto 10. Qed.
  Lemma SPath_length h v ids A : SPath h v ids A -> length ids = length A.
  Proof. induction 1; cbn; congruence. Qed.

  Definition cleared (c : stop) : Prop :=
    st_arrival c = None /\ st_departure c = None /\ st_capacity c = None.
  Lemma Path_fresh h v X Y A B :
    SPath h v (X ++ Y) A -> Path h v Y B ->
    (forall s c, s ∈ X -> h_stops h !! s = Some c -> cleared c) ->
    Path h v (X ++ Y) A.
  Proof.
    revert A. induction X as [|s X IH]; intros A HS HY Hc; cbn in *.
    - assert (A = B) as ->; [|done]. clear Hc.
      revert A HS. induction HY as [|s c ids B L V P K C HY IH]; intros A HS; [by inversion HS|].
      apply SPath_cons_inv' in HS as (c' & A' & -> & L' & _ & _ & _ & HS).
      rewrite L in L'. injection L' as <-. f_equal. by apply IH.
    - apply SPath_cons_inv' in HS as (c & A' & -> & L & V & P & K & HS).
      econstructor; eauto.
      + destruct (Hc s c) as (C1 & C2 & C3); [left|done|].
        unfold caches_ok. rewrite C1, C2, C3. done.
      + apply IH; [done|done|]. intros q d Hq. apply Hc. by right.
  Qed.
  Lemma SPath_frame h h' v ids A :
    SPath h v ids A ->
    (forall s c, s ∈ ids -> h_stops h !! s = Some c ->
        exists c', h_stops h' !! s = Some c' /\ sk_stop c' = sk_stop c) ->
    pts_ext h h' -> SPath h' v ids A.
  Proof.
    intros HS Hs Hp. induction HS as [|s c ids A L V P K HS IH]; [constructor|].
    destruct (Hs s c) as (c' & L' & E); [left|done|].
    rewrite <- (abs_grow h h' c c' Hp K E).
    econstructor; [exact L'| | | |].
    - apply sk_stop_eq in E. destruct E as (-> & _). done.
    - apply sk_stop_eq in E. destruct E as (_ & _ & _ & _ & -> & _). done.
    - eapply known_grow; eauto.
    - apply IH. intros q d Hq. apply Hs. by right.
  Qed.
  Lemma Path_frame h h' v ids A :
    Path h v ids A ->
    (forall s c, s ∈ ids -> h_stops h !! s = Some c ->
        exists c', h_stops h' !! s = Some c' /\ sk_stop c' = sk_stop c /\ weaker c' c) ->
    pts_ext h h' -> Path h' v ids A.
  Proof.
    intros HS Hs Hp. induction HS as [|s c ids A L V P K C HS IH]; [constructor|].
    destruct (Hs s c) as (c' & L' & E & Wk); [left|done|].
    rewrite <- (abs_grow h h' c c' Hp K E).
    econstructor; [exact L'| | | | |].
    - apply sk_stop_eq in E. destruct E as (-> & _). done.
    - apply sk_stop_eq in E. destruct E as (_ & _ & _ & _ & -> & _). done.
    - eapply known_grow; eauto.
    - rewrite (abs_grow h h' c c' Hp K E). eapply caches_ok_weaker; eauto.
    - apply IH. intros q d Hq. apply Hs. by right.
  Qed.

  (** ** Growth is kept by changes to newer cells *)
  Lemma grow_frame h0 h h' :
    grow h0 h ->
    (forall s c, (s < length (h_stops h0))%nat -> h_stops h !! s = Some c ->
        exists c', h_stops h' !! s = Some c' /\ sk_stop c' = sk_stop c /\ weaker c' c) ->
    (forall p c, (p < length (h_pts h0))%nat -> h_pts h !! p = Some c ->
        exists c', h_pts h' !! p = Some c' /\ sk_pt c' = sk_pt c) ->
    (forall r c, (r < length (h_routes h0))%nat -> h_routes h !! r = Some c ->
        exists c', h_routes h' !! r = Some c' /\ sk_route c' = sk_route c) ->
    pts_ext h h' -> grow h0 h'.
  Proof.
    intros [G1 G2 G3 G4] HS HP HR Hx. split.
    - intros s c Hc. destruct (G1 _ _ Hc) as (c1 & H1 & E1).
      destruct (HS s c1) as (c2 & H2 & E2 & _); [by eapply lookup_lt_Some|done|].
      exists c2. split; [done|congruence].
    - intros s c Hc. destruct (G2 _ _ Hc) as (c1 & H1 & E1).
      destruct (HP s c1) as (c2 & H2 & E2); [by eapply lookup_lt_Some|done|].
      exists c2. split; [done|congruence].
    - intros s c Hc. destruct (G3 _ _ Hc) as (c1 & H1 & E1).
      destruct (HR s c1) as (c2 & H2 & E2); [by eapply lookup_lt_Some|done|].
      exists c2. split; [done|congruence].
    - intros v ids A H0. eapply Path_frame; [by apply G4| |done].
      intros s c Hs Hc. apply HS; [|done].
      destruct (Path_lookup _ _ _ _ _ H0 Hs) as [c0 Hc0]. by eapply lookup_lt_Some.
  Qed.
  Lemma grow_stops_len h h' : grow h h' -> (length (h_stops h) <= length (h_stops h'))%nat.
  Proof.
    intros G. destruct (decide (length (h_stops h) = 0)%nat) as [->|Hn]; [lia|].
    destruct (lookup_lt_is_Some_2 (h_stops h) (length (h_stops h) - 1)) as [c Hc]; [lia|].
    destruct (g_stops _ _ G _ _ Hc) as (c' & Hc' & _). apply lookup_lt_Some in Hc'. lia.
  Qed.
  Lemma grow_pts_len h h' : grow h h' -> (length (h_pts h) <= length (h_pts h'))%nat.
  Proof.
    intros G. destruct (decide (length (h_pts h) = 0)%nat) as [->|Hn]; [lia|].
    destruct (lookup_lt_is_Some_2 (h_pts h) (length (h_pts h) - 1)) as [c Hc]; [lia|].
    destruct (g_pts _ _ G _ _ Hc) as (c' & Hc' & _). apply lookup_lt_Some in Hc'. lia.
  Qed.
  Lemma grow_routes_len h h' : grow h h' -> (length (h_routes h) <= length (h_routes h'))%nat.
  Proof.
    intros G. destruct (decide (length (h_routes h) = 0)%nat) as [->|Hn]; [lia|].
    destruct (lookup_lt_is_Some_2 (h_routes h) (length (h_routes h) - 1)) as [c Hc]; [lia|].
    destruct (g_routes _ _ G _ _ Hc) as (c' & Hc' & _). apply lookup_lt_Some in Hc'. lia.
  Qed.

  (** ** Primitive reads *)
  Lemma runs_stop_get h s c (Q : stop -> heap -> Prop) : h_stops h !! s = Some c -> Q c h -> runs (stop_get s) h Q.
  Proof. unfold runs, stop_get. intros ->. done. Qed.
  Lemma runs_pt_get h s c (Q : ptrip -> heap -> Prop) : h_pts h !! s = Some c -> Q c h -> runs (pt_get s) h Q.
  Proof. unfold runs, pt_get. intros ->. done. Qed.
  Lemma runs_route_get h s c (Q : route -> heap -> Prop) : h_routes h !! s = Some c -> Q c h -> runs (route_get s) h Q.
  Proof. unfold runs, route_get. intros ->. done. Qed.
  Lemma runs_stop_upd h s f (Q : unit -> heap -> Prop) :
    Q tt (with_stops (alter f s) h) -> runs (stop_upd s f) h Q.
  Proof. done. Qed.
  Lemma runs_pt_upd h s f (Q : unit -> heap -> Prop) :
    Q tt (with_pts (alter f s) h) -> runs (pt_upd s f) h Q.
  Proof. done. Qed.
  Lemma runs_route_upd h s f (Q : unit -> heap -> Prop) :
    Q tt (with_routes (alter f s) h) -> runs (route_upd s f) h Q.
  Proof. done. Qed.

  Lemma runs_trips_of h l (Q : list nat -> heap -> Prop) :
    (forall p, p ∈ l -> is_Some (h_pts h !! p)) ->
    Q (map (trip_of h) l) h -> runs (trips_of l) h Q.
  Proof.
    intros Hk HQ. unfold trips_of.
    eapply runs_mono with (Q := fun ys h' => h' = h /\ ys = map (trip_of h) l); [|by intros ? ? [-> ->]].
    clear HQ. induction l as [|p l IH]; [done|]. cbn. step.
    destruct (Hk p) as [c Hc]; [left|].
    step. eapply runs_pt_get; [exact Hc|]. apply runs_ret.
    step. eapply runs_mono; [apply IH; intros; apply Hk; by right|].
    intros ts h' [-> ->]. apply runs_ret. split; [done|]. f_equal. unfold trip_of. by rewrite Hc.
  Qed.

  Lemma runs_earliest h s c (Q : Z -> heap -> Prop) :
    h_stops h !! s = Some c -> known h c ->
    Q (visit_earliest (abs h c)) h -> runs (stop_earliest s) h Q.
  Proof.
    intros Hc K HQ. unfold stop_earliest. step. eapply runs_stop_get; [done|].
    step. apply runs_trips_of; [intros; apply K; set_solver|].
    step. apply runs_trips_of; [intros; apply K; set_solver|].
    apply runs_ret. rewrite py_max_max_or. exact HQ.
  Qed.
  Lemma runs_load_time h s c (Q : Z -> heap -> Prop) :
    h_stops h !! s = Some c -> known h c ->
    Q (visit_duration (abs h c)) h -> runs (stop_load_time s) h Q.
  Proof.
    intros Hc K HQ. unfold stop_load_time. step. eapply runs_stop_get; [done|].
    step. apply runs_trips_of; [intros; apply K; set_solver|].
    step. apply runs_trips_of; [intros; apply K; set_solver|].
    apply runs_ret. rewrite py_max_max_or. exact HQ.
  Qed.

  Lemma back_head_place h v s c ids A :
    Path h v ids A -> ids = s :: tail ids -> h_stops h !! s = Some c ->
    leg_place (back v A) = st_position c.
  Proof.
    intros HP E Hc. destruct ids as [|q ids]; [done|]. cbn in E. injection E as ->.
    apply Path_cons_inv' in HP as (c' & A' & -> & L & _). rewrite L in Hc. injection Hc as <-. done.
  Qed.

  Lemma runs_previous_position h v s ids x A (Q : position -> heap -> Prop) :
    Path h v (s :: ids) (x :: A) ->
    Q (leg_place (back v A)) h -> runs (previous_position s) h Q.
  Proof.
    intros HP HQ. apply Path_cons_inv in HP as (c & L & V & P & K & -> & C & HP).
    unfold previous_position. step. eapply runs_stop_get; [done|]. rewrite P.
    destruct ids as [|q ids].
    - inversion HP; subst. apply runs_ret. exact HQ.
    - cbn. apply Path_cons_inv' in HP as (c' & A' & -> & L' & _).
      step. eapply runs_stop_get; [done|]. apply runs_ret. exact HQ.
  Qed.
  Lemma runs_stop_distance h v s ids x A (Q : Z -> heap -> Prop) :
    Path h v (s :: ids) (x :: A) ->
    Q (dist (vi_place x) (leg_place (back v A))) h -> runs (stop_distance s) h Q.
  Proof.
    intros HP HQ. unfold stop_distance. step.
    pose proof (Path_cons_inv _ _ _ _ _ _ HP) as (c & L & V & P & K & -> & C & HP').
    eapply runs_stop_get; [done|]. step. eapply runs_previous_position; [done|].
    apply runs_ret. exact HQ.
  Qed.

  (** ** Flags: the memoised feasibility answers *)
  Definition flags_eq (h h' : heap) : Prop :=
    (forall s, st_feasible <$> h_stops h' !! s = st_feasible <$> h_stops h !! s) /\
    (forall p, pt_feasible <$> h_pts h' !! p = pt_feasible <$> h_pts h !! p) /\
    (forall r, rt_feasible <$> h_routes h' !! r = rt_feasible <$> h_routes h !! r).
  (** only times and loads are memoised *)
  Definition quiet (h h' : heap) : Prop := soft h h' /\ flags_eq h h'.
  Lemma flags_eq_refl h : flags_eq h h.
  Proof. done. Qed.
  Lemma flags_eq_trans h1 h2 h3 : flags_eq h1 h2 -> flags_eq h2 h3 -> flags_eq h1 h3.
  Proof.
    intros (A1&A2&A3) (B1&B2&B3). split; [|split]; intros x; [by rewrite B1|by rewrite B2|by rewrite B3].
  Qed.
  Lemma quiet_refl h : quiet h h.
  Proof. split; [apply soft_refl|apply flags_eq_refl]. Qed.
  Lemma quiet_trans h1 h2 h3 : quiet h1 h2 -> quiet h2 h3 -> quiet h1 h3.
  Proof. intros [? ?] [? ?]. split; [eapply soft_trans; eauto|eapply flags_eq_trans; eauto]. Qed.
  Lemma quiet_soft h h' : quiet h h' -> soft h h'.
  Proof. by intros [? _]. Qed.
  Lemma quiet_path h h' v ids A : quiet h h' -> Path h v ids A -> Path h' v ids A.
  Proof. intros [? _]. by apply soft_path. Qed.
  Lemma quiet_fill h v s ids x A c f :
    Path h v (s :: ids) (x :: A) ->
    h_stops h !! s = Some c ->
    sk_stop (f c) = sk_stop c -> st_feasible (f c) = st_feasible c -> caches_ok v (f c) x A ->
    quiet h (with_stops (alter f s) h).
  Proof.
    intros HP Hc Hsk Hf Hok. split; [by eapply soft_fill|].
    split; [|done]. intros q. cbn. destruct (decide (q = s)) as [->|Hne].
    - rewrite list_lookup_alter, Hc. cbn. by rewrite Hf.
    - by rewrite list_lookup_alter_ne.
  Qed.

  (** ** Getters.  [gives m h x]: [m] returns [x] and only fills caches. *)
  Definition gives {B} (m : M B) (h : heap) (b : B) : Prop :=
    runs m h (fun b' h' => b' = b /\ quiet h h').
  Lemma gives_seq {B C} (m : M B) (k : B -> M C) h b Q :
    gives m h b -> (forall h', quiet h h' -> runs (k b) h' Q) -> runs (bind m k) h Q.
  Proof. intros H1 H2. eapply runs_seq; [exact H1|]. intros ? h' [-> ?]. auto. Qed.

  (** [dep] is a correct departure time for the predecessor chain *)
  Definition dep_ok (dep : nat -> M Z) (v : nat) (ids : list nat) (A : list visit) : Prop :=
    forall h q ids', ids = q :: ids' -> Path h v ids A -> gives (dep q) h (leg_time (back v A)).

  Lemma previous_departure_gives dep h v s ids x A :
    Path h v (s :: ids) (x :: A) -> dep_ok dep v ids A ->
    gives (previous_departure_with dep s) h (leg_time (back v A)).
  Proof.
    intros HP Hd. apply Path_cons_inv in HP as (c & L & V & P & K & -> & C & HP).
    unfold gives, previous_departure_with. step. eapply runs_stop_get; [done|]. rewrite P.
    destruct ids as [|q ids]; cbn.
    - inversion HP; subst. apply runs_ret. split; [done|apply quiet_refl].
    - by eapply Hd.
  Qed.
  Lemma transit_gives dep h v s ids x A :
    Path h v (s :: ids) (x :: A) -> dep_ok dep v ids A ->
    gives (transit_with dep s) h (dist (leg_place (back v A)) (vi_place x)).
  Proof.
    intros HP Hd. pose proof (Path_cons_inv _ _ _ _ _ _ HP) as (c & L & V & P & K & -> & C & HP').
    unfold gives, transit_with. step. eapply runs_stop_get; [done|].
    step. eapply runs_previous_position; [done|].
    eapply gives_seq; [eapply previous_departure_gives; eauto|]. intros h' Hs.
    apply runs_ret. done.
  Qed.
  Lemma arrival_gives dep h v s ids x A :
    Path h v (s :: ids) (x :: A) -> dep_ok dep v ids A ->
    gives (arrival_with dep s) h (tm_arrival (tm v x A)).
  Proof.
    intros HP Hd. pose proof (Path_cons_inv _ _ _ _ _ _ HP) as (c & L & V & P & K & Ex & C & HP').
    unfold gives, arrival_with. step. eapply runs_stop_get; [done|].
    destruct C as (Ca & Cd & Cl).
    destruct (st_arrival c) as [a|] eqn:Ea.
    { apply runs_ret. split; [done|apply quiet_refl]. }
    eapply gives_seq; [eapply previous_departure_gives; eauto|]. intros h1 S1.
    eapply gives_seq; [eapply transit_gives; [eapply quiet_path; eauto|done]|]. intros h2 S2.
    assert (S3 : quiet h h2) by (eapply quiet_trans; eauto).
    step. apply runs_stop_upd, runs_ret. rewrite <- tm_arrival_eq.
    split; [done|]. eapply quiet_trans; [exact S3|].
    pose proof (quiet_path _ _ _ _ _ S3 HP) as HP2.
    pose proof (Path_cons_inv _ _ _ _ _ _ HP2) as (c2 & L2 & V2 & P2 & K2 & Ex2 & (Ca2 & Cd2 & Cl2) & _).
    eapply quiet_fill; [exact HP2|exact L2|by destruct c2|by destruct c2|].
    unfold caches_ok. cbn. auto.
  Qed.
  Lemma starting_gives dep h v s ids x A :
    Path h v (s :: ids) (x :: A) -> dep_ok dep v ids A ->
    gives (starting_with dep s) h (tm_start (tm v x A)).
  Proof.
    intros HP Hd. pose proof (Path_cons_inv _ _ _ _ _ _ HP) as (c & L & V & P & K & Ex & C & HP').
    unfold gives, starting_with. step. eapply runs_stop_get; [done|].
    apply runs_seq with (P := fun b h' => b = default (tm_arrival (tm v x A)) (vi_request x) /\ quiet h h').
    { subst x. cbn. destruct (st_starting c) as [z|]; cbn.
      - apply runs_ret. split; [done|apply quiet_refl].
      - eapply arrival_gives; eauto. }
    intros value h1 [-> S1].
    pose proof (quiet_path _ _ _ _ _ S1 HP) as HP1.
    pose proof (Path_cons_inv _ _ _ _ _ _ HP1) as (c1 & L1 & V1 & P1 & K1 & Ex1 & C1 & _).
    step. eapply runs_earliest; [done|done|]. rewrite <- Ex1.
    eapply gives_seq; [eapply arrival_gives; eauto|]. intros h2 S2.
    apply runs_ret. split; [by rewrite tm_start_eq|]. eapply quiet_trans; eauto.
  Qed.
  Lemma departure_fuel_gives fuel : forall h v s ids x A,
    Path h v (s :: ids) (x :: A) -> (length ids < fuel)%nat ->
    gives (departure_fuel fuel s) h (tm_departure (tm v x A)).
  Proof.
    induction fuel as [|fuel IH]; intros h v s ids x A HP Hlen; [lia|].
    pose proof (Path_cons_inv _ _ _ _ _ _ HP) as (c & L & V & P & K & Ex & C & HP').
    unfold gives. cbn [departure_fuel]. step. eapply runs_stop_get; [done|].
    destruct C as (Ca & Cd & Cl).
    destruct (st_departure c) as [a|] eqn:Ea.
    { apply runs_ret. split; [done|apply quiet_refl]. }
    assert (Hd : dep_ok (departure_fuel fuel) v ids A).
    { intros h0 q ids' -> HP0. destruct A as [|y A]; [inversion HP0|].
      eapply IH; [exact HP0|]. cbn in Hlen. lia. }
    eapply gives_seq; [eapply starting_gives; eauto|]. intros h1 S1.
    pose proof (quiet_path _ _ _ _ _ S1 HP) as HP1.
    pose proof (Path_cons_inv _ _ _ _ _ _ HP1) as (c1 & L1 & V1 & P1 & K1 & Ex1 & (Ca1 & Cd1 & Cl1) & _).
    step. eapply runs_load_time; [done|done|]. rewrite <- Ex1.
    step. apply runs_stop_upd, runs_ret. rewrite <- tm_departure_eq.
    split; [done|]. eapply quiet_trans; [exact S1|].
    eapply quiet_fill; [exact HP1|exact L1|by destruct c1|by destruct c1|].
    unfold caches_ok. cbn. auto.
  Qed.
  Lemma departure_dep_ok h v s ids x A :
    Path h v (s :: ids) (x :: A) -> dep_ok (departure_fuel (S (length (h_stops h)))) v ids A.
  Proof.
    intros HP h0 q ids' E HP0. destruct A as [|y A]; [subst; inversion HP0|].
    pose proof (Path_ids_length _ _ _ _ HP). subst ids.
    eapply departure_fuel_gives; [exact HP0|]. cbn in *. lia.
  Qed.

  Lemma departure_time_gives h v s ids x A :
    Path h v (s :: ids) (x :: A) -> gives (departure_time s) h (tm_departure (tm v x A)).
  Proof.
    intros HP. pose proof (Path_ids_length _ _ _ _ HP) as Hl. cbn in Hl.
    unfold gives, departure_time, chain_fuel. eapply departure_fuel_gives; [exact HP|lia].
  Qed.
  Lemma arrival_time_gives h v s ids x A :
    Path h v (s :: ids) (x :: A) -> gives (arrival_time s) h (tm_arrival (tm v x A)).
  Proof. intros HP. eapply arrival_gives; [exact HP|]. eapply departure_dep_ok; eauto. Qed.
  Lemma starting_time_gives h v s ids x A :
    Path h v (s :: ids) (x :: A) -> gives (starting_time s) h (tm_start (tm v x A)).
  Proof. intros HP. eapply starting_gives; [exact HP|]. eapply departure_dep_ok; eauto. Qed.
  Lemma transit_time_gives h v s ids x A :
    Path h v (s :: ids) (x :: A) ->
    gives (transit_time s) h (dist (leg_place (back v A)) (vi_place x)).
  Proof. intros HP. eapply transit_gives; [exact HP|]. eapply departure_dep_ok; eauto. Qed.
  Lemma waiting_time_gives h v s ids x A :
    Path h v (s :: ids) (x :: A) ->
    gives (waiting_time s) h (tm_start (tm v x A) - tm_arrival (tm v x A)).
  Proof.
    intros HP. unfold gives, waiting_time.
    eapply gives_seq; [eapply starting_time_gives; eauto|]. intros h1 S1.
    eapply gives_seq; [eapply arrival_time_gives; eapply quiet_path; eauto|]. intros h2 S2.
    step. apply runs_assert; [|apply runs_ret; split; [done|eapply quiet_trans; eauto]].
    apply Z.leb_le. pose proof (tm_arrival_le_start v x A). unfold eb. lia.
  Qed.

  (** load: needs that the load is non-negative at every stop of the chain *)
  Definition loads_ok (v : nat) (A : list visit) : Prop :=
    forall B x C, A = B ++ x :: C -> 0 <= tm_load (tm v x C).
  Lemma loads_ok_cons v x A : loads_ok v (x :: A) -> 0 <= tm_load (tm v x A) /\ loads_ok v A.
  Proof.
    intros H. split; [apply (H [] x A); done|]. intros B y C ->. apply (H (x :: B)). done.
  Qed.
  Lemma capacity_fuel_gives fuel : forall h v s ids x A,
    Path h v (s :: ids) (x :: A) -> loads_ok v (x :: A) -> (length ids < fuel)%nat ->
    gives (capacity_fuel fuel s) h (tm_load (tm v x A)).
  Proof.
    induction fuel as [|fuel IH]; intros h v s ids x A HP HL Hlen; [lia|].
    pose proof (Path_cons_inv _ _ _ _ _ _ HP) as (c & L & V & P & K & Ex & (Ca & Cd & Cl) & HP').
    unfold gives. cbn [capacity_fuel]. step. eapply runs_stop_get; [done|].
    destruct (st_capacity c) as [a|] eqn:Ea.
    { apply runs_ret. split; [done|apply quiet_refl]. }
    apply loads_ok_cons in HL as [HL0 HL].
    apply runs_seq with (P := fun b h' => b = leg_load (back v A) /\ quiet h h').
    { rewrite P. destruct ids as [|q ids]; cbn.
      - inversion HP'; subst. apply runs_ret. split; [done|apply quiet_refl].
      - destruct A as [|y A]; [inversion HP'|]. eapply IH; [exact HP'|done|]. cbn in Hlen. lia. }
    intros prev h1 [-> S1].
    pose proof (quiet_path _ _ _ _ _ S1 HP) as HP1.
    pose proof (Path_cons_inv _ _ _ _ _ _ HP1) as (c1 & L1 & V1 & P1 & K1 & Ex1 & (Ca1 & Cd1 & Cl1) & _).
    destruct S1 as [[G1 Hlens] Hfl]. destruct (g_stops _ _ G1 _ _ L) as (c1' & L1' & E).
    rewrite L1 in L1'. injection L1' as <-. apply sk_stop_eq in E as (E1 & E2 & E3 & E4 & E5 & E6).
    rewrite <- E3, <- E4.
    step. apply runs_trips_of; [intros; apply K1; set_solver|].
    step. apply runs_trips_of; [intros; apply K1; set_solver|].
    assert (Hval : leg_load (back v A)
        + zsum (map (fun t => tr_capacity (w_trip t)) (map (trip_of h1) (st_pickups c1)))
        - zsum (map (fun t => tr_capacity (w_trip t)) (map (trip_of h1) (st_deliveries c1)))
        = tm_load (tm v x A)).
    { rewrite tm_load_eq, Ex1. done. }
    rewrite Hval. step. apply runs_assert; [by apply Z.leb_le|].
    step. apply runs_stop_upd, runs_ret. split; [done|].
    eapply quiet_trans; [split; [split; [exact G1|exact Hlens]|exact Hfl]|].
    eapply quiet_fill; [exact HP1|exact L1|by destruct c1|by destruct c1|].
    unfold caches_ok. cbn. auto.
  Qed.
  Lemma capacity_gives h v s ids x A :
    Path h v (s :: ids) (x :: A) -> loads_ok v (x :: A) ->
    gives (capacity s) h (tm_load (tm v x A)).
  Proof.
    intros HP HL. pose proof (Path_ids_length _ _ _ _ HP) as Hl. cbn in Hl.
    unfold gives, capacity, chain_fuel. eapply capacity_fuel_gives; [exact HP|done|lia].
  Qed.

  Lemma runs_latest h s c (Q : lim -> heap -> Prop) :
    h_stops h !! s = Some c -> known h c ->
    Q (py_min_lim (map (fun t => origin_latest (w_trip t)) (vi_board (abs h c)) ++
                   map (fun t => destination_latest (w_trip t)) (vi_alight (abs h c)))) h ->
    runs (stop_latest s) h Q.
  Proof.
    intros Hc K HQ. unfold stop_latest. step. eapply runs_stop_get; [done|].
    step. apply runs_trips_of; [intros; apply K; set_solver|].
    step. apply runs_trips_of; [intros; apply K; set_solver|].
    apply runs_ret. exact HQ.
  Qed.

  (** recording a feasibility answer *)
  Lemma cell_same_sk h s b : same_sk h (with_stops (alter (cache_feasible b) s) h).
  Proof.
    split; [|done]. intros q. cbn. destruct (decide (q = s)) as [->|Hne]; [|by rewrite list_lookup_alter_ne].
    rewrite list_lookup_alter. by destruct (h_stops h !! s) as [[]|].
  Qed.
  Lemma pt_same_sk h s b : same_sk h (with_pts (alter (cache_pt_feasible b) s) h).
  Proof.
    split; [done|]. split; [|done]. intros q. cbn. destruct (decide (q = s)) as [->|Hne]; [|by rewrite list_lookup_alter_ne].
    rewrite list_lookup_alter. by destruct (h_pts h !! s) as [[]|].
  Qed.
  Lemma route_same_sk h s b : same_sk h (with_routes (alter (cache_route_feasible b) s) h).
  Proof.
    split; [done|]. split; [done|]. intros q. cbn. destruct (decide (q = s)) as [->|Hne]; [|by rewrite list_lookup_alter_ne].
    rewrite list_lookup_alter. by destruct (h_routes h !! s) as [[]|].
  Qed.
  Lemma all_previous_fuel_runs fuel : forall h v s ids x A,
    Path h v (s :: ids) (x :: A) -> (length ids < fuel)%nat ->
    runs (all_previous_fuel fuel s) h (fun l h' => l = ids /\ h' = h).
  Proof.
    induction fuel as [|fuel IH]; intros h v s ids x A HP Hlen; [lia|].
    pose proof (Path_cons_inv _ _ _ _ _ _ HP) as (c & L & V & P & K & Ex & C & HP').
    cbn [all_previous_fuel]. step. eapply runs_stop_get; [done|]. rewrite P.
    destruct ids as [|q ids]; cbn.
    - by apply runs_ret.
    - destruct A as [|y A]; [inversion HP'|]. step.
      eapply runs_mono; [eapply IH; [exact HP'|cbn in Hlen; lia]|].
      intros l h' [-> ->]. by apply runs_ret.
  Qed.
  Lemma all_previous_runs h v s ids x A :
    Path h v (s :: ids) (x :: A) ->
    runs (all_previous s) h (fun l h' => l = ids /\ h' = h).
  Proof.
    intros HP. pose proof (Path_ids_length _ _ _ _ HP) as Hl. cbn in Hl.
    unfold all_previous, chain_fuel. eapply all_previous_fuel_runs; [exact HP|lia].
  Qed.

  (** ** Flushing *)
  Lemma soft_pt_flush h p : soft h (with_pts (alter (cache_pt_feasible None) p) h).
  Proof. apply soft_pt. intros []. done. Qed.
  Lemma iter_pt_flush_soft l h : runs (iterM pt_flush l) h (fun _ h' => soft h h' /\ h_stops h' = h_stops h).
  Proof.
    apply runs_iterM with (I := fun h' => soft h h' /\ h_stops h' = h_stops h); [split; [apply soft_refl|done]|].
    intros p h1 _ [S1 E1]. apply runs_pt_upd. split; [|done].
    eapply soft_trans; [exact S1|apply soft_pt_flush].
  Qed.
  Lemma stop_flush_soft h s c :
    h_stops h !! s = Some c ->
    runs (stop_flush s) h (fun _ h' => soft h h' /\ h_stops h' = alter clear_caches s (h_stops h)).
  Proof.
    intros L. unfold stop_flush. step. apply runs_stop_upd. step.
    eapply runs_stop_get; [cbn; rewrite list_lookup_alter, L; done|].
    eapply runs_mono; [apply iter_pt_flush_soft|]. cbn. intros ? h' [S1 E1].
    split; [|done]. eapply soft_trans; [|exact S1].
    apply soft_weaken. intros d. split; [by destruct d|]. split; [|by destruct d]. destruct d; unfold weaker; cbn; auto.
  Qed.
End path.
Notation Fair := (Worth true).
