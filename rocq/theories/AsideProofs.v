(** Work on the route of one vehicle leaves the objects of the other vehicles
    alone. *)
From Verif Require Export FrameRuns.

Section aside.
  Context {W : World}.

  (** no object of a vehicle other than [v] changes *)
  Record aside (v : nat) (h h' : heap) : Prop := {
    as_stop : forall s c, h_stops h !! s = Some c -> st_vehicle c <> v -> h_stops h' !! s = Some c;
    as_pt : forall p c, h_pts h !! p = Some c -> pt_vehicle c <> v -> h_pts h' !! p = Some c;
    as_route : forall r c, h_routes h !! r = Some c -> rt_vehicle c <> v -> h_routes h' !! r = Some c
  }.
  Lemma aside_refl v h : aside v h h.
  Proof. by split. Qed.

  (** the objects that belong to a route, and those still to come *)
  Definition own_stop (h : heap) (ids : list nat) (s : nat) : Prop := s ∈ ids \/ (length (h_stops h) <= s)%nat.
  Definition own_pt (h : heap) (ids : list nat) (p : nat) : Prop :=
    (exists s c, s ∈ ids /\ h_stops h !! s = Some c /\ p ∈ st_pickups c ++ st_deliveries c) \/ (length (h_pts h) <= p)%nat.
  Definition own_route (h : heap) (r q : nat) : Prop := q = r \/ (length (h_routes h) <= q)%nat.

  Lemma Path_cell h v ids A s : Path h v ids A -> s ∈ ids ->
    exists c, h_stops h !! s = Some c /\ st_vehicle c = v /\ forall q, st_previous c = Some q -> q ∈ ids.
  Proof.
    induction 1 as [|s' c ids A Hc Hv Hp _ _ _ IH]; [by inversion 1|]. intros [->|Hs]%elem_of_cons.
    - exists c. split; [done|]. split; [done|]. intros q Hq. rewrite Hp in Hq. destruct ids; [done|]. injection Hq as ->. right. left.
    - destruct (IH Hs) as (c' & H1 & H2 & H3). exists c'. split; [done|]. split; [done|]. intros q Hq. right. by apply H3.
  Qed.
  Lemma sublist_mem {A} (x : A) l1 l2 : l1 `sublist_of` l2 -> x ∈ l1 -> x ∈ l2.
  Proof. induction 1; [done| |by right; auto]. intros [->|?]%elem_of_cons; [left|right; auto]. Qed.
  Lemma own_inside h r v ids L : RouteW h r v ids L -> Inside (own_stop h ids) (own_pt h ids) (own_route h r) h.
  Proof.
    intros R. split.
    - intros s Hs. by right.
    - intros p Hp. by right.
    - intros q Hq. by right.
    - intros s x [Hs|Hs] E; [|apply lookup_lt_Some in E; exfalso; lia].
      destruct (Path_cell _ _ _ _ s (rw_path _ _ _ _ _ R)) as (c & Hc & _ & Hp); [by apply elem_of_reverse|].
      rewrite E in Hc. injection Hc as <-. split; [|split].
      + intros q Hq. left. apply Hp in Hq. by rewrite elem_of_reverse in Hq.
      + apply Forall_forall. intros p Hp'. left. exists s, x. split; [done|]. split; [done|]. apply elem_of_app. by left.
      + apply Forall_forall. intros p Hp'. left. exists s, x. split; [done|]. split; [done|]. apply elem_of_app. by right.
    - intros p x [(s & c & Hs & Hc & Hp)|Hp] E; [|apply lookup_lt_Some in E; exfalso; lia].
      destruct (rw_links _ _ _ _ _ R s c Hs Hc) as [L1 L2]. apply elem_of_app in Hp as [Hp|Hp].
      + destruct (L1 p Hp) as (d & dc & pc & Hsub & _ & _ & Hpc & _ & E1 & E2). rewrite E in Hpc. injection Hpc as <-.
        assert (d ∈ ids). { eapply sublist_mem; [exact Hsub|]. right. left. }
        split; intros q Hq; left; congruence.
      + destruct (L2 p Hp) as (d & dc & pc & Hsub & _ & _ & Hpc & _ & E1 & E2). rewrite E in Hpc. injection Hpc as <-.
        assert (d ∈ ids). { eapply sublist_mem; [exact Hsub|]. left. }
        split; intros q Hq; left; congruence.
    - intros q x [->|Hq] E; [|apply lookup_lt_Some in E; exfalso; lia].
      destruct (rw_cell _ _ _ _ _ R) as (c & Hc & _ & Es). rewrite E in Hc. injection Hc as <-. unfold route_in. rewrite Es.
      apply Forall_forall. intros s Hs. by left.
  Qed.
  Lemma own_aside h h' r v ids L : RouteW h r v ids L ->
    same (own_stop h ids) (own_pt h ids) (own_route h r) h h' -> aside v h h'.
  Proof.
    intros R [S1 S2 S3]. split.
    - intros s c Hc Hv. rewrite S1; [done|]. intros [Hs|Hs]; [|apply lookup_lt_Some in Hc; exfalso; lia].
      destruct (Path_cell _ _ _ _ s (rw_path _ _ _ _ _ R)) as (c' & Hc' & E & _); [by apply elem_of_reverse|]. congruence.
    - intros p c Hc Hv. rewrite S2; [done|]. intros [(s & sc & Hs & Hsc & Hp)|Hp]; [|apply lookup_lt_Some in Hc; exfalso; lia].
      destruct (rw_links _ _ _ _ _ R s sc Hs Hsc) as [L1 L2]. apply elem_of_app in Hp as [Hp|Hp].
      + destruct (L1 p Hp) as (d & dc & pc & _ & _ & _ & Hpc & E & _). congruence.
      + destruct (L2 p Hp) as (d & dc & pc & _ & _ & _ & Hpc & E & _). congruence.
    - intros q c Hc Hv. rewrite S3; [done|]. intros [->|Hq]; [|apply lookup_lt_Some in Hc; exfalso; lia].
      destruct (rw_cell _ _ _ _ _ R) as (c' & Hc' & E & _). congruence.
  Qed.
  Lemma fr_aside {A} (m : M A) h r v ids L P : RouteW h r v ids L ->
    fr (own_stop h ids) (own_pt h ids) (own_route h r) m P -> aside v h (m h).2.
  Proof. intros R F. destruct (F h (own_inside _ _ _ _ _ R)) as (_ & S & _). by eapply own_aside. Qed.

  Lemma Path_same h h' v ids A A' : Path h v ids A -> Path h' v ids A' ->
    (forall s, s ∈ ids -> h_stops h' !! s = h_stops h !! s) ->
    (forall s c p, s ∈ ids -> h_stops h !! s = Some c -> p ∈ st_pickups c ++ st_deliveries c -> h_pts h' !! p = h_pts h !! p) ->
    A' = A.
  Proof.
    intros H. revert A'. induction H as [|s c ids A Hc Hv Hp Hk Hca H IH]; intros A' H' Es Ep; [by inversion H'|].
    apply Path_cons_inv' in H' as (c' & B & -> & Hc' & _ & _ & _ & _ & H').
    rewrite Es in Hc' by left. assert (c' = c) as -> by congruence. f_equal.
    - unfold abs. f_equal.
      + apply map_ext_in. intros p Hin. unfold trip_of. rewrite (Ep s c p); [done|left|done|].
        apply elem_of_app; left; by apply elem_of_list_In.
      + apply map_ext_in. intros p Hin. unfold trip_of. rewrite (Ep s c p); [done|left|done|].
        apply elem_of_app; right; by apply elem_of_list_In.
    - apply IH; [done| |].
      + intros q Hq. apply Es. by right.
      + intros q d p Hq. apply Ep. by right.
  Qed.
  Lemma RouteW_aside h h' v r w ids L L' : aside v h h' -> w <> v -> RouteW h r w ids L -> RouteW h' r w ids L' -> L' = L.
  Proof.
    intros A Hne R R'.
    assert (E : reverse L' = reverse L); [|by rewrite <- (reverse_involutive L'), E, reverse_involutive].
    eapply (Path_same h h'); [apply R|apply R'| |].
    - intros s Hs. destruct (Path_cell _ _ _ _ s (rw_path _ _ _ _ _ R) Hs) as (c & Hc & E & _). rewrite Hc.
      apply (as_stop _ _ _ A); [done|]. congruence.
    - intros s c p Hs Hc Hp. rewrite elem_of_reverse in Hs.
      destruct (rw_links _ _ _ _ _ R s c Hs Hc) as [L1 L2]. apply elem_of_app in Hp as [Hp|Hp].
      + destruct (L1 p Hp) as (d & dc & pc & _ & _ & _ & Hpc & E & _). rewrite Hpc. apply (as_pt _ _ _ A); [done|]. congruence.
      + destruct (L2 p Hp) as (d & dc & pc & _ & _ & _ & Hpc & E & _). rewrite Hpc. apply (as_pt _ _ _ A); [done|]. congruence.
  Qed.
  Definition of_vehicle (h : heap) (r v : nat) : Prop := exists c, h_routes h !! r = Some c /\ rt_vehicle c = v.
  Lemma Score_aside c h h' v r w x : aside v h h' -> later h h' -> w <> v -> of_vehicle h r w ->
    Score c h r x -> Score c h' r x.
  Proof.
    intros A E Hne (rc & Hrc & Hw) (w' & ids & L & b & R & (rc' & Hrc' & Hb) & Ex).
    assert (rc' = rc) as -> by congruence.
    destruct (rw_cell _ _ _ _ _ (proj1 R)) as (rc' & Hrc2 & Hw' & _). assert (rc' = rc) as -> by congruence. clear Hrc2.
    assert (w' = w) as -> by congruence.
    destruct (lt_routes _ _ E _ _ _ _ R) as (L' & R' & _).
    rewrite (RouteW_aside _ _ _ _ _ _ _ _ A Hne (proj1 R) (proj1 R')) in R'.
    exists w, ids, L, b. split; [done|]. split; [|done]. exists rc. split; [|done]. apply (as_route _ _ _ A); [done|]. congruence.
  Qed.

  (** ** Which route objects an operation writes *)
  Lemma keeps_set_order l : keeps (set_order l).
  Proof. done. Qed.
  Lemma keeps_anyM {A} (f : A -> M bool) l : (forall x, keeps (f x)) -> keeps (anyM f l).
  Proof. intros Hf. induction l; cbn; [apply keeps_ret|]. apply keeps_bind; [done|]. intros []; [apply keeps_ret|done]. Qed.
  Lemma keeps_filterM {A} (f : A -> M bool) l : (forall x, keeps (f x)) -> keeps (filterM f l).
  Proof.
    intros Hf. induction l; cbn; [apply keeps_ret|]. apply keeps_bind; [done|]. intros b. apply keeps_bind; [done|].
    intros. apply keeps_ret.
  Qed.
  Lemma keeps_route_loaded r : keeps (route_loaded r).
  Proof. unfold route_loaded. keeps; auto using keeps_planned_trips. Qed.
  Lemma keeps_find_empty l : keeps (find_empty l).
  Proof. induction l; cbn [find_empty]; keeps; auto using keeps_route_loaded. Qed.
  Lemma keeps_attractive i : keeps (attractive_routes i).
  Proof.
    unfold attractive_routes. keeps; auto using keeps_set_order, keeps_anyM, keeps_filterM, keeps_route_loaded, keeps_find_empty.
  Qed.
  Lemma runs_keeps {A} (m : M A) h Q : keeps m -> runs m h Q ->
    runs m h (fun x h' => Q x h' /\ forall r b, memo h r b -> memo h' r b).
  Proof.
    intros K R. specialize (K h). unfold runs in *. destruct (m h) as [[x|e] h']; [|done]. split; [done|].
    intros r b (y & Hy & Hb). exists y. cbn in K. by rewrite K.
  Qed.
End aside.
