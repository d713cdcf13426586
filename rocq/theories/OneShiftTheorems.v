(** One-shift: what survives of the order of the visits. *)
From Verif Require Export ShiftProofs.

Section passes.
  Context {W : World}.

  Lemma rides_before xs i j x y t : rides xs -> xs !! i = Some x -> xs !! j = Some y -> t ∈ vi_board x -> t ∈ vi_alight y -> (i < j)%nat.
  Proof.
    intros R Hx Hy Hb Ha. assert (Ht : t ∈ boards xs) by (apply elem_of_boards; exists x; split; [by eapply elem_of_list_lookup_2|done]).
    destruct (rides_order _ R t Ht) as (a & b & Hs & Hab & Hbb). apply sublist2 in Hs as (i' & j' & Hij & Hi & Hj).
    assert (i' = i) as -> by (eapply (flat_map_NoDup_lookup vi_board xs); [apply R|exact Hi|exact Hx|exact Hab|exact Hb]).
    assert (j' = j) as -> by (eapply (flat_map_NoDup_lookup vi_alight xs); [by apply rides_alights_nodup|exact Hj|exact Hy|exact Hbb|exact Ha]).
    done.
  Qed.
  Lemma rides_passes xs ys : passes xs ys -> rides xs -> rides ys.
  Proof.
    intros (X & x & y & Y & _ & -> & -> & Hn) R.
    assert (Hx : (X ++ x :: y :: Y) !! length X = Some x) by (by rewrite list_lookup_middle).
    assert (Hy : (X ++ x :: y :: Y) !! S (length X) = Some y).
    { rewrite lookup_app_r by lia. by replace (S (length X) - length X)%nat with 1%nat by lia. }
    apply (rides_turn X [x; y] Y R). intros t Hb Ha. apply elem_of_boards in Hb as (u & Hu & Hb). apply elem_of_alights in Ha as (w & Hw & Ha).
    assert (Hu' : u = x \/ u = y) by set_solver. assert (Hw' : w = x \/ w = y) by set_solver. clear Hu Hw.
    destruct Hu' as [-> | ->], Hw' as [-> | ->].
    - pose proof (rides_before _ _ _ _ _ _ R Hx Hx Hb Ha). lia.
    - by apply (Hn t).
    - pose proof (rides_before _ _ _ _ _ _ R Hy Hx Hb Ha). lia.
    - pose proof (rides_before _ _ _ _ _ _ R Hy Hy Hb Ha). lia.
  Qed.
  Lemma rides_many_passes xs ys : many_passes xs ys -> rides xs -> rides ys.
  Proof. induction 1 as [|xs ys zs _ IH H]; [done|]. intros R. by eapply rides_passes; [|apply IH]. Qed.
  Lemma many_passes_perm xs ys : many_passes xs ys -> ys ≡ₚ xs.
  Proof.
    induction 1 as [|xs ys zs _ IH H]; [done|]. rewrite <- IH. destruct H as (X & x & y & Y & _ & -> & -> & _).
    apply Permutation_app_head. constructor.
  Qed.
  Lemma many_passes_head xs ys : many_passes xs ys -> head ys = head xs.
  Proof.
    induction 1 as [|xs ys zs _ IH H]; [done|]. rewrite <- IH. destruct H as (X & x & y & Y & HX & -> & -> & _). by destruct X.
  Qed.
  Lemma many_passes_boards xs ys : many_passes xs ys -> boards ys ≡ₚ boards xs.
  Proof. intros H. by apply flat_map_perm, many_passes_perm. Qed.

  (** the stop [s] of [h0] stands for the visit [x] *)
  Definition Shows (h0 : heap) (v s : nat) (x : visit) : Prop :=
    exists c, h_stops h0 !! s = Some c /\ x = abs h0 c /\ known h0 c /\ st_vehicle c = v.
  Lemma RouteW_Shows h r v ids L : RouteW h r v ids L -> Forall2 (Shows h v) ids L.
  Proof.
    intros R. apply Forall2_same_length_lookup_2; [by eapply RouteW_length|]. intros i s x Hs Hx.
    destruct (RouteW_lookup _ _ _ _ _ _ _ R Hs) as (c & x' & Hc & Hx' & Ex & K & Hv & _). rewrite Hx in Hx'. injection Hx' as <-.
    by exists c.
  Qed.
  Lemma pair_trips h r v ids L a b ca cb : RouteW h r v ids L -> a ∈ ids -> b ∈ ids ->
    h_stops h !! a = Some ca -> h_stops h !! b = Some cb -> (forall p, p ∈ st_pickups ca -> p ∉ st_deliveries cb) ->
    forall t, t ∈ vi_board (abs h ca) -> t ∉ vi_alight (abs h cb).
  Proof.
    intros R Ha Hb Hca Hcb Hn t Ht Ht'.
    apply elem_of_list_lookup_1 in Ha as [i Ha]. apply elem_of_list_lookup_1 in Hb as [k Hb].
    destruct (RouteW_lookup _ _ _ _ _ _ _ R Ha) as (c & x & Hc & Hx & Ex & _). rewrite Hca in Hc. injection Hc as <-.
    destruct (RouteW_lookup _ _ _ _ _ _ _ R Hb) as (dc & y & Hdc & Hy & Ey & _). rewrite Hcb in Hdc. injection Hdc as <-.
    cbn in Ht. apply elem_of_list_fmap in Ht as (p & -> & Hp).
    destruct (link_of_pickup _ _ _ _ _ _ _ _ _ R Ha Hca Hp) as (j & d' & dc' & pc & _ & Hd' & Hdc' & Hpd & _).
    destruct (RouteW_lookup _ _ _ _ _ _ _ R Hd') as (dc2 & y' & Hdc2 & Hy' & Ey' & _). rewrite Hdc' in Hdc2. injection Hdc2 as <-.
    assert (j = k) as ->.
    { eapply (flat_map_NoDup_lookup vi_alight L); [exact (rides_alights_nodup _ (rw_rides _ _ _ _ _ R))|exact Hy'|exact Hy| |by rewrite Ey].
      subst y'. cbn. apply elem_of_list_fmap. eauto. }
    rewrite Hb in Hd'. injection Hd' as <-. rewrite Hcb in Hdc'. injection Hdc' as <-. by apply (Hn p).
  Qed.
  Lemma hops_passes h r v ids L ids' : RouteW h r v ids L -> hops h ids ids' ->
    exists ys, many_passes L ys /\ Forall2 (Shows h v) ids' ys.
  Proof.
    intros R H. induction H as [ids|ids ids1 ids2 H IH Hh]; [exists L; split; [constructor|by eapply RouteW_Shows]|].
    destruct (IH R) as (ys & Hp & F). destruct Hh as (X & a & b & Y & ca & cb & HX & -> & -> & Hca & Hcb & Hn).
    apply Forall2_app_inv_l in F as (P & F' & F1 & F2 & ->). apply Forall2_cons_inv_l in F2 as (x & F3 & Sx & F2 & ->).
    apply Forall2_cons_inv_l in F2 as (y & Q & Sy & F2 & ->). exists (P ++ y :: x :: Q). split.
    - eapply one_pass_more; [exact Hp|]. exists P, x, y, Q. split.
      { intros ->. inversion F1. by subst. }
      split; [done|]. split; [done|]. destruct Sx as (c1 & E1 & -> & _). destruct Sy as (c2 & E2 & -> & _).
      rewrite Hca in E1. injection E1 as <-. rewrite Hcb in E2. injection E2 as <-.
      apply (pair_trips h r v ids L a b ca cb); try done; rewrite <- (hops_perm _ _ _ H); set_solver.
    - apply Forall2_app; [done|]. constructor; [done|]. by constructor.
  Qed.
  Lemma plans_abs h0 h ps : Kept h0 h -> (forall p, p ∈ ps -> is_Some (h_pts h0 !! p)) -> plans h ps (map (trip_of h0) ps).
  Proof.
    intros K Hk. unfold plans. induction ps as [|p ps IH]; cbn; constructor.
    - destruct (Hk p) as [c Hc]; [left|]. destruct (kp_pts _ _ K p c Hc) as (c' & Hc' & E). exists c'. split; [done|].
      unfold sk_pt, cache_pt_feasible in E. injection E as ? ? ? ?. unfold trip_of. rewrite Hc. done.
    - apply IH. intros q Hq. apply Hk. by right.
  Qed.
End passes.

Lemma c29_order `{W : World} : forall o h vs ts initial,
  tidy h -> valid_planning h vs ts initial ->
  untouched h (ls_improve OneShift o initial h).2 /\
  forall pl h', ls_improve OneShift o initial h = (Ok pl, h') ->
    Forall2 (fun r r' => forall v ids xs, on_tour h r v ids xs ->
      exists ys, visits_in_order h' r' v ys /\ many_passes xs ys /\
        head ys = head xs /\ rides ys /\ boards ys ≡ₚ boards xs) initial pl.
Proof.
  intros o h vs ts initial HT V. apply tidy_HInv in HT. split.
  { unfold ls_improve. apply after_copies. intros a b c l Hl. exists (fun _ => True).
    eapply (fr_bind _ _ _ _ _ (fun _ => True)); [by apply fr_check_routes|]. intros _ _.
    eapply fr_bind; [by apply fr_ls_improve_raw|]. intros l' Hl'.
    eapply (fr_bind _ _ _ _ _ (fun _ => True)); [by apply fr_check_routes|]. intros _ _. by apply fr_ret. }
  intros pl h'. destruct V as [V1 (ws & Hws & F0) _ _].
  assert (HR : forall r, r ∈ initial -> is_Some (h_routes h !! r)).
  { intros r Hr. apply elem_of_list_lookup_1 in Hr as [i Hi]. destruct (Forall2_lookup_l _ _ _ _ _ F0 Hi) as (v & _ & us & ids & xs & R & _).
    apply on_tour_RouteOK in R. destruct (rw_cell _ _ _ _ _ (proj1 R)) as (c & Hc & _). eauto. }
  pose proof (deepcopy_runs h initial HR) as D. apply runs_eq in D as (rs & h0 & E0 & HC & Ers & F).
  assert (Nrs : NoDup rs) by (rewrite Ers; apply NoDup_seq).
  unfold ls_improve. unfold bind at 1. rewrite E0. unfold bind at 1.
  destruct (check_routes rs h0) as [[[]|e] h1] eqn:E1; [|done]. unfold bind at 1.
  destruct (ls_improve_raw OneShift o rs h1) as [[rs'|e] h2] eqn:E2; [|done]. unfold bind at 1.
  destruct (check_routes rs' h2) as [[[]|e] h3] eqn:E3; [|done]. intros [= -> ->].
  set (ids0 := fun r => match h_routes h0 !! r with Some c => rt_stops c | None => [] end).
  (* the copies *)
  assert (Cp : forall i r, rs !! i = Some r -> exists q v ids L, initial !! i = Some q /\ ws !! i = Some v /\
     RouteOK h q v ids L /\ RouteOK h0 r v (ids0 r) L).
  { intros i r Hi. destruct (Forall2_lookup_r _ _ _ _ _ F Hi) as (q & Hq & c & Hc & Hc1).
    destruct (Forall2_lookup_l _ _ _ _ _ F0 Hq) as (v & Hv & us & ids & xs & R & _). apply on_tour_RouteOK in R.
    exists q, v, ids, xs. split; [done|]. split; [done|]. split; [done|].
    pose proof (Copied_route _ _ _ _ _ _ _ _ HC R Hc Hc1) as R0. unfold ids0.
    destruct (rw_cell _ _ _ _ _ (proj1 R0)) as (c0 & Hc0 & _ & Es). rewrite Hc0, Es. done. }
  assert (Cp' : forall r, r ∈ rs -> exists v L, RouteOK h0 r v (ids0 r) L).
  { intros r Hr. apply elem_of_list_lookup_1 in Hr as [i Hi]. destruct (Cp i r Hi) as (q & v & ids & L & _ & _ & _ & R). eauto. }
  assert (Hnd : forall r, r ∈ rs -> NoDup (ids0 r)).
  { intros r Hr. destruct (Cp' r Hr) as (v & L & R). eapply RouteW_NoDup, R. }
  assert (Hex : forall r s, r ∈ rs -> s ∈ ids0 r -> is_Some (h_stops h0 !! s)).
  { intros r s Hr Hs. destruct (Cp' r Hr) as (v & L & R). apply elem_of_list_lookup_1 in Hs as [i Hi].
    destruct (RouteW_lookup _ _ _ _ _ _ _ (proj1 R) Hi) as (c & x & Hc & _). eauto. }
  assert (Nws : NoDup ws) by by rewrite Hws.
  assert (Hdj : forall r q s, r ∈ rs -> q ∈ rs -> r <> q -> s ∈ ids0 r -> s ∉ ids0 q).
  { intros r q s Hr Hq Hne Hs Hs'. apply elem_of_list_lookup_1 in Hr as [i Hi]. apply elem_of_list_lookup_1 in Hq as [j Hj].
    destruct (Cp i r Hi) as (r0 & v & ids & L & _ & Hv & _ & R). destruct (Cp j q Hj) as (q0 & v' & ids' & L' & _ & Hv' & _ & R').
    apply elem_of_list_lookup_1 in Hs as [k Hk]. apply elem_of_list_lookup_1 in Hs' as [k' Hk'].
    destruct (RouteW_lookup _ _ _ _ _ _ _ (proj1 R) Hk) as (c & x & Hc & _ & _ & _ & Ev & _).
    destruct (RouteW_lookup _ _ _ _ _ _ _ (proj1 R') Hk') as (c' & x' & Hc' & _ & _ & _ & Ev' & _).
    rewrite Hc in Hc'. injection Hc' as <-. assert (v = v') as <- by congruence.
    pose proof (NoDup_lookup _ _ _ _ Nws Hv Hv'). apply Hne. congruence. }
  assert (I0 : Inv h0 rs ids0 h0).
  { split.
    - split; eauto. intros s c Hc. exists c. split; [done|]. unfold same_stop. cbn. done.
    - intros r Hr. exists (ids0 r). split; [|constructor]. destruct (Cp' r Hr) as (v & L & R). split.
      + destruct (rw_cell _ _ _ _ _ (proj1 R)) as (c & Hc & _ & Es). exists c. by split.
      + intros i s Hi. destruct (RouteW_lookup _ _ _ _ _ _ _ (proj1 R) Hi) as (c & x & Hc & _ & _ & _ & _ & Ep & _).
        exists c. split; [done|]. rewrite Ep. destruct i as [|i]; [done|]. cbn. rewrite last_lookup, take_length.
        apply lookup_lt_Some in Hi. rewrite lookup_take by lia. f_equal. lia. }
  assert (I1 : Inv h0 rs ids0 h1) by (eapply Inv_memo; [by eapply (memo_of _ _ _ _ (mm_check_routes rs))|done]).
  destruct (after_improve h0 rs ids0 Hnd Hdj Hex o h1 I1) as [I2 Epl]. cbn [ls_improve_raw] in E2. unfold holds_after in I2.
  rewrite E2 in I2, Epl. specialize (Epl pl eq_refl) as ->. cbn [snd] in I2.
  assert (I3 : Inv h0 rs ids0 h') by (eapply Inv_memo; [by eapply (memo_of _ _ _ _ (mm_check_routes rs))|done]).
  apply Forall2_same_length_lookup_2; [by rewrite Ers, seq_length|]. intros i q r Hq Hr v ids xs R. apply on_tour_RouteOK in R.
  destruct (Cp i r Hr) as (q' & v' & ids' & L & Hq' & _ & R1 & R2). rewrite Hq in Hq'. injection Hq' as <-.
  destruct (RouteW_det _ _ _ _ _ _ _ _ (proj1 R) (proj1 R1)) as (<- & <- & <-).
  destruct I3 as [K C]. destruct (C r) as (fin & [(rc & Hrc & Es) Lk] & Hh); [by eapply elem_of_list_lookup_2|].
  destruct (hops_passes _ _ _ _ _ _ (proj1 R2) Hh) as (ys & Hp & Fs). exists ys.
  split; [|split; [done|]; split; [by apply many_passes_head|]; split; [eapply rides_many_passes; [done|apply R]|by apply many_passes_boards]].
  exists fin. split.
  { destruct (rw_cell _ _ _ _ _ (proj1 R2)) as (c & Hc & Ev & _). destruct (kp_routes _ _ K r c Hc) as (c' & Hc' & Ev').
    rewrite Hrc in Hc'. injection Hc' as <-. exists rc. split; [done|]. split; [congruence|done]. }
  split; [by eapply Forall2_length|]. intros j s x Hs Hx. destruct (Lk j s Hs) as (c' & Hc' & Ep).
  destruct (Forall2_lookup_lr _ _ _ _ _ _ Fs Hs Hx) as (c & Hc & -> & Kn & Ev). destruct (kp_stops _ _ K s c Hc) as (c2 & Hc2 & S).
  rewrite Hc' in Hc2. injection Hc2 as <-. destruct S as (S1 & S2 & S3 & S4 & _ & S6). cbn in S1, S2, S3, S4, S6. exists c'.
  split; [done|]. split; [congruence|]. split; [done|]. split; [done|]. split; [done|]. rewrite S3, S4. cbn. split.
  - apply plans_abs; [done|]. intros p Hpp. apply Kn. set_solver.
  - apply plans_abs; [done|]. intros p Hpp. apply Kn. set_solver.
Qed.
