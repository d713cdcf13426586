(** 2-opt: strategies/routes/two_opt.py and strategies/abc.py. *)
From Verif Require Export LocalProofs.
From Verif Require Import Values Searches.

(** ** Reversing a segment of a list *)
Lemma sublist2_turn {A} (a b : A) P S R :
  [a; b] `sublist_of` P ++ S ++ R -> ~ [a; b] `sublist_of` S -> [a; b] `sublist_of` P ++ reverse S ++ R.
Proof.
  intros H N. apply sublist_app_r in H as (k1 & k2 & E & H1 & H2). apply sublist_app_r in H2 as (k3 & k4 & -> & H2 & H3).
  assert (HS : forall k, k `sublist_of` S -> (length k <= 1)%nat -> k `sublist_of` reverse S).
  { intros [|x [|y k]] Hk Hl; cbn in Hl; [apply sublist_nil_l| |lia]. apply sublist1, elem_of_reverse. by apply sublist1. }
  assert (Hl : (length k3 <= 1)%nat).
  { destruct k3 as [|x [|y [|z k3]]]; cbn; [lia|lia| |].
    - exfalso. apply N. destruct k1 as [|? [|? [|? k1]]], k4; simplify_eq/=. done.
    - exfalso. destruct k1 as [|? [|? [|? k1]]]; simplify_eq/=. }
  rewrite E. apply sublist_app; [done|]. apply sublist_app; [|done]. auto.
Qed.

Lemma drop_mid {A} (U V R Z : list A) m : (length U + length V)%nat = m -> drop m (U ++ (V ++ R) ++ Z) = R ++ Z.
Proof. intros <-. rewrite <- app_assoc, app_assoc, <- app_length. apply drop_app. Qed.

Section turn.
  Context {W : World}.

  Lemma flat_map_perm {A B} (f : A -> list B) l k : l ≡ₚ k -> flat_map f l ≡ₚ flat_map f k.
  Proof.
    induction 1 as [|x l l' _ IH|x y l|l1 l2 l3 _ IH1 _ IH2]; cbn; [done|by rewrite IH| |by etrans].
    rewrite !app_assoc. apply Permutation_app_tail, Permutation_app_comm.
  Qed.
  Lemma turn_perm {A} (P S R : list A) : P ++ reverse S ++ R ≡ₚ P ++ S ++ R.
  Proof. by rewrite reverse_Permutation. Qed.
  Lemma rides_turn P S R : rides (P ++ S ++ R) -> (forall t, t ∈ boards S -> t ∉ alights S) -> rides (P ++ reverse S ++ R).
  Proof.
    intros [R1 R2 R3 R4] Hn. pose proof (turn_perm P S R) as EP. pose proof (flat_map_perm vi_board _ _ EP) as EB.
    pose proof (flat_map_perm vi_alight _ _ EP) as EA. fold (boards (P ++ reverse S ++ R)) (boards (P ++ S ++ R)) in EB.
    fold (alights (P ++ reverse S ++ R)) (alights (P ++ S ++ R)) in EA. split.
    - by rewrite EB.
    - by rewrite EA, EB.
    - intros t Ht. rewrite EB in Ht. destruct (R3 t Ht) as (a & b & Hs & Ha & Hb). exists a, b. split; [|done].
      apply sublist2_turn; [done|]. intros Hsub. apply (Hn t).
      + apply elem_of_boards. exists a. split; [|done]. apply (elem_of_submseteq [a; b]); [left|by apply sublist_submseteq].
      + apply elem_of_alights. exists b. split; [|done]. apply (elem_of_submseteq [a; b]); [right; left|by apply sublist_submseteq].
    - intros x Hx. apply R4. by rewrite EP in Hx.
  Qed.
  Lemma tour_turn v P S R xn : P <> [] -> tour v (P ++ S ++ R ++ [xn]) -> (forall t, t ∈ boards S -> t ∉ alights S) ->
    tour v (P ++ reverse S ++ R ++ [xn]).
  Proof.
    intros HP [(x0 & rest & E & Hne & T1) (front & x & E2 & T2) T3] Hn. split; [| |by apply rides_turn].
    - destruct P as [|y P]; [done|]. cbn in E. injection E as -> _. exists x0, (P ++ reverse S ++ R ++ [xn]).
      split; [done|]. split; [|done]. rewrite !app_assoc. by destruct ((P ++ reverse S) ++ R).
    - exists (P ++ reverse S ++ R), x. split; [|done]. rewrite !app_assoc in E2. apply app_inj_tail in E2 as [_ ->].
      by rewrite !app_assoc.
  Qed.
  Lemma Links_turn h v P S R : Links h v (P ++ S ++ R) ->
    (forall s d c dc p, s ∈ S -> d ∈ S -> h_stops h !! s = Some c -> h_stops h !! d = Some dc -> p ∈ st_pickups c -> p ∉ st_deliveries dc) ->
    Links h v (P ++ reverse S ++ R).
  Proof.
    intros HL Hn s c Hs Hc. rewrite turn_perm in Hs. destruct (HL s c Hs Hc) as [H1 H2].
    assert (Hin : forall a b, [a; b] `sublist_of` S -> a ∈ S /\ b ∈ S).
    { intros a b Hsub. split; (eapply elem_of_submseteq; [|by apply sublist_submseteq]); set_solver. }
    split.
    - intros p Hp. destruct (H1 p Hp) as (d & dc & pc & Hsub & Hd & Hpd & Hrest). exists d, dc, pc. split; [|done].
      apply sublist2_turn; [done|]. intros Hb. destruct (Hin _ _ Hb). by eapply (Hn s d).
    - intros p Hp. destruct (H2 p Hp) as (q & qc & pc & Hsub & Hd & Hpd & Hrest). exists q, qc, pc. split; [|done].
      apply sublist2_turn; [done|]. intros Hb. destruct (Hin _ _ Hb). by eapply (Hn q s).
  Qed.

  (** ** Taking stops out of a route and putting them back *)
  Lemma strip_runs v r f x X A : X <> [] -> length X = length A -> forall D B h (m : list nat),
    RouteP h r v (X ++ D ++ [f]) (A ++ B ++ [x]) -> length m = length D ->
    runs (mapM (fun _ => remove_stop_at r (length X)) m) h (fun old h' =>
      old = D /\ RouteP h' r v (X ++ [f]) (A ++ [x]) /\ edited h h' /\
      (forall h0, grow h0 h -> (forall s, s ∈ D ++ [f] -> (length (h_stops h0) <= s)%nat) ->
         (length (h_routes h0) <= r)%nat -> grow h0 h')).
  Proof.
    intros HX HA. induction D as [|s D IH]; intros B h m R Hm.
    { destruct m; [|done]. apply runs_ret. pose proof (RouteP_length _ _ _ _ _ R) as Hl. rewrite !app_length in Hl. cbn in Hl.
      destruct B; [|cbn in Hl; lia]. split; [done|]. split; [done|]. split; [apply edited_refl|done]. }
    destruct m as [|y m]; [done|]. cbn in Hm. cbn [mapM].
    pose proof (RouteP_length _ _ _ _ _ R) as Hl. rewrite !app_length in Hl. cbn in Hl.
    destruct B as [|b B]; [cbn in Hl; lia|].
    destruct X as [|q X _] using rev_ind; [done|]. set (XX := X ++ [q]) in *.
    assert (HlX : length XX = S (length X)) by (unfold XX; rewrite app_length; cbn; lia).
    assert (HZ : exists f' Z', D ++ [f] = f' :: Z') by (destruct D; eauto). destruct HZ as (f' & Z' & HZ).
    step. rewrite HlX. cbn [app] in R. eapply runs_mono; [eapply (remove_stop_at_runs _ _ _ _ _ (length X) q s f' R)|].
    { rewrite lookup_app_l by lia. unfold XX. by rewrite lookup_app_r, Nat.sub_diag. }
    { rewrite lookup_app_r by lia. by rewrite HlX, Nat.sub_diag. }
    { rewrite lookup_app_r by lia. rewrite HlX, HZ. by replace (S (S (length X)) - S (length X))%nat with 1%nat by lia. }
    intros ? h1 (R1 & T1 & ER1 & ET1 & ->). rewrite <- HlX in *.
    rewrite remove_at_mid in R1. rewrite HA, remove_at_mid in R1.
    step. eapply runs_mono; [apply (IH B h1 m R1); lia|]. intros old h2 (-> & R2 & Ed2 & G2). apply runs_ret.
    split; [done|]. split; [done|]. split; [eapply edited_trans; [by eapply edited_relink|done]|].
    intros h0 G0 H0 Hr0. apply G2; [|intros z Hz; apply H0; by right|done].
    eapply grow_relink; [exact G0|exact T1|exact ER1| |done]. apply H0. cbn [app]. rewrite HZ. right; left.
  Qed.

  (** a stop of vehicle [v] which stands for the visit [x] *)
  Definition spare (h : heap) (v s : nat) (x : visit) : Prop :=
    exists cs, h_stops h !! s = Some cs /\ st_vehicle cs = v /\ known h cs /\ x = abs h cs /\
      (forall p, p ∈ st_pickups cs -> p ∉ st_deliveries cs).
  Lemma spare_edited h h' v s x : edited h h' -> spare h v s x -> spare h' v s x.
  Proof.
    intros Ed (cs & Hc & V & K & -> & Hd). destruct (ed_stops _ _ Ed _ _ Hc) as (c' & Hc' & E1 & E2 & E3 & E4 & E5).
    exists c'. split; [done|]. split; [congruence|]. split; [|split].
    - intros p Hp. rewrite E3, E4 in Hp. destruct (K p Hp) as [d Hpd]. destruct (ed_pts _ _ Ed _ _ Hpd) as (d' & ? & _). by eexists.
    - symmetry. by apply (edited_abs h h').
    - by rewrite E3, E4.
  Qed.
  Lemma reinsert_runs h r v X A f x s y :
    RouteP h r v (X ++ [f]) (A ++ [x]) -> X <> [] -> s ∉ X ++ [f] -> spare h v s y ->
    runs (reinsert r s) h (fun _ h' =>
      RouteP h' r v ((X ++ [s]) ++ [f]) ((A ++ [y]) ++ [x]) /\ edited h h' /\
      (forall h0, grow h0 h -> (length (h_stops h0) <= s)%nat -> (length (h_stops h0) <= f)%nat ->
         (length (h_routes h0) <= r)%nat -> grow h0 h')).
  Proof.
    intros R HX Hs (cs & Hcs & V & K & -> & Hd). pose proof R as [(rc & Hrc & E1 & E2) HP].
    pose proof (RouteP_length _ _ _ _ _ R) as Hl. rewrite !app_length in Hl. cbn in Hl.
    destruct X as [|q X _] using rev_ind; [done|]. clear HX. set (XX := X ++ [q]) in *.
    assert (HlX : length XX = S (length X)) by (unfold XX; rewrite app_length; cbn; lia).
    assert (Hq : (XX ++ [f]) !! length X = Some q).
    { rewrite lookup_app_l by lia. unfold XX. by rewrite lookup_app_r, Nat.sub_diag. }
    assert (Hf : (XX ++ [f]) !! S (length X) = Some f).
    { rewrite lookup_app_r by lia. by rewrite HlX, Nat.sub_diag. }
    unfold reinsert, current_stop. step. step. unfold route_stops. step. eapply runs_route_get; [exact Hrc|]. apply runs_ret. rewrite E2.
    assert (Hlen : length (XX ++ [f]) = S (S (length X))) by (rewrite app_length; cbn; lia).
    rewrite Hlen. destruct (Nat.ltb_spec (S (S (length X))) 2) as [?|_]; [lia|].
    replace (S (S (length X)) - 2)%nat with (length X) by lia. eapply runs_nth; [exact Hq|].
    step. apply runs_stop_upd. set (h1 := with_stops _ h).
    assert (Hcs1 : h_stops h1 !! s = Some (set_previous (Some q) cs)) by (unfold h1; cbn [with_stops h_stops]; by rewrite list_lookup_alter, Hcs).
    assert (Hne : forall z c, z <> s -> h_stops h !! z = Some c -> h_stops h1 !! z = Some c).
    { intros z c Hz Hc. unfold h1. cbn [with_stops h_stops]. by rewrite list_lookup_alter_ne. }
    assert (Ed1 : edited h h1).
    { split; try done.
      - intros z c Hc. destruct (decide (z = s)) as [->|Hz].
        + rewrite Hcs in Hc. injection Hc as <-. eexists. split; [exact Hcs1|]. by destruct cs.
        + exists c. auto 10.
      - intros p c Hc. by exists c.
      - unfold h1. cbn. by rewrite alter_length. }
    assert (R1 : RouteP h1 r v (XX ++ [f]) (A ++ [x])).
    { split; [by exists rc|]. eapply Path_frame; [exact HP| |by apply edited_ext].
      intros z c Hz Hc. exists c. split; [|split; [done|apply weaker_refl]]. apply Hne; [|done]. rewrite elem_of_reverse in Hz. by intros ->. }
    step. eapply runs_mono; [eapply (insert_stop_runs h1 r v _ _ (length X) q f s _ R1 Hq Hf Hs Hcs1)|].
    { by destruct cs. }
    { by destruct cs. }
    { intros p Hp. destruct cs. cbn in *. by apply K. }
    { by destruct cs. }
    intros ? h2 (R2 & T2 & ER2 & ET2 & _). apply runs_ret. rewrite <- HlX in R2 at 1.
    assert (Eabs : abs h1 (set_previous (Some q) cs) = abs h cs) by (by destruct cs).
    rewrite Eabs in R2. split; [|split].
    - assert (HlA : length A = length XX) by lia. 
      replace (S (length X)) with (length A) in R2 by lia.
      assert (EI : forall (U V : list nat) a, list_insert_at (length U) a (U ++ V) = (U ++ [a]) ++ V).
      { intros U V0 a0. unfold list_insert_at. by rewrite take_app, drop_app, <- app_assoc. }
      assert (EI' : forall (U V : list visit) a, list_insert_at (length U) a (U ++ V) = (U ++ [a]) ++ V).
      { intros U V0 a0. unfold list_insert_at. by rewrite take_app, drop_app, <- app_assoc. }
      rewrite EI, EI' in R2. exact R2.
    - eapply edited_trans; [exact Ed1|by eapply edited_relink].
    - intros h0 G0 Hs0 Hf0 Hr0. eapply grow_relink; [|exact T2|exact ER2|done|done].
      eapply grow_frame; [exact G0| | | |by apply edited_ext].
      + intros z c Hz Hc. exists c. split; [apply Hne; [lia|done]|]. split; [done|apply weaker_refl].
      + intros p c _ Hc. by exists c.
      + intros p c _ Hc. by exists c.
  Qed.
  Lemma reinserts_runs r v f x l : forall B h X A,
    RouteP h r v (X ++ [f]) (A ++ [x]) -> X <> [] -> NoDup l -> (forall s, s ∈ l -> s ∉ X ++ [f]) -> Forall2 (spare h v) l B ->
    runs (iterM (reinsert r) l) h (fun _ h' =>
      RouteP h' r v ((X ++ l) ++ [f]) ((A ++ B) ++ [x]) /\ edited h h' /\
      (forall h0, grow h0 h -> (forall s, s ∈ l -> (length (h_stops h0) <= s)%nat) -> (length (h_stops h0) <= f)%nat ->
         (length (h_routes h0) <= r)%nat -> grow h0 h')).
  Proof.
    induction l as [|s l IH]; intros B h X A R HX Hnd Hs HB; inversion HB as [|? y ? B' Hy HB']; subst.
    { apply runs_ret. rewrite !app_nil_r. split; [done|]. split; [apply edited_refl|done]. }
    apply NoDup_cons in Hnd as [Hsl Hnd]. cbn [iterM]. step.
    eapply runs_mono; [eapply reinsert_runs; [exact R|done|apply Hs; left|exact Hy]|].
    intros ? h1 (R1 & Ed1 & G1). eapply runs_mono; [apply (IH B' h1 (X ++ [s]) (A ++ [y]) R1)|].
    { by destruct X. }
    { done. }
    { intros z Hz Hin. apply (Hs z); [by right|]. rewrite !elem_of_app, !elem_of_list_singleton in *.
      destruct Hin as [[?| ->]|?]; [by left|done|by right]. }
    { eapply Forall2_impl; [exact HB'|]. intros. by eapply spare_edited. }
    intros ? h2 (R2 & Ed2 & G2). rewrite <- !(app_assoc _ [_]) in R2. cbn [app] in R2.
    replace ((X ++ s :: l) ++ [f]) with (X ++ (s :: l) ++ [f]) by (by rewrite app_assoc).
    rewrite <- !app_assoc. rewrite <- !app_assoc in R2. split; [exact R2|]. split; [by eapply edited_trans|].
    intros h0 G0 Hs0 Hf0 Hr0. apply G2; [apply G1; [done|apply Hs0; left|done|done]| |done|done].
    intros z Hz. apply Hs0. by right.
  Qed.
End turn.

Section two_opt.
  Context {W : World}.

  (** older objects keep their visits; recorded answers stay as good *)
  Definition spreads (h h' : heap) : Prop := grow h h' /\ (forall g, Worth g h -> Worth g h').
  Lemma spreads_refl h : spreads h h.
  Proof. split; [apply grow_refl|done]. Qed.
  Lemma spreads_trans h1 h2 h3 : spreads h1 h2 -> spreads h2 h3 -> spreads h1 h3.
  Proof. intros [A1 A2] [B1 B2]. split; [by eapply grow_trans|auto]. Qed.
  Lemma spreads_soft h1 h2 : soft h1 h2 -> spreads h1 h2.
  Proof. intros (G & _ & _ & _ & F). by split. Qed.
  Lemma spreads_evolves h1 h2 : spreads h1 h2 -> evolves h1 h2.
  Proof. intros [G F]. split; [by apply later_grow|]. split; [by apply grow_routes_len|done]. Qed.

  (** ** The check of the segment *)
  Lemma cells_runs (f : stop -> list nat) seg h : (forall s, s ∈ seg -> is_Some (h_stops h !! s)) ->
    runs (mapM (fun s => let! c := stop_get s in ret (f c)) seg) h (fun l h' => h' = h /\
      (forall s c p, s ∈ seg -> h_stops h !! s = Some c -> p ∈ f c -> p ∈ concat l) /\
      (forall p, p ∈ concat l -> exists s c, s ∈ seg /\ h_stops h !! s = Some c /\ p ∈ f c)).
  Proof.
    induction seg as [|s seg IH]; intros Ha; cbn [mapM].
    { apply runs_ret. split; [done|]. split; [intros s c p Hs; inversion Hs|]. intros p Hp. inversion Hp. }
    destruct (Ha s) as [c Hc]; [left|]. step. step. eapply runs_stop_get; [exact Hc|]. apply runs_ret.
    step. eapply runs_mono; [apply IH; intros; apply Ha; by right|]. intros l ? (-> & Hl & Hl'). apply runs_ret. split; [done|]. split.
    - intros s' c' p Hs Hc' Hp. cbn. rewrite elem_of_app. apply elem_of_cons in Hs as [->|Hs]; [|right; eauto].
      left. rewrite Hc in Hc'. by injection Hc' as <-.
    - intros p Hp. cbn in Hp. apply elem_of_app in Hp as [Hp|Hp]; [exists s, c; split; [left|done]|].
      destruct (Hl' p Hp) as (s' & c' & Hs & H). exists s', c'. split; [by right|done].
  Qed.
  Lemma segment_conflict_runs seg h : (forall s, s ∈ seg -> is_Some (h_stops h !! s)) ->
    runs (segment_conflict seg) h (fun b h' => h' = h /\ (b = false ->
      forall s d c dc p, s ∈ seg -> d ∈ seg -> h_stops h !! s = Some c -> h_stops h !! d = Some dc ->
        p ∈ st_pickups c -> p ∉ st_deliveries dc) /\ (b = true ->
      exists s d c dc p, s ∈ seg /\ d ∈ seg /\ h_stops h !! s = Some c /\ h_stops h !! d = Some dc /\
        p ∈ st_pickups c /\ p ∈ st_deliveries dc)).
  Proof.
    intros Ha. unfold segment_conflict. step. eapply runs_mono; [by apply (cells_runs st_deliveries)|]. intros ds ? (-> & Hd & Hd').
    step. eapply runs_mono; [by apply (cells_runs st_pickups)|]. intros ps ? (-> & Hp & Hp'). apply runs_ret. split; [done|]. split.
    2: { intros [p [Hin Hm]]%existsb_exists. apply elem_of_list_In in Hin. unfold memb in Hm. apply bool_decide_eq_true in Hm.
      destruct (Hd' p Hin) as (d & dc & ? & ? & ?). destruct (Hp' p Hm) as (s & c & ? & ? & ?). exists s, d, c, dc, p. done. }
    intros Hf s d c dc p Hs Hds Hc Hdc Hpc Hpd. specialize (Hp s c p Hs Hc Hpc). specialize (Hd d dc p Hds Hdc Hpd).
    assert (existsb (fun d => memb d (concat ps)) (concat ds) = true); [|congruence].
    apply existsb_exists. exists p. split; [by apply elem_of_list_In|]. unfold memb. by rewrite bool_decide_eq_true_2.
  Qed.
  (** what the check says about trips *)
  Lemma segment_trips h r v ids L i m :
    RouteW h r v ids L ->
    (forall s d c dc p, s ∈ take m (drop i ids) -> d ∈ take m (drop i ids) -> h_stops h !! s = Some c -> h_stops h !! d = Some dc ->
        p ∈ st_pickups c -> p ∉ st_deliveries dc) ->
    forall t, t ∈ boards (take m (drop i L)) -> t ∉ alights (take m (drop i L)).
  Proof.
    intros R Hn t Hb Ha. apply elem_of_boards in Hb as (x & Hx & Ht). apply elem_of_alights in Ha as (y & Hy & Ht').
    apply elem_of_list_lookup_1 in Hx as [a Hx]. apply elem_of_list_lookup_1 in Hy as [b Hy].
    assert (Hla : (a < m)%nat) by (apply lookup_lt_Some in Hx; rewrite take_length in Hx; lia).
    assert (Hlb : (b < m)%nat) by (apply lookup_lt_Some in Hy; rewrite take_length in Hy; lia).
    rewrite lookup_take, lookup_drop in Hx, Hy by done.
    assert (Hids : forall k z, L !! k = Some z -> exists s, ids !! k = Some s).
    { intros k z Hk. apply lookup_lt_is_Some_2. apply lookup_lt_Some in Hk. by rewrite (RouteW_length _ _ _ _ _ R). }
    destruct (Hids _ _ Hx) as [s Hs]. destruct (Hids _ _ Hy) as [d Hd].
    destruct (RouteW_lookup _ _ _ _ _ _ _ R Hs) as (c & x' & Hc & Hx' & Ex & K & _). rewrite Hx in Hx'. injection Hx' as <-.
    destruct (RouteW_lookup _ _ _ _ _ _ _ R Hd) as (dc & y' & Hdc & Hy' & Ey & Kd & _). rewrite Hy in Hy'. injection Hy' as <-.
    subst x y. cbn in Ht. apply elem_of_list_fmap in Ht as (p & -> & Hp).
    destruct (link_of_pickup _ _ _ _ _ _ _ _ _ R Hs Hc Hp) as (j & d' & dc' & pc & _ & Hd' & Hdc' & Hpd & _).
    destruct (RouteW_lookup _ _ _ _ _ _ _ R Hd') as (dc2 & y' & Hdc2 & Hy' & Ey & _). rewrite Hdc' in Hdc2. injection Hdc2 as <-.
    assert (j = (i + b)%nat) as ->.
    { eapply (flat_map_NoDup_lookup vi_alight L); [exact (rides_alights_nodup _ (rw_rides _ _ _ _ _ R))|exact Hy'|exact Hy| |exact Ht'].
      subst y'. cbn. apply elem_of_list_fmap. eauto. }
    rewrite Hd in Hd'. injection Hd' as <-. rewrite Hdc in Hdc'. injection Hdc' as <-.
    eapply (Hn s d c dc p); try done.
    - apply (elem_of_list_lookup_2 _ a). by rewrite lookup_take, lookup_drop.
    - apply (elem_of_list_lookup_2 _ b). by rewrite lookup_take, lookup_drop.
  Qed.

  Lemma RouteW_spare h r v ids L k s x : RouteW h r v ids L -> ids !! k = Some s -> L !! k = Some x -> spare h v s x.
  Proof.
    intros R Hs Hx. destruct (RouteW_lookup _ _ _ _ _ _ _ R Hs) as (c & x' & Hc & Hx' & Ex & K & V & _). rewrite Hx in Hx'. injection Hx' as <-.
    exists c. split; [done|]. split; [done|]. split; [done|]. split; [done|]. intros p Hp Hd.
    destruct (link_of_pickup _ _ _ _ _ _ _ _ _ R Hs Hc Hp) as (j & d & dc & pc & Hj & Hjd & _ & _ & Hpc & _ & _ & E1).
    destruct (link_of_delivery _ _ _ _ _ _ _ _ _ R Hs Hc Hd) as (j' & d' & dc' & pc' & _ & _ & _ & _ & Hpc' & _ & _ & E2).
    rewrite Hpc in Hpc'. injection Hpc' as <-. rewrite E1 in E2. injection E2 as ->.
    pose proof (NoDup_lookup_eq _ _ _ _ (RouteW_NoDup _ _ _ _ _ R) Hs Hjd). lia.
  Qed.

  (** ** A copy of the route with a segment reversed *)
  Lemma reverse_copy_runs h r v ids L i m :
    sane -> HInv h -> RouteOK h r v ids L -> (1 <= i)%nat -> (i + 1 < length L)%nat ->
    (forall t, t ∈ boards (take (min m (length L - 1 - i)) (drop i L)) -> t ∉ alights (take (min m (length L - 1 - i)) (drop i L))) ->
    runs (let! r' := route_clone r (i - 1) in
          let! ss' := route_stops r' in
          let! old := mapM (fun _ => remove_stop_at r' i) (seq i (length ss' - 1 - i)) in
          iterM (reinsert r') (reverse (take m old)) ;;;
          iterM (reinsert r') (drop m old) ;;; ret r') h
      (fun r' h' => spreads h h' /\ HInv h' /\ length (h_routes h') = S (length (h_routes h)) /\ r' = length (h_routes h) /\
         (forall c, h_routes h' !! r' = Some c -> rt_feasible c = None) /\
         exists ids', RouteOK h' r' v ids' (turned i (min m (length L - 1 - i)) L)).
  Proof.
    intros [SD SC] HI R Hi Hn Hseg. set (n := length L) in *. set (k := min m (n - 1 - i)) in *.
    step. unfold route_clone. step. eapply runs_mono; [eapply runs_hush; [apply hush_cloner_clone|by eapply cloner_clone_runs]|].
    intros [r' th] h1 [C Nc]. cbn [fst snd] in C. apply runs_ret.
    pose proof (cl_ok _ _ _ _ _ _ _ _ C) as R1. pose proof (Cloned_grow _ _ _ _ _ _ _ _ C) as G1.
    pose proof (cl_route _ _ _ _ _ _ _ _ C) as Er. pose proof (cl_cut _ _ _ _ _ _ _ _ C) as Hcut.
    assert (N1 : length (h_routes h1) = S (length (h_routes h))).
    { rewrite (cl_routes _ _ _ _ _ _ _ _ C), app_length. cbn. lia. }
    set (ids1 := clone_ids h th ids) in *.
    pose proof (RouteW_length _ _ _ _ _ (proj1 R1)) as Hl1. fold n in Hl1.
    assert (Hnew : forall a s, (i <= a)%nat -> ids1 !! a = Some s -> (length (h_stops h) <= s)%nat).
    { intros a s Ha Hs. unfold ids1, clone_ids in Hs. pose proof (cl_th _ _ _ _ _ _ _ _ C) as Hth.
      rewrite lookup_app_r in Hs by (rewrite take_length; lia). apply lookup_seq in Hs. lia. }
    assert (Hold : forall a s, ids1 !! a = Some s -> (s < length (h_stops h))%nat -> s ∈ ids).
    { intros a s Hs Hlt. unfold ids1, clone_ids in Hs. apply lookup_app_Some in Hs as [Hs|[_ Hs]].
      - apply elem_of_list_lookup_2 in Hs. by apply elem_of_take in Hs as (z & Hz%elem_of_list_lookup_2 & _).
      - apply lookup_seq in Hs. lia. }
    assert (Hhead : forall s, ids1 !! 0%nat = Some s -> (length (h_stops h) <= s)%nat \/
       (ids !! 0%nat = Some s /\ ids1 !! 1%nat = ids !! 1%nat /\ 2 <= i)%nat).
    { intros s Hs. unfold ids1, clone_ids in *. pose proof (cl_th _ _ _ _ _ _ _ _ C) as Hth. destruct Hcut as [->|Hc].
      - left. cbn in Hs. apply lookup_seq in Hs. lia.
      - right. rewrite lookup_app_l in Hs by (rewrite take_length; lia). rewrite lookup_take in Hs by lia.
        split; [done|]. split; [|lia]. rewrite lookup_app_l by (rewrite take_length; lia). by rewrite lookup_take by lia. }
    clearbody ids1.
    (* splitting the lists *)
    destruct (rw_cell _ _ _ _ _ (proj1 R1)) as (rc & Hrc & ErV & ErI).
    assert (HF : exists f, ids1 !! (n - 1)%nat = Some f) by (apply lookup_lt_is_Some_2; lia). destruct HF as [f Hf].
    assert (HX : exists x, L !! (n - 1)%nat = Some x) by (apply lookup_lt_is_Some_2; fold n; lia). destruct HX as [x Hx].
    assert (Split : forall A (l : list A) z, length l = n -> l !! (n - 1)%nat = Some z ->
       l = take i l ++ (take k (drop i l) ++ drop (i + k) (take (n - 1) l)) ++ [z] /\
       length (take i l) = i /\ length (take k (drop i l)) = k /\ length (drop (i + k) (take (n - 1) l)) = (n - 1 - i - k)%nat).
    { intros A l z Hl Hz. split; [|rewrite drop_length, !take_length, drop_length; unfold k; lia].
      assert (E0 : l = take (n - 1) l ++ [z]).
      { rewrite <- (take_drop_middle l (n - 1) z Hz) at 1. rewrite drop_ge by lia. done. }
      assert (E1 : take (n - 1) l = take i l ++ drop i (take (n - 1) l)).
      { rewrite <- (take_drop i (take (n - 1) l)) at 1. f_equal. rewrite take_take. f_equal. lia. }
      assert (E2 : drop i (take (n - 1) l) = take k (drop i l) ++ drop (i + k) (take (n - 1) l)).
      { rewrite <- (take_drop k (drop i (take (n - 1) l))) at 1. rewrite drop_drop. f_equal.
        rewrite <- skipn_firstn_comm || rewrite skipn_firstn_comm. rewrite take_take. f_equal. unfold k. lia. }
      rewrite E0 at 1. rewrite E1 at 1. rewrite E2 at 1. by rewrite <- !app_assoc. }
    destruct (Split _ ids1 f Hl1 Hf) as (EI & LX & LS & LR). destruct (Split _ L x eq_refl Hx) as (EL & LA & LB & LQ).
    assert (ET : turned i k L = take i L ++ reverse (take k (drop i L)) ++ drop (i + k) (take (n - 1) L) ++ [x]).
    { unfold turned. f_equal. f_equal. pose proof (drop_mid (take i L) (take k (drop i L)) (drop (i + k) (take (n - 1) L)) [x] (i + k)) as E.
      rewrite <- EL in E. apply E. lia. }
    rewrite ET. clear ET.
    assert (HnewD : forall s, s ∈ (take k (drop i ids1) ++ drop (i + k) (take (n - 1) ids1)) ++ [f] -> (length (h_stops h) <= s)%nat).
    { intros s Hs. assert (Hd : s ∈ drop i ids1).
      { rewrite EI, drop_app_alt by done. done. }
      apply elem_of_list_lookup_1 in Hd as [a Ha]. rewrite lookup_drop in Ha. eapply Hnew; [|exact Ha]. lia. }
    assert (HXold : forall s, s ∈ take i ids1 -> s ∈ ids1).
    { intros s Hs. rewrite EI. apply elem_of_app. by left. }
    assert (HX0 : take i ids1 !! 0%nat = ids1 !! 0%nat) by (by rewrite lookup_take by lia).
    assert (HX1 : (2 <= i)%nat -> take i ids1 !! 1%nat = ids1 !! 1%nat) by (intros ?; by rewrite lookup_take by lia).
    set (X := take i ids1) in *. set (S0 := take k (drop i ids1)) in *. set (Q := drop (i + k) (take (n - 1) ids1)) in *.
    set (A := take i L) in *. set (B := take k (drop i L)) in *. set (Z := drop (i + k) (take (n - 1) L)) in *.
    assert (HneX : X <> []) by (destruct X; cbn in LX; [lia|done]). assert (HneA : A <> []) by (destruct A; cbn in LA; [lia|done]).
    (* the trips of the segment *)
    assert (HsegN : forall s d c dc p, s ∈ S0 -> d ∈ S0 -> h_stops h1 !! s = Some c -> h_stops h1 !! d = Some dc ->
        p ∈ st_pickups c -> p ∉ st_deliveries dc).
    { assert (Hat : forall s c, s ∈ S0 -> h_stops h1 !! s = Some c -> abs h1 c ∈ B).
      { intros s c Hs Hc. apply elem_of_list_lookup_1 in Hs as [a Ha]. pose proof Ha as Ha'. unfold S0 in Ha.
        assert (a < k)%nat by (apply lookup_lt_Some in Ha'; lia). rewrite lookup_take, lookup_drop in Ha by done.
        destruct (RouteW_lookup _ _ _ _ _ _ _ (proj1 R1) Ha) as (c2 & y & Hc2 & Hy & -> & _). rewrite Hc in Hc2. injection Hc2 as <-.
        apply (elem_of_list_lookup_2 _ a). unfold B. by rewrite lookup_take, lookup_drop by done. }
      intros s d c dc p Hs Hd Hc Hdc Hp Hpd. apply (Hseg (trip_of h1 p)).
      - apply elem_of_boards. exists (abs h1 c). split; [by apply (Hat s)|]. cbn. apply elem_of_list_fmap. eauto.
      - apply elem_of_alights. exists (abs h1 dc). split; [by apply (Hat d)|]. cbn. apply elem_of_list_fmap. eauto. }
    assert (HSp : forall a s y, ids1 !! a = Some s -> L !! a = Some y -> spare h1 v s y) by (intros; by eapply RouteW_spare; [apply R1|..]).
    assert (FS : Forall2 (spare h1 v) S0 B).
    { apply Forall2_same_length_lookup. split; [lia|]. intros a s y Ha Hy. pose proof (lookup_lt_Some _ _ _ Ha).
      unfold S0 in Ha. unfold B in Hy. rewrite lookup_take, lookup_drop in Ha by lia. rewrite lookup_take, lookup_drop in Hy by lia. eauto. }
    assert (FQ : Forall2 (spare h1 v) Q Z).
    { apply Forall2_same_length_lookup. split; [lia|]. intros a s y Ha Hy. pose proof (lookup_lt_Some _ _ _ Ha).
      unfold Q in Ha. unfold Z in Hy. rewrite lookup_drop, lookup_take in Ha by lia. rewrite lookup_drop, lookup_take in Hy by lia. eauto. }
    clear HSp. clearbody X S0 Q A B Z.
    assert (R1' : RouteP h1 r' v (X ++ (S0 ++ Q) ++ [f]) (A ++ (B ++ Z) ++ [x])).
    { rewrite <- EI, <- EL. apply RouteW_P, R1. }
    pose proof (RouteP_NoDup _ _ _ _ _ R1') as Hnd.
    step. unfold route_stops. step. eapply runs_route_get; [exact Hrc|]. apply runs_ret. rewrite ErI, Hl1.
    step. rewrite <- LX.
    eapply runs_mono; [eapply runs_hush; [apply hush_mapM; intros; apply hush_remove_stop_at|]|].
    { eapply (strip_runs v r' f x X A HneX); [lia|exact R1'|]. rewrite seq_length, app_length. lia. }
    intros old h2 [(-> & R2 & Ed2 & MG2) Nr2].
    assert (G2 : grow h h2) by (apply MG2; [done|done|lia]).
    (* what is put back *)
    assert (EK : take m (S0 ++ Q) = S0 /\ drop m (S0 ++ Q) = Q).
    { destruct (decide (m <= n - 1 - i)%nat) as [Hm|Hm].
      - assert (length S0 = m) by (unfold k in LS; lia). split; [by apply take_app_alt|by apply drop_app_alt].
      - assert (length Q = 0%nat) by (unfold k in LR; lia). destruct Q; [|done]. rewrite app_nil_r.
        split; [apply take_ge|apply drop_ge]; unfold k in LS; lia. }
    destruct EK as [-> ->].
    assert (HndD : NoDup X /\ NoDup S0 /\ NoDup Q /\ (forall s, s ∈ S0 -> s ∉ X ++ [f]) /\ (forall s, s ∈ Q -> s ∉ (X ++ reverse S0) ++ [f])).
    { apply NoDup_app in Hnd as (D1 & D2 & D3). apply NoDup_app in D3 as (D3 & D4 & D5). apply NoDup_app in D3 as (D3 & D6 & D7).
      split; [done|]. split; [done|]. split; [done|]. split; intros s Hs.
      - rewrite elem_of_app. intros [Hs'|Hs']; [apply (D2 s Hs'); set_solver|apply (D4 s); [set_solver|done]].
      - rewrite !elem_of_app, elem_of_reverse. intros [[Hs'|Hs']|Hs'];
          [apply (D2 s Hs'); set_solver|by apply (D6 s Hs')|apply (D4 s); [set_solver|done]]. }
    destruct HndD as (NX & NS & NQ & HdS & HdQ).
    assert (Hush : forall s, hush (reinsert r' s)).
    { intros s. unfold reinsert, current_stop, route_stops. pose proof hush_insert_stop. hush. }
    step. eapply runs_mono; [eapply runs_hush; [apply hush_iterM, Hush|]|].
    { eapply (reinserts_runs r' v f x (reverse S0) (reverse B) h2 X A R2 HneX).
      - eapply NoDup_perm; [|exact NS]. apply reverse_Permutation.
      - intros s Hs. apply HdS. by rewrite elem_of_reverse in Hs.
      - apply Forall2_reverse. eapply Forall2_impl; [exact FS|]. intros. by eapply spare_edited. }
    intros ? h3 [(R3 & Ed3 & MG3) Nr3].
    assert (G3 : grow h h3).
    { apply MG3; [done| | |lia].
      - intros s Hs. apply HnewD. rewrite elem_of_reverse in Hs. set_solver.
      - apply HnewD. set_solver. }
    step. eapply runs_mono; [eapply runs_hush; [apply hush_iterM, Hush|]|].
    { eapply (reinserts_runs r' v f x Q Z h3 (X ++ reverse S0) (A ++ reverse B) R3).
      - by destruct X.
      - done.
      - done.
      - eapply Forall2_impl; [exact FQ|]. intros. eapply spare_edited; [|done]. by eapply edited_trans. }
    intros ? h4 [(R4 & Ed4 & MG4) Nr4]. apply runs_ret.
    assert (G4 : grow h h4).
    { apply MG4; [done| | |lia].
      - intros s Hs. apply HnewD. set_solver.
      - apply HnewD. set_solver. }
    assert (Ed14 : edited h1 h4) by (eapply edited_trans; [exact Ed2|]; by eapply edited_trans).
    assert (N04 : hushes h h4).
    { eapply hushes_trans; [exact Nc|]. eapply hushes_trans; [exact Nr2|]. by eapply hushes_trans. }
    assert (N4 : length (h_routes h4) = S (length (h_routes h))) by (rewrite (ed_nroutes _ _ Ed14); done).
    rewrite <- !app_assoc in R4.
    assert (RO4 : RouteOK h4 r' v (X ++ reverse S0 ++ Q ++ [f]) (A ++ reverse B ++ Z ++ [x])).
    { destruct R1 as [[_ _ RR RL] RT]. split; [split|].
      - apply R4.
      - apply R4.
      - apply rides_turn; [|done]. rewrite <- app_assoc in EL. by rewrite <- EL.
      - rewrite EI, <- app_assoc in RL.
        eapply Links_frame; [by apply (Links_turn h1)| | |].
        + intros s Hs. eapply (RouteP_alloc _ _ _ _ _ _ R1'). rewrite turn_perm in Hs. by rewrite <- app_assoc.
        + intros s c Hs Hc. destruct (ed_stops _ _ Ed14 _ _ Hc) as (c' & Hc' & _ & _ & E3 & E4 & _). eauto.
        + intros s c p pc _ _ _ Hpc. by apply (ed_pts _ _ Ed14).
      - apply tour_turn; [done| |done]. rewrite <- app_assoc in EL. by rewrite <- EL. }
    assert (HI4 : HInv h4).
    { eapply (HInv_extend h h4); [done|by apply later_grow|lia|done|exact RO4|]. intros s Hs.
      assert (HXs : ids1 !! 0%nat = Some s).
      { rewrite <- HX0. rewrite lookup_app_l in Hs; [done|lia]. }
      destruct (Hhead s HXs) as [?|(H0 & H1 & H2)]; [by left|]. right.
      destruct (rw_cell _ _ _ _ _ (proj1 R)) as (c & Hc & _ & Ec). exists r, c. rewrite Ec. split; [done|]. split; [done|].
      rewrite <- H1, lookup_app_l by lia. symmetry. by apply HX1. }
    split; [|split; [done|split; [done|split; [done|split]]]].
    - split; [done|]. intros g. apply (Worth_extend g h h4); [done|done|by apply later_grow|done|].
      intros r0 rc0 s cs Hr0 Hrc0 Hs' Hcs Hcase.
      assert (r0 = r') as -> by (apply lookup_lt_Some in Hrc0; lia).
      destruct (rw_cell _ _ _ _ _ (proj1 RO4)) as (c2 & Hc2 & _ & E2). rewrite Hrc0 in Hc2. injection Hc2 as <-. rewrite E2 in Hs'.
      rewrite turn_perm in Hs'. assert (Hs1 : s ∈ ids1) by (by rewrite EI, <- app_assoc). apply elem_of_list_lookup_1 in Hs1 as [a1 Ha].
      assert (Hlt : (s < length (h_stops h))%nat -> exists r0 c0, h_routes h !! r0 = Some c0 /\ s ∈ rt_stops c0).
      { intros Hlt. destruct (rw_cell _ _ _ _ _ (proj1 R)) as (c & Hc & _ & Ec). exists r, c. split; [done|]. rewrite Ec. eauto. }
      destruct N04 as (K1 & K2 & _). destruct Hcase as [Hfl|(q & qc & Hq & Hqc & Hfl)].
      { destruct (K1 s cs g Hcs Hfl) as (c & Hc & _). apply lookup_lt_Some in Hc. auto. }
      destruct (decide (s < length (h_stops h))%nat) as [?|Hge]; [auto|]. exfalso.
      destruct (K2 q qc g Hqc Hfl) as (qc0 & Hqc0 & _). apply lookup_lt_Some in Hqc0.
      destruct (RouteW_lookup _ _ _ _ _ _ _ (proj1 R1) Ha) as (c1 & _ & Hc1 & _).
      destruct (ed_stops _ _ Ed14 _ _ Hc1) as (c3 & Hc3 & _ & _ & E & _). rewrite Hcs in Hc3. injection Hc3 as <-. rewrite E in Hq.
      destruct (cl_stops _ _ _ _ _ _ _ _ C) as (N & EN & HlN & HfN).
      rewrite EN in Hc1. apply lookup_app_Some in Hc1 as [Hc1|[_ Hc1]]; [apply lookup_lt_Some in Hc1; lia|].
      rewrite Forall_lookup in HfN. destruct (HfN _ _ Hc1) as (_ & _ & HN). specialize (HN q). rewrite elem_of_app in HN.
      specialize (HN (or_introl Hq)). lia.
    - intros c Hc. destruct (rt_feasible c) as [g|] eqn:Hfl; [|done]. exfalso. destruct N04 as (_ & _ & K3).
      destruct (K3 _ _ _ Hc Hfl) as (c0 & Hc0 & _). apply lookup_lt_Some in Hc0. lia.
    - eauto.
  Qed.

  (** ** One pair of positions *)
  (** [r'] drives the visits of a route of [rs] with a stretch reversed, which
      is better *)
  Definition Born (o : objective) (h0 : heap) (rs : list nat) (h : heap) (r' : nat) : Prop :=
    exists r v ids L ids' ys, r ∈ rs /\ RouteOK h r v ids L /\ RouteOK h r' v ids' ys /\ turns L ys /\
      lex_lt (value_of o v L) (value_of o v ys) /\ (Fair h0 -> nearly v ys /\ brief v ys).
  Lemma Born_spreads o h0 rs h h' r' : spreads h h' -> Born o h0 rs h r' -> Born o h0 rs h' r'.
  Proof.
    intros [G _] (r & v & ids & L & ids' & ys & Hr & R & R' & H). exists r, v, ids, L, ids', ys.
    split; [done|]. split; [by eapply RouteOK_grow|]. split; [by eapply RouteOK_grow|done].
  Qed.
  Lemma value_of_length o v xs ys : length (value_of o v xs) = length (value_of o v ys).
  Proof. by destruct o. Qed.
  Definition Pending (o : objective) (h0 : heap) (rs : list nat) (v : nat) (L : list visit) (st : list Z * list nat) (h : heap) : Prop :=
    spreads h0 h /\ HInv h /\ (exists ys, st.1 = value_of o v ys) /\ at_least (value_of o v L) st.1 /\
    (forall r', r' ∈ st.2 -> Born o h0 rs h r').
  Lemma Pending_spreads o h0 rs v L st h h' : Pending o h0 rs v L st h -> spreads h h' -> HInv h' -> Pending o h0 rs v L st h'.
  Proof.
    intros (S & HI & H1 & H2 & H3) S' HI'. split; [by eapply spreads_trans|]. split; [done|]. split; [done|]. split; [done|].
    intros r' Hr'. by eapply Born_spreads; [|apply H3].
  Qed.
  Lemma lex_trans' x y z : lex_lt x y -> lex_lt y z -> lex_lt x z.
  Proof.
    intros H. revert z. induction H as [a b l l' Hab|a l l' H IH]; intros z H2; inversion H2; subst.
    - apply lex_here. lia.
    - by apply lex_here.
    - by apply lex_here.
    - apply lex_later. by apply IH.
  Qed.
  Lemma lex_total x : forall y, length x = length y -> lex_lt x y \/ x = y \/ lex_lt y x.
  Proof.
    induction x as [|a x IH]; intros [|b y] Hl; try done; [auto|]. destruct (Z.lt_trichotomy a b) as [?|[->|?]].
    - left. by apply lex_here.
    - destruct (IH y) as [?|[->|?]]; [cbn in Hl; lia|left; by apply lex_later|auto|right; right; by apply lex_later].
    - right; right. by apply lex_here.
  Qed.
  (** nothing happened, or a better route was found; afterwards the reversed
      stretch does not bring more *)
  Definition Tried (o : objective) (h0 : heap) (v : nat) (L : list visit) (st : list Z * list nat) (h : heap) (i j : nat) (st' : list Z * list nat) (h' : heap) : Prop :=
    spreads h h' /\
    (st' = st \/ lex_lt st.1 st'.1 /\
       exists r' ids' ys, st'.2 = set_add r' st.2 /\ RouteOK h' r' v ids' ys /\ st'.1 = value_of o v ys) /\
    (let k := min (S (S j) - i) (length L - 1 - i) in
     Worth false h0 -> (forall t, t ∈ boards (take k (drop i L)) -> t ∉ alights (take k (drop i L))) ->
     route_okb v (turned i k L) -> at_least (value_of o v (turned i k L)) st'.1).
  Lemma two_opt_step_runs o h0 rs r v ids L st i j h :
    sane -> r ∈ rs -> RouteOK h0 r v ids L -> (1 <= i < j)%nat -> (j < length L - 1)%nat ->
    Pending o h0 rs v L st h -> runs (two_opt_step o r st (i, j)) h (fun st' h' => Pending o h0 rs v L st' h' /\ Tried o h0 v L st h i j st' h').
  Proof.
    intros Hs Hr R0 Hij Hj P. pose proof P as (S0 & HI & (ys0 & Hc0) & Hge & HB).
    pose proof (RouteOK_grow _ _ _ _ _ _ (proj1 S0) R0) as R.
    unfold two_opt_step. cbn [fst snd]. step. eapply runs_route_stops; [apply R|]. step.
    eapply runs_mono; [apply segment_conflict_runs|].
    { intros s Hin. eapply RouteW_ids_alloc; [apply R|]. apply elem_of_take in Hin as (z & Hz & _).
      rewrite lookup_drop in Hz. by eapply elem_of_list_lookup_2. }
    intros b ? (-> & Hb & Hb'). set (m := (S (S j) - i)%nat) in *. set (k := min m (length L - 1 - i)).
    destruct b.
    { apply runs_ret. split; [done|]. split; [apply spreads_refl|]. split; [by left|]. cbv zeta. fold m k. intros _ Hno _. exfalso.
      destruct (Hb' eq_refl) as (s & d & c & dc & p & Hins & Hind & Hc & Hdc & Hp & Hd).
      assert (At : forall s c, s ∈ take m (drop i ids) -> h_stops h !! s = Some c ->
        abs h c ∈ take k (drop i L) \/ vi_board (abs h c) = [] /\ vi_alight (abs h c) = []).
      { clear -R Hij Hj. intros s c Hs Hc. apply elem_of_list_lookup_1 in Hs as [a Ha].
        assert (a < m)%nat by (apply lookup_lt_Some in Ha; rewrite take_length in Ha; lia).
        rewrite lookup_take, lookup_drop in Ha by done.
        destruct (RouteW_lookup _ _ _ _ _ _ _ (proj1 R) Ha) as (c' & x & Hc' & Hx & -> & _). rewrite Hc in Hc'. injection Hc' as <-.
        destruct (decide (a < k)%nat) as [Hk|Hk].
        - left. apply (elem_of_list_lookup_2 _ a). by rewrite lookup_take, lookup_drop.
        - right. destruct (tour_last _ _ (proj2 R)) as (front & xn & -> & _ & E1 & E2).
          pose proof (lookup_lt_Some _ _ _ Hx) as Hl. unfold k in Hk. rewrite app_length in *. cbn in *.
          rewrite lookup_app_r in Hx by lia. replace (i + a - length front)%nat with 0%nat in Hx by lia. injection Hx as Hx. rewrite Hx in E1, E2. done. }
      destruct (At s c Hins Hc) as [A1|[A1 _]]; [|cbn in A1; apply fmap_nil_inv in A1; rewrite A1 in Hp; inversion Hp].
      destruct (At d dc Hind Hdc) as [A2|[_ A2]]; [|cbn in A2; apply fmap_nil_inv in A2; rewrite A2 in Hd; inversion Hd].
      apply (Hno (trip_of h p)).
      - apply elem_of_boards. eexists. split; [exact A1|]. cbn. apply elem_of_list_fmap. eauto.
      - apply elem_of_alights. eexists. split; [exact A2|]. cbn. apply elem_of_list_fmap. eauto. }
    specialize (Hb eq_refl).
    assert (Hseg : forall t, t ∈ boards (take k (drop i L)) -> t ∉ alights (take k (drop i L))).
    { apply (segment_trips h r v ids L i k (proj1 R)). intros s d c dc p Hin Hd. apply (Hb s d c dc p).
      - apply elem_of_take in Hin as (z & Hz & Hlt). apply (elem_of_list_lookup_2 _ z). rewrite lookup_take by (unfold k in Hlt; lia). done.
      - apply elem_of_take in Hd as (z & Hz & Hlt). apply (elem_of_list_lookup_2 _ z). rewrite lookup_take by (unfold k in Hlt; lia). done. }
    pose proof (reverse_copy_runs h r v ids L i m Hs HI R ltac:(lia) ltac:(lia) Hseg) as RC.
    apply runs_bind_inv in RC. step. eapply runs_mono; [exact RC|]. clear RC. intros r' h1 RC.
    apply runs_bind_inv in RC. step. eapply runs_mono; [exact RC|]. clear RC. intros ss h2 RC.
    apply runs_bind_inv in RC. step. eapply runs_mono; [exact RC|]. clear RC. intros old h3 RC.
    apply runs_bind_inv in RC. step. eapply runs_mono; [exact RC|]. clear RC. intros ? h4 RC.
    apply runs_bind_inv in RC. step. eapply runs_mono; [exact RC|]. clear RC. intros ? h5 RC.
    unfold runs, ret in RC. destruct RC as (S5 & HI5 & Hl5 & Er & Hf5 & ids' & R5). fold k in R5. set (ys := turned i k L) in *.
    step. eapply runs_mono; [eapply route_feasible_runs; [apply Hs|apply Hs|apply R5|by eapply RouteW_nonempty]|].
    intros b h6 (S6 & _ & HF & _ & HN). pose proof (RouteOK_soft _ _ _ _ _ _ S6 R5) as R6.
    assert (HI6 : HInv h6) by by eapply HInv_soft.
    assert (S06 : spreads h h6) by (eapply spreads_trans; [exact S5|by apply spreads_soft]).
    destruct b; cbn [negb].
    2: { apply runs_ret. split; [by eapply Pending_spreads|]. split; [done|]. split; [by left|]. cbv zeta. fold m k ys. intros Wf _ Hok. exfalso.
      apply (HN (proj2 S5 false (proj2 S0 false Wf))); [|done|done]. intros c Hc. by rewrite (Hf5 c Hc). }
    step. eapply gives_det_runs; [eapply route_value_gives; apply R6|]. intros h7 [S7 _].
    pose proof (RouteOK_soft _ _ _ _ _ _ S7 R6) as R7.
    assert (HI7 : HInv h7) by by eapply HInv_soft.
    assert (S07 : spreads h h7) by (eapply spreads_trans; [exact S06|by apply spreads_soft]).
    pose proof (Pending_spreads _ _ _ _ _ _ _ _ P S07 HI7) as P7.
    destruct (tuple_ltb st.1 (value_of o v ys)) eqn:Hlt; cbn [negb].
    2: { apply runs_ret. split; [done|]. split; [done|]. split; [by left|]. cbv zeta. fold m k ys. intros _ _ _. rewrite Hc0 in Hlt |- *. unfold at_least.
      destruct (lex_total (value_of o v ys0) (value_of o v ys)) as [H|[H|H]]; [apply value_of_length| |by left|by right].
      apply tuple_ltb_lex in H; [|apply value_of_length]. congruence. }
    apply runs_ret. split.
    2: { rewrite Hc0 in Hlt. apply tuple_ltb_lex in Hlt; [|apply value_of_length]. rewrite <- Hc0 in Hlt.
      split; [done|]. split; [|cbv zeta; fold m k ys; intros _ _ _; by left]. right. split; [done|]. by exists r', ids', ys. }
    destruct P7 as (A1 & A2 & _ & _ & A5). split; [done|]. split; [done|]. cbn [fst snd].
    rewrite Hc0 in Hlt. apply tuple_ltb_lex in Hlt; [|apply value_of_length]. rewrite <- Hc0 in Hlt.
    assert (Hlt' : lex_lt (value_of o v L) (value_of o v ys)).
    { destruct Hge as [<-|Hge]; [done|by eapply lex_trans']. }
    split; [by eexists|]. split; [by right|].
    intros q Hq. assert (Hq' : q ∈ st.2 \/ q = r').
    { unfold set_add in Hq. destruct (memb r' st.2); [by left|]. apply elem_of_app in Hq as [?|Hq%elem_of_list_singleton]; auto. }
    destruct Hq' as [Hq'| ->]; [by apply A5|]. exists r, v, ids, L, ids', ys.
    split; [done|]. split; [eapply RouteOK_grow; [apply A1|done]|]. split; [done|]. split; [|split; [done|]].
    - exists i, k. split; [lia|]. split; [unfold k, m; lia|]. split; [unfold k; lia|done].
    - intros F. destruct (HF (proj2 S5 true (proj2 S0 true F)) eq_refl) as [? HBr]. split; [done|]. apply HBr. intros c Hc. by rewrite (Hf5 c Hc).
  Qed.

  (** ** All pairs, all routes *)
  Lemma two_opt_route_runs o h0 rs r ov h :
    sane -> r ∈ rs -> (exists v ids L, RouteOK h0 r v ids L) -> spreads h0 h -> HInv h ->
    (forall r', r' ∈ ov -> Born o h0 rs h r') ->
    runs (two_opt_route o ov r) h (fun ov' h' => spreads h0 h' /\ HInv h' /\ (forall r', r' ∈ ov' -> Born o h0 rs h' r')).
  Proof.
    intros Hs Hr (v & ids & L & R0) S0 HI HB. pose proof (RouteOK_grow _ _ _ _ _ _ (proj1 S0) R0) as R.
    unfold two_opt_route. step. eapply gives_det_runs; [eapply route_value_gives; apply R|]. intros h1 [S1 _].
    pose proof (RouteOK_soft _ _ _ _ _ _ S1 R) as R1. assert (HI1 : HInv h1) by by eapply HInv_soft.
    step. eapply runs_route_stops; [apply R1|]. step.
    eapply runs_mono; [apply (runs_foldM _ (Pending o h0 rs v L))|].
    - split; [eapply spreads_trans; [exact S0|by apply spreads_soft]|]. split; [done|]. split; [by eexists|]. split; [by left|].
      intros r' Hr'. eapply Born_spreads; [by apply spreads_soft|by apply HB].
    - intros st [i j] h2 Hin P2. apply combinations2_seq in Hin. rewrite (RouteW_length _ _ _ _ _ (proj1 R1)) in Hin.
      eapply runs_mono; [apply (two_opt_step_runs o h0 rs r v ids L); [done|done|done|lia|lia|done]|]. by intros st' h' [? _].
    - intros st h2 (A1 & A2 & _ & _ & A5). apply runs_ret. done.
  Qed.
  Lemma update_two_opt_runs o h0 rs ov h :
    (forall r, r ∈ rs -> exists v ids L, RouteOK h r v ids L) -> (forall r', r' ∈ ov -> Born o h0 rs h r') ->
    runs (update_routes rs ov) h (fun pl h' => h' = h /\
      (forall r', r' ∈ pl -> r' ∈ rs \/ r' ∈ ov) /\
      (forall r v ids L, r ∈ rs -> RouteOK h r v ids L -> r ∈ pl \/ exists r' ids' ys, r' ∈ pl /\ r' ∈ ov /\ RouteOK h r' v ids' ys)).
  Proof.
    intros HR HO. unfold update_routes. destruct ov as [|a ov0] eqn:Eov.
    { apply runs_ret. split; [done|]. split; [tauto|]. intros r v ids L Hr _. by left. }
    rewrite <- Eov in *. clear Eov a ov0.
    assert (HO' : forall r, r ∈ ov -> exists v ids L, RouteOK h r v ids L).
    { intros r' Hr'. destruct (HO r' Hr') as (_ & v & _ & _ & ids & L & _ & _ & R & _). eauto. }
    assert (HV : forall l, (forall r, r ∈ l -> exists v ids L, RouteOK h r v ids L) ->
      runs (mapM (fun r => let! c := route_get r in ret (rt_vehicle c)) l) h (fun vs h' => h' = h /\
        Forall2 (fun r v => exists ids L, RouteOK h r v ids L) l vs)).
    { induction l as [|r l IH]; intros Hl; cbn [mapM]; [by apply runs_ret|]. destruct (Hl r) as (v & ids & L & R); [left|].
      destruct (rw_cell _ _ _ _ _ (proj1 R)) as (c & Hc & EV & _). step. step. eapply runs_route_get; [exact Hc|]. apply runs_ret. rewrite EV.
      step. eapply runs_mono; [apply IH; intros; apply Hl; by right|]. intros vs ? [-> F]. apply runs_ret. split; [done|]. constructor; eauto. }
    step. eapply runs_mono; [by apply HV|]. intros vs ? [-> FV]. clear HV.
    step. eapply runs_mono; [apply (runs_filterM _ (fun h' => h' = h) (fun r b => forall v ids L, RouteOK h r v ids L -> b = negb (memb v vs)))|].
    { done. }
    { intros r ? Hr ->. destruct (HR r Hr) as (v & ids & L & R). destruct (rw_cell _ _ _ _ _ (proj1 R)) as (c & Hc & EV & _).
      step. eapply runs_route_get; [exact Hc|]. apply runs_ret. split; [done|]. rewrite EV. intros v' ids' L' R'.
      by destruct (RouteW_det _ _ _ _ _ _ _ _ (proj1 R) (proj1 R')) as (-> & _). }
    intros keep ? (-> & H1 & _ & H2). apply runs_ret.
    split; [done|]. destruct (set_union_spec keep ov) as [SU _]. split.
    - intros r'. rewrite SU. intros [Hk|?]; [left|by right]. by apply H1 in Hk as [? _].
    - intros r v ids L Hr R. destruct (decide (v ∈ vs)) as [Hv|Hv].
      + right. apply elem_of_list_lookup_1 in Hv as [a Ha]. destruct (Forall2_lookup_r _ _ _ _ _ FV Ha) as (r' & Hr' & ids' & ys & R').
        apply elem_of_list_lookup_2 in Hr'. exists r', ids', ys. rewrite SU. auto.
      + left. rewrite SU. left. destruct (decide (r ∈ keep)) as [?|Hk]; [done|]. specialize (H2 r Hr Hk v ids L R).
        unfold memb in H2. by rewrite bool_decide_eq_false_2 in H2.
  Qed.
End two_opt.
