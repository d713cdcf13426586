(** C27: local search by reallocation. *)
From Verif Require Export Searches LocalProofs.

Lemma single_good `{W : World} h pl : single_stops h pl <-> @all_good _ simple_shape h pl.
Proof. done. Qed.
Section bridge.
  Context {W : World} {Sh : Shape} {Ls : Loose}.

  Lemma concat_nodup {A} (l : list (list A)) : Forall (fun x => NoDup x) l ->
    (forall i j x y t, l !! i = Some x -> l !! j = Some y -> t ∈ x -> t ∈ y -> i = j) -> NoDup (concat l).
  Proof.
    induction l as [|x l IH]; intros F H; cbn; [constructor|]. apply Forall_cons in F as [Fx F].
    apply NoDup_app. split; [done|]. split.
    - intros t Ht Hc. apply elem_of_list_In, in_concat in Hc as (y & Hy & Hty). apply elem_of_list_In in Hy, Hty.
      apply elem_of_list_lookup_1 in Hy as [j Hj]. by pose proof (H 0%nat (S j) x y t eq_refl Hj Ht Hty).
    - apply IH; [done|]. intros i j y z t Hi Hj Hy Hz. by pose proof (H (S i) (S j) y z t Hi Hj Hy Hz) as [= ->].
  Qed.
  Lemma elem_of_concat {A} (l : list (list A)) t : t ∈ concat l <-> exists i x, l !! i = Some x /\ t ∈ x.
  Proof.
    rewrite elem_of_list_In, in_concat. split.
    - intros (x & Hx & Ht). apply elem_of_list_In in Hx, Ht. apply elem_of_list_lookup_1 in Hx as [i Hi]. by exists i, x.
    - intros (i & x & Hi & Ht). exists x. split; apply elem_of_list_In; [by eapply elem_of_list_lookup_2|done].
  Qed.
  Lemma Serves_nodup h r v B : Serves h r v B -> NoDup B.
  Proof. intros (ids & L & [R _] & _ & <-). apply (rw_rides _ _ _ _ _ R). Qed.

  Lemma valid_Plan h vs U rs : valid_planning h vs U rs -> all_good h rs ->
    exists A, Plan h rs A /\ map fst A ≡ₚ vs /\ (forall t, t ∈ concat (map snd A) -> t ∈ U).
  Proof.
    intros [V1 (ws & Hws & V2) V3 V4] G.
    assert (exists A, Forall2 (fun r a => Serves h r a.1 a.2) rs A /\ map fst A = ws) as (A & F & Ew).
    { assert (Hin : forall r, r ∈ rs -> r ∈ rs) by done. revert Hin V2. generalize rs at 1 3 4 as l. intros l. revert ws Hws.
      intros ws _. revert ws. induction l as [|r l IH]; intros ws Hin V2; inversion V2 as [|? w ? ws' (ts & S) V2']; subst.
      - by exists [].
      - destruct (IH ws') as (A & F & E); [intros; apply Hin; by right|done|]. exists ((w, ts) :: A).
        split; [|by cbn; f_equal]. constructor; [|done]. cbn. eapply (route_Serves h r w ts rs); [done|apply Hin; left|done]. }
    assert (HN : NoDup (map fst A)) by (by rewrite Ew, Hws).
    exists A. split; [split; [done|]; split; [done|]|].
    - apply concat_nodup.
      + apply Forall_fmap, Forall_forall. intros a Ha. apply elem_of_list_lookup_1 in Ha as [i Hi].
        destruct (Forall2_lookup_r _ _ _ _ _ F Hi) as (r & _ & S). by eapply Serves_nodup.
      + intros i j B C t Hi Hj HtB HtC. apply list_lookup_fmap_Some in Hi as (a & Hi & ->). apply list_lookup_fmap_Some in Hj as (b & Hj & ->).
        destruct (Forall2_lookup_r _ _ _ _ _ F Hi) as (r & Hr & S). destruct (Forall2_lookup_r _ _ _ _ _ F Hj) as (q & Hq & S').
        assert (r = q) as <-.
        { eapply V4; [by eapply elem_of_list_lookup_2|by eapply elem_of_list_lookup_2|by apply Serves_route, S|by apply Serves_route, S'|done|done]. }
        destruct (Serves_det _ _ _ _ _ _ S S') as [E _].
        eapply NoDup_lookup_eq; [exact HN| |]; rewrite list_lookup_fmap; [rewrite Hi|rewrite Hj]; cbn; [done|by rewrite E].
    - split; [by rewrite Ew|]. intros t (i & B & Hi & Ht)%elem_of_concat. apply list_lookup_fmap_Some in Hi as (a & Hi & ->).
      destruct (Forall2_lookup_r _ _ _ _ _ F Hi) as (r & Hr & S).
      eapply V3; [by eapply elem_of_list_lookup_2|by apply Serves_route, S|done].
  Qed.
  Lemma Plan_valid h vs U rs A : Plan h rs A -> map fst A ≡ₚ vs -> (forall t, t ∈ concat (map snd A) -> t ∈ U) ->
    valid_planning h vs U rs /\ all_good h rs.
  Proof.
    intros (F & N1 & N2) Hv HU. split; [split|].
    - by rewrite <- Hv.
    - exists (map fst A). split; [done|]. clear -F. induction F as [|r a rs A S F IH]; cbn; constructor; [|done].
      exists a.2. by apply Serves_route.
    - intros r v ts t Hr S Ht. apply elem_of_list_lookup_1 in Hr as [i Hi]. destruct (Forall2_lookup_l _ _ _ _ _ F Hi) as (a & Ha & S').
      destruct (route_serves_eq _ _ _ _ _ _ S' S) as [_ <-]. apply HU, elem_of_concat. exists i, a.2. split; [|done].
      by rewrite list_lookup_fmap, Ha.
    - intros r r' v v' ts ts' t Hr Hr' S S' Ht Ht'.
      apply elem_of_list_lookup_1 in Hr as [i Hi]. destruct (Forall2_lookup_l _ _ _ _ _ F Hi) as (a & Ha & Sa).
      apply elem_of_list_lookup_1 in Hr' as [j Hj]. destruct (Forall2_lookup_l _ _ _ _ _ F Hj) as (b & Hb & Sb).
      destruct (route_serves_eq _ _ _ _ _ _ Sa S) as [_ <-]. destruct (route_serves_eq _ _ _ _ _ _ Sb S') as [_ <-].
      assert (i = j) as <-; [|congruence].
      eapply (concat_disjoint (map snd A) i j a.2 b.2 t); [done| | |done|done]; rewrite list_lookup_fmap; [by rewrite Ha|by rewrite Hb].
    - apply served_all_good. intros r Hr. by apply (Plan_served h rs A).
  Qed.
  Lemma Plan_takes h rs A t : Plan h rs A -> takes h rs t <-> t ∈ concat (map snd A).
  Proof.
    intros (F & N1 & N2). rewrite elem_of_concat. split.
    - intros (v & us & (r & Hr & S) & Ht). apply elem_of_list_lookup_1 in Hr as [i Hi].
      destruct (Forall2_lookup_l _ _ _ _ _ F Hi) as (a & Ha & Sa). destruct (route_serves_eq _ _ _ _ _ _ Sa S) as [_ <-].
      exists i, a.2. split; [|done]. by rewrite list_lookup_fmap, Ha.
    - intros (i & B & Hi & Ht). apply list_lookup_fmap_Some in Hi as (a & Ha & ->).
      destruct (Forall2_lookup_r _ _ _ _ _ F Ha) as (r & Hr & S). exists a.1, a.2. split; [|done].
      exists r. split; [by eapply elem_of_list_lookup_2|by apply Serves_route].
  Qed.
  Lemma Plan_planned h rs A : Plan h rs A -> well_planned h rs.
  Proof.
    intros P r Hr. destruct (Plan_served _ _ _ _ P Hr) as (v & B & ids & L & [R _] & _).
    exists v, ids, L. by apply well_formed_RouteW.
  Qed.
  Lemma untouched_grow h h' : untouched h h' -> grow h h'.
  Proof.
    intros (H1 & H2 & H3). apply grow_intro.
    - intros s c E. exists c. rewrite H1 by (by eapply lookup_lt_Some). split; [done|]. split; [done|apply weaker_refl].
    - intros p c E. exists c. by rewrite H2 by (by eapply lookup_lt_Some).
    - intros r c E. exists c. by rewrite H3 by (by eapply lookup_lt_Some).
  Qed.
  Lemma total_worth_kept o h h' pl x : routes_kept h h' -> total_worth o h pl x -> total_worth o h' pl x.
  Proof.
    intros [_ K] (xs & F & ->). exists xs. split; [|done]. eapply Forall2_impl; [exact F|].
    intros r y (v & ids & ys & R & E). exists v, ids, ys. split; [by apply K|done].
  Qed.
  Lemma lex_trans x y z : lex_lt x y -> lex_lt y z -> lex_lt x z.
  Proof.
    intros H. revert z. induction H as [a b l l' Hab|a l l' H IH]; intros z H2; inversion H2; subst.
    - apply lex_here. lia.
    - by apply lex_here.
    - by apply lex_here.
    - apply lex_later. by apply IH.
  Qed.
  Lemma lex_irrefl x : ~ lex_lt x x.
  Proof. induction x as [|a x IH]; inversion 1; subst; [lia|done]. Qed.

  (** ** One round *)
  Lemma ls_round o h best A x : sane -> HInv h -> (trusted -> Trust h) -> Plan h best A -> total_worth o h best x ->
    exists cur w h1 h2 A', ls_improve Reallocation o best h = (Ok cur, h1) /\
      objective_best o [best; cur] h1 = (Ok w, h2) /\
      HInv h2 /\ (evolves h h2 /\ routes_kept h h2) /\ Plan h2 best A /\ Plan h2 cur A' /\
      map fst A' ≡ₚ map fst A /\ concat (map snd A') ≡ₚ concat (map snd A) /\
      total_worth o h2 best x /\
      ((w = Some 1%nat /\ exists y, total_worth o h2 cur y /\ lex_lt x y) \/ w = Some 0%nat).
  Proof.
    intros Hs HI HT P Wx. destruct (Plan_sold o h best A P) as (z & Z & _).
    pose proof (improve_runs o h best A z Hs HI HT P Z) as R.
    apply runs_eq in R as (cur & h1 & E1 & Ev & HI1 & A' & P' & I). destruct (Improved_same _ _ _ _ _ _ I) as [K T].
    assert (G1 : routes_kept h h1).
    { apply grow_kept, untouched_grow. pose proof (ls_improve_framed Reallocation o best h) as U. by rewrite E1 in U. }
    pose proof (Plan_evolves _ _ _ _ Ev P) as P1. pose proof (total_worth_kept _ _ _ _ _ G1 Wx) as W1.
    destruct (objective_best_eq o h1 [best; cur]) as (w & h2 & E2 & Q & Hw).
    { intros pl [->|[->|H]%elem_of_cons]%elem_of_cons; [by eapply Plan_planned|by eapply Plan_planned|inversion H]. }
    exists cur, w, h1, h2, A'. split; [done|]. split; [done|]. assert (S2 : soft h1 h2) by apply Q.
    split; [by eapply HInv_soft|].
    split; [split; [eapply evolves_trans; [exact Ev|by apply evolves_soft]|by eapply kept_trans; [|apply soft_kept]]|].
    split; [eapply Plan_evolves; [by apply evolves_soft|done]|]. split; [eapply Plan_evolves; [by apply evolves_soft|done]|].
    split; [done|]. split; [done|]. split; [by eapply total_worth_kept; [apply soft_kept|]|].
    destruct w as [[|[|i]]|]; [by right| | |done].
    - left. split; [done|]. destruct Hw as (pl & y & [= <-] & Wy & H1 & _). exists y.
      split; [by eapply total_worth_kept; [apply soft_kept|]|]. by apply (H1 0%nat best x); [lia| |].
    - by destruct Hw as (pl & y & ? & _).
  Qed.
  (** ** The loop *)
  Lemma ls_loop_runs o threshold x0 A0 h0 fuel : sane -> (trusted -> Trust h0) -> forall count best A x h, HInv h -> evolves h0 h -> routes_kept h0 h -> Plan h best A ->
    map fst A ≡ₚ map fst A0 -> concat (map snd A) ≡ₚ concat (map snd A0) -> total_worth o h best x -> at_least x0 x ->
    match ls_loop fuel Reallocation o threshold count best h with
    | (Raise e, _) => e = Diverge
    | (Ok pl, h') => exists A' y, HInv h' /\ evolves h0 h' /\ routes_kept h0 h' /\ Plan h' pl A' /\ map fst A' ≡ₚ map fst A0 /\
        concat (map snd A') ≡ₚ concat (map snd A0) /\ total_worth o h' pl y /\ at_least x0 y
    end.
  Proof.
    intros Hs HT. induction fuel as [|fuel IH]; intros count best A x h HI Ev K P E1 E2 Wx Hx; cbn [ls_loop].
    { destruct (count <? threshold)%nat; [done|]. cbn. by exists A, x. }
    destruct (count <? threshold)%nat; [|cbn; by exists A, x].
    destruct (ls_round o h best A x Hs HI (trust_evolves _ _ Ev HT) P Wx) as (cur & w & h1 & h2 & A' & R1 & R2 & HI2 & [Ev2 K2] & P2 & P' & F1 & F2 & W2 & Hw).
    rewrite (bind_ok _ _ _ _ _ R1), (bind_ok _ _ _ _ _ R2).
    assert (E02 : evolves h0 h2) by by eapply evolves_trans.
    assert (K02 : routes_kept h0 h2) by by eapply kept_trans.
    destruct Hw as [[-> (y & Wy & Hy)]| ->].
    - apply (IH 0%nat cur A' y); [done|done|done|done|by rewrite F1|by rewrite F2|done|].
      right. destruct Hx as [->|Hx]; [done|by eapply lex_trans].
    - apply (IH (S count) best A x); done.
  Qed.
End bridge.

#[local] Existing Instance simple_shape.
Lemma c27_keeps `{W : World} : forall fuel o threshold h vs ts initial,
  sane -> tidy h -> valid_planning h vs ts initial -> single_stops h initial ->
  match local_search_optimize fuel Reallocation o threshold initial h with
  | (Raise e, _) => e = Diverge
  | (Ok pl, h') => tidy h' /\ valid_planning h' vs ts pl /\ single_stops h' pl /\
      (forall t, takes h' pl t <-> takes h initial t) /\
      (forall x y, total_worth o h initial x -> total_worth o h' pl y -> at_least x y) /\
      routes_kept h h'
  end.
Proof.
  intros fuel o threshold h vs ts initial Hs HT V G. apply tidy_HInv in HT.
  destruct (valid_Plan _ _ _ _ V (proj1 (single_good _ _) G)) as (A & P & EK & EU). destruct (Plan_worth o h initial A P) as (x & Wx & _).
  pose proof (ls_loop_runs o threshold x A h fuel Hs (False_ind _) 0%nat initial A x h HT) as L. unfold local_search_optimize.
  assert (K0 : routes_kept h h) by by split.
  specialize (L (evolves_refl _) K0 P ltac:(done) ltac:(done) Wx ltac:(by left)).
  destruct (ls_loop _ _ _ _ _ _ _) as [[pl|e] h']; [|done].
  destruct L as (A' & y & HI & _ & K & P' & F1 & F2 & Wy & Hy). split; [by apply tidy_HInv|].
  destruct (Plan_valid h' vs ts pl A') as [V' G']; [done|by rewrite F1|intros t; rewrite F2; apply EU|].
  split; [done|]. split; [done|]. split.
  { intros t. rewrite (Plan_takes _ _ _ _ P), (Plan_takes _ _ _ _ P'). by rewrite F2. }
  split; [|done]. intros x' y' Wx' Wy'. rewrite (total_worth_det _ _ _ _ _ Wx' Wx), (total_worth_det _ _ _ _ _ Wy' Wy). done.
Qed.

(** ** One improvement *)
Lemma Plan_for `{W : World} h rs A v ts : Plan h rs A -> planned_for h rs v ts <-> (v, ts) ∈ A.
Proof.
  intros (F & _). split.
  - intros (r & Hr & S). apply elem_of_list_lookup_1 in Hr as [i Hi]. destruct (Forall2_lookup_l _ _ _ _ _ F Hi) as ([v' ts'] & Ha & Sa).
    destruct (route_serves_eq _ _ _ _ _ _ Sa S) as [E1 E2]. cbn in E1, E2. subst. by eapply elem_of_list_lookup_2.
  - intros Ha. apply elem_of_list_lookup_1 in Ha as [i Hi]. destruct (Forall2_lookup_r _ _ _ _ _ F Hi) as (r & Hr & S).
    exists r. split; [by eapply elem_of_list_lookup_2|]. by apply (@Serves_route _ simple_shape h r v ts).
Qed.
Lemma c27_step `{W : World} : forall o h vs ts initial,
  sane -> tidy h -> valid_planning h vs ts initial -> single_stops h initial ->
  exists pl h', ls_improve Reallocation o initial h = (Ok pl, h') /\
    tidy h' /\ valid_planning h' vs ts pl /\ single_stops h' pl /\ routes_kept h h' /\
    ((same_duties h initial h' pl /\ forall x, total_worth o h initial x <-> total_worth o h' pl x) \/
     (exists t v w, handed_over h initial h' pl t v w) /\
     exists x y, total_worth o h initial x /\ total_worth o h' pl y /\ lex_lt x y).
Proof.
  intros o h vs ts initial Hs HT V G. apply tidy_HInv in HT.
  destruct (valid_Plan _ _ _ _ V (proj1 (single_good _ _) G)) as (A & P & EK & EU). destruct (Plan_sold o h initial A P) as (z & Z & Wx).
  pose proof (improve_runs o h initial A z Hs HT (False_ind _) P Z) as R. apply runs_eq in R as (pl & h' & E & Ev & HI & A' & P' & I).
  exists pl, h'. split; [done|]. split; [by apply tidy_HInv|]. destruct (Improved_same _ _ _ _ _ _ I) as [K T].
  destruct (Plan_valid h' vs ts pl A') as [V' G']; [done|by rewrite K|intros t; rewrite T; apply EU|].
  split; [done|]. split; [done|]. split.
  { apply grow_kept, untouched_grow. pose proof (ls_improve_framed Reallocation o initial h) as U. by rewrite E in U. }
  destruct (Plan_sold o h' pl A' P') as (z' & Z' & Wy).
  destruct I as [[-> HZ]|(M & z1 & Hz & HZ)].
  - left. pose proof (Sold_det _ _ _ _ _ Z' HZ) as ->. split.
    + intros v us. by rewrite (Plan_for _ _ _ _ _ P), (Plan_for _ _ _ _ _ P').
    + intros x. split; intros H.
      * by rewrite (total_worth_det _ _ _ _ _ H Wx).
      * by rewrite (total_worth_det _ _ _ _ _ H Wy).
  - right. pose proof (Sold_det _ _ _ _ _ Z' HZ) as ->. split.
    + destruct M as (v & B & w & C & t & B' & C' & A0 & E1 & Hne & HB & HC & E2). exists t, v, w. split; [done|]. split; [|split].
      * exists B, B'. rewrite (Plan_for _ _ _ _ _ P), (Plan_for _ _ _ _ _ P'), E1, E2. split; [left|]. split; [left|done].
      * exists C, C'. rewrite (Plan_for _ _ _ _ _ P), (Plan_for _ _ _ _ _ P'), E1, E2. split; [right; left|]. split; [right; left|done].
      * intros u us Hu1 Hu2. rewrite (Plan_for _ _ _ _ _ P), (Plan_for _ _ _ _ _ P'), E1, E2. rewrite !elem_of_cons.
        split; (intros [[= -> ->]|[[= -> ->]|H]]; [done|done|by right; right]).
    + eexists _, _. split; [exact Wx|]. split; [exact Wy|]. destruct o.
      * rewrite T. apply lex_later, lex_here. done.
      * by apply lex_here.
      * by apply lex_here.
Qed.

(** ** The loop ends *)
Section ends.
  Context {W : World} {Sh : Shape} {Ls : Loose}.

  (** the most a ride can score *)
  Definition most (t : nat) : Z := trip_distance (w_trip t) + Z.max 0 (tr_bonus (w_trip t)).
  Lemma most_nonneg t : 0 <= most t.
  Proof. unfold most, trip_distance. pose proof (dist_nonneg (sv_position (tr_origin (w_trip t))) (sv_position (tr_destination (w_trip t)))). lia. Qed.
  Lemma driven_nonneg here xs : 0 <= driven here xs.
  Proof. revert here. induction xs as [|x xs IH]; intros here; cbn; [lia|]. pose proof (dist_nonneg here (vi_place x)). pose proof (IH (vi_place x)). lia. Qed.
  Lemma sum_of_app l m : sum_of (l ++ m) = sum_of l + sum_of m.
  Proof. induction l as [|x l IH]; cbn; [done|]. fold (sum_of (l ++ m)) (sum_of l). lia. Qed.
  Definition room (o : objective) (T : list nat) (x : list Z) : Z :=
    match o, x with
    | DialARide, [_; d] => - d
    | HashCode, [s] => sum_of (map most T) - s
    | _, _ => 0
    end.
  Lemma Plan_room o h rs A x : o <> TaxiSharing -> Plan h rs A -> total_worth o h rs x ->
    0 <= room o (concat (map snd A)) x /\
    (o = DialARide -> exists d, x = [Z.of_nat (length (concat (map snd A))); d]) /\
    (o = HashCode -> exists s, x = [s]).
  Proof.
    intros Ho (F & _ & _) (xs & FX & ->). revert xs FX.
    induction F as [|r [v B] rs A S F IH]; intros xs FX; inversion FX as [|? y ? ys Wy FX']; subst.
    - destruct o; [| done |]; cbn; (split; [lia|]); (split; intros ?; [first [done|by eexists]|first [done|by eexists]]).
    - destruct (IH ys FX') as (H1 & H2 & H3). clear IH. cbn [map concat snd].
      destruct S as (ids & L & [R _] & _ & EB). cbn in R, EB. destruct Wy as (v' & ids' & L' & R' & ->).
      apply well_formed_RouteW in R'. destruct (RouteW_det _ _ _ _ _ _ _ _ R R') as (<- & <- & <-).
      cbn [total_value foldr]. fold (total_value o ys). destruct o; [|done|].
      + destruct (H2 eq_refl) as (d & E). unfold total_value in E, H1 |- *. cbn [foldr]. rewrite E in H1 |- *. cbn in H1 |- *.
        pose proof (driven_nonneg (v_origin_position v) L). unfold travelled. split; [lia|]. split; [|done].
        intros _. eexists. rewrite app_length, EB. f_equal. lia.
      + destruct (H3 eq_refl) as (s & E). unfold total_value in E, H1 |- *. cbn [foldr]. rewrite E in H1 |- *. cbn in H1 |- *.
        split; [|split; [done|by eexists]]. rewrite map_app, sum_of_app, EB.
        assert (Hb : forall l, sum_of (map (fun t => unless_empty t (ride_score v L t)) l) <= sum_of (map most l)); [|specialize (Hb B); lia].
        induction l as [|t l IHl]; cbn; [lia|]. fold (sum_of (map (fun t => unless_empty t (ride_score v L t)) l)) (sum_of (map most l)).
        assert (unless_empty t (ride_score v L t) <= most t); [|lia]. unfold unless_empty, ride_score.
        pose proof (most_nonneg t). unfold most in *. destruct (decide _); [done|]. destruct (decide _); lia.
  Qed.
  Lemma ls_loop_ends o threshold fuel : sane -> o <> TaxiSharing -> forall count best A x h, HInv h -> (trusted -> Trust h) -> Plan h best A ->
    total_worth o h best x ->
    (Z.to_nat (room o (concat (map snd A)) x) * threshold + (threshold - count) <= fuel)%nat ->
    exists pl h', ls_loop fuel Reallocation o threshold count best h = (Ok pl, h').
  Proof.
    intros Hs Ho. induction fuel as [|fuel IH]; intros count best A x h HI HT P Wx Hf; cbn [ls_loop].
    { destruct (Nat.ltb_spec count threshold) as [Hc|Hc]; [lia|]. eexists _, _. reflexivity. }
    destruct (Nat.ltb_spec count threshold) as [Hc|Hc]; [|eexists _, _; reflexivity].
    destruct (ls_round o h best A x Hs HI HT P Wx) as (cur & w & h1 & h2 & A' & R1 & R2 & HI2 & K2 & P2 & P' & F1 & F2 & W2 & Hw).
    rewrite (bind_ok _ _ _ _ _ R1), (bind_ok _ _ _ _ _ R2).
    destruct Hw as [[-> (y & Wy & Hy)]| ->].
    - apply (IH 0%nat cur A' y); [done|by eapply trust_evolves; [apply K2|]|done|done|].
      destruct (Plan_room o h2 cur A' y Ho P' Wy) as (N1 & D1 & C1). destruct (Plan_room o h best A x Ho P Wx) as (N2 & D2 & C2).
      assert (room o (concat (map snd A')) y < room o (concat (map snd A)) x) as Hlt.
      { assert (EM : sum_of (map most (concat (map snd A'))) = sum_of (map most (concat (map snd A)))).
        { apply sum_of_perm. by rewrite F2. }
        destruct o; [|done|].
        - destruct (D1 eq_refl) as (d1 & ->). destruct (D2 eq_refl) as (d2 & ->). rewrite F2 in Hy. cbn in Hy |- *.
          inversion Hy as [|? ? ? Hy']; subst; [lia|]. inversion Hy' as [|? ? ? Hy'']; subst; [lia|inversion Hy''].
        - destruct (C1 eq_refl) as (d1 & ->). destruct (C2 eq_refl) as (d2 & ->). cbn.
          inversion Hy as [|? ? ? Hy']; subst; [lia|inversion Hy']. }
      assert (Z.to_nat (room o (concat (map snd A')) y) + 1 <= Z.to_nat (room o (concat (map snd A)) x))%nat by lia. nia.
    - apply (IH (S count) best A x); [done|by eapply trust_evolves; [apply K2|]|done|done|]. lia.
  Qed.
End ends.

Lemma c27_ends `{W : World} : forall o threshold h vs ts initial,
  sane -> tidy h -> valid_planning h vs ts initial -> single_stops h initial -> o <> TaxiSharing ->
  exists n, forall fuel, (n <= fuel)%nat ->
    exists pl h', local_search_optimize fuel Reallocation o threshold initial h = (Ok pl, h').
Proof.
  intros o threshold h vs ts initial Hs HT V G Ho. apply tidy_HInv in HT.
  destruct (valid_Plan _ _ _ _ V (proj1 (single_good _ _) G)) as (A & P & EK & EU). destruct (Plan_worth o h initial A P) as (x & Wx & _).
  eexists. intros fuel Hf. eapply (ls_loop_ends o threshold fuel Hs Ho 0%nat); [done|by intros []|done|done|exact Hf].
Qed.
