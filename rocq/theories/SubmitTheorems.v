(** From a HashCode file to the stored submission (C75, C76). *)
From Verif Require Import SubmitProofs SpecCalm Searches RouteProofs RepresentsProofs ValueProofs ValueTheorems GraspTheorems
  FileProofs FileLoader SpecFile CalmTheorems FairTheorems MissRefute Checker LoadTheorems FileTheorems StoreTheorems SpecSubmission WitnessLoad.

Lemma lacks_one_word s : lacks SpecStore.blank s -> lacks line_break s -> one_word s.
Proof. induction s as [|a s IH]; cbn; [done|]. intros [H1 H2] [H3 H4]. auto. Qed.

Section listing.
  Context {W : World} (i : hash_code) (TW : taxi_world i).

  Lemma on_tour_det h r v v' ids ids' xs xs' : on_tour h r v ids xs -> on_tour h r v' ids' xs' -> v = v' /\ ids = ids' /\ xs = xs'.
  Proof. intros [R _] [R' _]. apply well_formed_RouteW in R, R'. by eapply RouteW_det. Qed.

  Record settled (h : heap) (fleet job pl : list nat) : Prop := {
    sd_valid : valid_planning h fleet job pl;
    sd_fleet : fleet ≡ₚ seq 0 (hc_vehicles i);
    sd_job : job ≡ₚ seq 0 (length (hc_rides i));
    sd_single : single_stops h pl;
    sd_limits : all_admissible h pl
  }.

  Lemma settled_vehicle h fleet job pl r : settled h fleet job pl -> r ∈ pl ->
    exists v ids xs, on_tour h r v ids xs /\ (v < hc_vehicles i)%nat.
  Proof.
    intros S Hr. destruct (vp_routes _ _ _ _ (sd_valid _ _ _ _ S)) as (ws & Hp & F).
    apply elem_of_list_lookup in Hr as [n Hn]. destruct (Forall2_lookup_l _ _ _ _ _ F Hn) as (v & Hv & ts & ids & xs & R & _).
    exists v, ids, xs. split; [done|]. apply elem_of_list_lookup_2 in Hv. rewrite Hp, (sd_fleet _ _ _ _ S) in Hv.
    apply elem_of_seq in Hv. lia.
  Qed.
  Lemma settled_NoDup h fleet job pl : settled h fleet job pl -> NoDup pl.
  Proof.
    intros S. destruct (vp_routes _ _ _ _ (sd_valid _ _ _ _ S)) as (ws & Hp & F).
    assert (Hn : NoDup ws) by (rewrite Hp; apply (sd_valid _ _ _ _ S)).
    apply NoDup_alt. intros a b r Ha Hb.
    destruct (Forall2_lookup_l _ _ _ _ _ F Ha) as (v & Hv & ts & ids & xs & R & _).
    destruct (Forall2_lookup_l _ _ _ _ _ F Hb) as (v' & Hv' & ts' & ids' & xs' & R' & _).
    destruct (on_tour_det _ _ _ _ _ _ _ _ R R') as (<- & _). by eapply NoDup_lookup.
  Qed.
  Lemma settled_route h fleet job pl r v ids xs : settled h fleet job pl -> r ∈ pl -> on_tour h r v ids xs -> boards xs <> [] ->
    exists rs, rides_of i (boards xs) rs /\ drivable eb (hc_steps i) garage rs /\
      (0 <= hc_bonus i -> exists z, value_of HashCode v xs = [z] /\ z <= ride_points (hc_bonus i) garage rs) /\
      (calm xs (length xs) ->
       (forall t ts r, boards xs = t :: ts -> hc_rides i !! t = Some r -> picked_up_at v xs t = begins_at garage r) ->
       value_of HashCode v xs = [ride_points (hc_bonus i) garage rs]).
  Proof.
    intros S Hr R Hb. destruct (settled_vehicle _ _ _ _ _ S Hr) as (v' & ids' & xs' & R' & Hv).
    destruct (on_tour_det _ _ _ _ _ _ _ _ R R') as (<- & _ & _).
    apply tour_points; [done|done|apply R|by eapply (sd_single _ _ _ _ S)|by eapply (sd_limits _ _ _ _ S)|].
    intros t Ht. assert (Hj : t ∈ job).
    { eapply (vp_only _ _ _ _ (sd_valid _ _ _ _ S)); [exact Hr| |exact Ht]. by exists ids, xs. }
    rewrite (sd_job _ _ _ _ S) in Hj. apply elem_of_seq in Hj. lia.
  Qed.

  Lemma listed_used h r ks v : has_passengers h r -> route_serves h r v ks -> ks <> [].
  Proof.
    intros (v' & ids' & xs' & R' & Hb) (ids & xs & [R _] & <-). apply well_formed_RouteW in R, R'.
    by destruct (RouteW_det _ _ _ _ _ _ _ _ R R') as (_ & _ & ->).
  Qed.
  Lemma listed_workable h fleet job pl kss : settled h fleet job pl -> listed h pl kss -> workable eb i kss.
  Proof.
    intros S (rs & Hn & Hrs & F). split.
    - rewrite <- (Forall2_length _ _ _ F).
      destruct (vp_routes _ _ _ _ (sd_valid _ _ _ _ S)) as (ws & Hp & F').
      transitivity (length pl).
      + apply submseteq_length, NoDup_submseteq; [done|]. intros r Hr. by apply Hrs.
      + rewrite (Forall2_length _ _ _ F'), Hp, (sd_fleet _ _ _ _ S), seq_length. done.
    - assert (Hin : forall r, r ∈ rs -> r ∈ pl) by (intros r Hr; by apply Hrs). clear Hrs.
      induction F as [|r ks rs kss (v & ids & xs & R & Ek) F IH]; [constructor|].
      apply NoDup_cons in Hn as [Hr Hn]. cbn [concat]. apply NoDup_app. split; [|split].
      + subst ks. apply R.
      + intros t Ht Hc. apply elem_of_list_In, in_concat in Hc as (ks' & Hk%elem_of_list_In & Ht'%elem_of_list_In).
        apply elem_of_list_lookup in Hk as [n Hk]. destruct (Forall2_lookup_r _ _ _ _ _ F Hk) as (r' & Hr' & v' & S').
        apply elem_of_list_lookup_2 in Hr'.
        assert (r = r'); [|congruence].
        eapply (vp_once _ _ _ _ (sd_valid _ _ _ _ S) r r' v v' ks ks' t); [..|done|done].
        * apply Hin. left.
        * apply Hin. by right.
        * by exists ids, xs.
        * done.
      + apply IH; [done|]. intros r' Hr'. apply Hin. by right.
    - intros ks Hk. apply elem_of_list_lookup in Hk as [n Hk]. destruct (Forall2_lookup_r _ _ _ _ _ F Hk) as (r & Hr & v & S').
      apply elem_of_list_lookup_2 in Hr. apply Hrs in Hr as [_ Hp]. by eapply listed_used.
    - intros ks Hk. apply elem_of_list_lookup in Hk as [n Hk]. destruct (Forall2_lookup_r _ _ _ _ _ F Hk) as (r & Hr & v & S').
      apply elem_of_list_lookup_2 in Hr. apply Hrs in Hr as [Hr Hp]. pose proof (listed_used h r ks v Hp S') as Hne.
      destruct S' as (ids & xs & R & <-). destruct (settled_route _ _ _ _ _ _ _ _ S Hr R Hne) as (rds & ? & ? & _). by exists rds.
  Qed.

  (** ** Points *)
  Lemma worths_fun h pl ws : NoDup pl -> Forall2 (worth HashCode h) pl ws ->
    exists val : nat -> Z, (forall r, r ∈ pl -> worth HashCode h r [val r]) /\ total_value HashCode ws = [sum_of (map val pl)].
  Proof.
    induction 2 as [|r w pl ws Hw F IH]; [exists (fun _ => 0); split; [intros r Hr; by apply elem_of_nil in Hr|done]|].
    apply NoDup_cons in H as [Hr Hn]. destruct (IH Hn) as (val & Hv & Et).
    destruct Hw as (v & ids & xs & R & ->).
    set (z := sum_of (map (fun t => unless_empty t (ride_score v xs t)) (boards xs))).
    exists (fun r' => if decide (r' = r) then z else val r'). split.
    - intros r' Hr'. case_decide as E; [subst r'; by exists v, ids, xs|]. apply Hv. set_solver.
    - cbn [map]. rewrite decide_True by done. unfold total_value in Et |- *. cbn [foldr]. rewrite Et. cbn. f_equal. unfold sum_of. cbn. f_equal.
      f_equal. apply map_ext_in. intros r' Hr'%elem_of_list_In. rewrite decide_False; [done|]. intros ->. done.
  Qed.
  Lemma sum_perm l l' : l ≡ₚ l' -> sum_of l = sum_of l'.
  Proof. induction 1; cbn in *; unfold sum_of in *; cbn in *; lia. Qed.
  Lemma sum_app l l' : sum_of (l ++ l') = sum_of l + sum_of l'.
  Proof. induction l; cbn in *; unfold sum_of in *; cbn in *; lia. Qed.
  Lemma sum_zero {A} (f : A -> Z) l : (forall x, x ∈ l -> f x = 0) -> sum_of (map f l) = 0.
  Proof.
    induction l as [|x l IH]; intros H; [done|]. cbn. unfold sum_of in *. cbn. rewrite (H x) by left.
    rewrite IH; [done|]. intros y Hy. apply H. by right.
  Qed.

  Lemma listed_sum h fleet job pl kss w : settled h fleet job pl -> listed h pl kss -> total_worth HashCode h pl w ->
    exists rs zs, w = [sum_of zs] /\ Forall2 (fun r z => worth HashCode h r [z]) rs zs /\
      (forall r, r ∈ rs -> r ∈ pl /\ has_passengers h r) /\
      Forall2 (fun r ks => exists v, route_serves h r v ks) rs kss.
  Proof.
    intros S (rs & Hn & Hrs & F) (ws & Fw & ->). pose proof (settled_NoDup _ _ _ _ S) as Hp.
    destruct (worths_fun _ _ _ Hp Fw) as (val & Hv & ->). exists rs, (map val rs).
    assert (Hin : forall r, r ∈ rs -> r ∈ pl) by (intros r Hr; by apply Hrs).
    split; [|split; [|split; [by intros; apply Hrs|done]]].
    - assert (Hsub : rs ⊆+ pl) by (apply NoDup_submseteq; [done|exact Hin]).
      apply submseteq_Permutation in Hsub as [rest Hrest].
      rewrite (sum_perm (map val pl) (map val (rs ++ rest))) by (by apply Permutation_map). rewrite map_app, sum_app.
      rewrite (sum_zero val rest); [by rewrite Z.add_0_r|].
      intros r Hr. assert (Hrp : r ∈ pl) by (rewrite Hrest; set_solver).
      assert (Hrn : r ∉ rs).
      { rewrite Hrest in Hp. apply NoDup_app in Hp as (_ & Hp & _). intros H. by apply (Hp r H). }
      destruct (Hv r Hrp) as (v & ids & xs & R & E). destruct (boards xs) as [|t ts] eqn:Eb.
      + unfold value_of in E. rewrite Eb in E. cbn in E. by injection E.
      + exfalso. apply Hrn, Hrs. split; [done|]. exists v, ids, xs. split; [done|]. by rewrite Eb.
    - clear -Hv Hin. induction rs as [|r rs IH]; [constructor|]. constructor; [apply Hv, Hin; left|].
      apply IH. intros r' Hr'. apply Hin. by right.
  Qed.
  Lemma listed_points h fleet job pl kss w : settled h fleet job pl -> listed h pl kss -> 0 <= hc_bonus i ->
    total_worth HashCode h pl w ->
    exists z p, w = [z] /\ total_points (ride_points (hc_bonus i) garage) i kss p /\ z <= p.
  Proof.
    intros S L Hb Hw. destruct (listed_sum _ _ _ _ _ _ S L Hw) as (rs & zs & -> & Fz & Hin & F). exists (sum_of zs). clear L.
    assert (G : exists p, total_points (ride_points (hc_bonus i) garage) i kss p /\ sum_of zs <= p).
    { clear Hw. revert kss F Hin. induction Fz as [|r z rs zs Hz Fz IH]; intros kss F Hin; inversion F as [|? ks ? kss' (v & Sv) F']; subst.
      - exists 0. split; [constructor|done].
      - destruct (IH kss' F') as (p & Hp & Hle); [intros r' Hr'; apply Hin; by right|].
        destruct (Hin r ltac:(left)) as [Hr Hpas]. pose proof (listed_used h r ks v Hpas Sv) as Hne.
        destruct Sv as (ids & xs & R & <-). destruct (settled_route _ _ _ _ _ _ _ _ S Hr R Hne) as (rds & Hrd & _ & Hval & _).
        destruct (Hval Hb) as (z' & Ez & Hz'). destruct Hz as (v2 & ids2 & xs2 & R2 & E2).
        apply well_formed_RouteW in R2. destruct R as [R _]. apply well_formed_RouteW in R.
        destruct (RouteW_det _ _ _ _ _ _ _ _ R R2) as (<- & <- & <-). rewrite Ez in E2. injection E2 as ->.
        eexists. split; [by apply (more_points _ _ _ rds)|]. unfold sum_of in *. cbn. lia. }
    destruct G as (p & Hp & Hle). by exists p.
  Qed.
  Lemma listed_exact h fleet job pl kss w : settled h fleet job pl -> listed h pl kss ->
    (forall r v ids xs, r ∈ pl -> on_tour h r v ids xs -> calm xs (length xs)) -> prompt i h pl ->
    total_worth HashCode h pl w ->
    exists z, w = [z] /\ total_points (ride_points (hc_bonus i) garage) i kss z.
  Proof.
    intros S L HC HP Hw. destruct (listed_sum _ _ _ _ _ _ S L Hw) as (rs & zs & -> & Fz & Hin & F). exists (sum_of zs). clear L.
    split; [done|].
    clear Hw. revert kss F Hin. induction Fz as [|r z rs zs Hz Fz IH]; intros kss F Hin; inversion F as [|? ks ? kss' (v & Sv) F']; subst.
    - constructor.
    - pose proof (IH kss' F') as Hp. specialize (Hp ltac:(intros r' Hr'; apply Hin; by right)).
      destruct (Hin r ltac:(left)) as [Hr Hpas]. pose proof (listed_used h r ks v Hpas Sv) as Hne.
      destruct Sv as (ids & xs & R & <-). destruct (settled_route _ _ _ _ _ _ _ _ S Hr R Hne) as (rds & Hrd & _ & _ & Hval).
      specialize (Hval (HC _ _ _ _ Hr R)). specialize (Hval ltac:(intros; by eapply HP)).
      destruct Hz as (v2 & ids2 & xs2 & R2 & E2).
      apply well_formed_RouteW in R2. destruct R as [R _]. apply well_formed_RouteW in R.
      destruct (RouteW_det _ _ _ _ _ _ _ _ R R2) as (<- & <- & <-). rewrite Hval in E2. injection E2 as ->.
      change (sum_of (?a :: zs)) with (a + sum_of zs). by apply more_points.
  Qed.

  (** ** The stored text *)
  Lemma settled_text h fleet job pl : settled h fleet job pl ->
    exists answer h' kss, hashcode_format true pl h = (Ok answer, h') /\ submits answer kss /\ listed h pl kss.
  Proof.
    intros S. assert (Hride : forall t, carried h pl t -> exists r, hc_rides i !! t = Some r).
    { intros t (r & v & ids & xs & Hr & R & Ht). destruct (settled_vehicle _ _ _ _ _ S Hr) as (v' & ids' & xs' & R' & _).
      apply lookup_lt_is_Some_2. assert (Hj : t ∈ job).
      { eapply (vp_only _ _ _ _ (sd_valid _ _ _ _ S)); [exact Hr|exists ids', xs'; split; [exact R'|reflexivity]|].
        destruct R' as [R' _]. apply well_formed_RouteW in R, R'. by destruct (RouteW_det _ _ _ _ _ _ _ _ R R') as (_ & _ & <-). }
      rewrite (sd_job _ _ _ _ S) in Hj. apply elem_of_seq in Hj. lia. }
    destruct (c40_everyone h pl) as (answer & h' & rs & E & Hn & Hrs & He & Hne).
    - intros r Hr. destruct (settled_vehicle _ _ _ _ _ S Hr) as (v & ids & xs & R & _). exists v, ids, xs. apply R.
    - by eapply settled_NoDup.
    - intros t Ht. destruct (Hride t Ht) as [r Hr]. destruct (tw_ride i TW t r Hr) as (-> & _).
      apply lacks_one_word; apply pretty_lacks; intros k; apply digit_char.
    - intros t Ht. destruct (Hride t Ht) as [r Hr]. destruct (tw_ride i TW t r Hr) as (_ & _ & _ & -> & _). unfold unit_of. lia.
    - destruct (decide (rs = [])) as [->|Hx].
      { exists answer, h', []. split; [done|]. split; [by apply He|]. exists []. split; [constructor|]. split; [done|constructor]. }
      destruct (Hne Hx) as (_ & order & Hp & F).
      assert (G : exists kss, Forall2 (fun r ks => exists v, route_serves h r v ks) order kss /\
        Forall2 (fun line ks => split_on SpecStore.blank line = pretty (length ks) :: map pretty ks) (split_on line_break answer) kss).
      { assert (Hin : forall r, r ∈ order -> r ∈ pl) by (intros r Hr; rewrite Hp in Hr; by apply Hrs).
        clear -TW F Hin S Hride. revert F Hin. generalize (split_on line_break answer) as lines. intros lines F.
        induction F as [|r line order lines Hl F IH]; intros Hin.
        - exists []. split; constructor.
        - destruct IH as (kss & F1 & F2); [intros r' Hr'; apply Hin; by right|]. specialize (Hin r ltac:(left)).
          destruct Hl as (v & ids & xs & R & El). destruct (settled_vehicle _ _ _ _ _ S Hin) as (v' & ids' & xs' & R' & _).
          exists (boards xs :: kss). split; constructor; [| done | |done].
          + exists v'. exists ids', xs'. split; [done|]. destruct R' as [R' _]. apply well_formed_RouteW in R, R'.
            by destruct (RouteW_det _ _ _ _ _ _ _ _ R R') as (_ & _ & ->).
          + rewrite El. f_equal. apply map_ext_in. intros t Ht%elem_of_list_In.
            destruct (Hride t) as [rd Hrd]; [by exists r, v, ids, xs|]. by destruct (tw_ride i TW t rd Hrd) as (-> & _). }
      destruct G as (kss & F1 & F2). exists answer, h', kss. split; [done|]. split.
      + unfold submits. rewrite decide_False; [done|]. intros ->. inversion F1; subst. apply Permutation_nil_l in Hp. done.
      + exists order. split; [by rewrite Hp|]. split; [|done]. intros r. rewrite Hp. apply Hrs.
  Qed.
End listing.

(** ** Worlds that hold what was loaded *)
Lemma loaded_taxi `{W : World} i vs ts s s1 s2 s3 : w_metric = sf_metric hashcode_surface ->
  hashcode_fleet w_eb (hash_code_file (unit_of w_eb) i) s = (Ok vs, s1) ->
  hashcode_job w_eb (hash_code_file (unit_of w_eb) i) s2 = (Ok ts, s3) ->
  made_of vs ts -> taxi_world i /\ length vs = hc_vehicles i /\ length ts = length (hc_rides i).
Proof.
  intros Hm EF EJ ([HV HT] & HV' & HT').
  destruct (c39_fleet w_eb i s) as (vs' & s1' & EF' & Hlen & Hvs). rewrite EF in EF'. injection EF' as <- <-.
  destruct (c39_job w_eb i s2) as (ts' & s2' & EJ' & Hlen' & Hts). rewrite EJ in EJ'. injection EJ' as <- <-.
  split; [|done]. split.
  - done.
  - intros k r Hr. destruct (lookup_lt_is_Some_2 ts k) as [t Ht]; [rewrite Hlen'; by eapply lookup_lt_Some|].
    rewrite (HT k t Ht). destruct (Hts k t r Ht Hr) as (E1 & E2 & E3 & E4 & E5 & E6 & E7 & E8 & E9 & E10 & E11 & E12).
    destruct t as [tid [op oe ol od] [dp de dl dd] tc tb tt']. cbn in *. subst. done.
  - intros k Hk. apply HT'. apply lookup_ge_None. apply lookup_ge_None in Hk. lia.
  - intros k Hk. destruct (lookup_lt_is_Some_2 vs k) as [v Hv]; [lia|].
    unfold v_origin_position, v_destination_position, v_origin_earliest, v_destination_latest, v_capacity. rewrite (HV k v Hv).
    destruct (Hvs k v Hv) as (_ & ? & ? & ? & ? & ? & _). done.
  - intros k. unfold v_timeout. destruct (vs !! k) as [v|] eqn:Hv; [|by rewrite (HV' k Hv)].
    rewrite (HV k v Hv). by destruct (Hvs k v Hv) as (_ & _ & _ & _ & _ & _ & ?).
Qed.
Lemma perm_seq_NoDup l n : l ≡ₚ seq 0 n -> NoDup l.
Proof. intros ->. apply NoDup_seq. Qed.

Section results.
  Context {W : World} (i : hash_code) (TW : taxi_world i).
  Lemma insertion_settled cfg fleet job : ic_only_feasible cfg = true -> (1 <= ic_random cfg)%nat ->
    fleet ≡ₚ seq 0 (hc_vehicles i) -> job ≡ₚ seq 0 (length (hc_rides i)) ->
    exists pl h, insertion_optimize cfg fleet job None empty_heap = (Ok pl, h) /\ settled i h fleet job pl /\ untimed h pl.
  Proof.
    intros Ho Hr Hf Hj. assert (T : tidy empty_heap) by (apply tidyb_sound; reflexivity).
    destruct (c72_insertion cfg fleet job empty_heap (taxi_sane i TW) (taxi_limitless i TW) T empty_fair honest_empty Ho
      (perm_seq_NoDup _ _ Hf) (perm_seq_NoDup _ _ Hj) Hr) as (pl & h & E & _ & _ & _ & V & U & A).
    exists pl, h. split; [done|]. split; [|done]. split; [done..| |apply A, TW].
    by eapply (c17_single cfg fleet job empty_heap); [apply (taxi_sane i TW)|exact T|by eapply perm_seq_NoDup|by eapply perm_seq_NoDup|exact Hr|].
  Qed.
  Lemma grasp_settled o cfg fleet job episodes first : ic_only_feasible cfg = true -> (1 <= ic_random cfg)%nat ->
    fleet ≡ₚ seq 0 (hc_vehicles i) -> job ≡ₚ seq 0 (length (hc_rides i)) -> (1 <= hc_vehicles i)%nat ->
    (1 <= episodes)%nat -> (1 <= first)%nat -> o <> TaxiSharing ->
    exists n pl h, (forall fuel, (n <= fuel)%nat -> grasp_optimize fuel o cfg fleet job episodes first empty_heap = (Ok pl, h)) /\
      settled i h fleet job pl /\ untimed h pl.
  Proof.
    intros Ho Hr Hf Hj Hv He Hfi Hob. assert (T : tidy empty_heap) by (apply tidyb_sound; reflexivity).
    assert (Hne : fleet <> []). { intros ->. apply Permutation_nil_l in Hf. destruct (hc_vehicles i); [lia|done]. }
    destruct (c33_ends o cfg fleet job episodes first empty_heap (taxi_sane i TW) T (perm_seq_NoDup _ _ Hf) (perm_seq_NoDup _ _ Hj) Hr Hne He Hfi Hob)
      as (n & pl & h & E).
    pose proof (c72_grasp n o cfg fleet job episodes first empty_heap (taxi_sane i TW) (taxi_limitless i TW) T empty_fair honest_empty Ho
      (perm_seq_NoDup _ _ Hf) Hne (perm_seq_NoDup _ _ Hj) Hr He Hfi) as G. rewrite (E n) in G by lia.
    destruct G as (_ & _ & _ & V & S & U & A). exists n, pl, h. split; [done|]. split; [|done]. split; [done..|apply A, TW].
  Qed.
  Lemma settled_stored h fleet job pl old : settled i h fleet job pl ->
    exists answer h' kss,
      file_store (hashcode_format true pl) (FileState old true None h) = (Ok tt, FileState (Some answer) true (Some answer) h') /\
      submits answer kss /\ listed h pl kss /\ workable eb i kss /\ (in_units (unit_of w_eb) i -> workable 0 i kss).
  Proof.
    intros S. destruct (settled_text i TW h fleet job pl S) as (answer & h' & kss & E & Hs & Hl). exists answer, h', kss.
    split; [by eapply (c41_stores heap (hashcode_format true pl) (FileState old true None h))|].
    pose proof (listed_workable i TW _ _ _ _ _ S Hl) as Hw.
    do 3 (split; [done|]). intros U. eapply workable_exact; [|exact U|exact Hw]. unfold eb, unit_of. lia.
  Qed.
End results.

(** ** C75 *)
Lemma loader_answers e number contents i text : contents 0%nat = Some text -> tabulates number text (hash_code_file (unit_of e) i) ->
  exists o vs o' ts x, ask_loader_all number contents e HashCodeLayout [Fleet; Job] new_loader = ([Ok (GotFleet o vs); Ok (GotJob o' ts)], x) /\
    (exists s s', hashcode_fleet e (hash_code_file (unit_of e) i) s = (Ok vs, s')) /\
    (exists s s', hashcode_job e (hash_code_file (unit_of e) i) s = (Ok ts, s')).
Proof.
  intros Ht Hh. destruct (ask_loader_all number contents e HashCodeLayout [Fleet; Job] new_loader) as [rs x] eqn:E.
  assert (HF : first_table number contents 0 (hash_code_file (unit_of e) i)) by (split; [eauto|intros; lia]).
  destruct (c39_fleet e i (new_surface Euclidean)) as (vs & s1 & Ev & Hlv & Hv).
  destruct (c39_job e i (new_surface Euclidean)) as (ts & s2 & Et & Hlt & Htt).
  pose proof (all_length number contents e HashCodeLayout [Fleet; Job] new_loader) as Hl. rewrite E in Hl. cbn in Hl.
  destruct rs as [|r1 [|r2 [|]]]; try discriminate Hl.
  assert (Hok : forall n r, [r1; r2] !! n = Some r -> exists a, r = Ok a).
  { intros n r Hr. eapply (c57_retry number contents e HashCodeLayout [Fleet; Job] [r1; r2] x 0 _ n r E HF); [eexists _, _; exact Ev|eexists _, _; exact Et|exact Hr|lia]. }
  destruct (Hok 0%nat r1 eq_refl) as [a1 ->]. destruct (Hok 1%nat r2 eq_refl) as [a2 ->].
  assert (Hd : forall n d, first_table number contents n d -> d = hash_code_file (unit_of e) i).
  { intros n d [(t' & Ht' & Hh') Hb]. destruct n as [|n]; [|by destruct (Hb 0%nat text _ ltac:(lia) Ht Hh)].
    rewrite Ht in Ht'. injection Ht' as <-. apply read_table_tabulates in Hh, Hh'. congruence. }
  destruct (c57_answers _ _ _ _ _ _ _ 0%nat a1 E eq_refl) as (n1 & d1 & Hd1%Hd & _ & Ha1). subst d1.
  destruct (c57_answers _ _ _ _ _ _ _ 1%nat a2 E eq_refl) as (n2 & d2 & Hd2%Hd & _ & Ha2). subst d2.
  destruct a1 as [o vs1|o ts1|o]; destruct Ha1 as (Hq1 & Ha1); try discriminate Hq1.
  destruct a2 as [o2 vs2|o2 ts2|o2]; destruct Ha2 as (Hq2 & Ha2); try discriminate Hq2.
  exists o, vs1, o2, ts2, x. split; [done|]. destruct Ha1 as [Ha1 _]. destruct Ha2 as [Ha2 _].
  split; [destruct (Ha1 (new_surface Euclidean)) as [s' Es]|destruct (Ha2 (new_surface Euclidean)) as [s' Es]]; eexists _, _; exact Es.
Qed.
Lemma c75_insertion : forall e number contents i text,
  contents 0%nat = Some text -> tabulates number text (hash_code_file (unit_of e) i) ->
  exists o vs o' ts x, ask_loader_all number contents e HashCodeLayout [Fleet; Job] new_loader = ([Ok (GotFleet o vs); Ok (GotJob o' ts)], x) /\
  forall (W : World) cfg fleet job old, w_eb = e -> w_metric = sf_metric hashcode_surface -> made_of vs ts ->
    fleet ≡ₚ seq 0 (length vs) -> job ≡ₚ seq 0 (length ts) -> ic_only_feasible cfg = true -> (1 <= ic_random cfg)%nat ->
    exists pl h answer h' kss, insertion_optimize cfg fleet job None empty_heap = (Ok pl, h) /\
      file_store (hashcode_format true pl) (FileState old true None h) = (Ok tt, FileState (Some answer) true (Some answer) h') /\
      submits answer kss /\ listed h pl kss /\ workable eb i kss /\ (in_units (unit_of e) i -> workable 0 i kss).
Proof.
  intros e number contents i text Ht Hh. destruct (loader_answers e number contents i text Ht Hh) as (o & vs & o' & ts & x & E & (s & s1 & EF) & (s2 & s3 & EJ)).
  exists o, vs, o', ts, x. split; [done|]. intros W cfg fleet job old <- Hm Hmade Hf Hj Ho Hr.
  destruct (loaded_taxi i vs ts s s1 s2 s3 Hm EF EJ Hmade) as (TW & Lv & Lt). rewrite Lv in Hf. rewrite Lt in Hj.
  destruct (insertion_settled i TW cfg fleet job Ho Hr Hf Hj) as (pl & h & Ei & S & _).
  destruct (settled_stored i TW h fleet job pl old S) as (answer & h' & kss & ?). by exists pl, h, answer, h', kss.
Qed.
Lemma c75_grasp : forall e number contents i text,
  contents 0%nat = Some text -> tabulates number text (hash_code_file (unit_of e) i) -> (1 <= hc_vehicles i)%nat ->
  exists o vs o' ts x, ask_loader_all number contents e HashCodeLayout [Fleet; Job] new_loader = ([Ok (GotFleet o vs); Ok (GotJob o' ts)], x) /\
  forall (W : World) obj cfg fleet job episodes first old, w_eb = e -> w_metric = sf_metric hashcode_surface -> made_of vs ts ->
    fleet ≡ₚ seq 0 (length vs) -> job ≡ₚ seq 0 (length ts) -> ic_only_feasible cfg = true -> (1 <= ic_random cfg)%nat ->
    (1 <= episodes)%nat -> (1 <= first)%nat -> obj <> TaxiSharing ->
    exists n pl h answer h' kss,
      (forall fuel, (n <= fuel)%nat -> grasp_optimize fuel obj cfg fleet job episodes first empty_heap = (Ok pl, h)) /\
      file_store (hashcode_format true pl) (FileState old true None h) = (Ok tt, FileState (Some answer) true (Some answer) h') /\
      submits answer kss /\ listed h pl kss /\ workable eb i kss /\ (in_units (unit_of e) i -> workable 0 i kss).
Proof.
  intros e number contents i text Ht Hh Hv. destruct (loader_answers e number contents i text Ht Hh) as (o & vs & o' & ts & x & E & (s & s1 & EF) & (s2 & s3 & EJ)).
  exists o, vs, o', ts, x. split; [done|]. intros W obj cfg fleet job episodes first old <- Hm Hmade Hf Hj Ho Hr He Hfi Hob.
  destruct (loaded_taxi i vs ts s s1 s2 s3 Hm EF EJ Hmade) as (TW & Lv & Lt). rewrite Lv in Hf. rewrite Lt in Hj.
  destruct (grasp_settled i TW obj cfg fleet job episodes first Ho Hr Hf Hj Hv He Hfi Hob) as (n & pl & h & Ei & S & _).
  destruct (settled_stored i TW h fleet job pl old S) as (answer & h' & kss & ?). by exists n, pl, h, answer, h', kss.
Qed.

(** ** C76 *)
Lemma c76_at_most `{W : World} : forall i vs ts s1 s2 cfg fleet job pl h kss w,
  hashcode_fleet w_eb (hash_code_file (unit_of w_eb) i) hashcode_surface = (Ok vs, s1) ->
  hashcode_job w_eb (hash_code_file (unit_of w_eb) i) s1 = (Ok ts, s2) ->
  w_metric = sf_metric hashcode_surface -> made_of vs ts ->
  fleet ≡ₚ seq 0 (length vs) -> job ≡ₚ seq 0 (length ts) -> ic_only_feasible cfg = true -> (1 <= ic_random cfg)%nat ->
  insertion_optimize cfg fleet job None empty_heap = (Ok pl, h) -> listed h pl kss -> total_worth HashCode h pl w ->
  0 <= hc_bonus i ->
  exists z p, w = [z] /\ total_points (ride_points (hc_bonus i) garage) i kss p /\ z <= p.
Proof.
  intros i vs ts s1 s2 cfg fleet job pl h kss w EF EJ Hm Hmade Hf Hj Ho Hr E L Hw Hb.
  destruct (loaded_taxi i vs ts _ _ _ _ Hm EF EJ Hmade) as (TW & Lv & Lt). rewrite Lv in Hf. rewrite Lt in Hj.
  destruct (insertion_settled i TW cfg fleet job Ho Hr Hf Hj) as (pl' & h' & Ei & S & _). rewrite E in Ei. injection Ei as <- <-.
  by eapply (listed_points i TW).
Qed.
Lemma c76_prompt `{W : World} : forall i vs ts s1 s2 cfg fleet job pl h kss w,
  hashcode_fleet w_eb (hash_code_file (unit_of w_eb) i) hashcode_surface = (Ok vs, s1) ->
  hashcode_job w_eb (hash_code_file (unit_of w_eb) i) s1 = (Ok ts, s2) ->
  w_metric = sf_metric hashcode_surface -> made_of vs ts ->
  fleet ≡ₚ seq 0 (length vs) -> job ≡ₚ seq 0 (length ts) -> ic_only_feasible cfg = true -> (1 <= ic_random cfg)%nat ->
  insertion_optimize cfg fleet job None empty_heap = (Ok pl, h) -> listed h pl kss -> total_worth HashCode h pl w ->
  prompt i h pl ->
  exists z, w = [z] /\ total_points (ride_points (hc_bonus i) garage) i kss z.
Proof.
  intros i vs ts s1 s2 cfg fleet job pl h kss w EF EJ Hm Hmade Hf Hj Ho Hr E L Hw Hp.
  destruct (loaded_taxi i vs ts _ _ _ _ Hm EF EJ Hmade) as (TW & Lv & Lt). rewrite Lv in Hf. rewrite Lt in Hj.
  destruct (insertion_settled i TW cfg fleet job Ho Hr Hf Hj) as (pl' & h' & Ei & S & U). rewrite E in Ei. injection Ei as <- <-.
  eapply (listed_exact i TW); [exact S|exact L| |exact Hp|exact Hw].
  intros r v ids xs Hr' R. by apply (U r v ids xs).
Qed.
