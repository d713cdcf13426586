(** From a Cordeau-Laporte file to driving schedules. *)
From Verif Require Import Searches Plannings RepresentsProofs GraspTheorems FileProofs FileLoader SpecFile FairTheorems FairSearchTheorems MissRefute Checker
  LoadTheorems FileTheorems SubmitTheorems SpecSubmission.
From Verif Require Import SpecLoad SpecRoster RosterProofs.

Lemma loaded_shared `{W : World} i vs ts s s1 s2 s3 : paired i -> ordinary i -> w_metric = Euclidean ->
  cordeau_fleet w_eb (dial_a_ride_file (unit_of w_eb) i) s = (Ok vs, s1) ->
  cordeau_job w_eb (dial_a_ride_file (unit_of w_eb) i) s2 = (Ok ts, s3) ->
  made_of vs ts -> shared_world i /\ sane /\ length vs = dr_vehicles i /\ length ts = length (dr_pickups i).
Proof.
  intros Hp [O1 O2] Hm EF EJ ([HV HT] & HV' & HT').
  destruct (c37_fleet w_eb i s) as (vs' & s1' & EF' & Hlen & Hvs). rewrite EF in EF'. injection EF' as <- <-.
  destruct (c37_job w_eb i s2 Hp) as (ts' & s2' & EJ' & Hlen' & Hts). rewrite EJ in EJ'. injection EJ' as <- <-.
  assert (SW : shared_world i).
  { split; [done|..].
    - intros k Hk. destruct (lookup_lt_is_Some_2 vs k) as [v Hv]; [lia|].
      unfold v_origin_position, v_destination_position, v_origin_earliest, v_capacity. rewrite (HV k v Hv).
      destruct (Hvs k v Hv) as (_ & ? & ? & ? & _).
      destruct (c38_open _ _ _ _ _ v EF) as [? _]; [by eapply elem_of_list_lookup_2|]. done.
    - intros k Hk. destruct (lookup_lt_is_Some_2 _ _ Hk) as [p Ep].
      destruct (Forall2_lookup_l _ _ _ _ _ Hp Ep) as (d & Ed & El). destruct (lookup_lt_is_Some_2 ts k) as [t Et]; [lia|].
      destruct (Hts k t p d Et Ep Ed) as (_ & ? & ? & ? & ?). exists p, d. by rewrite (HT k t Et). }
  split; [done|]. split; [|done]. split.
  - intros t. destruct (decide (t < length (dr_pickups i))%nat) as [Hk|Hk].
    + destruct (sw_trip i SW t Hk) as (p & d & Ep & Ed & (_ & Hpd & _) & (_ & Hdd & _) & _). unfold origin_duration, destination_duration.
      rewrite Hpd, Hdd. split; [by destruct (Forall_lookup_1 _ _ _ _ O1 Ep)|by apply (Forall_lookup_1 _ _ _ _ O2 Ed)].
    + rewrite HT' by (apply lookup_ge_None; lia). cbn. lia.
  - intros t. destruct (decide (t < length (dr_pickups i))%nat) as [Hk|Hk].
    + destruct (sw_trip i SW t Hk) as (p & d & Ep & Ed & _ & _ & -> & _). by destruct (Forall_lookup_1 _ _ _ _ O1 Ep).
    + rewrite HT' by (apply lookup_ge_None; lia). done.
Qed.

Section results.
  Context {W : World} (i : dial_a_ride) (SW : shared_world i).

  Definition schedules (h : heap) (pl : list nat) : Prop :=
    exists ros, divided i h pl ros /\ Forall (orderly eb i) ros /\
      forall r v ids xs, r ∈ pl -> on_tour h r v ids xs -> calm xs (length xs) -> punctual eb i (roster_of v xs).

  Lemma planning_schedules h fleet job pl : valid_planning h fleet job pl -> single_stops h pl ->
    fleet ≡ₚ seq 0 (dr_vehicles i) -> job ≡ₚ seq 0 (length (dr_pickups i)) ->
    (forall r v ids xs, r ∈ pl -> on_tour h r v ids xs -> boards xs <> [] -> almost v xs) -> schedules h pl.
  Proof.
    intros V Sg Hf Hj A. pose proof V as [_ (ws & Hw & F) Hon Hone].
    assert (Hin : forall r v ids xs, r ∈ pl -> on_tour h r v ids xs -> (v < dr_vehicles i)%nat /\
              forall t, t ∈ boards xs -> (t < length (dr_pickups i))%nat).
    { intros r v ids xs Hr R. split.
      - apply elem_of_list_lookup in Hr as [n Hn]. destruct (Forall2_lookup_l _ _ _ _ _ F Hn) as (v' & Hv & ts & ids' & xs' & R' & _).
        destruct (on_tour_det _ _ _ _ _ _ _ _ R R') as (<- & _ & _). apply elem_of_list_lookup_2 in Hv. rewrite Hw, Hf in Hv.
        apply elem_of_seq in Hv. lia.
      - intros t Ht. assert (H : t ∈ job) by (eapply Hon; [exact Hr|by exists ids, xs|exact Ht]). rewrite Hj in H. apply elem_of_seq in H. lia. }
    assert (Hnd : NoDup pl).
    { assert (Hn : NoDup ws) by (rewrite Hw, Hf; apply NoDup_seq). apply NoDup_alt. intros a b r Ha Hb.
      destruct (Forall2_lookup_l _ _ _ _ _ F Ha) as (v & Hv & ts & ids & xs & R & _).
      destruct (Forall2_lookup_l _ _ _ _ _ F Hb) as (v' & Hv' & ts' & ids' & xs' & R' & _).
      destruct (on_tour_det _ _ _ _ _ _ _ _ R R') as (<- & _). by eapply NoDup_lookup. }
    assert (Hros : exists ros, Forall2 (scheduled h) pl ros).
    { clear - F. induction F as [|r v pl ws (ts & ids & xs & R & _) F IH]; [by exists []|]. destruct IH as [ros IH].
      exists (roster_of v xs :: ros). constructor; [by exists v, ids, xs|done]. }
    destruct Hros as [ros Fr]. exists ros. split; [split; [done|split]|split].
    - rewrite <- (Forall2_length _ _ _ Fr), (Forall2_length _ _ _ F), Hw, Hf. by rewrite seq_length.
    - intros a b ro ro' k Ha Hb Pa Pb. destruct (Forall2_lookup_r _ _ _ _ _ Fr Ha) as (r & Hr & v & ids & xs & R & ->).
      destruct (Forall2_lookup_r _ _ _ _ _ Fr Hb) as (r' & Hr' & v' & ids' & xs' & R' & ->).
      cbn in Pa, Pb. unfold timetable in Pa, Pb. rewrite work_tasks, tasks_Pick in Pa, Pb.
      assert (r = r') as <-.
      { eapply Hone; [by eapply elem_of_list_lookup_2|by eapply elem_of_list_lookup_2|by exists ids, xs|by exists ids', xs'|exact Pa|exact Pb]. }
      by eapply NoDup_lookup.
    - apply Forall_lookup. intros a ro Ha. destruct (Forall2_lookup_r _ _ _ _ _ Fr Ha) as (r & Hr & v & ids & xs & R & ->).
      apply elem_of_list_lookup_2 in Hr. destruct (Hin _ _ _ _ Hr R) as [Hv Hk].
      apply roster_orderly; [done|done|apply R|by eapply Sg|done|]. by eapply A.
    - intros r v ids xs Hr R C. destruct (Hin _ _ _ _ Hr R) as [Hv Hk].
      apply roster_punctual; [done|done|apply R|by eapply Sg|done| |done]. by eapply A.
  Qed.
End results.

Lemma cordeau_answers e number contents i text : contents 0%nat = Some text -> tabulates number text (dial_a_ride_file (unit_of e) i) -> paired i ->
  exists o vs o' ts x, ask_loader_all number contents e CordeauLayout [Fleet; Job] new_loader = ([Ok (GotFleet o vs); Ok (GotJob o' ts)], x) /\
    (exists s s', cordeau_fleet e (dial_a_ride_file (unit_of e) i) s = (Ok vs, s')) /\
    (exists s s', cordeau_job e (dial_a_ride_file (unit_of e) i) s = (Ok ts, s')).
Proof.
  intros Ht Hh Hp. destruct (ask_loader_all number contents e CordeauLayout [Fleet; Job] new_loader) as [rs x] eqn:E.
  assert (HF : first_table number contents 0 (dial_a_ride_file (unit_of e) i)) by (split; [eauto|intros; lia]).
  destruct (c37_fleet e i (new_surface Euclidean)) as (vs & s1 & Ev & Hlv & Hv).
  destruct (c37_job e i (new_surface Euclidean) Hp) as (ts & s2 & Et & Hlt & Htt).
  pose proof (all_length number contents e CordeauLayout [Fleet; Job] new_loader) as Hl. rewrite E in Hl. cbn in Hl.
  destruct rs as [|r1 [|r2 [|]]]; try discriminate Hl.
  assert (Hok : forall n r, [r1; r2] !! n = Some r -> exists a, r = Ok a).
  { intros n r Hr. eapply (c57_retry number contents e CordeauLayout [Fleet; Job] [r1; r2] x 0 _ n r E HF); [eexists _, _; exact Ev|eexists _, _; exact Et|exact Hr|lia]. }
  destruct (Hok 0%nat r1 eq_refl) as [a1 ->]. destruct (Hok 1%nat r2 eq_refl) as [a2 ->].
  assert (Hd : forall n d, first_table number contents n d -> d = dial_a_ride_file (unit_of e) i).
  { intros n d [(t' & Ht' & Hh') Hb]. destruct n as [|n]; [|by destruct (Hb 0%nat text _ ltac:(lia) Ht Hh)].
    rewrite Ht in Ht'. injection Ht' as <-. apply read_table_tabulates in Hh, Hh'. congruence. }
  destruct (c57_answers _ _ _ _ _ _ _ 0%nat a1 E eq_refl) as (n1 & d1 & Hd1%Hd & _ & Ha1). subst d1.
  destruct (c57_answers _ _ _ _ _ _ _ 1%nat a2 E eq_refl) as (n2 & d2 & Hd2%Hd & _ & Ha2). subst d2.
  destruct a1 as [o vs1|o ts1|o]; destruct Ha1 as (Hq1 & Ha1); try discriminate Hq1.
  destruct a2 as [o2 vs2|o2 ts2|o2]; destruct Ha2 as (Hq2 & Ha2); try discriminate Hq2.
  exists o, vs1, o2, ts2, x. split; [done|]. destruct Ha1 as [Ha1 _]. destruct Ha2 as [Ha2 _].
  split; [destruct (Ha1 (new_surface Euclidean)) as [s' Es]|destruct (Ha2 (new_surface Euclidean)) as [s' Es]]; eexists _, _; exact Es.
Qed.

(** ** C77 *)
Lemma c77_insertion : forall e number contents i text,
  contents 0%nat = Some text -> tabulates number text (dial_a_ride_file (unit_of e) i) -> paired i -> ordinary i ->
  exists o vs o' ts x, ask_loader_all number contents e CordeauLayout [Fleet; Job] new_loader = ([Ok (GotFleet o vs); Ok (GotJob o' ts)], x) /\
  forall (W : World) cfg fleet job, w_eb = e -> w_metric = Euclidean -> made_of vs ts ->
    fleet ≡ₚ seq 0 (length vs) -> job ≡ₚ seq 0 (length ts) -> ic_only_feasible cfg = true -> (1 <= ic_random cfg)%nat ->
    exists pl h ros, insertion_optimize cfg fleet job None empty_heap = (Ok pl, h) /\ divided i h pl ros /\ Forall (orderly eb i) ros /\
      forall r v ids xs, r ∈ pl -> on_tour h r v ids xs -> calm xs (length xs) -> punctual eb i (roster_of v xs).
Proof.
  intros e number contents i text Ht Hh Hp Hor. destruct (cordeau_answers e number contents i text Ht Hh Hp) as (o & vs & o' & ts & x & E & (s & s1 & EF) & (s2 & s3 & EJ)).
  exists o, vs, o', ts, x. split; [done|]. intros W cfg fleet job <- Hm Hmade Hf Hj Ho Hr.
  destruct (loaded_shared i vs ts s s1 s2 s3 Hp Hor Hm EF EJ Hmade) as (SW & Hs & Lv & Lt). rewrite Lv in Hf. rewrite Lt in Hj.
  assert (T : tidy empty_heap) by (apply tidyb_sound; reflexivity).
  pose proof (perm_seq_NoDup _ _ Hf) as Nf. pose proof (perm_seq_NoDup _ _ Hj) as Nj.
  destruct (c06_algorithm cfg fleet job empty_heap Hs T empty_fair Ho Nf Nj Hr) as (pl & h & Ei & _ & _ & V & A).
  destruct (planning_schedules i SW h fleet job pl V) as (ros & G); [by eapply (c17_single cfg fleet job empty_heap)|done|done| |].
  { intros r v ids xs Hin R Hb. by destruct (A r v ids xs Hin R Hb). }
  exists pl, h, ros. by split.
Qed.
Lemma c77_grasp : forall e number contents i text,
  contents 0%nat = Some text -> tabulates number text (dial_a_ride_file (unit_of e) i) -> paired i -> ordinary i -> (1 <= dr_vehicles i)%nat ->
  exists o vs o' ts x, ask_loader_all number contents e CordeauLayout [Fleet; Job] new_loader = ([Ok (GotFleet o vs); Ok (GotJob o' ts)], x) /\
  forall (W : World) obj cfg fleet job episodes first, w_eb = e -> w_metric = Euclidean -> made_of vs ts ->
    fleet ≡ₚ seq 0 (length vs) -> job ≡ₚ seq 0 (length ts) -> ic_only_feasible cfg = true -> (1 <= ic_random cfg)%nat ->
    (1 <= episodes)%nat -> (1 <= first)%nat -> obj <> TaxiSharing ->
    exists n pl h ros, (forall fuel, (n <= fuel)%nat -> grasp_optimize fuel obj cfg fleet job episodes first empty_heap = (Ok pl, h)) /\
      divided i h pl ros /\ Forall (orderly eb i) ros /\
      forall r v ids xs, r ∈ pl -> on_tour h r v ids xs -> calm xs (length xs) -> punctual eb i (roster_of v xs).
Proof.
  intros e number contents i text Ht Hh Hp Hor Hv. destruct (cordeau_answers e number contents i text Ht Hh Hp) as (o & vs & o' & ts & x & E & (s & s1 & EF) & (s2 & s3 & EJ)).
  exists o, vs, o', ts, x. split; [done|]. intros W obj cfg fleet job episodes first <- Hm Hmade Hf Hj Ho Hr He Hfi Hob.
  destruct (loaded_shared i vs ts s s1 s2 s3 Hp Hor Hm EF EJ Hmade) as (SW & Hs & Lv & Lt). rewrite Lv in Hf. rewrite Lt in Hj.
  assert (T : tidy empty_heap) by (apply tidyb_sound; reflexivity).
  pose proof (perm_seq_NoDup _ _ Hf) as Nf. pose proof (perm_seq_NoDup _ _ Hj) as Nj.
  assert (Hne : fleet <> []). { intros ->. apply Permutation_nil_l in Hf. destruct (dr_vehicles i); [lia|done]. }
  destruct (c33_ends obj cfg fleet job episodes first empty_heap Hs T Nf Nj Hr Hne He Hfi Hob) as (n & pl & h & Ei).
  pose proof (c71_grasp n obj cfg fleet job episodes first empty_heap Hs T empty_fair Ho Nf Hne Nj Hr He Hfi) as G. rewrite (Ei n) in G by lia.
  destruct G as (_ & _ & V & Sg & A).
  destruct (planning_schedules i SW h fleet job pl V Sg) as (ros & G); [done|done| |].
  { intros r v ids xs Hin R Hb. by destruct (A r v ids xs Hin R Hb). }
  exists n, pl, h, ros. by split.
Qed.
