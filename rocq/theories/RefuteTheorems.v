(** Properties that the code does not have, each with an execution that shows
    it (C04, C06, C08, C15). *)
From Verif Require Import Witness TimeTheorems.

Section refute.
  Context {W : World}.

  Lemma late_not_admissible v xs t i j x y Ti Tj z :
    xs !! i = Some x -> xs !! j = Some y -> t ∈ vi_board x -> t ∈ vi_alight y ->
    timetable v xs !! i = Some Ti -> timetable v xs !! j = Some Tj ->
    origin_latest (w_trip t) = Lim z -> z + eb < tm_start Ti -> ~ admissible v xs.
  Proof.
    intros Hx Hy Bx Ay Hi Hj EL Hlt A.
    destruct (ad_rides _ _ A t i j x y Ti Tj) as ((P & _) & _); try done.
    - by exists x, y.
    - destruct (P t Bx) as [_ Q]. rewrite EL in Q. cbn in Q. lia.
  Qed.
End refute.

Lemma c04_refuted : exists (W : World) h r v ids xs i s x z h',
  sane /\ well_formed h r v ids xs /\ ids !! i = Some s /\ xs !! i = Some x /\
  (set_starting_time s z ;;; route_flush r) h = (Ok tt, h') /\
  well_formed h' r v ids (<[i := ask z x]> xs) /\
  returns (route_feasible r) h' true /\ ~ admissible v (<[i := ask z x]> xs).
Proof.
  exists town, busy_town, 2%nat, 0%nat, busy_stops, busy_visits, 1%nat, 7%nat, (Visit [1000] [0%nat] [] None), 50000.
  eexists. split; [apply town_sane|]. split; [apply well_formedb_sound; reflexivity|].
  split; [reflexivity|]. split; [reflexivity|]. split; [vm_compute; reflexivity|].
  split; [apply well_formedb_sound; reflexivity|]. split; [eexists; vm_compute; reflexivity|].
  eapply (late_not_admissible _ _ 1%nat 2%nat 4%nat); try reflexivity; left.
Qed.

Lemma c06_refuted : exists (W : World) h r v ids xs t i j r' h' ids' xs',
  sane /\ tidy h /\ on_tour h r v ids xs /\ t ∉ boards xs /\ (i < j < length ids)%nat /\
  compute true r [t] i j h = (Ok [r'], h') /\ on_tour h' r' v ids' xs' /\
  returns (route_feasible r') h' true /\ ~ admissible v xs'.
Proof.
  exists town, busy_town, 2%nat, 0%nat, busy_stops, busy_visits, 2%nat, 2%nat, 5%nat, 3%nat, stale_town, stale_stops, stale_visits.
  split; [apply town_sane|]. split; [apply tidyb_sound; reflexivity|]. split; [apply on_tourb_sound; reflexivity|].
  split; [apply (bool_decide_unpack _); reflexivity|]. split; [cbn; lia|]. split; [vm_compute; reflexivity|].
  split; [apply on_tourb_sound; reflexivity|]. split; [eexists; vm_compute; reflexivity|].
  eapply (late_not_admissible _ _ 1%nat 2%nat 5%nat); try reflexivity; left.
Qed.
Lemma c06_refuted_algorithm : exists (W : World) cfg fleet job pl h r v ids xs,
  sane /\ ic_only_feasible cfg = true /\ insertion_optimize cfg fleet job None empty_heap = (Ok pl, h) /\
  r ∈ pl /\ on_tour h r v ids xs /\ returns (route_feasible r) h true /\ ~ admissible v xs.
Proof.
  exists town, town_config, [0%nat], [0; 1; 2]%nat, [25%nat], solved_town, 25%nat, 0%nat, solved_stops, solved_visits.
  split; [apply town_sane|]. split; [reflexivity|]. split; [vm_compute; reflexivity|]. split; [left|].
  split; [apply on_tourb_sound; vm_compute; reflexivity|]. split; [eexists; vm_compute; reflexivity|].
  eapply (late_not_admissible _ _ 1%nat 2%nat 5%nat); try reflexivity; left.
Qed.

Lemma c08_refuted : exists (W : World) h r v ids xs s q x y h',
  linked h r v ids xs /\ q ∈ ids /\ waits_after h v s q x /\
  insert_stop r s h = (Ok y, h') /\ y <> s.
Proof.
  exists town, detour_town, 2%nat, 0%nat, busy_stops, busy_visits, 12%nat, 7%nat, detour, 9%nat. eexists.
  split; [apply linkedb_sound; reflexivity|]. split; [apply (bool_decide_unpack _); reflexivity|].
  split; [apply waits_afterb_sound; reflexivity|]. split; [vm_compute; reflexivity|done].
Qed.

Lemma c15_refuted : exists (W : World) h r v ids xs t i j r' h' s d d',
  sane /\ tidy h /\ on_tour h r v ids xs /\ t ∉ boards xs /\ (i < j < length ids)%nat /\
  compute_one r t i j h = (Ok r', h') /\ ids !! 0%nat = Some s /\
  returns (departure_time s) h d /\ returns (departure_time s) h' d' /\ d <> d'.
Proof.
  exists town, shift_town, 2%nat, 1%nat, shift_stops, shift_visits, 4%nat, 4%nat, 5%nat. do 3 eexists. eexists 20000, 77000.
  split; [apply town_sane|]. split; [apply tidyb_sound; reflexivity|]. split; [apply on_tourb_sound; reflexivity|].
  split; [apply (bool_decide_unpack _); reflexivity|]. split; [cbn; lia|]. split; [vm_compute; reflexivity|].
  split; [reflexivity|]. split; [eexists; vm_compute; reflexivity|]. split; [eexists; vm_compute; reflexivity|done].
Qed.
