(** Planned tours that break limits of the file (C77). *)
From Verif Require Import RosterTheorems SubmitTheorems SubmitRefute FileLoader FileProofs FileTheorems SpecFile.
From Verif Require Import WitnessRoster.

Lemma scheduled_roster `{W : World} h r v ids xs ro : on_tour h r v ids xs -> scheduled h r ro -> ro = roster_of v xs.
Proof. intros R (v' & ids' & xs' & R' & ->). by destruct (on_tour_det _ _ _ _ _ _ _ _ R R') as (-> & _ & ->). Qed.
Lemma single_divided `{W : World} i h r v ids xs ros : on_tour h r v ids xs -> divided i h [r] ros -> ros = [roster_of v xs].
Proof.
  intros R (F & _). inversion F as [|? ro ? ros' Hs F']; subst. inversion F'; subst. by rewrite (scheduled_roster _ _ _ _ _ _ R Hs).
Qed.

Section tardy.
  #[local] Existing Instance tardy_world.
  Lemma tardy_on_tour : on_tour tardy_heap 28 0 (stops_in tardy_heap 28) (visits_of tardy_heap 28).
  Proof. apply on_tourb_sound. vm_compute. reflexivity. Qed.
  Lemma tardy_not_punctual : ~ punctual eb tardy_case tardy_roster.
  Proof.
    intros H. specialize (H (Pick 1) 86000 (Point 2000 2000 0 0 1000 2000 3000)). cbn in H. enough (86000 <= 3000 + 1) by lia.
    apply H; [|done]. apply elem_of_list_further, elem_of_list_here.
  Qed.
End tardy.
Section long.
  #[local] Existing Instance long_world.
  Lemma long_on_tour : on_tour long_heap 4 0 (stops_in long_heap 4) (visits_of long_heap 4).
  Proof. apply on_tourb_sound. vm_compute. reflexivity. Qed.
  Lemma long_too_long : ~ short_enough eb long_case long_roster.
  Proof. vm_compute. intros H. by apply H. Qed.
End long.
Lemma tardy_paired : paired tardy_case /\ ordinary tardy_case.
Proof. split; [repeat constructor|]. split; repeat (constructor; [cbn; lia|]); constructor. Qed.
Lemma long_paired : paired long_case /\ ordinary long_case.
Proof. split; [repeat constructor|]. split; repeat (constructor; [cbn; lia|]); constructor. Qed.

Lemma c77_refuted : ~ forall e number contents i text o vs o' ts x (W : World) cfg fleet job pl h,
  contents 0%nat = Some text -> tabulates number text (dial_a_ride_file (unit_of e) i) -> paired i -> ordinary i ->
  ask_loader_all number contents e CordeauLayout [Fleet; Job] new_loader = ([Ok (GotFleet o vs); Ok (GotJob o' ts)], x) ->
  w_eb = e -> w_metric = Euclidean -> made_of vs ts ->
  fleet ≡ₚ seq 0 (length vs) -> job ≡ₚ seq 0 (length ts) -> ic_only_feasible cfg = true -> (1 <= ic_random cfg)%nat ->
  insertion_optimize cfg fleet job None empty_heap = (Ok pl, h) ->
  exists ros, divided i h pl ros /\ Forall (fun ro => orderly eb i ro /\ punctual eb i ro) ros.
Proof.
  intros H. destruct (H 1%positive whole (fun _ => Some (text_of tardy_lines)) tardy_case (text_of tardy_lines) 1%nat tardy_vehicles 2%nat tardy_trips
    (snd (ask_loader_all whole (fun _ => Some (text_of tardy_lines)) 1 CordeauLayout [Fleet; Job] new_loader)) tardy_world
    near_config [0%nat] [0; 1; 2]%nat [28%nat] tardy_heap) as (ros & D & F).
  - reflexivity.
  - apply read_table_tabulates. vm_compute. reflexivity.
  - apply tardy_paired.
  - apply tardy_paired.
  - vm_compute. reflexivity.
  - reflexivity.
  - reflexivity.
  - apply made_of_world_of.
  - reflexivity.
  - reflexivity.
  - reflexivity.
  - cbn. lia.
  - vm_compute. reflexivity.
  - apply (single_divided (W := tardy_world) _ _ _ _ _ _ _ tardy_on_tour) in D. subst ros. apply Forall_singleton in F as [_ F].
    by apply tardy_not_punctual.
Qed.
Lemma c77_tour_refuted : ~ forall e number contents i text o vs o' ts x (W : World) cfg fleet job pl h,
  contents 0%nat = Some text -> tabulates number text (dial_a_ride_file (unit_of e) i) -> paired i -> ordinary i ->
  ask_loader_all number contents e CordeauLayout [Fleet; Job] new_loader = ([Ok (GotFleet o vs); Ok (GotJob o' ts)], x) ->
  w_eb = e -> w_metric = Euclidean -> made_of vs ts ->
  fleet ≡ₚ seq 0 (length vs) -> job ≡ₚ seq 0 (length ts) -> ic_only_feasible cfg = true -> (1 <= ic_random cfg)%nat ->
  insertion_optimize cfg fleet job None empty_heap = (Ok pl, h) ->
  exists ros, divided i h pl ros /\ Forall (fun ro => orderly eb i ro /\ short_enough eb i ro) ros.
Proof.
  intros H. destruct (H 1%positive whole (fun _ => Some (text_of long_lines)) long_case (text_of long_lines) 1%nat long_vehicles 2%nat long_trips
    (snd (ask_loader_all whole (fun _ => Some (text_of long_lines)) 1 CordeauLayout [Fleet; Job] new_loader)) long_world
    near_config [0%nat] [0; 1; 2]%nat [4%nat] long_heap) as (ros & D & F).
  - reflexivity.
  - apply read_table_tabulates. vm_compute. reflexivity.
  - apply long_paired.
  - apply long_paired.
  - vm_compute. reflexivity.
  - reflexivity.
  - reflexivity.
  - apply made_of_world_of.
  - reflexivity.
  - reflexivity.
  - reflexivity.
  - cbn. lia.
  - vm_compute. reflexivity.
  - apply (single_divided (W := long_world) _ _ _ _ _ _ _ long_on_tour) in D. subst ros. apply Forall_singleton in F as [_ F].
    by apply long_too_long.
Qed.
