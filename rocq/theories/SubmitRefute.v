(** Reported and actual worth of submissions (C76). *)
From Verif Require Import SubmitTheorems WitnessSubmit.

Lemma made_of_world_of e m vs ts : made_of (W := world_of e m vs ts) vs ts.
Proof.
  split; [apply holds_world_of|]. split; intros k Hk; cbn; rewrite nth_lookup, Hk; reflexivity.
Qed.
Lemma single_listed `{W : World} h r v ids xs : on_tour h r v ids xs -> boards xs <> [] -> listed h [r] [boards xs].
Proof.
  intros R Hb. exists [r]. split; [apply NoDup_singleton|]. split.
  - intros r'. rewrite elem_of_list_singleton. split; [intros ->|by intros [? _]]. split; [done|]. exists v, ids, xs. split; [apply R|done].
  - constructor; [|constructor]. exists v, ids, xs. done.
Qed.
Lemma single_worth `{W : World} h r v ids xs : on_tour h r v ids xs -> total_worth HashCode h [r] (total_value HashCode [value_of HashCode v xs]).
Proof. intros [R _]. eexists. split; [|reflexivity]. constructor; [|constructor]. by exists v, ids, xs. Qed.

Section delayed_case.
  #[local] Existing Instance delayed_world.
  Lemma delayed_on_tour : on_tour delayed_heap 3 0 (stops_in delayed_heap 3) (visits_of delayed_heap 3).
  Proof. apply on_tourb_sound. vm_compute. reflexivity. Qed.
  Lemma delayed_listed : listed delayed_heap delayed_routes [[1; 0]%nat].
  Proof. refine (single_listed _ _ _ _ _ delayed_on_tour _). vm_compute. discriminate. Qed.
  Lemma delayed_worth : total_worth HashCode delayed_heap delayed_routes [2000].
  Proof. exact (single_worth _ _ _ _ _ delayed_on_tour). Qed.
  Lemma early_on_tour : on_tour early_heap 3 0 (stops_in early_heap 3) (visits_of early_heap 3).
  Proof. apply on_tourb_sound. vm_compute. reflexivity. Qed.
  Lemma early_listed : listed early_heap early_routes [boards (visits_of early_heap 3)].
  Proof. refine (single_listed _ _ _ _ _ early_on_tour _). vm_compute. discriminate. Qed.
End delayed_case.
Lemma delayed_points : total_points (ride_points 2000 garage) delayed_case [[1; 0]%nat] 6000.
Proof.
  change 6000 with (ride_points 2000 garage [RideLine 1000 0 1000 1000 3000 9000; RideLine 2000 0 3000 0 10000 40000] + 0).
  repeat constructor.
Qed.
Lemma c76_refuted : ~ forall (W : World) i vs ts s1 s2 cfg fleet job pl h kss z p,
  hashcode_fleet w_eb (hash_code_file (unit_of w_eb) i) hashcode_surface = (Ok vs, s1) ->
  hashcode_job w_eb (hash_code_file (unit_of w_eb) i) s1 = (Ok ts, s2) ->
  w_metric = sf_metric hashcode_surface -> made_of vs ts ->
  fleet ≡ₚ seq 0 (length vs) -> job ≡ₚ seq 0 (length ts) -> ic_only_feasible cfg = true -> (1 <= ic_random cfg)%nat ->
  insertion_optimize cfg fleet job None empty_heap = (Ok pl, h) -> listed h pl kss -> total_worth HashCode h pl [z] ->
  total_points (ride_points (hc_bonus i) garage) i kss p -> in_units (unit_of w_eb) i -> 0 <= hc_bonus i ->
  z = p.
Proof.
  intros H. enough (2000 = 6000) by lia.
  eapply (H delayed_world delayed_case delayed_vehicles delayed_trips _ _ score_config [0%nat] [0; 1]%nat delayed_routes delayed_heap).
  - vm_compute. reflexivity.
  - vm_compute. reflexivity.
  - reflexivity.
  - apply made_of_world_of.
  - reflexivity.
  - reflexivity.
  - reflexivity.
  - cbn. lia.
  - vm_compute. reflexivity.
  - apply delayed_listed.
  - apply delayed_worth.
  - apply delayed_points.
  - assert (D : forall x, (1000 | x * 1000)) by (intros x; by exists x).
    split; [apply (D 2)|apply (D 100)|]. intros r Hr. change (unit_of _) with 1000.
    repeat (apply elem_of_cons in Hr as [->|Hr]); [| |by apply elem_of_nil in Hr]; cbn.
    + repeat (apply Forall_cons; split); [apply (D 2)|apply (D 0)|apply (D 3)|apply (D 0)|apply (D 10)|apply (D 40)|constructor].
    + repeat (apply Forall_cons; split); [apply (D 1)|apply (D 0)|apply (D 1)|apply (D 1)|apply (D 3)|apply (D 9)|constructor].
  - cbn. lia.
Qed.
Section late_case.
  #[local] Existing Instance ride_world.
  Lemma late_on_tour : on_tour late_heap 1 0 (stops_in late_heap 1) (visits_of late_heap 1).
  Proof. apply on_tourb_sound. vm_compute. reflexivity. Qed.
  Lemma late_listed : listed late_heap late_routes [[0%nat]].
  Proof. refine (single_listed _ _ _ _ _ late_on_tour _). vm_compute. discriminate. Qed.
  Lemma late_worth : total_worth HashCode late_heap late_routes [4000].
  Proof. exact (single_worth _ _ _ _ _ late_on_tour). Qed.
End late_case.
Lemma late_points : total_points (contest_points 2000 garage) ride_case [[0%nat]] 0.
Proof.
  refine (more_points _ ride_case [0%nat] [RideLine 1000 0 5000 0 0 4000] [] 0 _ (no_points _ _)). repeat constructor.
Qed.
Lemma c76_contest_refuted : ~ forall (W : World) i vs ts s1 s2 cfg fleet job pl h kss z p,
  hashcode_fleet w_eb (hash_code_file (unit_of w_eb) i) hashcode_surface = (Ok vs, s1) ->
  hashcode_job w_eb (hash_code_file (unit_of w_eb) i) s1 = (Ok ts, s2) ->
  w_metric = sf_metric hashcode_surface -> made_of vs ts ->
  fleet ≡ₚ seq 0 (length vs) -> job ≡ₚ seq 0 (length ts) -> ic_only_feasible cfg = true -> (1 <= ic_random cfg)%nat ->
  insertion_optimize cfg fleet job None empty_heap = (Ok pl, h) -> listed h pl kss -> total_worth HashCode h pl [z] ->
  total_points (contest_points (hc_bonus i) garage) i kss p -> in_units (unit_of w_eb) i -> 0 <= hc_bonus i ->
  z <= p.
Proof.
  intros H. enough (4000 <= 0) by lia.
  eapply (H ride_world ride_case ride_vehicles ride_trips _ _ early_config [0%nat] [0%nat] late_routes late_heap).
  - vm_compute. reflexivity.
  - vm_compute. reflexivity.
  - reflexivity.
  - apply made_of_world_of.
  - reflexivity.
  - reflexivity.
  - reflexivity.
  - cbn. lia.
  - vm_compute. reflexivity.
  - apply late_listed.
  - apply late_worth.
  - apply late_points.
  - assert (D : forall x, (1000 | x * 1000)) by (intros x; by exists x).
    split; [apply (D 2)|apply (D 100)|]. intros r Hr. change (unit_of _) with 1000.
    repeat (apply elem_of_cons in Hr as [->|Hr]); [|by apply elem_of_nil in Hr]; cbn.
    repeat (apply Forall_cons; split); [apply (D 1)|apply (D 0)|apply (D 5)|apply (D 0)|apply (D 0)|apply (D 4)|constructor].
  - cbn. lia.
Qed.
