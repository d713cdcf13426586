(** Admissible insertions that are missed. *)
From Verif Require Export WitnessMiss MissTheorems AdmissibleCheck.

Lemma honest_empty `{W : World} : honest empty_heap.
Proof. intros r v ids xs R. apply on_tour_RouteOK in R as [R _]. by destruct (rw_cell _ _ _ _ _ R) as (c & Hc & _). Qed.

Lemma missed_run : @insertion_optimize short_town short_config [1]%nat [2; 4]%nat None empty_heap = (Ok missed_routes, missed_town).
Proof. vm_compute. reflexivity. Qed.
Lemma missed_honest : @honest short_town missed_town.
Proof.
  destruct (@c67_busy short_town short_config [1]%nat [2; 4]%nat empty_heap short_sane) as (pl & h' & E & _ & H & _).
  - apply tidyb_sound; reflexivity.
  - apply honest_empty.
  - apply (bool_decide_unpack _); reflexivity.
  - apply (bool_decide_unpack _); reflexivity.
  - cbn; lia.
  - reflexivity.
  - reflexivity.
  - intros n Hn. discriminate Hn.
  - rewrite missed_run in E. injection E as <- <-. exact H.
Qed.

Lemma c70_refuted : exists (W : World) h r v ids xs t i j h',
  sane /\ tidy h /\ honest h /\ on_tour h r v ids xs /\ t ∉ boards xs /\ (i < j < length xs)%nat /\
  admissible v xs /\ admissible v (serve t i j xs) /\ compute true r [t] i j h = (Ok [], h').
Proof.
  exists short_town, missed_town, missed_route, 1%nat, (@stops_in missed_town missed_route), (@visits_of missed_town missed_route), 2%nat, 2%nat, 3%nat.
  eexists. split; [apply short_sane|]. split; [apply tidyb_sound; reflexivity|]. split; [apply missed_honest|].
  split; [apply on_tourb_sound; reflexivity|]. split; [apply (bool_decide_unpack _); reflexivity|]. split; [cbn; lia|].
  split; [apply admissibleb_sound; vm_compute; reflexivity|]. split; [apply admissibleb_sound; vm_compute; reflexivity|].
  vm_compute. reflexivity.
Qed.
Lemma c67_refuted_busy : exists (W : World) cfg fleet job pl h' t v r ids xs,
  sane /\ NoDup fleet /\ NoDup job /\
  ic_strategy cfg = Intensive /\ ic_only_feasible cfg = true /\ ic_size cfg = None /\ ic_random cfg = 1%nat /\
  insertion_optimize cfg fleet job None empty_heap = (Ok pl, h') /\
  t ∈ job /\ (forall q, q ∈ pl -> exists w us, route_serves h' q w us /\ t ∉ us) /\
  r ∈ pl /\ on_tour h' r v ids xs /\ admissible v xs /\ boards xs <> [] /\ length xs = 4%nat /\
  forall i j, (i < j < length xs)%nat -> admissible v (serve t i j xs).
Proof.
  exists short_town, short_config, [1]%nat, [2; 4]%nat, missed_routes, missed_town, 2%nat, 1%nat, missed_route,
    (@stops_in missed_town missed_route), (@visits_of missed_town missed_route).
  split; [apply short_sane|]. split; [apply (bool_decide_unpack _); reflexivity|]. split; [apply (bool_decide_unpack _); reflexivity|].
  do 4 (split; [reflexivity|]). split; [exact missed_run|]. split; [left|].
  assert (R : @on_tour short_town missed_town missed_route 1 (@stops_in missed_town missed_route) (@visits_of missed_town missed_route)) by (apply on_tourb_sound; reflexivity).
  split.
  { intros q ->%elem_of_list_singleton. exists 1%nat, [4]%nat. split; [|set_solver]. eexists _, _. split; [exact R|reflexivity]. }
  split; [left|]. split; [exact R|]. split; [apply admissibleb_sound; vm_compute; reflexivity|]. split; [discriminate|]. split; [reflexivity|].
  intros i j Hij. change (length (visits_of missed_town missed_route)) with 4%nat in Hij.
  destruct i as [|[|[|i]]], j as [|[|[|[|j]]]]; try lia; apply admissibleb_sound; vm_compute; reflexivity.
Qed.

Section unmet.
  #[local] Existing Instance town.
  Lemma unmet_run : insertion_optimize late_config [1]%nat [1; 2; 3]%nat None empty_heap = (Ok unmet_routes, unmet_town).
  Proof. vm_compute. reflexivity. Qed.
  Lemma unmet_honest : honest unmet_town.
  Proof.
    destruct (c67_busy late_config [1]%nat [1; 2; 3]%nat empty_heap town_sane) as (pl & h' & E & _ & H & _).
    - apply tidyb_sound; reflexivity.
    - apply honest_empty.
    - apply (bool_decide_unpack _); reflexivity.
    - apply (bool_decide_unpack _); reflexivity.
    - cbn; lia.
    - reflexivity.
    - reflexivity.
    - intros n Hn. discriminate Hn.
    - rewrite unmet_run in E. injection E as <- <-. exact H.
  Qed.
  Lemma unmet_tour : on_tour unmet_town unmet_route 1 (stops_in unmet_town unmet_route) (visits_of unmet_town unmet_route).
  Proof. apply on_tourb_sound; reflexivity. Qed.
End unmet.
