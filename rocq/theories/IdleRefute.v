(** Trips left over although a vehicle could take them. *)
From Verif Require Export WitnessIdle AdmissibleCheck Plannings RefuteTheorems.

(** two routes of two vehicles that share no trip *)
Lemma valid_two `{W : World} h r1 r2 v1 v2 ids1 ids2 xs1 xs2 ts :
  on_tour h r1 v1 ids1 xs1 -> on_tour h r2 v2 ids2 xs2 -> v1 <> v2 ->
  (forall t, t ∈ boards xs1 -> t ∈ ts /\ t ∉ boards xs2) -> (forall t, t ∈ boards xs2 -> t ∈ ts) ->
  valid_planning h [v1; v2] ts [r1; r2].
Proof.
  intros R1 R2 Hv H1 H2.
  assert (D : forall r v us, r ∈ [r1; r2] -> route_serves h r v us -> r = r1 /\ us = boards xs1 \/ r = r2 /\ us = boards xs2).
  { intros r v us Hr (ids & xs & R & <-). apply on_tour_RouteOK in R as [R _].
    apply on_tour_RouteOK in R1 as [R1 _]. apply on_tour_RouteOK in R2 as [R2 _].
    apply elem_of_cons in Hr as [->| ->%elem_of_list_singleton].
    - destruct (RouteW_det _ _ _ _ _ _ _ _ R R1) as (_ & _ & ->). by left.
    - destruct (RouteW_det _ _ _ _ _ _ _ _ R R2) as (_ & _ & ->). by right. }
  split.
  - apply NoDup_cons. split; [set_solver|]. apply NoDup_singleton.
  - exists [v1; v2]. split; [done|]. constructor; [exists (boards xs1), ids1, xs1; done|].
    constructor; [exists (boards xs2), ids2, xs2; done|constructor].
  - intros r v us t Hr S Ht. destruct (D _ _ _ Hr S) as [[-> ->]|[-> ->]]; [by apply H1|by apply H2].
  - intros r r' v v' us us' t Hr Hr' S S' Ht Ht'.
    destruct (D _ _ _ Hr S) as [[-> ->]|[-> ->]], (D _ _ _ Hr' S') as [[-> ->]|[-> ->]]; try done; exfalso.
    + by eapply H1.
    + by eapply H1.
Qed.

Lemma c67_refuted : exists (W : World) cfg fleet job pl h' t v r ids xs r' h'' ids' xs',
  sane /\ NoDup fleet /\ NoDup job /\
  ic_strategy cfg = Intensive /\ ic_only_feasible cfg = true /\ ic_size cfg = None /\ ic_random cfg = 1%nat /\
  insertion_optimize cfg fleet job None empty_heap = (Ok pl, h') /\
  t ∈ job /\ (forall q, q ∈ pl -> exists w us, route_serves h' q w us /\ t ∉ us) /\
  r ∈ pl /\ on_tour h' r v ids xs /\ admissible v (serve t 0 1 xs) /\
  compute true r [t] 0 1 h' = (Ok [r'], h'') /\ on_tour h'' r' v ids' xs' /\ admissible v xs' /\ t ∈ boards xs'.
Proof.
  exists town, (MkInsertionConfig Intensive true EarliestLastDeparture None 1), [1; 0]%nat, [1]%nat, [0; 1]%nat, left_town, 1%nat, 0%nat, 1%nat,
    (@stops_in left_town 1), (@visits_of left_town 1), 3%nat, taken_town, taken_stops, taken_visits.
  split; [apply town_sane|]. split; [apply (bool_decide_unpack _); reflexivity|]. split; [apply (bool_decide_unpack _); reflexivity|].
  do 4 (split; [reflexivity|]). split; [vm_compute; reflexivity|]. split; [left|]. split.
  { intros q Hq. apply elem_of_cons in Hq as [->| ->%elem_of_list_singleton].
    - exists 1%nat, []. split; [|set_solver]. exists (@stops_in left_town 0), (@visits_of left_town 0).
      split; [apply on_tourb_sound; reflexivity|reflexivity].
    - exists 0%nat, []. split; [|set_solver]. exists (@stops_in left_town 1), (@visits_of left_town 1).
      split; [apply on_tourb_sound; reflexivity|reflexivity]. }
  split; [right; left|]. split; [apply on_tourb_sound; reflexivity|]. split; [apply admissibleb_sound; vm_compute; reflexivity|].
  split; [vm_compute; reflexivity|]. split; [apply on_tourb_sound; reflexivity|].
  split; [apply admissibleb_sound; vm_compute; reflexivity|]. left.
Qed.

Lemma c67_refuted_warm : exists (W : World) cfg fleet job h rs0 vs ts pl h' t v r ids xs r' h'' ids' xs',
  sane /\ tidy h /\ valid_planning h vs ts rs0 /\ NoDup job /\
  ic_strategy cfg = Intensive /\ ic_only_feasible cfg = true /\ ic_size cfg = None /\ ic_random cfg = 1%nat /\
  insertion_optimize cfg fleet job (Some rs0) h = (Ok pl, h') /\
  t ∈ job /\ (forall q, q ∈ pl -> exists w us, route_serves h' q w us /\ t ∉ us) /\
  r ∈ pl /\ on_tour h' r v ids xs /\ admissible v (serve t 0 1 xs) /\
  compute true r [t] 0 1 h' = (Ok [r'], h'') /\ on_tour h'' r' v ids' xs' /\ admissible v xs' /\ t ∈ boards xs'.
Proof.
  exists town, (MkInsertionConfig Intensive true EarliestLastDeparture None 1), [0; 1]%nat, [1; 3]%nat, partly_town, partly_routes,
    [0; 1]%nat, [2]%nat, partly_result, partly_end, 1%nat, 0%nat, spare,
    (@stops_in partly_end spare), (@visits_of partly_end spare), spare_taken, partly_taken,
    (@stops_in partly_taken spare_taken), (@visits_of partly_taken spare_taken).
  split; [apply town_sane|]. split; [apply tidyb_sound; reflexivity|]. split.
  { eapply (@valid_two town _ _ _ _ _ (@stops_in partly_town 0) (@stops_in partly_town 2) (@visits_of partly_town 0) (@visits_of partly_town 2)).
    - apply on_tourb_sound; reflexivity.
    - apply on_tourb_sound; reflexivity.
    - done.
    - intros t Ht. change (@boards (@visits_of partly_town 0)) with (@nil nat) in Ht. inversion Ht.
    - intros t Ht. exact Ht. }
  split; [apply (bool_decide_unpack _); reflexivity|].
  do 4 (split; [reflexivity|]). split; [vm_compute; reflexivity|]. split; [left|]. split.
  { intros q Hq. apply elem_of_cons in Hq as [->| ->%elem_of_list_singleton].
    - exists 0%nat, []. split; [|set_solver]. exists (@stops_in partly_end spare), (@visits_of partly_end spare).
      split; [apply on_tourb_sound; reflexivity|reflexivity].
    - exists 1%nat, [3; 2]%nat. split; [|set_solver]. exists (@stops_in partly_end used), (@visits_of partly_end used).
      split; [apply on_tourb_sound; reflexivity|reflexivity]. }
  split; [left|]. split; [apply on_tourb_sound; reflexivity|]. split; [apply admissibleb_sound; vm_compute; reflexivity|].
  split; [vm_compute; reflexivity|]. split; [apply on_tourb_sound; reflexivity|].
  split; [apply admissibleb_sound; vm_compute; reflexivity|]. left.
Qed.
