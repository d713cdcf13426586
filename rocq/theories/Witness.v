(** A concrete world and concrete states, reached by running the model, on
    which the hypotheses of the theorems are shown to be met (Examples of the
    Props files). *)
From Verif Require Export Checker Reads Choices.

Definition at_ (p e : Z) (l : lim) (d : Z) : service := Service [p * 1000] e l d.

(** On a line, 1000 ticks to the unit, tolerance 1 tick.  Three requests:
    0 from 1 to 4 with at most 20 units on board, 1 from 2 to 5 with a pickup
    window that closes at 3, 2 from 3 to 6 not before 100.  Trips 3, 4, ... go
    from 1 to 2. *)
Definition town_trip (t : nat) : trip :=
  match t with
  | 0%nat => Trip "A" (at_ 1 1000 (Lim 1000000) 0) (at_ 4 0 Inf 0) 1000 0 (Lim 20000)
  | 1%nat => Trip "X" (at_ 2 2000 (Lim 3000) 0) (at_ 5 0 Inf 0) 1000 0 (Lim 200000)
  | 2%nat => Trip "B" (at_ 3 100000 (Lim 200000) 0) (at_ 6 0 Inf 0) 1000 0 Inf
  | _ => Trip "C" (at_ 1 0 Inf 500) (at_ 2 0 Inf 500) 1000 0 Inf
  end.
(** every vehicle starts from and returns to 0, for three passengers; vehicle 1
    does not leave before 20 *)
Definition town_vehicle (v : nat) : vehicle :=
  match v with
  | 1%nat => Vehicle "w" (at_ 0 20000 Inf 0) None (Lim 3000) (Lim 1000000)
  | _ => Vehicle "v" (at_ 0 0 Inf 0) None (Lim 3000) (Lim 1000000)
  end.

Definition town : World.
Proof.
  refine (mk_world 1 Manhattan town_trip town_vehicle (fun _ l => l) _ (fun _ _ => 0%nat) _ (fun _ _ _ => []) _ _).
  - reflexivity.
  - intros; lia.
  - intros ????? H; inversion H.
  - intros; constructor.
Defined.

Section town.
  #[local] Existing Instance town.

  (** route 0: nothing; route 1: trip 0; route 2: trips 0 and 1 *)
  Definition busy_town : heap := Eval vm_compute in after
    (let! r0 := new_route 0 in
     let! r1 := compute_one r0 0 0 1 in
     let! r2 := compute_one r1 1 1 3 in
     ret r2) empty_heap.
  Definition busy_stops : list nat := Eval vm_compute in stops_in busy_town 2.
  Definition busy_visits : list visit := Eval vm_compute in visits_of busy_town 2.

  Lemma town_sane : sane.
  Proof. split; intros [|[|[|t]]]; vm_compute; try split; congruence. Qed.
End town.

Section unread.
  #[local] Existing Instance town.

  (** a copy of route 2 whose times and feasibility were never read *)
  Definition unread_town : heap := Eval vm_compute in after (route_clone 2 0) busy_town.
  Definition unread_stops : list nat := Eval vm_compute in stops_in unread_town 3.
  (** the same after the first pickup is told to start at 50 units *)
  Definition late_town : heap := Eval vm_compute in
    after (set_starting_time 13 50000 ;;; route_flush 3) unread_town.
  Definition late_visits : list visit := Eval vm_compute in visits_of late_town 3.
End unread.

Section shifts.
  #[local] Existing Instance town.

  (** routes of vehicle 1 built by three insertions: route 2 serves trips 2 and 3 *)
  Definition shift_town : heap := Eval vm_compute in after
    (let! r0 := new_route 1 in
     let! r1 := compute_one r0 2 0 1 in
     let! r2 := compute_one r1 3 2 3 in ret r2) empty_heap.
  Definition shift_stops : list nat := Eval vm_compute in stops_in shift_town 2.
  Definition shift_visits : list visit := Eval vm_compute in visits_of shift_town 2.

  (** the busy route with trip 2 inserted into it *)
  Definition stale_town : heap := Eval vm_compute in after (compute true 2 [2%nat] 2 5) busy_town.
  Definition stale_stops : list nat := Eval vm_compute in stops_in stale_town 3.
  Definition stale_visits : list visit := Eval vm_compute in visits_of stale_town 3.

  (** a stop for nobody waiting to follow the first pickup of route 2 *)
  Definition detour : visit := Visit [7000] [] [] None.
  Definition detour_town : heap := Eval vm_compute in after (new_stop 0 [7000] (Some 7%nat) None) busy_town.

  (** a planned trip for trip 2 whose stops are ready to join route 3 of
      [unread_town] after position 2 and before position 4 *)
  Definition join_town : heap := Eval vm_compute in after
    (let! pk := build_pickup 3 2 2 in
     let! dl := build_delivery 3 2 2 4 pk in
     new_planned_trip 0 2 (Some pk) (Some dl)) unread_town.
End shifts.

Section whole_run.
  #[local] Existing Instance town.

  (** the insertion algorithm for one vehicle and the first three trips *)
  Definition town_config : insertion_config := MkInsertionConfig Intensive true EarliestLastDeparture None 1.
  Definition solved_town : heap := Eval vm_compute in
    after (insertion_optimize town_config [0%nat] [0; 1; 2]%nat None) empty_heap.
  Definition solved_stops : list nat := Eval vm_compute in stops_in solved_town 25.
  Definition solved_visits : list visit := Eval vm_compute in visits_of solved_town 25.
End whole_run.

Section planned.
  #[local] Existing Instance town.

  (** two vehicles and three trips, appended at the end of routes; one trip
      cannot be placed *)
  Definition tail_config : insertion_config := MkInsertionConfig Tail true EarliestLastDeparture None 1.
  Definition planned_town : heap := Eval vm_compute in
    after (insertion_optimize tail_config [0; 1]%nat [0; 1; 3]%nat None) empty_heap.
  Definition planned_routes : list nat := [5; 1]%nat.
  Definition planned_stops : list nat := Eval vm_compute in stops_in planned_town 5.
  Definition planned_visits : list visit := Eval vm_compute in visits_of planned_town 5.
End planned.
