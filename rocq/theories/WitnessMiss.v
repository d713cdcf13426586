(** A vehicle with a limit on the duration of its route: whatever waits for a
    pickup cannot be extended any more. *)
From Verif Require Export Witness.

(** as in [town], but trip 4 is from 1 to 2 and not before 104, and the route
    of vehicle 1 may take at most 50 units *)
Definition short_trip (t : nat) : trip :=
  match t with
  | 4%nat => Trip "D" (at_ 1 104000 Inf 0) (at_ 2 0 Inf 0) 1000 0 Inf
  | _ => town_trip t
  end.
Definition short_vehicle (v : nat) : vehicle :=
  match v with
  | 1%nat => Vehicle "w" (at_ 0 20000 Inf 0) None (Lim 3000) (Lim 50000)
  | _ => town_vehicle v
  end.
Definition short_town : World.
Proof.
  refine (mk_world 1 Manhattan short_trip short_vehicle (fun _ l => l) _ (fun _ _ => 0%nat) _ (fun _ _ _ => []) _ _).
  - reflexivity.
  - intros; lia.
  - intros ????? H; inversion H.
  - intros; constructor.
Defined.

Section short.
  #[local] Existing Instance short_town.
  Lemma short_sane : sane.
  Proof. split; intros [|[|[|[|[|t]]]]]; vm_compute; try split; congruence. Qed.

  (** route 1 serves trip 2 and leaves at 77 *)
  Definition waiting_town : heap := Eval vm_compute in after (let! r0 := new_route 1 in compute true r0 [2]%nat 0 1) empty_heap.
  (** trip 4 is planned, trip 2 is left over *)
  Definition short_config : insertion_config := MkInsertionConfig Intensive true EarliestLastDeparture None 1.
  Definition missed_routes : list nat := Eval vm_compute in
    match fst (insertion_optimize short_config [1]%nat [2; 4]%nat None empty_heap) with Ok l => l | Raise _ => [] end.
  Definition missed_town : heap := Eval vm_compute in after (insertion_optimize short_config [1]%nat [2; 4]%nat None) empty_heap.
  Definition missed_route : nat := Eval vm_compute in hd 0%nat missed_routes.
End short.

Section late.
  #[local] Existing Instance town.
  (** vehicle 1 takes trips 2 and 3 and is too late for trip 1 *)
  Definition late_config : insertion_config := MkInsertionConfig Intensive true EarliestLastDeparture None 1.
  Definition unmet_routes : list nat := Eval vm_compute in
    match fst (insertion_optimize late_config [1]%nat [1; 2; 3]%nat None empty_heap) with Ok l => l | Raise _ => [] end.
  Definition unmet_town : heap := Eval vm_compute in after (insertion_optimize late_config [1]%nat [1; 2; 3]%nat None) empty_heap.
  Definition unmet_route : nat := Eval vm_compute in hd 0%nat unmet_routes.
End late.
