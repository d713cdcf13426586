(** States for the examples about scores and objective values. *)
From Verif Require Export Witness Values.

(** As [town], with bonuses: request 0 needs half a unit at its pickup, the
    others none. *)
Definition meter_trip (t : nat) : trip :=
  match t with
  | 0%nat => Trip "A" (at_ 2 2000 (Lim 9000) 500) (at_ 5 0 Inf 0) 1000 700 Inf
  | 1%nat => Trip "B" (at_ 5 5500 (Lim 9000) 0) (at_ 7 0 Inf 0) 1000 700 Inf
  | 2%nat => Trip "E" (at_ 3 0 Inf 0) (at_ 4 0 Inf 0) 0 700 Inf
  | _ => Trip "C" (at_ 1 0 Inf 0) (at_ 2 0 Inf 0) 1000 0 Inf
  end.
Definition meter : World.
Proof.
  refine (mk_world 1 Manhattan meter_trip town_vehicle (fun _ l => reverse l) _ (fun _ _ => 0%nat) _ (fun _ _ _ => []) _ _).
  - intros; apply reverse_Permutation.
  - intros; lia.
  - intros ????? H; inversion H.
  - intros; constructor.
Defined.

Section meter.
  #[local] Existing Instance meter.
  Lemma meter_sane : sane.
  Proof. split; intros [|[|[|t]]]; vm_compute; try split; congruence. Qed.

  (** route 2 of vehicle 0 serves trips 0 and 1, route 3 of vehicle 1 nothing,
      route 4 of vehicle 1 trips 3 *)
  Definition meter_town : heap := Eval vm_compute in after
    (let! r0 := new_route 0 in
     let! r1 := compute_one r0 0 0 1 in
     let! r2 := compute_one r1 1 2 3 in
     let! r3 := new_route 1 in
     compute_one r3 3 0 1) empty_heap.
  Definition meter_stops (r : nat) : list nat := stops_in meter_town r.
  Definition meter_visits (r : nat) : list visit := visits_of meter_town r.
End meter.
