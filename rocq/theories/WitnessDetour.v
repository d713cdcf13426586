(** A passenger who keeps another one from being picked up too early. *)
From Verif Require Export Witness WitnessValues Insertion.

(** Trip 0 from 10 to 20 may take 20, trip 1 starts at -5, trip 2 at 15
    not before time 35. *)
Definition hold_trip (t : nat) : trip :=
  match t with
  | 0%nat => Trip "a" (at_ 10 0 Inf 0) (at_ 20 0 Inf 0) 1000 0 (Lim 20000)
  | 1%nat => Trip "b" (at_ (-5) 0 Inf 0) (at_ 30 0 Inf 0) 1000 0 Inf
  | _ => Trip "c" (at_ 15 35000 Inf 0) (at_ 25 0 Inf 0) 1000 0 Inf
  end.
Definition hold_vehicle (v : nat) : vehicle := Vehicle "v" (at_ 0 0 Inf 0) None (Lim 3000) Inf.
Definition hold : World.
Proof.
  refine (mk_world 1 Manhattan hold_trip hold_vehicle (fun _ l => l) _ (fun _ _ => 0%nat) _ (fun _ _ _ => []) _ _).
  - reflexivity.
  - intros; lia.
  - intros ????? H; inversion H.
  - intros; constructor.
Defined.

Section hold.
  #[local] Existing Instance hold.
  Lemma hold_sane : sane.
  Proof. split; intros [|[|t]]; vm_compute; try split; congruence. Qed.
  (** route 3 serves all of them *)
  Definition full_hold : heap := Eval vm_compute in after
    (let! r0 := new_route 0 in
     let! r1 := compute_one r0 1 0 1 in
     let! r2 := compute_one r1 2 1 2 in
     let! r3 := compute_one r2 0 1 3 in ret r3) empty_heap.
End hold.
