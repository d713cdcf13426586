(** Routes along a line for 2-opt. *)
From Verif Require Export Witness WitnessValues WitnessSearch LocalSearch Checker.

(** Trips 0, 1, 2 and 3 start at 40, 30, 20 and 25 and end at 100 to 103;
    trips 4 and 5 start at 20 and 10 and end at 30 and 40. *)
Definition line_trip (t : nat) : trip :=
  match t with
  | 0%nat => Trip "a" (at_ 40 0 Inf 0) (at_ 100 0 Inf 0) 1000 0 Inf
  | 1%nat => Trip "b" (at_ 30 0 Inf 0) (at_ 101 0 Inf 0) 1000 0 Inf
  | 2%nat => Trip "c" (at_ 20 0 Inf 0) (at_ 102 0 Inf 0) 1000 0 Inf
  | 3%nat => Trip "d" (at_ 25 0 Inf 0) (at_ 103 0 Inf 0) 1000 0 Inf
  | 4%nat => Trip "e" (at_ 20 0 Inf 0) (at_ 30 0 Inf 0) 1000 0 Inf
  | _ => Trip "f" (at_ 10 0 Inf 0) (at_ 40 0 Inf 0) 1000 0 Inf
  end.
Definition line_vehicle (v : nat) : vehicle := Vehicle "v" (at_ 0 0 Inf 0) None (Lim 4000) Inf.
Definition line : World.
Proof.
  refine (mk_world 1 Manhattan line_trip line_vehicle (fun _ l => l) _ (fun _ _ => 0%nat) _ (fun _ _ _ => []) _ _).
  - reflexivity.
  - intros; lia.
  - intros ????? H; inversion H.
  - intros; constructor.
Defined.

Section line.
  #[local] Existing Instance line.
  Lemma line_sane : sane.
  Proof. split; intros [|[|[|[|[|t]]]]]; vm_compute; try split; congruence. Qed.
  (** all pickups in the given order, then all deliveries in the same one *)
  Definition in_line (a b c d : nat) : M nat :=
    let! r0 := new_route 0 in
    let! r1 := compute_one r0 a 0 1 in
    let! r2 := compute_one r1 b 1 3 in
    let! r3 := compute_one r2 c 2 5 in compute_one r3 d 3 7.
  (** from 40 back to 20, then on to 25 *)
  Definition back_line : heap := Eval vm_compute in after (in_line 0 1 2 3) empty_heap.
  (** from 20 to 40, then back to 25 *)
  Definition forth_line : heap := Eval vm_compute in after (in_line 2 1 0 3) empty_heap.
  (** two passengers, the farther one first *)
  Definition pair_line : heap := Eval vm_compute in after
    (let! r0 := new_route 0 in let! r1 := compute_one r0 4 0 1 in compute_one r1 5 1 3) empty_heap.
  (** after the search *)
  Definition twice_line : heap := Eval vm_compute in snd (local_search_optimize 2 TwoOpt DialARide 1 [4%nat] back_line).
  Definition onward_line : heap := Eval vm_compute in snd (local_search_optimize 3 TwoOpt DialARide 1 [4%nat] forth_line).
  Definition same_line : heap := Eval vm_compute in snd (local_search_optimize 1 TwoOpt DialARide 1 [2%nat] pair_line).
End line.
