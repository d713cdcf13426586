(** A town that pays for pickups on time. *)
From Verif Require Import Witness.
From Verif Require Import SpecScores WitnessBridge.
From Coq Require Import Lra Lia.

(** the town with a bonus of 2 units *)
Definition paid_trip (t : nat) : trip :=
  let x := town_trip t in Trip (tr_identifier x) (tr_origin x) (tr_destination x) (tr_capacity x) 2000 (tr_timeout x).
Definition paid : World.
Proof.
  refine (mk_world 1 Manhattan paid_trip town_vehicle (fun _ l => reverse l) _ (fun _ _ => 0%nat) _ (fun _ _ _ => []) _ _).
  - intros; apply reverse_Permutation.
  - intros; lia.
  - intros ????? H; inversion H.
  - intros; constructor.
Defined.
Lemma paid_unit k : @real paid (k * 1000) = IZR k.
Proof. exact (town_unit k). Qed.
Lemma paid_boards xs : xs = busy_visits \/ xs = late_visits -> boards_at xs 0 1.
Proof.
  intros Hx. split; [destruct Hx as [->| ->]; eexists; (split; [reflexivity|apply elem_of_list_here])|].
  intros j y Hj Hy. apply elem_of_list_In in Hy.
  destruct Hx as [->| ->]; destruct j as [|[|[|[|[|[|j]]]]]]; cbn in Hj; try discriminate; injection Hj as <-; cbn in Hy; intuition lia.
Qed.
