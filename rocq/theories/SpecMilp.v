(** What the nodes of the three-index model stand for, independently of its
    index arithmetic. *)
From Verif Require Export Milp.

Section nodes.
  Context {W : World} (vs ts : list nat).
  (** node [i] is the pickup, or the delivery, of trip [t]: pickups are numbered
      from 1, deliveries follow in the same order *)
  Definition pickup_node (i t : nat) : Prop := exists k, ts !! k = Some t /\ i = (k + 1)%nat.
  Definition delivery_node (i t : nat) : Prop := exists k, ts !! k = Some t /\ i = (length ts + k + 1)%nat.
  Definition depot_node (i : nat) : Prop := i = 0%nat \/ i = (2 * length ts + 1)%nat.
End nodes.

(** [x] is within 0.05 of [y] *)
Definition within (x y : Q) : Prop := (y - (5 # 100) <= x <= y + (5 # 100))%Q.
