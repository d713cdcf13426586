(** Vocabulary of the theorems about the insertion strategies. *)
From Verif Require Export Represents Insertion.

(** worlds without negative durations and capacities *)
Definition sane `{W : World} : Prop := sane_durations /\ sane_capacities.

(** what two calls of [randint] can give in random.py:40-41 *)
Definition draws (n : nat) (p : nat * nat) : Prop := (p.1 <= n - 2)%nat /\ (p.1 + 1 <= p.2 <= n - 1)%nat.
