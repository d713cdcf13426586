(** Exact totals. *)
From Verif Require Export Totals SpecDouble.

Definition total (l : list R) : R := fold_right Rplus 0 l.
(** the distance all vehicles drive; the time all passengers ride *)
Definition driven (routes : list (list R)) : R := total (concat routes).
Definition ridden (routes : list (list (list R))) : R := total (concat (concat routes)).
Definition amounts (l : list R) : Prop := forall x, In x l -> double x /\ 0 <= x.
(** not more than [n] routes and stops in a row *)
Definition no_longer (k : nat) {A} (l : list (list A)) : Prop := forall x, In x l -> (length x <= k)%nat.
