(** Where the time of a vehicle and of its passengers goes. *)
From Verif Require Export Reads Accounts.

(** the elements after position [i], up to position [j] *)
Definition span {A} (l : list A) (i j : nat) : list A := take (j - i) (drop (S i) l).

Section account.
  Context {W : World}.
  (** distance from visit [i] to visit [j] *)
  Definition driven_between (xs : list visit) (i j : nat) : Z :=
    match xs !! i with Some x => driven (vi_place x) (span xs i j) | None => 0 end.
  (** time spent waiting at the visits after [i], up to [j] *)
  Definition waited_between (v : nat) (xs : list visit) (i j : nat) : Z :=
    sum_of (map (fun T => tm_start T - tm_arrival T) (span (timetable v xs) i j)).
  (** duration of the services after [i], up to [j] *)
  Definition served_between (xs : list visit) (i j : nat) : Z := sum_of (map visit_duration (span xs i j)).
  (** waiting time of the whole route *)
  Definition waited (v : nat) (xs : list visit) : Z :=
    sum_of (map (fun T => tm_start T - tm_arrival T) (timetable v xs)).
End account.
