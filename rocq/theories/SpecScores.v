(** Exact HashCode scores. *)
From Verif Require Export Scores SpecDouble.
From Verif Require Export SpecWorth.

Definition exact_score (r : droute) (i : nat) (t : dtrip) (bonus : R) : R :=
  if Req_EM_T (opens_pickup t) (dm_departure (truly r i)) then dt_time t + bonus else dt_time t.
(** [t] is picked up at visit [i], and nowhere else *)
Definition boards_at (xs : list visit) (t i : nat) : Prop :=
  (exists x, xs !! i = Some x /\ t ∈ vi_board x) /\ forall j y, xs !! j = Some y -> t ∈ vi_board y -> j = i.
Definition real_scores `{W : World} (p : nat * list visit) : list (list R) :=
  map (fun x => map (fun t => real (unless_empty t (ride_score p.1 p.2 t))) (vi_board x)) p.2.
