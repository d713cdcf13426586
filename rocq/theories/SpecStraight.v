(** Exact straight-line distance, and how far off a computed one may be. *)
From Verif Require Export SpecDouble.

(** the exact distance over the coordinates both positions have *)
Definition straight (a b : list R) : R :=
  sqrt (fold_right Rplus 0 (map (fun i => (nth i a 0 - nth i b 0) ^ 2) (seq 0 (Nat.min (length a) (length b))))).
(** what squares of [n] tiny differences lose: [n * 2^-537] *)
Definition tiny (n : nat) : R := INR n * bpow radix2 (-537).

(** [r'] leaves out stop [k] of [r], which is not the last one, and drives
    directly to the next one, taking time [w]; [x] and [y] are the travel times
    to the two stops in [r] *)
Definition leaves_out (k : nat) (x y w : R) (r r' : droute) : Prop :=
  dr_earliest r' = dr_earliest r /\
  exists before s t after,
    length before = k /\ ds_travel s = x /\ ds_travel t = y /\
    dr_stops r = before ++ s :: t :: after /\
    dr_stops r' = before ++ DStop w (ds_pickups t) (ds_deliveries t) (ds_request t) :: after.
(** none of the times in [a] is later than in [b] by more than [e] *)
Definition no_later (e : R) (a b : dtimes) : Prop :=
  dm_arrival a <= dm_arrival b + e /\ dm_start a <= dm_start b + e /\ dm_departure a <= dm_departure b + e.
