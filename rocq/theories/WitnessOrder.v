(** A town where it matters in which order trips are looked at. *)
From Verif Require Export WitnessWarm WitnessValues SpecOrder.

(** Trips 0 and 1 begin at the depot at time 0, go to 10 and -10 and are back
    at 20; trip 2 goes from 10 to 11 and cannot begin after 10. *)
Definition fork_world : World := world_of 1 Manhattan
  [Vehicle "v" (at_ 0 0 Inf 0) None (Lim 1000) Inf]
  [Trip "a" (at_ 0 0 (Lim 0) 0) (at_ 10 0 Inf 0) 1000 0 Inf;
   Trip "b" (at_ 0 0 (Lim 0) 0) (at_ (-10) 0 Inf 0) 1000 0 Inf;
   Trip "c" (at_ 10 0 (Lim 10000) 0) (at_ 11 0 Inf 0) 1000 0 Inf].
Definition last_first (k : nat) (l : list nat) : list nat := if decide (length l = 3%nat) then reverse l else l.
Lemma last_first_perm k l : last_first k l ≡ₚ l.
Proof. unfold last_first. destruct (decide _); [apply reverse_Permutation|done]. Qed.
Definition krof_world : World := reordered fork_world last_first last_first_perm.
Definition fork_after : heap := Eval vm_compute in
  snd (insertion_optimize (W := fork_world) (warm_config EarliestLastDeparture) [0%nat] [0; 1; 2]%nat None empty_heap).
Definition krof_after : heap := Eval vm_compute in
  snd (insertion_optimize (W := krof_world) (warm_config EarliestLastDeparture) [0%nat] [0; 1; 2]%nat None empty_heap).

(** A stop where two passengers board, in either order. *)
Definition pair_world : World := world_of 1 Manhattan
  [Vehicle "v" (at_ 0 0 Inf 0) None (Lim 2000) Inf]
  [Trip "a" (at_ 5 0 Inf 0) (at_ 10 0 Inf 0) 1000 0 Inf; Trip "b" (at_ 5 2000 Inf 3000) (at_ 8 0 Inf 0) 1000 0 Inf].
Definition pair_heap (board : list nat) : heap := MkHeap
  [MkStop 0 [0] [] [] None None None None None None;
   MkStop 0 [5000] board [] (Some 0%nat) None None None None None;
   MkStop 0 [8000] [] [1%nat] (Some 1%nat) None None None None None;
   MkStop 0 [10000] [] [0%nat] (Some 2%nat) None None None None None;
   MkStop 0 [0] [] [] (Some 3%nat) None None None None None]
  [MkPtrip 0 0 (Some 1%nat) (Some 3%nat) None; MkPtrip 0 1 (Some 1%nat) (Some 2%nat) None]
  [MkRoute 0 [0; 1; 2; 3; 4]%nat None] 0.
Definition pair_visits (board : list nat) : list visit := visits_of (pair_heap board) 0.

(** [meter_town] when its three routes have been ranked *)
Definition ranked_town : heap := Eval vm_compute in snd (criterion_sorted (W := meter) LongestUtilTime [4; 2; 3]%nat meter_town).
