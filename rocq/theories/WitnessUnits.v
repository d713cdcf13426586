(** A passenger who is late by exactly the tolerance. *)
From Verif Require Export WitnessOrder SpecUnits.

Definition late_world : World := world_of 1 Manhattan
  [Vehicle "v" (Service [0] 0 Inf 0) None (Lim 1000) Inf]
  [Trip "t" (Service [10] 0 (Lim 9) 0) (Service [30] 0 Inf 0) 1000 0 Inf].
Definition late_visits : list visit := [Visit [0] [] [] None; Visit [10] [0%nat] [] None; Visit [30] [] [0%nat] None; Visit [0] [] [] None].
Definition tens (p : position) : position := map (Z.mul 10) p.
