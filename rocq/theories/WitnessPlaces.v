(** The town of WitnessOrder.v seen in a mirror, with Euclidean distances, other
    names and other hours at the depot. *)
From Verif Require Export WitnessOrder SpecPlaces.

Definition mirror (p : position) : position := map (fun x => 5000 - x) p.
Definition mirror_world : World := world_of 1 Euclidean
  [Vehicle "bus" (Service [5000] 0 (Lim 1) 700) (Some (Service [5000] 99 Inf 44)) (Lim 1000) Inf]
  [Trip "x" (Service [5000] 0 (Lim 0) 0) (Service [-5000] 0 Inf 0) 1000 0 Inf;
   Trip "x" (Service [5000] 0 (Lim 0) 0) (Service [15000] 0 Inf 0) 1000 0 Inf;
   Trip "y" (Service [-5000] 0 (Lim 10000) 0) (Service [-6000] 0 Inf 0) 1000 0 Inf].
