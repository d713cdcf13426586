(** Cordeau-Laporte files whose planned tours are late or too long. *)
From Verif Require Export SpecRoster WitnessSubmit.

(** One vehicle with three seats; the second passenger has to be picked up
    between 2 and 3. *)
Definition tardy_lines : list string :=
  ["1 6 1000 3 20"; "0 0 0 0 0 0 1440"; "1 1 0 0 1 1 1000"; "2 2 0 0 1 2 3"; "3 3 0 0 1 100 200";
   "4 4 0 0 -1 0 1000"; "5 5 0 0 -1 0 1000"; "6 6 0 0 -1 0 1000"]%string.
Definition tardy_case : dial_a_ride := DialARideFile 1 1000000 3000 20000 (Point 0 0 0 0 0 0 1440000)
  [Point 1000 1000 0 0 1000 1000 1000000; Point 2000 2000 0 0 1000 2000 3000; Point 3000 3000 0 0 1000 100000 200000]
  [Point 4000 4000 0 0 (-1000) 0 1000000; Point 5000 5000 0 0 (-1000) 0 1000000; Point 6000 6000 0 0 (-1000) 0 1000000].
Definition tardy_vehicles : list vehicle := Eval vm_compute in loaded (cordeau_fleet 1 (dial_a_ride_file (unit_of 1) tardy_case)) cordeau_surface.
Definition tardy_trips : list trip := Eval vm_compute in loaded (cordeau_job 1 (dial_a_ride_file (unit_of 1) tardy_case)) cordeau_surface.
Definition tardy_world : World := world_of 1 Euclidean tardy_vehicles tardy_trips.
Definition near_config : insertion_config := MkInsertionConfig Intensive true EarliestLastDeparture None 1.
Section tardy.
  #[local] Existing Instance tardy_world.
  Definition tardy_result := Eval vm_compute in insertion_optimize near_config [0%nat] [0; 1; 2]%nat None empty_heap.
  Definition tardy_heap : heap := Eval vm_compute in snd tardy_result.
  Definition tardy_roster : roster := Eval vm_compute in roster_of 0 (visits_of tardy_heap 28).
End tardy.

(** One vehicle with one seat, to be back 50 after it left.  The first
    passenger can be picked up from 30 on, the second between 100 and 101; the
    third cannot be served. *)
Definition long_lines : list string :=
  ["1 6 50 1 90"; "0 0 0 0 0 0 1440"; "1 1 0 0 1 30 200"; "2 1 0 0 1 100 101"; "3 1 0 0 1 0 1440";
   "4 2 0 0 -1 0 1440"; "5 2 0 0 -1 0 1440"; "6 50 0 0 -1 0 1"]%string.
Definition long_case : dial_a_ride := DialARideFile 1 50000 1000 90000 (Point 0 0 0 0 0 0 1440000)
  [Point 1000 1000 0 0 1000 30000 200000; Point 2000 1000 0 0 1000 100000 101000; Point 3000 1000 0 0 1000 0 1440000]
  [Point 4000 2000 0 0 (-1000) 0 1440000; Point 5000 2000 0 0 (-1000) 0 1440000; Point 6000 50000 0 0 (-1000) 0 1000].
Definition long_vehicles : list vehicle := Eval vm_compute in loaded (cordeau_fleet 1 (dial_a_ride_file (unit_of 1) long_case)) cordeau_surface.
Definition long_trips : list trip := Eval vm_compute in loaded (cordeau_job 1 (dial_a_ride_file (unit_of 1) long_case)) cordeau_surface.
Definition long_world : World := world_of 1 Euclidean long_vehicles long_trips.
Section long.
  #[local] Existing Instance long_world.
  Definition long_result := Eval vm_compute in insertion_optimize near_config [0%nat] [0; 1; 2]%nat None empty_heap.
  Definition long_heap : heap := Eval vm_compute in snd long_result.
  Definition long_roster : roster := Eval vm_compute in roster_of 0 (visits_of long_heap 4).
End long.
