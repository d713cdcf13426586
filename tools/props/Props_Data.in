(** C34-C39: surfaces, trips and loaders. *)
From Verif Require Import SpecSurface SpecTrip WitnessLoad Values Reads SurfaceTheorems TripTheorems LoadTheorems TimeTheorems.

(** ** C34.  Distances do not depend on the query history *)
@C34_replies c34_replies
@C34_metric c34_metric
(** they are the distances all routes are computed with *)
@C34_world c34_world
@C34_symmetric c34_symmetric
@C34_positive c34_positive
@C34_diagonal c34_diagonal
@C34_separates c34_separates
@C34_triangle c34_triangle
(** straight lines are rounded down, so the triangle inequality holds up to one tick *)
@C34_straight c34_straight

Section C34_example.
  Definition corner (k : nat) (x y : Z) : pobj := Pobj k [x; y].
  Example C34_case :
    (perform_all [AskDistance (corner 7 0 0) (corner 8 3 4); AskPosition [3; 4];
                  AskTime (corner 8 3 4) (corner 7 0 0) (Some 55); AskDistance (corner 9 3 4) (corner 7 0 0)]
       (new_surface Euclidean)).1 =
      Ok [GotNumber 5; GotPosition (corner 0 3 4); GotNumber 5; GotNumber 5] /\
    (distance_to (corner 7 0 0) (corner 8 3 4) (surface_after Manhattan [AskPosition [3; 4]])).1 = Ok 7.
  Proof. split; vm_compute; reflexivity. Qed.
  (** a way around the corner, and a straight one whose parts are rounded *)
  Example C34_case_triangle :
    let ask m a b := (distance_to a b (surface_after m [AskPosition [3; 4]])).1 in
    ask Manhattan (corner 0 0 0) (corner 1 3 0) = Ok 3 /\ ask Manhattan (corner 1 3 0) (corner 2 3 4) = Ok 4 /\
    ask Manhattan (corner 0 0 0) (corner 2 3 4) = Ok 7 /\
    ask Euclidean (corner 0 0 0) (corner 1 1 1) = Ok 1 /\ ask Euclidean (corner 1 1 1) (corner 2 3 3) = Ok 2 /\
    ask Euclidean (corner 0 0 0) (corner 2 3 3) = Ok 4.
  Proof. repeat split; vm_compute; reflexivity. Qed.
End C34_example.

(** ** C35.  get_or_create_position keeps positions unique *)
@C35_unique c35_unique
@C35_returns c35_returns
(** though what a call returns is never an object that was there before *)
@C35_fresh c35_fresh

Section C35_example.
  Example C35_case :
    let qs := [AskPosition [1; 2]; AskPosition [3; 4]; AskPosition [1; 2]] in
    position_coordinates (surface_after Manhattan qs) ≡ₚ [[1; 2]; [3; 4]] /\
    exists p s, get_or_create_position [1; 2] (surface_after Manhattan qs) = (Ok p, s).
  Proof.
    cbn zeta. split.
    - match goal with |- ?l ≡ₚ _ => let l' := eval vm_compute in l in change (l' ≡ₚ [[1; 2]; [3; 4]]) end.
      (apply (bool_decide_unpack _); vm_compute; reflexivity).
    - do 2 eexists. vm_compute. reflexivity.
  Qed.
End C35_example.

(** ** C36.  Tightened trip windows admit every valid service *)
(** refuted in every world: [origin_earliest] and [origin_latest] subtract the
    duration of the destination, not of the origin (trips.py:118-127) *)
@C36_refuted c36_refuted
(** the delivery window admits every valid service *)
@C36_delivery_partial c36_delivery
(** the pickup window does up to the difference of the two durations *)
@C36_pickup_partial c36_pickup
@C36_equal_partial c36_equal

Section C36_example.
  #[local] Existing Instance ride_world.
  Definition a_trip : trip :=
    Trip "a" (Service [0; 0] 0 (Lim 9000) 100) (Service [3000; 4000] 8000 (Lim 20000) 100) 1000 0 (Lim 12000).
  Example C36_case : served_at a_trip 2000 10000 /\ origin_duration a_trip = destination_duration a_trip.
  Proof. split; [|reflexivity]. split; vm_compute; repeat split; discriminate. Qed.
End C36_example.

(** ** C37.  Cordeau-Laporte loader builds the instance in the file *)
@C37_fleet c37_fleet
@C37_job c37_job
(** names are distinct *)
@C37_names c37_names
(** the same for tables that need not come from an instance, and their errors *)
@C37_table c37_table
@C37_fleet_missing c37_fleet_missing
@C37_mismatch c37_mismatch
@C37_missing c37_missing

Section C37_example.
  Definition two_trips : dial_a_ride := DialARideFile 2 480000 6000 90000
    (Point 0 (-1044) 2000 0 0 0 1440000)
    [Point 1000 (-2973) 6414 10000 1000 0 1440000; Point 2000 (-5476) 1437 10000 1000 258000 287000]
    [Point 3000 (-1302) (-1000) 10000 (-1000) 325000 358000; Point 4000 6000 (-3200) 10000 (-1000) 0 1440000].
  Example C37_case : paired two_trips /\
    map vh_identifier (loaded (cordeau_fleet 1 (dial_a_ride_file (unit_of 1) two_trips)) cordeau_surface) = ["0"; "1"]%string /\
    map tr_identifier (loaded (cordeau_job 1 (dial_a_ride_file (unit_of 1) two_trips)) cordeau_surface) = ["1"; "2"]%string.
  Proof.
    split; [|split; vm_compute; reflexivity].
    repeat (constructor; [reflexivity|]). constructor.
  Qed.
  (** a table whose second trip has mismatched loads, and one that is cut short *)
  Definition header : list Z := [1000; 4000; 480000; 6000; 90000].
  Definition line (load : Z) : list Z := [1000; 5000; 5000; 0; load; 0; 9000].
  Example C37_case_mismatch :
    let d := [header; line 0; line 1000; line 2000; line (-1000); line (-1000)] in
    announces (unit_of 1) header 2 /\ sound_trip d 2 0 /\ full_line d 3 (line 2000) /\ full_line d 5 (line (-1000)) /\
    (cordeau_job 1 d cordeau_surface).1 = Raise AssertionError.
  Proof.
    cbn zeta. split; [exists 4000; vm_compute; repeat split; discriminate|].
    split. { exists (line 1000), (line (-1000)). repeat split; vm_compute; reflexivity || lia. }
    repeat split; vm_compute; reflexivity || lia.
  Qed.
  Example C37_case_missing :
    let d := [header; line 0; line 1000; line 2000; line (-1000)] in
    sound_trip d 2 0 /\ ~ (exists q, full_line d 5 q) /\ (cordeau_job 1 d cordeau_surface).1 = Raise IndexError.
  Proof.
    cbn zeta. split. { exists (line 1000), (line (-1000)). repeat split; vm_compute; reflexivity || lia. }
    split; [|vm_compute; reflexivity]. intros (q & Hq & _). vm_compute in Hq. discriminate.
  Qed.
  (** a table with a line too many, and one without a depot *)
  Example C37_case_table :
    let d := [header; line 0; line 1000; line 2000; line (-1000); line (-2000); []] in
    announces (unit_of 1) header 2 /\ (forall i, (i < 2)%nat -> sound_trip d 2 i) /\
    map tr_capacity (loaded (cordeau_job 1 d) cordeau_surface) = [1000; 2000] /\
    (cordeau_fleet 1 [header] cordeau_surface).1 = Raise IndexError.
  Proof.
    cbn zeta. split; [exists 4000; vm_compute; repeat split; discriminate|]. split; [|split; vm_compute; reflexivity].
    intros [|[|i]] Hi; [| |lia].
    - exists (line 1000), (line (-1000)). repeat split; vm_compute; reflexivity || lia.
    - exists (line 2000), (line (-2000)). repeat split; vm_compute; reflexivity || lia.
  Qed.
End C37_example.

(** ** C38.  Cordeau-Laporte loader keeps the depot time window

    It does not: the vehicles are built from the depot's coordinates only
    (cordeau_laporte.py:22-35). *)
@C38_refuted c38_refuted
(** no table makes it do so *)
@C38_ignored c38_ignored
@C38_open c38_open

Section C38_example.
  Example C38_case :
    slice 1 3 [0; 5; 6; 0; 0; 2000; 3000] = slice 1 3 [0; 5; 6; 0; 0; 0; 1440000] /\
    length (loaded (cordeau_fleet 1 depot_file) cordeau_surface) = 1%nat.
  Proof. split; vm_compute; reflexivity. Qed.
End C38_example.

(** ** C39.  HashCode loader and the latest-finish rule *)
@C39_fleet c39_fleet
@C39_job c39_job
@C39_malformed c39_malformed
(** deliveries are not checked against the latest finish *)
@C39_refuted c39_refuted
(** what feasibility does guarantee *)
@C39_guarantees_partial c39_guarantees

Section C39_example.
  #[local] Existing Instance ride_world.
  Example C39_case :
    holds ride_vehicles ride_trips /\ sane /\ well_formed ride_heap 2 0 ride_stops ride_visits /\
    unasked ride_heap 2 ride_stops /\ result (route_feasible 2) ride_heap = Ok true /\ ride ride_visits 0 1 2.
  Proof.
    split; [apply holds_world_of|].
    split; [split; intros [|[|t]]; vm_compute; try split; congruence|].
    split; [apply well_formedb_sound; vm_compute; reflexivity|]. split; [apply unaskedb_sound; vm_compute; reflexivity|].
    split; [vm_compute; reflexivity|].
    eexists _, _. split; [vm_compute; reflexivity|]. split; [vm_compute; reflexivity|].
    split; apply (bool_decide_unpack _); vm_compute; reflexivity.
  Qed.
  Example C39_case_malformed :
    [9000; 9000; 1000; 1000; 2000; 50000] !! 4%nat = Some 2000 /\ length [1000; 0; 5000; 0; 0] <> 6%nat /\
    (hashcode_job 1 [[9000; 9000; 1000; 1000; 2000; 50000]; [1000; 0; 5000; 0; 0]] hashcode_surface).1 = Raise TypeError.
  Proof. repeat split. discriminate. Qed.
End C39_example.
