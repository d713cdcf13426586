(** C34-C39: surfaces, trips and loaders. *)
From Verif Require Import SpecSurface SpecTrip WitnessLoad Values Reads SurfaceTheorems TripTheorems LoadTheorems TimeTheorems.

(** ** C34.  Distances do not depend on the query history *)
Theorem C34_replies : forall m qs, exists rs s,
  perform_all qs (new_surface m) = (Ok rs, s) /\ Forall2 (right_reply m) qs rs.
Proof. exact c34_replies. Qed.
Print Assumptions C34_replies.
Theorem C34_metric : forall m qs a b, exists d,
  (distance_to a b (surface_after m qs)).1 = Ok d /\
  is_distance m (po_coords a) (po_coords b) d /\
  forall qs' now, (time_to a b now (surface_after m qs')).1 = Ok d.
Proof. exact c34_metric. Qed.
Print Assumptions C34_metric.
(** they are the distances all routes are computed with *)
Theorem C34_world `{W : World} : forall qs a b,
  (distance_to a b (surface_after w_metric qs)).1 = Ok (dist (po_coords a) (po_coords b)).
Proof. exact c34_world. Qed.
Print Assumptions C34_world.
Theorem C34_symmetric : forall m qs qs' a b,
  (distance_to a b (surface_after m qs)).1 = (distance_to b a (surface_after m qs')).1.
Proof. exact c34_symmetric. Qed.
Print Assumptions C34_symmetric.
Theorem C34_positive : forall m qs a b d,
  (distance_to a b (surface_after m qs)).1 = Ok d -> 0 <= d.
Proof. exact c34_positive. Qed.
Print Assumptions C34_positive.
Theorem C34_diagonal : forall m qs a b, po_coords a = po_coords b ->
  (distance_to a b (surface_after m qs)).1 = Ok 0.
Proof. exact c34_diagonal. Qed.
Print Assumptions C34_diagonal.
Theorem C34_separates : forall qs a b, length (po_coords a) = length (po_coords b) ->
  (distance_to a b (surface_after Manhattan qs)).1 = Ok 0 -> po_coords a = po_coords b.
Proof. exact c34_separates. Qed.
Print Assumptions C34_separates.
Theorem C34_triangle : forall qs qs' qs'' a b c x y z,
  length (po_coords a) = length (po_coords b) -> length (po_coords b) = length (po_coords c) ->
  (distance_to a b (surface_after Manhattan qs)).1 = Ok x ->
  (distance_to b c (surface_after Manhattan qs')).1 = Ok y ->
  (distance_to a c (surface_after Manhattan qs'')).1 = Ok z ->
  z <= x + y.
Proof. exact c34_triangle. Qed.
Print Assumptions C34_triangle.
(** straight lines are rounded down, so the triangle inequality holds up to one tick *)
Theorem C34_straight : forall qs qs' qs'' a b c x y z,
  length (po_coords a) = length (po_coords b) -> length (po_coords b) = length (po_coords c) ->
  (distance_to a b (surface_after Euclidean qs)).1 = Ok x ->
  (distance_to b c (surface_after Euclidean qs')).1 = Ok y ->
  (distance_to a c (surface_after Euclidean qs'')).1 = Ok z ->
  z <= x + y + 1.
Proof. exact c34_straight. Qed.
Print Assumptions C34_straight.

Section C34_example.
  Definition corner (k : nat) (x y : Z) : pobj := Pobj k [x; y].
  Example C34_case :
    (perform_all [AskDistance (corner 7 0 0) (corner 8 3 4); AskPosition [3; 4];
                  AskTime (corner 8 3 4) (corner 7 0 0) (Some 55); AskDistance (corner 9 3 4) (corner 7 0 0)]
       (new_surface Euclidean)).1 =
      Ok [GotNumber 5; GotPosition (corner 0 3 4); GotNumber 5; GotNumber 5] /\
    (distance_to (corner 7 0 0) (corner 8 3 4) (surface_after Manhattan [AskPosition [3; 4]])).1 = Ok 7.
  Proof. split; vm_compute; reflexivity. Qed.
  (** a way around the corner, and a straight one whose parts are rounded *)
  Example C34_case_triangle :
    let ask m a b := (distance_to a b (surface_after m [AskPosition [3; 4]])).1 in
    ask Manhattan (corner 0 0 0) (corner 1 3 0) = Ok 3 /\ ask Manhattan (corner 1 3 0) (corner 2 3 4) = Ok 4 /\
    ask Manhattan (corner 0 0 0) (corner 2 3 4) = Ok 7 /\
    ask Euclidean (corner 0 0 0) (corner 1 1 1) = Ok 1 /\ ask Euclidean (corner 1 1 1) (corner 2 3 3) = Ok 2 /\
    ask Euclidean (corner 0 0 0) (corner 2 3 3) = Ok 4.
  Proof. repeat split; vm_compute; reflexivity. Qed.
End C34_example.

(** ** C35.  get_or_create_position keeps positions unique *)
Theorem C35_unique : forall m qs,
  NoDup (position_coordinates (surface_after m qs)) /\
  forall c, c ∈ position_coordinates (surface_after m qs) <-> c ∈ asked qs.
Proof. exact c35_unique. Qed.
Print Assumptions C35_unique.
Theorem C35_returns : forall m qs c, exists p,
  (get_or_create_position c (surface_after m qs)).1 = Ok p /\ po_coords p = c.
Proof. exact c35_returns. Qed.
Print Assumptions C35_returns.
(** though what a call returns is never an object that was there before *)
Theorem C35_fresh : forall m qs c p s,
  get_or_create_position c (surface_after m qs) = (Ok p, s) ->
  forall q, q ∈ sf_positions (surface_after m qs) -> po_id q <> po_id p.
Proof. exact c35_fresh. Qed.
Print Assumptions C35_fresh.

Section C35_example.
  Example C35_case :
    let qs := [AskPosition [1; 2]; AskPosition [3; 4]; AskPosition [1; 2]] in
    position_coordinates (surface_after Manhattan qs) ≡ₚ [[1; 2]; [3; 4]] /\
    exists p s, get_or_create_position [1; 2] (surface_after Manhattan qs) = (Ok p, s).
  Proof.
    cbn zeta. split.
    - match goal with |- ?l ≡ₚ _ => let l' := eval vm_compute in l in change (l' ≡ₚ [[1; 2]; [3; 4]]) end.
      (apply (bool_decide_unpack _); vm_compute; reflexivity).
    - do 2 eexists. vm_compute. reflexivity.
  Qed.
End C35_example.

(** ** C36.  Tightened trip windows admit every valid service *)
(** refuted in every world: [origin_earliest] and [origin_latest] subtract the
    duration of the destination, not of the origin (trips.py:118-127) *)
Theorem C36_refuted : forall W : World,
  (exists t p d, served_at t p d /\ p < origin_earliest t) /\
  (exists t p d, served_at t p d /\ ~ not_after p (origin_latest t)).
Proof. exact c36_refuted. Qed.
Print Assumptions C36_refuted.
(** the delivery window admits every valid service *)
Theorem C36_delivery_partial `{W : World} : forall t p d, served_at t p d ->
  destination_earliest t <= d /\ not_after d (destination_latest t).
Proof. exact c36_delivery. Qed.
Print Assumptions C36_delivery_partial.
(** the pickup window does up to the difference of the two durations *)
Theorem C36_pickup_partial `{W : World} : forall t p d, served_at t p d ->
  origin_earliest t <= p + Z.max 0 (origin_duration t - destination_duration t) /\
  not_after (p - Z.max 0 (destination_duration t - origin_duration t)) (origin_latest t).
Proof. exact c36_pickup. Qed.
Print Assumptions C36_pickup_partial.
Theorem C36_equal_partial `{W : World} : forall t p d, served_at t p d ->
  origin_duration t = destination_duration t ->
  origin_earliest t <= p /\ not_after p (origin_latest t) /\
  destination_earliest t <= d /\ not_after d (destination_latest t).
Proof. exact c36_equal. Qed.
Print Assumptions C36_equal_partial.

Section C36_example.
  #[local] Existing Instance ride_world.
  Definition a_trip : trip :=
    Trip "a" (Service [0; 0] 0 (Lim 9000) 100) (Service [3000; 4000] 8000 (Lim 20000) 100) 1000 0 (Lim 12000).
  Example C36_case : served_at a_trip 2000 10000 /\ origin_duration a_trip = destination_duration a_trip.
  Proof. split; [|reflexivity]. split; vm_compute; repeat split; discriminate. Qed.
End C36_example.

(** ** C37.  Cordeau-Laporte loader builds the instance in the file *)
Theorem C37_fleet : forall e i s, exists vs s',
  cordeau_fleet e (dial_a_ride_file (unit_of e) i) s = (Ok vs, s') /\
  length vs = dr_vehicles i /\
  forall k v, vs !! k = Some v ->
    vh_identifier v = pretty k /\
    sv_position (vh_origin v) = [pt_x (dr_depot i); pt_y (dr_depot i)] /\
    sv_position (vh_destination v) = [pt_x (dr_depot i); pt_y (dr_depot i)] /\
    vh_capacity v = Lim (dr_capacity i) /\ vh_timeout v = Lim (dr_longest_tour i).
Proof. exact c37_fleet. Qed.
Print Assumptions C37_fleet.
Theorem C37_job : forall e i s, paired i -> exists ts s',
  cordeau_job e (dial_a_ride_file (unit_of e) i) s = (Ok ts, s') /\
  length ts = length (dr_pickups i) /\
  forall k t p q, ts !! k = Some t -> dr_pickups i !! k = Some p -> dr_deliveries i !! k = Some q ->
    tr_identifier t = pretty (k + 1)%nat /\ service_at p (tr_origin t) /\ service_at q (tr_destination t) /\
    tr_capacity t = pt_load p /\ tr_timeout t = Lim (dr_longest_ride i).
Proof. exact c37_job. Qed.
Print Assumptions C37_job.
(** names are distinct *)
Theorem C37_names : forall i j : nat, pretty i = pretty j -> i = j.
Proof. exact c37_names. Qed.
Print Assumptions C37_names.
(** the same for tables that need not come from an instance, and their errors *)
Theorem C37_table : forall e d hd n T s,
  d !! 0%nat = Some hd -> hd !! 4%nat = Some T -> announces (unit_of e) hd n ->
  (forall i, (i < n)%nat -> sound_trip d n i) ->
  exists ts s', cordeau_job e d s = (Ok ts, s') /\ length ts = n /\
  forall i t p q, ts !! i = Some t -> d !! (i + 2)%nat = Some p -> d !! (i + 2 + n)%nat = Some q ->
    t = Trip (pretty (i + 1)%nat)
          (Service (firstn 2 (skipn 1 p)) (nth 5 p 0) (Lim (nth 6 p 0)) (nth 3 p 0))
          (Service (firstn 2 (skipn 1 q)) (nth 5 q 0) (Lim (nth 6 q 0)) (nth 3 q 0))
          (nth 4 p 0) 0 (Lim T).
Proof. exact c37_table. Qed.
Print Assumptions C37_table.
Theorem C37_fleet_missing : forall e d s, (length d < 2)%nat ->
  cordeau_fleet e d s = (Raise IndexError, s).
Proof. exact c37_fleet_missing. Qed.
Print Assumptions C37_fleet_missing.
Theorem C37_mismatch : forall e d hd n i p q s,
  d !! 0%nat = Some hd -> (5 <= length hd)%nat -> announces (unit_of e) hd n -> (i < n)%nat ->
  (forall j, (j < i)%nat -> sound_trip d n j) ->
  full_line d (i + 2) p -> full_line d (i + 2 + n) q -> nth 4 p 0 <> - nth 4 q 0 ->
  exists s', cordeau_job e d s = (Raise AssertionError, s').
Proof. exact c37_mismatch. Qed.
Print Assumptions C37_mismatch.
Theorem C37_missing : forall e d hd n i s,
  d !! 0%nat = Some hd -> (5 <= length hd)%nat -> announces (unit_of e) hd n -> (i < n)%nat ->
  (forall j, (j < i)%nat -> sound_trip d n j) ->
  ~ ((exists p, full_line d (i + 2) p) /\ (exists q, full_line d (i + 2 + n) q)) ->
  exists s', cordeau_job e d s = (Raise IndexError, s').
Proof. exact c37_missing. Qed.
Print Assumptions C37_missing.

Section C37_example.
  Definition two_trips : dial_a_ride := DialARideFile 2 480000 6000 90000
    (Point 0 (-1044) 2000 0 0 0 1440000)
    [Point 1000 (-2973) 6414 10000 1000 0 1440000; Point 2000 (-5476) 1437 10000 1000 258000 287000]
    [Point 3000 (-1302) (-1000) 10000 (-1000) 325000 358000; Point 4000 6000 (-3200) 10000 (-1000) 0 1440000].
  Example C37_case : paired two_trips /\
    map vh_identifier (loaded (cordeau_fleet 1 (dial_a_ride_file (unit_of 1) two_trips)) cordeau_surface) = ["0"; "1"]%string /\
    map tr_identifier (loaded (cordeau_job 1 (dial_a_ride_file (unit_of 1) two_trips)) cordeau_surface) = ["1"; "2"]%string.
  Proof.
    split; [|split; vm_compute; reflexivity].
    repeat (constructor; [reflexivity|]). constructor.
  Qed.
  (** a table whose second trip has mismatched loads, and one that is cut short *)
  Definition header : list Z := [1000; 4000; 480000; 6000; 90000].
  Definition line (load : Z) : list Z := [1000; 5000; 5000; 0; load; 0; 9000].
  Example C37_case_mismatch :
    let d := [header; line 0; line 1000; line 2000; line (-1000); line (-1000)] in
    announces (unit_of 1) header 2 /\ sound_trip d 2 0 /\ full_line d 3 (line 2000) /\ full_line d 5 (line (-1000)) /\
    (cordeau_job 1 d cordeau_surface).1 = Raise AssertionError.
  Proof.
    cbn zeta. split; [exists 4000; vm_compute; repeat split; discriminate|].
    split. { exists (line 1000), (line (-1000)). repeat split; vm_compute; reflexivity || lia. }
    repeat split; vm_compute; reflexivity || lia.
  Qed.
  Example C37_case_missing :
    let d := [header; line 0; line 1000; line 2000; line (-1000)] in
    sound_trip d 2 0 /\ ~ (exists q, full_line d 5 q) /\ (cordeau_job 1 d cordeau_surface).1 = Raise IndexError.
  Proof.
    cbn zeta. split. { exists (line 1000), (line (-1000)). repeat split; vm_compute; reflexivity || lia. }
    split; [|vm_compute; reflexivity]. intros (q & Hq & _). vm_compute in Hq. discriminate.
  Qed.
  (** a table with a line too many, and one without a depot *)
  Example C37_case_table :
    let d := [header; line 0; line 1000; line 2000; line (-1000); line (-2000); []] in
    announces (unit_of 1) header 2 /\ (forall i, (i < 2)%nat -> sound_trip d 2 i) /\
    map tr_capacity (loaded (cordeau_job 1 d) cordeau_surface) = [1000; 2000] /\
    (cordeau_fleet 1 [header] cordeau_surface).1 = Raise IndexError.
  Proof.
    cbn zeta. split; [exists 4000; vm_compute; repeat split; discriminate|]. split; [|split; vm_compute; reflexivity].
    intros [|[|i]] Hi; [| |lia].
    - exists (line 1000), (line (-1000)). repeat split; vm_compute; reflexivity || lia.
    - exists (line 2000), (line (-2000)). repeat split; vm_compute; reflexivity || lia.
  Qed.
End C37_example.

(** ** C38.  Cordeau-Laporte loader keeps the depot time window

    It does not: the vehicles are built from the depot's coordinates only
    (cordeau_laporte.py:22-35). *)
Theorem C38_refuted : exists e i vs ts s1 s2, paired i /\
  cordeau_fleet e (dial_a_ride_file (unit_of e) i) cordeau_surface = (Ok vs, s1) /\
  cordeau_job e (dial_a_ride_file (unit_of e) i) s1 = (Ok ts, s2) /\
  exists (W : World) h r k ids xs T0 T1, w_eb = e /\ w_metric = sf_metric cordeau_surface /\ holds vs ts /\
    sane /\ well_formed h r k ids xs /\ unasked h r ids /\ (k < length vs)%nat /\
    result (route_feasible r) h = Ok true /\
    head (timetable k xs) = Some T0 /\ tm_departure T0 + eb < pt_open (dr_depot i) /\
    last (timetable k xs) = Some T1 /\ pt_close (dr_depot i) + eb < tm_departure T1.
Proof. exact c38_refuted. Qed.
Print Assumptions C38_refuted.
(** no table makes it do so *)
Theorem C38_ignored : forall e hd row row' rest s,
  slice 1 3 row = slice 1 3 row' ->
  cordeau_fleet e (hd :: row :: rest) s = cordeau_fleet e (hd :: row' :: rest) s.
Proof. exact c38_ignored. Qed.
Print Assumptions C38_ignored.
Theorem C38_open : forall e d s vs s' v,
  cordeau_fleet e d s = (Ok vs, s') -> v ∈ vs ->
  sv_earliest (vh_origin v) = 0 /\ sv_latest (vh_destination v) = Inf.
Proof. exact c38_open. Qed.
Print Assumptions C38_open.

Section C38_example.
  Example C38_case :
    slice 1 3 [0; 5; 6; 0; 0; 2000; 3000] = slice 1 3 [0; 5; 6; 0; 0; 0; 1440000] /\
    length (loaded (cordeau_fleet 1 depot_file) cordeau_surface) = 1%nat.
  Proof. split; vm_compute; reflexivity. Qed.
End C38_example.

(** ** C39.  HashCode loader and the latest-finish rule *)
Theorem C39_fleet : forall e i s, exists vs s',
  hashcode_fleet e (hash_code_file (unit_of e) i) s = (Ok vs, s') /\
  length vs = hc_vehicles i /\
  forall k v, vs !! k = Some v ->
    vh_identifier v = pretty k /\ sv_position (vh_origin v) = [0; 0] /\
    sv_position (vh_destination v) = [0; 0] /\ sv_earliest (vh_origin v) = 0 /\
    sv_latest (vh_destination v) = Lim (hc_steps i) /\
    vh_capacity v = Lim (unit_of e) /\ vh_timeout v = Inf.
Proof. exact c39_fleet. Qed.
Print Assumptions C39_fleet.
Theorem C39_job : forall e i s, exists ts s',
  hashcode_job e (hash_code_file (unit_of e) i) s = (Ok ts, s') /\
  length ts = length (hc_rides i) /\
  forall k t r, ts !! k = Some t -> hc_rides i !! k = Some r ->
    tr_identifier t = pretty k /\
    sv_position (tr_origin t) = [rd_from_x r; rd_from_y r] /\
    sv_position (tr_destination t) = [rd_to_x r; rd_to_y r] /\
    sv_earliest (tr_origin t) = rd_earliest r /\ sv_latest (tr_origin t) = Lim (rd_latest r) /\
    sv_duration (tr_origin t) = 0 /\ sv_duration (tr_destination t) = 0 /\
    sv_earliest (tr_destination t) = 0 /\ sv_latest (tr_destination t) = Inf /\
    tr_capacity t = unit_of e /\ tr_bonus t = hc_bonus i /\ tr_timeout t = Inf.
Proof. exact c39_job. Qed.
Print Assumptions C39_job.
Theorem C39_malformed : forall e hd bonus row rest s, hd !! 4%nat = Some bonus -> length row <> 6%nat ->
  hashcode_job e (hd :: row :: rest) s = (Raise TypeError, s).
Proof. exact c39_malformed. Qed.
Print Assumptions C39_malformed.
(** deliveries are not checked against the latest finish *)
Theorem C39_refuted : exists e i vs ts s1 s2,
  hashcode_fleet e (hash_code_file (unit_of e) i) hashcode_surface = (Ok vs, s1) /\
  hashcode_job e (hash_code_file (unit_of e) i) s1 = (Ok ts, s2) /\
  exists (W : World) h r k ids xs t rd a b T, w_eb = e /\ w_metric = sf_metric hashcode_surface /\ holds vs ts /\
    sane /\ well_formed h r k ids xs /\ unasked h r ids /\ (k < length vs)%nat /\
    result (route_feasible r) h = Ok true /\
    hc_rides i !! t = Some rd /\ ride xs t a b /\
    timetable k xs !! b = Some T /\ rd_latest rd + eb < tm_start T.
Proof. exact c39_refuted. Qed.
Print Assumptions C39_refuted.
(** what feasibility does guarantee *)
Theorem C39_guarantees_partial `{W : World} : forall i vs ts s1 s2 h r k ids xs,
  hashcode_fleet w_eb (hash_code_file (unit_of w_eb) i) hashcode_surface = (Ok vs, s1) ->
  hashcode_job w_eb (hash_code_file (unit_of w_eb) i) s1 = (Ok ts, s2) ->
  holds vs ts -> sane ->
  well_formed h r k ids xs -> ids <> [] -> unasked h r ids -> (k < length vs)%nat ->
  result (route_feasible r) h = Ok true ->
  (forall T, last (timetable k xs) = Some T -> tm_departure T <= hc_steps i + eb) /\
  (forall t rd a b x T, hc_rides i !! t = Some rd -> ride xs t a b -> xs !! a = Some x ->
     timetable k xs !! a = Some T -> rd_earliest rd <= tm_start T + eb /\ tm_start T <= rd_latest rd + eb).
Proof. exact c39_guarantees. Qed.
Print Assumptions C39_guarantees_partial.

Section C39_example.
  #[local] Existing Instance ride_world.
  Example C39_case :
    holds ride_vehicles ride_trips /\ sane /\ well_formed ride_heap 2 0 ride_stops ride_visits /\
    unasked ride_heap 2 ride_stops /\ result (route_feasible 2) ride_heap = Ok true /\ ride ride_visits 0 1 2.
  Proof.
    split; [apply holds_world_of|].
    split; [split; intros [|[|t]]; vm_compute; try split; congruence|].
    split; [apply well_formedb_sound; vm_compute; reflexivity|]. split; [apply unaskedb_sound; vm_compute; reflexivity|].
    split; [vm_compute; reflexivity|].
    eexists _, _. split; [vm_compute; reflexivity|]. split; [vm_compute; reflexivity|].
    split; apply (bool_decide_unpack _); vm_compute; reflexivity.
  Qed.
  Example C39_case_malformed :
    [9000; 9000; 1000; 1000; 2000; 50000] !! 4%nat = Some 2000 /\ length [1000; 0; 5000; 0; 0] <> 6%nat /\
    (hashcode_job 1 [[9000; 9000; 1000; 1000; 2000; 50000]; [1000; 0; 5000; 0; 0]] hashcode_surface).1 = Raise TypeError.
  Proof. repeat split. discriminate. Qed.
End C39_example.
