(** C57 and C58: loading from files.  [tabulates number text d] (SpecFile.v):
    the text spells the table [d], line by line, where [number] is [float].
    [contents n] is what the [n]-th opening of the file finds. *)
From Verif Require Import SpecFile SpecLoad FileLoader FileProofs FileTheorems WitnessFile.

(** ** C57.  FileLoader reads the file once and keeps what it built *)

(** the table is the one spelled by the text, and nothing else is accepted *)
Theorem C57_text : forall number contents x text d, contents (ld_opened x) = Some text ->
  (exists x', loader_data number contents x = (Ok d, x')) <-> tabulates number text d.
Proof. exact c57_text. Qed.
Print Assumptions C57_text.
(** after the first readable opening the file is not opened again *)
Theorem C57_once : forall number contents e k qs n text d, contents n = Some text -> tabulates number text d ->
  (ld_opened (snd (ask_loader_all number contents e k qs new_loader)) <= S n)%nat.
Proof. exact c57_once. Qed.
Print Assumptions C57_once.
(** the same question gets the same object, whatever was asked in between *)
Theorem C57_same : forall number contents e k qs rs x q i j a,
  ask_loader_all number contents e k qs new_loader = (rs, x) -> (i <= j)%nat -> qs !! i = Some q -> qs !! j = Some q ->
  rs !! i = Some (Ok a) -> rs !! j = Some (Ok a).
Proof. exact c57_same. Qed.
Print Assumptions C57_same.
(** what is answered does not depend on the order of the questions, and lies on
    the one surface of the loader *)
Theorem C57_answers : forall number contents e k qs rs x i r,
  ask_loader_all number contents e k qs new_loader = (rs, x) -> rs !! i = Some (Ok r) ->
  exists n d, first_table number contents n d /\ ld_opened x = S n /\
    match r with
    | GotFleet _ vs => qs !! i = Some Fleet /\ (forall s, exists s', format_fleet e k d s = (Ok vs, s')) /\
        exists o s, ld_surface x = Some (o, s) /\ flat_map vehicle_places vs ⊆ position_coordinates s
    | GotJob _ ts => qs !! i = Some Job /\ (forall s, exists s', format_job e k d s = (Ok ts, s')) /\
        exists o s, ld_surface x = Some (o, s) /\ flat_map trip_places ts ⊆ position_coordinates s
    | GotSurface o => qs !! i = Some TheSurface /\ exists s, ld_surface x = Some (o, s)
    end.
Proof. exact c57_answers. Qed.
Print Assumptions C57_answers.
(** an unreadable file is not remembered *)
Theorem C57_retry : forall number contents e k qs rs x n d i r,
  ask_loader_all number contents e k qs new_loader = (rs, x) -> first_table number contents n d ->
  (exists vs s, format_fleet e k d (new_surface Euclidean) = (Ok vs, s)) ->
  (exists ts s, format_job e k d (new_surface Euclidean) = (Ok ts, s)) ->
  rs !! i = Some r -> ((n <= i)%nat <-> exists a, r = Ok a).
Proof. exact c57_retry. Qed.
Print Assumptions C57_retry.
(** from the text of a Cordeau-Laporte instance to its vehicles and trips *)
Theorem C57_instance : forall number contents e i text qs rs x, contents 0%nat = Some text ->
  tabulates number text (dial_a_ride_file (unit_of e) i) -> paired i ->
  ask_loader_all number contents e CordeauLayout qs new_loader = (rs, x) ->
  forall n q, qs !! n = Some q -> exists a, rs !! n = Some (Ok a) /\
    match q with
    | Fleet => exists o vs, a = GotFleet o vs /\ length vs = dr_vehicles i /\
        forall j v, vs !! j = Some v -> vh_identifier v = pretty j /\
          sv_position (vh_origin v) = [pt_x (dr_depot i); pt_y (dr_depot i)] /\
          sv_position (vh_destination v) = [pt_x (dr_depot i); pt_y (dr_depot i)] /\
          vh_capacity v = Lim (dr_capacity i) /\ vh_timeout v = Lim (dr_longest_tour i)
    | Job => exists o ts, a = GotJob o ts /\ length ts = length (dr_pickups i) /\
        forall j t p d, ts !! j = Some t -> dr_pickups i !! j = Some p -> dr_deliveries i !! j = Some d ->
          tr_identifier t = pretty (j + 1)%nat /\ service_at p (tr_origin t) /\ service_at d (tr_destination t) /\
          tr_capacity t = pt_load p /\ tr_timeout t = Lim (dr_longest_ride i)
    | TheSurface => exists o, a = GotSurface o
    end.
Proof. exact c57_instance. Qed.
Print Assumptions C57_instance.

Section C57_example.
  Example C57_case : first_table whole late_file 1 (dial_a_ride_file (unit_of 1) short_trip) /\ paired short_trip /\
    map (fun r => match r with Ok (GotFleet o _) => Some o | Ok (GotJob o _) => Some o | Ok (GotSurface o) => Some o | Raise _ => None end)
      (fst (ask_loader_all whole late_file 1 CordeauLayout [Job; Fleet; Job; TheSurface; Fleet] new_loader)) =
    [None; Some 1; Some 2; Some 0; Some 1]%nat.
  Proof.
    split.
    - split; [exists (text_of short_lines); split; [reflexivity|]; apply read_table_tabulates; vm_compute; reflexivity|].
      intros [|i] text d' Hi Ht; [discriminate Ht|lia].
    - split; [|vm_compute; reflexivity]. repeat (constructor; [reflexivity|]). constructor.
  Qed.
End C57_example.

(** ** C58.  Blank lines at the end of a file do not matter

    They become empty rows; the Cordeau-Laporte loader never looks at them, the
    HashCode loader takes each for a ride (hashcode.py:52). *)
Theorem C58_text : forall number ls bs d, Forall one_line ls -> Forall one_line bs -> Forall blank bs ->
  tabulates number (text_of ls) d -> tabulates number (text_of (ls ++ bs)) (d ++ repeat [] (length bs)).
Proof. exact c58_text. Qed.
Print Assumptions C58_text.
Theorem C58_cordeau_partial : forall e d n s,
  (forall vs s', cordeau_fleet e d s = (Ok vs, s') -> cordeau_fleet e (d ++ repeat [] n) s = (Ok vs, s')) /\
  (forall ts s', cordeau_job e d s = (Ok ts, s') -> cordeau_job e (d ++ repeat [] n) s = (Ok ts, s')).
Proof. exact c58_cordeau. Qed.
Print Assumptions C58_cordeau_partial.
Theorem C58_fleet_partial : forall e d n s vs s', hashcode_fleet e d s = (Ok vs, s') -> hashcode_fleet e (d ++ repeat [] n) s = (Ok vs, s').
Proof. exact c58_fleet. Qed.
Print Assumptions C58_fleet_partial.
Theorem C58_refuted : forall e d n s ts s', hashcode_job e d s = (Ok ts, s') -> (0 < n)%nat ->
  hashcode_job e (d ++ repeat [] n) s = (Raise TypeError, s').
Proof. exact c58_refuted. Qed.
Print Assumptions C58_refuted.

Section C58_example.
  Example C58_case : exists d ts s, tabulates whole (text_of short_rides) d /\ hashcode_job 1 d hashcode_surface = (Ok ts, s) /\
    Forall one_line short_rides /\ Forall one_line [" "%string] /\ Forall blank [" "%string].
  Proof.
    eexists [[9000; 9000; 1000; 1000; 2000; 50000]; [1000; 0; 5000; 0; 0; 40000]], _, _.
    split; [apply read_table_tabulates; vm_compute; reflexivity|]. split; [vm_compute; reflexivity|].
    split; [|split].
    - repeat constructor; refine (proj1 (bool_decide_eq_true _) _); vm_compute; reflexivity.
    - repeat constructor; refine (proj1 (bool_decide_eq_true _) _); vm_compute; reflexivity.
    - apply Forall_singleton, Forall_singleton. by apply whitespace_iff.
  Qed.
  Example C58_case_cordeau : exists vs ts s s',
    cordeau_fleet 1 (dial_a_ride_file (unit_of 1) short_trip) cordeau_surface = (Ok vs, s) /\
    cordeau_job 1 (dial_a_ride_file (unit_of 1) short_trip) s = (Ok ts, s').
  Proof. eexists _, _, _, _. split; vm_compute; reflexivity. Qed.
End C58_example.
