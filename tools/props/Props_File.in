(** C57 and C58: loading from files.  [tabulates number text d] (SpecFile.v):
    the text spells the table [d], line by line, where [number] is [float].
    [contents n] is what the [n]-th opening of the file finds. *)
From Verif Require Import SpecFile SpecLoad FileLoader FileProofs FileTheorems WitnessFile.

(** ** C57.  FileLoader reads the file once and keeps what it built *)

(** the table is the one spelled by the text, and nothing else is accepted *)
@C57_text c57_text
(** after the first readable opening the file is not opened again *)
@C57_once c57_once
(** the same question gets the same object, whatever was asked in between *)
@C57_same c57_same
(** what is answered does not depend on the order of the questions, and lies on
    the one surface of the loader *)
@C57_answers c57_answers
(** an unreadable file is not remembered *)
@C57_retry c57_retry
(** from the text of a Cordeau-Laporte instance to its vehicles and trips *)
@C57_instance c57_instance

Section C57_example.
  Example C57_case : first_table whole late_file 1 (dial_a_ride_file (unit_of 1) short_trip) /\ paired short_trip /\
    map (fun r => match r with Ok (GotFleet o _) => Some o | Ok (GotJob o _) => Some o | Ok (GotSurface o) => Some o | Raise _ => None end)
      (fst (ask_loader_all whole late_file 1 CordeauLayout [Job; Fleet; Job; TheSurface; Fleet] new_loader)) =
    [None; Some 1; Some 2; Some 0; Some 1]%nat.
  Proof.
    split.
    - split; [exists (text_of short_lines); split; [reflexivity|]; apply read_table_tabulates; vm_compute; reflexivity|].
      intros [|i] text d' Hi Ht; [discriminate Ht|lia].
    - split; [|vm_compute; reflexivity]. repeat (constructor; [reflexivity|]). constructor.
  Qed.
End C57_example.

(** ** C58.  Blank lines at the end of a file do not matter

    They become empty rows; the Cordeau-Laporte loader never looks at them, the
    HashCode loader takes each for a ride (hashcode.py:52). *)
@C58_text c58_text
@C58_cordeau_partial c58_cordeau
@C58_fleet_partial c58_fleet
@C58_refuted c58_refuted

Section C58_example.
  Example C58_case : exists d ts s, tabulates whole (text_of short_rides) d /\ hashcode_job 1 d hashcode_surface = (Ok ts, s) /\
    Forall one_line short_rides /\ Forall one_line [" "%string] /\ Forall blank [" "%string].
  Proof.
    eexists [[9000; 9000; 1000; 1000; 2000; 50000]; [1000; 0; 5000; 0; 0; 40000]], _, _.
    split; [apply read_table_tabulates; vm_compute; reflexivity|]. split; [vm_compute; reflexivity|].
    split; [|split].
    - repeat constructor; refine (proj1 (bool_decide_eq_true _) _); vm_compute; reflexivity.
    - repeat constructor; refine (proj1 (bool_decide_eq_true _) _); vm_compute; reflexivity.
    - apply Forall_singleton, Forall_singleton. by apply whitespace_iff.
  Qed.
  Example C58_case_cordeau : exists vs ts s s',
    cordeau_fleet 1 (dial_a_ride_file (unit_of 1) short_trip) cordeau_surface = (Ok vs, s) /\
    cordeau_job 1 (dial_a_ride_file (unit_of 1) short_trip) s = (Ok ts, s').
  Proof. eexists _, _, _, _. split; vm_compute; reflexivity. Qed.
End C58_example.
