(** Loaders: from a table of numbers to vehicles and trips
    (jinete/loaders/formatters/cordeau_laporte.py and hashcode.py).

    The table is what [FileLoader._data] returns (loaders/file.py:55-58), one
    list of numbers per line; reading and splitting the text is not modelled.
    Numbers are ticks, [1000 * e] of them to the unit where [e] is
    ERROR_BOUND in ticks, as in World.v.  NaN and infinities cannot be written
    in ticks and are left out.  The sets of vehicles and trips are given as
    lists in the order of construction; the objects are distinct because
    [Vehicle] and [Trip] compare by identity. *)
From stdpp Require Export pretty.
From Verif Require Export Surface.

Definition table : Type := list (list Z).

Definition unit_of (e : positive) : Z := 1000 * Zpos e.
(** [int(x)]: rounds towards zero. *)
Definition py_int (e : positive) (x : Z) : Z := Z.quot x (unit_of e).
(** [int(x // 2)]: [//] rounds down to a whole number. *)
Definition py_int_half (e : positive) (x : Z) : Z := Z.div x (2 * unit_of e).
(** [range(k)] is empty for negative [k]. *)
Definition py_range (k : Z) : list nat := seq 0 (Z.to_nat k).
(** [row[1:3]] never raises. *)
Definition slice (i j : nat) (row : list Z) : list Z := drop i (take j row).

(** [Service(position)] with default window and duration (services.py:66) *)
Definition plain_service (p : pobj) : service := Service (po_coords p) 0 Inf 0.

(** ** Cordeau-Laporte *)

(** cordeau_laporte.py:35-61 *)
Definition cordeau_fleet (e : positive) (d : table) : ST surface (list vehicle) :=
  let! row := py_nth d 0 in
  let! x := py_nth row 0 in
  let m := py_int e x in
  let! depot_row := py_nth d 1 in
  let! depot_position := get_or_create_position (slice 1 3 depot_row) in
  let origin := plain_service depot_position in
  let! capacity := py_nth row 3 in
  let! timeout := py_nth row 2 in
  ret (map (fun idx => Vehicle (pretty idx) origin None (Lim capacity) (Lim timeout)) (py_range m)).

(** cordeau_laporte.py:85-90, 93-98 *)
Definition cordeau_service (row : list Z) : ST surface service :=
  let! p := get_or_create_position (slice 1 3 row) in
  let! earliest := py_nth row 5 in
  let! latest := py_nth row 6 in
  let! duration := py_nth row 3 in
  ret (Service (po_coords p) earliest (Lim latest) duration).

(** cordeau_laporte.py:82-108.  [n] is a whole number of units; it is positive
    whenever the function is called. *)
Definition cordeau_trip (d : table) (n idx : nat) : ST surface trip :=
  let origin_idx := (idx + 2)%nat in
  let! origin_row := py_nth d origin_idx in
  let! origin := cordeau_service origin_row in
  let! destination_row := py_nth d (origin_idx + n) in
  let! destination := cordeau_service destination_row in
  let identifier := pretty (idx + 1)%nat in
  let! q := py_nth origin_row 4 in
  let! q' := py_nth destination_row 4 in
  py_assert (Z.eqb q (- q')) ;;;
  let! capacity := py_nth origin_row 4 in
  let! row := py_nth d 0 in
  let! timeout := py_nth row 4 in
  ret (Trip identifier origin destination capacity 0 (Lim timeout)).

(** cordeau_laporte.py:63-80 *)
Definition cordeau_job (e : positive) (d : table) : ST surface (list trip) :=
  let! row := py_nth d 0 in
  let! x := py_nth row 1 in
  let n := py_int_half e x in
  mapM (cordeau_trip d (Z.to_nat n)) (py_range n).

(** cordeau_laporte.py:110-119 *)
Definition cordeau_surface : surface := new_surface Euclidean.

(** ** HashCode *)

(** hashcode.py:26-41 *)
Definition hashcode_fleet (e : positive) (d : table) : ST surface (list vehicle) :=
  let! row := py_nth d 0 in
  let! x := py_nth row 2 in
  let! latest := py_nth row 5 in
  let n := py_int e x in
  let! p := get_or_create_position [0; 0] in
  let origin := Service (po_coords p) 0 (Lim latest) 0 in
  ret (map (fun idx => Vehicle (pretty idx) origin None (Lim (unit_of e)) Inf) (py_range n)).

(** hashcode.py:61-77; called with [*row], so any other number of values is a
    [TypeError].  The capacity is the default of [Trip], 1 (trips.py:94). *)
Definition hashcode_trip (e : positive) (identifier : string) (bonus : Z) (row : list Z) : ST surface trip :=
  match row with
  | [x1; y1; x2; y2; earliest; latest] =>
      let! p := get_or_create_position [x1; y1] in
      let origin := Service (po_coords p) earliest (Lim latest) 0 in
      let! q := get_or_create_position [x2; y2] in
      let destination := plain_service q in
      ret (Trip identifier origin destination (unit_of e) bonus Inf)
  | _ => raise TypeError
  end.

(** hashcode.py:43-59 *)
Definition hashcode_job (e : positive) (d : table) : ST surface (list trip) :=
  let! row := py_nth d 0 in
  let! bonus := py_nth row 4 in
  mapM (fun '(i, row) => hashcode_trip e (pretty i) bonus row) (imap pair (drop 1 d)).

(** hashcode.py:79-88 *)
Definition hashcode_surface : surface := new_surface Manhattan.
