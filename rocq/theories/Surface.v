(** Surfaces: the set of positions and the distance cache
    (jinete/models/surfaces.py, positions.py).

    The other model files use [World.dist], the metric itself;
    SurfaceTheorems.v shows that a surface answers exactly [dist] whatever was
    asked before, so nothing is lost by leaving the cache out there. *)
From Verif Require Export World.

(** A position object: its identity and its coordinates
    (positions.py:82-110).  [__eq__] and [__hash__] look at the coordinates
    only, so a set or a dictionary cannot tell two equal positions apart. *)
Record pobj : Type := Pobj { po_id : nat; po_coords : position }.

(** surfaces.py:44-54, 78-85.  [sf_positions]: the set, without repetition
    of equal elements, in insertion order (Python's order is never used
    here).  [sf_cache]: the dictionary of dictionaries, keyed by coordinates.
    [sf_next]: the identity of the next object built. *)
Record surface : Type := Surface {
  sf_metric : metric;
  sf_positions : list pobj;
  sf_cache : list (position * list (position * Z));
  sf_next : nat
}.
(** [GeometricSurface(metric=m)] (surfaces.py:81-85). *)
Definition new_surface (m : metric) : surface := Surface m [] [] 0.

(** Dictionaries keyed by coordinates. *)
Section coords_dict.
  Context {V : Type}.
  Fixpoint cd_get (k : position) (d : list (position * V)) : option V :=
    match d with
    | [] => None
    | (k', v) :: d => if decide (k = k') then Some v else cd_get k d
    end.
  Fixpoint cd_set (k : position) (v : V) (d : list (position * V)) : list (position * V) :=
    match d with
    | [] => [(k, v)]
    | (k', v') :: d => if decide (k = k') then (k', v) :: d else (k', v') :: cd_set k v d
    end.
End coords_dict.

(** surfaces.py:87-88 and positions.py:94-101: a new object every time. *)
Definition build_position (c : position) : ST surface pobj := fun s =>
  (Ok (Pobj (sf_next s) c), Surface (sf_metric s) (sf_positions s) (sf_cache s) (S (sf_next s))).

(** [position not in self.positions] (surfaces.py:58) *)
Definition has_position (c : position) (s : surface) : bool :=
  existsb (fun p => bool_decide (po_coords p = c)) (sf_positions s).
(** surfaces.py:56-60 *)
Definition get_or_create_position (c : position) : ST surface pobj :=
  let! p := build_position c in
  let! s := get_state in
  (if has_position (po_coords p) s then ret tt
   else fun s => (Ok tt, Surface (sf_metric s) (sf_positions s ++ [p]) (sf_cache s) (sf_next s))) ;;;
  ret p.

(** [self.cached_distance[a]]: a [defaultdict] stores an empty dictionary
    when the key is missing, also when it is only read (surfaces.py:85, 92). *)
Definition cached_row (a : position) : ST surface (list (position * Z)) := fun s =>
  match cd_get a (sf_cache s) with
  | Some d => (Ok d, s)
  | None => (Ok [], Surface (sf_metric s) (sf_positions s) (cd_set a [] (sf_cache s)) (sf_next s))
  end.
Definition store_row (a : position) (d : list (position * Z)) : ST surface unit := fun s =>
  (Ok tt, Surface (sf_metric s) (sf_positions s) (cd_set a d (sf_cache s)) (sf_next s)).

(** surfaces.py:90-97 *)
Definition surface_distance (a b : pobj) : ST surface Z :=
  let! row := cached_row (po_coords a) in
  match cd_get (po_coords b) row with
  | Some d => ret d
  | None =>
      let! s := get_state in
      let d := metric_distance (sf_metric s) (po_coords a) (po_coords b) in
      let! row := cached_row (po_coords a) in
      store_row (po_coords a) (cd_set (po_coords b) d row) ;;;
      ret d
  end.
(** surfaces.py:99-100; [now] is ignored. *)
Definition surface_time (a b : pobj) (now : option Z) : ST surface Z := surface_distance a b.

(** positions.py:48-55, 68-76 *)
Definition distance_to (a b : pobj) : ST surface Z := surface_distance a b.
Definition time_to (a b : pobj) (now : option Z) : ST surface Z := surface_time a b now.

(** surfaces.py:74-75: [dict(surface)["position_coordinates"]], up to the
    order of the set. *)
Definition position_coordinates (s : surface) : list position :=
  map po_coords (sf_positions s).

(** ** What a program can ask of a surface *)
Inductive request : Type :=
| AskPosition (c : position)
| AskDistance (a b : pobj)
| AskTime (a b : pobj) (now : option Z).
Inductive reply : Type := GotPosition (p : pobj) | GotNumber (d : Z).

Definition perform (q : request) : ST surface reply :=
  match q with
  | AskPosition c => let! p := get_or_create_position c in ret (GotPosition p)
  | AskDistance a b => let! d := distance_to a b in ret (GotNumber d)
  | AskTime a b now => let! d := time_to a b now in ret (GotNumber d)
  end.
Definition perform_all (qs : list request) : ST surface (list reply) := mapM perform qs.
