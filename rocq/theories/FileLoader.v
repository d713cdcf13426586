(** Loading from a file: jinete/loaders/abc.py and loaders/file.py.

    The file is outside of the program and may change: [contents k] is what
    the [k]-th opening finds, [None] when it cannot be opened or read (an
    [OSError]).  Texts are ASCII with lines ended by "\n"; Python turns other
    line ends into it.  [number] is [float]: [None] when it raises
    [ValueError]; numbers are ticks as in Loaders.v. *)
From Coq Require Export Ascii.
From Verif Require Export Loaders.

(** ** Text *)
Definition newline : ascii := "010"%char.
(** the ASCII characters [str.split()] takes as separators: 9-13, 28-32 *)
Definition whitespace (c : ascii) : bool :=
  let n := nat_of_ascii c in (((9 <=? n) && (n <=? 13)) || ((28 <=? n) && (n <=? 32)))%nat.
Definition flush_word (w : string) (ws : list string) : list string :=
  match w with EmptyString => ws | _ => w :: ws end.
(** [line.split()]; [w]: the word being read *)
Fixpoint split_from (w s : string) : list string :=
  match s with
  | EmptyString => flush_word w []
  | String c s => if whitespace c then flush_word w (split_from "" s) else split_from (w +:+ String c "") s
  end.
Definition words_in (s : string) : list string := split_from "" s.
(** [file.readlines()]: the line ends stay *)
Fixpoint lines_from (l s : string) : list string :=
  match s with
  | EmptyString => flush_word l []
  | String c s => if decide (c = newline) then (l +:+ String c "") :: lines_from "" s else lines_from (l +:+ String c "") s
  end.
Definition readlines (s : string) : list string := lines_from "" s.

Inductive layout : Type := CordeauLayout | HashCodeLayout.

(** ** The loader object.  [ld_formatter], [ld_surface], [ld_fleet], [ld_job]:
    the values kept by [cached_property].  Each value is kept with the number
    of the object, since trips and vehicles compare by identity; the surface
    object changes while it is kept. *)
Record loader : Type := Loader {
  ld_formatter : option table;
  ld_surface : option (nat * surface);
  ld_fleet : option (nat * list vehicle);
  ld_job : option (nat * list trip);
  ld_opened : nat;
  ld_next : nat
}.
Definition new_loader : loader := Loader None None None None 0 0.

Section loader.
  Context (number : string -> option Z) (contents : nat -> option string) (e : positive) (k : layout).

  (** file.py:55-59: [list(float(v) for v in line.split())] for each line *)
  Definition read_number (w : string) : ST loader Z :=
    match number w with Some z => ret z | None => raise ValueError end.
  Definition open_file : ST loader string := fun x =>
    (match contents (ld_opened x) with Some s => Ok s | None => Raise OSError end,
     Loader (ld_formatter x) (ld_surface x) (ld_fleet x) (ld_job x) (S (ld_opened x)) (ld_next x)).
  Definition loader_data : ST loader table :=
    let! text := open_file in
    mapM (fun line => mapM read_number (words_in line)) (readlines text).

  (** loaders/abc.py:54-56; the formatter only keeps the data
      (formatters/abc.py:27-32) *)
  Definition loader_formatter : ST loader table :=
    let! x := get_state in
    match ld_formatter x with
    | Some d => ret d
    | None =>
        let! d := loader_data in
        (fun x => (Ok d, Loader (Some d) (ld_surface x) (ld_fleet x) (ld_job x) (ld_opened x) (ld_next x)))
    end.
  (** file.py:77-83 *)
  Definition loader_surface : ST loader nat :=
    let! x := get_state in
    match ld_surface x with
    | Some (o, _) => ret o
    | None =>
        let! _ := loader_formatter in
        (fun x => (Ok (ld_next x), Loader (ld_formatter x)
           (Some (ld_next x, match k with CordeauLayout => cordeau_surface | HashCodeLayout => hashcode_surface end))
           (ld_fleet x) (ld_job x) (ld_opened x) (S (ld_next x))))
    end.
  (** a formatter method working on the surface *)
  Definition on_surface {A} (m : ST surface A) : ST loader A := fun x =>
    match ld_surface x with
    | None => (Raise Dangling, x)
    | Some (o, s) =>
        let (r, s') := m s in
        (r, Loader (ld_formatter x) (Some (o, s')) (ld_fleet x) (ld_job x) (ld_opened x) (ld_next x))
    end.
  Definition format_fleet (d : table) : ST surface (list vehicle) :=
    match k with CordeauLayout => cordeau_fleet e d | HashCodeLayout => hashcode_fleet e d end.
  Definition format_job (d : table) : ST surface (list trip) :=
    match k with CordeauLayout => cordeau_job e d | HashCodeLayout => hashcode_job e d end.
  (** file.py:61-67 *)
  Definition loader_fleet : ST loader (nat * list vehicle) :=
    let! x := get_state in
    match ld_fleet x with
    | Some f => ret f
    | None =>
        let! d := loader_formatter in
        let! _ := loader_surface in
        let! vs := on_surface (format_fleet d) in
        (fun x => (Ok (ld_next x, vs), Loader (ld_formatter x) (ld_surface x) (Some (ld_next x, vs)) (ld_job x)
           (ld_opened x) (S (ld_next x))))
    end.
  (** file.py:69-75 *)
  Definition loader_job : ST loader (nat * list trip) :=
    let! x := get_state in
    match ld_job x with
    | Some f => ret f
    | None =>
        let! d := loader_formatter in
        let! _ := loader_surface in
        let! ts := on_surface (format_job d) in
        (fun x => (Ok (ld_next x, ts), Loader (ld_formatter x) (ld_surface x) (ld_fleet x) (Some (ld_next x, ts))
           (ld_opened x) (S (ld_next x))))
    end.

  (** ** What a program can ask of a loader, going on after exceptions *)
  Inductive question : Type := Fleet | Job | TheSurface.
  Inductive answer : Type :=
  | GotFleet (object : nat) (vs : list vehicle)
  | GotJob (object : nat) (ts : list trip)
  | GotSurface (object : nat).
  Definition ask_loader (q : question) : ST loader answer :=
    match q with
    | Fleet => let! f := loader_fleet in ret (GotFleet (fst f) (snd f))
    | Job => let! f := loader_job in ret (GotJob (fst f) (snd f))
    | TheSurface => let! o := loader_surface in ret (GotSurface o)
    end.
  Fixpoint ask_loader_all (qs : list question) (x : loader) : list (res answer) * loader :=
    match qs with
    | [] => ([], x)
    | q :: qs =>
        let (r, x1) := ask_loader q x in
        let (rs, x2) := ask_loader_all qs x1 in (r :: rs, x2)
    end.
End loader.
