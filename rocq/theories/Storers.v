(** Storers: jinete/storers/formatters/hashcode.py, storers/file.py and
    storers/sets.py. *)
From stdpp Require Export pretty.
From Verif Require Export Routes.
Notation "a +:+ b" := (String.append a b) (at level 60, right associativity).

(** the line break *)
Definition newline : string := String (Ascii.ascii_of_nat 10) EmptyString.

Section hashcode.
  Context {W : World}.

  (** storers/formatters/hashcode.py:27-30; [loaded_trips] is evaluated twice
      (routes.py:158-164) *)
  Definition hashcode_route_str (r : nat) : M string :=
    let! ts := route_loaded_trips r in
    let trips_str := String.concat " " (map (fun t => tr_identifier (w_trip t)) ts) in
    let! ts := route_loaded_trips r in
    ret (pretty (length ts) +:+ " " +:+ trips_str).

  (** plannings.py:57-59 *)
  Definition loaded_routes (pl : list nat) : M (list nat) :=
    let! rs := set_order pl in filterM route_loaded rs.
  (** storers/formatters/abc.py:50-54 *)
  Definition formatter_routes (remove_empty_routes : bool) (pl : list nat) : M (list nat) :=
    if remove_empty_routes then loaded_routes pl else ret pl.

  (** [sorted] on strings: the order of code points *)
  Definition sort_strings (l : list string) : list string :=
    map snd (sort_keyed String.ltb false (map (fun s => (s, s)) l)).

  (** storers/formatters/hashcode.py:32-37 *)
  Definition hashcode_format (remove_empty_routes : bool) (pl : list nat) : M string :=
    let! rs := formatter_routes remove_empty_routes pl in
    let! rs := set_order rs in
    let! lines := mapM hashcode_route_str rs in
    ret (String.concat newline (sort_strings lines)).
End hashcode.

(** ** Files

    The target file ([None]: it does not exist) and whether it can be opened
    for writing; [fs_formatted] is the cached property [Storer._formatted]
    (storers/abc.py:51-53); [fs_rest] is everything the formatter reads or
    changes.  A failing write (disk full) is not modelled. *)
Section file.
  Context {S : Type}.
  Record file_state : Type := FileState {
    fs_content : option string;
    fs_writable : bool;
    fs_formatted : option string;
    fs_rest : S
  }.

  (** storers/abc.py:51-53, for any formatter *)
  Definition formatted (format : ST S string) : ST file_state string := fun f =>
    match fs_formatted f with
    | Some text => (Ok text, f)
    | None =>
        match format (fs_rest f) with
        | (Ok text, s) => (Ok text, FileState (fs_content f) (fs_writable f) (Some text) s)
        | (Raise e, s) => (Raise e, FileState (fs_content f) (fs_writable f) None s)
        end
    end.
  (** [open("w")] empties the file or creates it. *)
  Definition open_for_writing : ST file_state unit := fun f =>
    if fs_writable f
    then (Ok tt, FileState (Some EmptyString) true (fs_formatted f) (fs_rest f))
    else (Raise OSError, f).
  Definition write (text : string) : ST file_state unit := fun f =>
    (Ok tt, FileState (Some (default EmptyString (fs_content f) +:+ text)) (fs_writable f) (fs_formatted f) (fs_rest f)).

  (** storers/file.py:25-29; [with] only closes the file when an exception
      passes through *)
  Definition file_store (format : ST S string) : ST file_state unit :=
    open_for_writing ;;;
    let! text := formatted format in
    write text.
End file.
Arguments file_state : clear implicits.

(** ** Sets of storers

    [act] says what constructing a storer of class [c] for the result [x], and
    its method [store], do: any effect, any exception. *)
Inductive storer_event : Type :=
| Constructed (c x : nat)
| Stored (c x : nat).

Section set.
  Context {S : Type} (act : storer_event -> ST S unit).

  Definition observed (e : storer_event) : ST (list storer_event * S) unit := fun '(log, s) =>
    let (r, s') := act e s in (r, (log ++ [e], s')).

  (** storers/sets.py:43-50, on the classes in the iteration order of the set;
      [x] is the result passed as a keyword to the constructor of the set *)
  Definition storer_set_store (order : list nat) (x : nat) : ST (list storer_event * S) unit :=
    iterM (fun c => observed (Constructed c x) ;;; observed (Stored c x)) order.
End set.
