(** Solver and static dispatcher: jinete/solvers.py, dispatchers/abc.py and
    dispatchers/static.py.

    Objects are numbers.  The classes given by the user are opaque: [act] says
    what calling one of their constructors or methods does to the state of the
    program, what it returns and what it raises.  The keyword dictionaries of
    the user are part of that state and are read by [dict_at]; keys are
    strings. *)
From Verif Require Export Prelude.

Inductive role : Type := TheLoader | TheAlgorithm | TheStorer.
Definition keywords : Type := list (string * nat).
(** a call of user code: a constructor with its keyword arguments, or a method
    or property of an object without arguments *)
Inductive call : Type :=
| Build (who : role) (base : nat) (given : keywords)
| Ask (who : role) (object : nat) (name : string).

(** A class built by [Solver._loader_cls] and the like (solvers.py:93-143): the
    base class and the dictionary of keywords of the user.  [None]: the empty
    dictionary built for a missing parameter, which nobody else can reach
    (solvers.py:72-79), or a class that was not tuned. *)
Record tuned : Type := Tuned { tu_base : nat; tu_keywords : option nat }.
Record solver : Type := Solver {
  so_loader : tuned;
  so_algorithm : tuned;
  so_storer : tuned;
  so_dispatcher : option nat
}.

Section solver.
  Context {X : Type} (dict_at : nat -> X -> keywords) (act : call -> ST X nat) (naive_storer : nat).

  (** calls made so far with their outcomes, and the state of the program *)
  Definition traced : Type := list (call * res nat) * X.
  Definition perform_call (c : call) : ST traced nat := fun '(log, s) =>
    let (r, s') := act c s in (r, (log ++ [(c, r)], s')).
  Definition read_keywords (d : option nat) : ST traced keywords := fun '(log, s) =>
    (Ok match d with Some d => dict_at d s | None => [] end, (log, s)).
  Definition clash (a b : keywords) : bool :=
    existsb (fun p => existsb (fun q => String.eqb (fst p) (fst q)) b) a.

  (** the constructor of a tuned class called with keyword arguments,
      [super().__init__( *args, **kwargs, **tuned_kwargs)]: a keyword given twice
      is a TypeError (solvers.py:93-104, 106-117, 119-130) *)
  Definition build (who : role) (t : tuned) (given : keywords) : ST traced nat :=
    let! mine := read_keywords (tu_keywords t) in
    if clash given mine then raise TypeError else perform_call (Build who (tu_base t) (given ++ mine)).

  (** static.py:18-35 with the default of dispatchers/abc.py:32-41 *)
  Definition dispatch (loader_cls algorithm_cls : tuned) (storer_cls : option tuned) : ST traced nat :=
    let storer_cls := match storer_cls with None => Tuned naive_storer None | Some t => t end in
    let! loader := build TheLoader loader_cls [] in
    let! job := perform_call (Ask TheLoader loader "job") in
    let! fleet := perform_call (Ask TheLoader loader "fleet") in
    let! algorithm := build TheAlgorithm algorithm_cls [("fleet"%string, fleet); ("job"%string, job)] in
    let! result := perform_call (Ask TheAlgorithm algorithm "optimize") in
    let! storer := build TheStorer storer_cls [("result"%string, result)] in
    perform_call (Ask TheStorer storer "store") ;;;
    ret result.

  (** solvers.py:132-154.  The constructor of the dispatcher takes the three
      classes by position and nothing else (dispatchers/abc.py:32), so every
      further keyword is a TypeError.  The dispatcher class is the static one. *)
  Definition solve (x : solver) : ST traced nat :=
    let! mine := read_keywords (so_dispatcher x) in
    match mine with
    | [] => dispatch (so_loader x) (so_algorithm x) (Some (so_storer x))
    | _ :: _ => raise TypeError
    end.
End solver.
