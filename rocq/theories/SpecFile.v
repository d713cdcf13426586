(** Texts that spell tables of numbers, independently of how they are read. *)
From Coq Require Export Ascii.
From Verif Require Export Loaders.

Fixpoint letters (s : string) : list ascii :=
  match s with EmptyString => [] | String c s => c :: letters s end.
(** tab, line feed, vertical tab, form feed, carriage return, the four
    information separators and space *)
Definition spaces : list ascii := map ascii_of_nat [9; 10; 11; 12; 13; 28; 29; 30; 31; 32]%nat.
Definition blank (s : string) : Prop := Forall (fun c => c ∈ spaces) (letters s).
Definition word (s : string) : Prop := s <> ""%string /\ Forall (fun c => c ∉ spaces) (letters s).

(** [spelled line ws]: the line is these words, with spaces between them and
    perhaps before and after *)
Inductive spelled : string -> list string -> Prop :=
| spelled_end b : blank b -> spelled b []
| spelled_word b w rest ws :
    blank b -> word w -> spelled rest ws -> (rest = ""%string \/ exists c r, rest = String c r /\ c ∈ spaces) ->
    spelled (b +:+ w +:+ rest) (w :: ws).

(** a line of a text, without its end *)
Definition one_line (s : string) : Prop := ascii_of_nat 10 ∉ letters s.
(** the text of these lines, all ended *)
Fixpoint text_of (ls : list string) : string :=
  match ls with [] => "" | l :: ls => l +:+ String (ascii_of_nat 10) (text_of ls) end.
(** the same without the end of the last line, which must not be empty *)
Fixpoint open_text_of (ls : list string) : string :=
  match ls with [] => "" | [l] => l | l :: ls => l +:+ String (ascii_of_nat 10) (open_text_of ls) end.
Inductive text_lines : string -> list string -> Prop :=
| ended ls : Forall one_line ls -> text_lines (text_of ls) ls
| unended ls l : Forall one_line ls -> one_line l -> l <> ""%string -> text_lines (open_text_of (ls ++ [l])) (ls ++ [l]).

(** [number] is how a number is read; the text tabulates the table *)
Definition tabulates (number : string -> option Z) (text : string) (d : list (list Z)) : Prop :=
  exists ls wss, text_lines text ls /\ Forall2 spelled ls wss /\
    Forall2 (Forall2 (fun w z => number w = Some z)) wss d.

(** the places of vehicles and trips *)
Definition vehicle_places (v : vehicle) : list position := [sv_position (vh_origin v); sv_position (vh_destination v)].
Definition trip_places (t : trip) : list position := [sv_position (tr_origin t); sv_position (tr_destination t)].

(** the first time a file that may change can be read as a table *)
Definition first_table (number : string -> option Z) (contents : nat -> option string) (n : nat) (d : list (list Z)) : Prop :=
  (exists text, contents n = Some text /\ tabulates number text d) /\
  forall i text d', (i < n)%nat -> contents i = Some text -> ~ tabulates number text d'.
