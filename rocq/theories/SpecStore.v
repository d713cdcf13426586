(** Reading HashCode output back, independently of the code that writes it. *)
From Coq Require Export Ascii.
From stdpp Require Export pretty.
From Verif Require Export Represents Values Storers.

(** the pieces of a string between the occurrences of a character *)
Fixpoint split_on (c : ascii) (s : string) : list string :=
  match s with
  | EmptyString => [EmptyString]
  | String a s =>
      if Ascii.eqb a c then EmptyString :: split_on c s
      else match split_on c s with w :: ws => String a w :: ws | [] => [] end
  end.
Definition blank : ascii := " ".
Definition line_break : ascii := ascii_of_nat 10.
(** no blank and no line break inside *)
Fixpoint one_word (s : string) : Prop :=
  match s with
  | EmptyString => True
  | String a s => a <> blank /\ a <> line_break /\ one_word s
  end.

(** the words of a line: a count and the identifiers, in the order of pickup *)
Definition words_for (names : list string) : list string :=
  pretty (length names) :: match names with [] => [EmptyString] | _ => names end.

Section report.
  Context {W : World}.
  (** [ws] are the words that report route [r]: the passengers with a load *)
  Definition reports (h : heap) (r : nat) (ws : list string) : Prop :=
    exists v ids xs, well_formed h r v ids xs /\
      ws = words_for (map (fun t => tr_identifier (w_trip t))
                        (filter (fun t => tr_capacity (w_trip t) <> 0) (boards xs))).
  (** [r] has a passenger *)
  Definition has_passengers (h : heap) (r : nat) : Prop :=
    exists v ids xs, well_formed h r v ids xs /\ boards xs <> [].
  (** identifiers of passengers are words *)
  Definition word_identifiers (h : heap) (pl : list nat) : Prop :=
    forall t, carried h pl t -> one_word (tr_identifier (w_trip t)).
End report.

Section report_all.
  Context {W : World}.
  (** [ws] name every passenger of route [r] *)
  Definition names_everyone (h : heap) (r : nat) (ws : list string) : Prop :=
    exists v ids xs, well_formed h r v ids xs /\
      ws = pretty (length (boards xs)) :: map (fun t => tr_identifier (w_trip t)) (boards xs).
End report_all.

(** ** Sequences of events, each with any effect on a state *)
Section history.
  Context {E S : Type} (act : E -> ST S unit).
  (** all events of the list happened, in this order, without an exception *)
  Inductive happened : S -> list E -> S -> Prop :=
  | happened_nothing s : happened s [] s
  | happened_next s e s1 l s2 : act e s = (Ok tt, s1) -> happened s1 l s2 -> happened s (e :: l) s2.
End history.

(** every class of storers constructed for the result [x] and asked to store it *)
Definition in_turn (x : nat) (order : list nat) : list storer_event :=
  flat_map (fun c => [Constructed c x; Stored c x]) order.
