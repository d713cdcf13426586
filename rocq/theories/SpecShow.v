(** What printing leaves as it was. *)
From Verif Require Export Represents Shows.

(** the same stops, planned trips and routes with the same contents, memoised
    answers included; only the count of arbitrary orders may be another one *)
Definition same_objects (h h' : heap) : Prop :=
  h_stops h' = h_stops h /\ h_pts h' = h_pts h /\ h_routes h' = h_routes h.

(** all that can be printed but planned trips *)
Definition not_planned (x : optimizable) : Prop :=
  match x with APlanned _ => False | _ => True end.

(** the program either gives a value or meets an object that does not exist,
    which no Python program can *)
Definition cannot_fail {A} (y : res A) : Prop :=
  match y with Ok _ => True | Raise e => e = Dangling end.

Section parts.
  Context {W : World}.
  (** all routes which are printed with [x] are well formed, and the stop is one
      of such a route *)
  Definition made_of_routes (h : heap) (x : optimizable) : Prop :=
    match x with
    | AResult _ _ pl | APlanning pl => forall r, r ∈ pl -> exists v ids xs, well_formed h r v ids xs
    | ARoute r => exists v ids xs, well_formed h r v ids xs
    | AStop s => exists r v ids xs, well_formed h r v ids xs /\ s ∈ ids
    | APlanned p => False
    | ATuple _ => True
    end.
End parts.
