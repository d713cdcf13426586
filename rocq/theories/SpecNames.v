(** When the names of routes tell what the routes do. *)
From Verif Require Export Represents SpecReport Names.

(** nothing in the name could be taken for the punctuation of an identifier *)
Definition plain (s : string) : Prop := free_of "[" s /\ free_of "]" s /\ free_of bar s.

Section alike.
  Context {W : World}.

  Definition trip_name (t : nat) : string := tr_identifier (w_trip t).
  (** everybody travelling has a plain name *)
  Definition plain_names (xs : list visit) : Prop := forall t, t ∈ boards xs -> plain (trip_name t).
  (** two travellers never have the same name *)
  Definition distinct_names (xs ys : list visit) : Prop :=
    forall t u, t ∈ boards xs -> u ∈ boards ys -> trip_name t = trip_name u -> t = u.

  (** people of the same names board and alight *)
  Definition same_calls (x y : visit) : Prop :=
    map trip_name (vi_board x) ≡ₚ map trip_name (vi_board y) /\
    map trip_name (vi_alight x) ≡ₚ map trip_name (vi_alight y).
  (** the same place, and the same trips begin and end there *)
  Definition same_visit (x y : visit) : Prop :=
    vi_place x = vi_place y /\ vi_board x ≡ₚ vi_board y /\ vi_alight x ≡ₚ vi_alight y.

  (** at most one trip begins and at most one ends *)
  Definition uncrowded (x : visit) : Prop :=
    (length (vi_board x) <= 1)%nat /\ (length (vi_alight x) <= 1)%nat.
  (** all visits between the depots are made for somebody *)
  Definition needed (xs : list visit) : Prop :=
    forall i x, xs !! i = Some x -> i <> 0%nat -> S i <> length xs -> events x <> 0%nat.
  Definition unhurried (xs : list visit) : Prop := Forall (fun x => vi_request x = None) xs.
End alike.
