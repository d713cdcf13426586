(** Hash functions that do not collide on given services. *)
From Verif Require Export Equality.

Section collisions.
  Context (H : hashing) (unit : Z).
  (** the numbers of a service *)
  Definition numbers_of (s : service) : list lim :=
    map Lim (sv_position s) ++ [Lim (sv_earliest s); sv_latest s; Lim (sv_duration s)].
  (** the tuples that are hashed for a service: its coordinates, the four pairs
      of name and value, and the tuple of these pairs *)
  Definition tuples_of (s : service) : list (list Z) :=
    let h := hash_number H unit in
    let pairs := [[hs_string H "position"; hs_tuple H (map (fun z => h (Lim z)) (sv_position s))];
                  [hs_string H "earliest"; h (Lim (sv_earliest s))];
                  [hs_string H "latest"; h (sv_latest s)];
                  [hs_string H "duration"; h (Lim (sv_duration s))]] in
    map (fun z => h (Lim z)) (sv_position s) :: map (hs_tuple H) pairs :: pairs.
  (** different numbers and different tuples of two services have different hashes *)
  Record collision_free (s s' : service) : Prop := {
    cf_numbers : forall x y, x ∈ numbers_of s -> y ∈ numbers_of s' ->
      hash_number H unit x = hash_number H unit y -> x = y;
    cf_tuples : forall k l, k ∈ tuples_of s -> l ∈ tuples_of s' -> hs_tuple H k = hs_tuple H l -> k = l
  }.
End collisions.
