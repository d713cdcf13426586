(** Equality of services: jinete/models/services.py:83-96 and
    positions.py:103-104.

    Hashes of whole numbers are those of CPython (64 bit); those of fractions,
    strings and tuples are arbitrary functions. *)
From Verif Require Export World.

Record hashing : Type := Hashing {
  hs_fraction : Z -> Z;
  hs_string : string -> Z;
  hs_tuple : list Z -> Z
}.

(** CPython's Python/pyhash.c and Objects/longobject.c: the remainder modulo
    2^61-1 with the sign of the number; -1 signals an error there, so -2 is used
    instead *)
Definition hash_int (n : Z) : Z :=
  let r := Z.sgn n * (Z.abs n mod 2305843009213693951) in
  if Z.eqb r (-1) then -2 else r.

Section equality.
  Context (H : hashing) (unit : Z).

  (** a number given in ticks, [unit] of them in 1.0; [float("inf")] *)
  Definition hash_number (x : lim) : Z :=
    match x with
    | Inf => 314159
    | Lim z => if Z.eqb (z mod unit) 0 then hash_int (z / unit) else hs_fraction H z
    end.
  (** positions.py:103-104 *)
  Definition hash_position (p : position) : Z :=
    hs_tuple H (map (fun z => hash_number (Lim z)) p).
  (** services.py:86-96: the tuple of the pairs the iterator yields *)
  Definition hash_service (s : service) : Z :=
    hs_tuple H
      [hs_tuple H [hs_string H "position"; hash_position (sv_position s)];
       hs_tuple H [hs_string H "earliest"; hash_number (Lim (sv_earliest s))];
       hs_tuple H [hs_string H "latest"; hash_number (sv_latest s)];
       hs_tuple H [hs_string H "duration"; hash_number (Lim (sv_duration s))]].
  (** services.py:83-84 *)
  Definition service_eqb (s s' : service) : bool := Z.eqb (hash_service s) (hash_service s').
End equality.
