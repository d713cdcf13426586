(** jinete/utils: [ncr], [sample_index_pairs], [remove_duplicates]. *)
From Verif Require Export Prelude.

(** [range(a, b, -1)] for integers *)
Fixpoint range_down (a : Z) (n : nat) : list Z :=
  match n with O => [] | S n => a :: range_down (a - 1) n end.
(** [range(a, b)] with [n] elements *)
Fixpoint range_up (a : Z) (n : nat) : list Z :=
  match n with O => [] | S n => a :: range_up (a + 1) n end.

(** jinete/utils/random.py:15-25.  Python integers, so [r] may be negative and
    the ranges are then empty. *)
Definition ncr (n r : Z) : Z :=
  let r := Z.min r (n - r) in
  let numer := foldl Z.mul 1 (range_down n (Z.to_nat r)) in
  let denom := foldl Z.mul 1 (range_up 1 (Z.to_nat r)) in
  numer / denom.

(** jinete/utils/random.py:39-43: the rejection loop.  [rnd] is the stream of
    the values returned by [randint], one pair per iteration; [fuel] bounds the
    number of iterations ([None]: still running).  The Python set is a
    duplicate-free list. *)
Definition set_add_pair (p : nat * nat) (l : list (nat * nat)) : list (nat * nat) :=
  if bool_decide (p ∈ l) then l else l ++ [p].
Fixpoint sample_loop (fuel : nat) (rnd : nat -> nat * nat) (k : nat) (count : nat)
    (acc : list (nat * nat)) : option (list (nat * nat)) :=
  if (length acc <? count)%nat then
    match fuel with
    | O => None
    | S fuel => sample_loop fuel rnd (S k) count (set_add_pair (rnd k) acc)
    end
  else Some acc.

(** jinete/utils/random.py:28-44; [draw] stands for the loop above *)
Definition sample_index_pairs (n count : nat) (draw : list (nat * nat)) : list (nat * nat) :=
  if ncr (Z.of_nat n) 2 <=? Z.of_nat count
  then combinations2 (seq 0 n)
  else draw.

(** jinete/utils/collections.py:21-29 *)
Section dedup.
  Context {A : Type} (eqb : A -> A -> bool).
  Fixpoint remove_duplicates_from (seen : list A) (l : list A) : list A :=
    match l with
    | [] => []
    | x :: l =>
        if existsb (eqb x) seen then remove_duplicates_from seen l
        else x :: remove_duplicates_from (seen ++ [x]) l
    end.
  Definition remove_duplicates (l : list A) : list A := remove_duplicates_from [] l.
End dedup.
