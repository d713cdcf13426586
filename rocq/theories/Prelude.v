(** Python-level building blocks used by every model file: exceptions as
    values, a state-and-exception monad, numbers with +infinity, and the list
    functions of the Python standard library that jinete uses.

    No property is stated here. *)
From Coq Require Export ZArith QArith Bool Lia String.
From stdpp Require Export numbers sets list.
Global Open Scope Z_scope.
Notation last := stdpp.list.last.

(** ** Exceptions

    [RecursionError] is Python's own error for an endless chain of
    [Stop.previous]; [Diverge] is not a Python exception: a model loop that
    runs out of fuel returns it, and the theorems show it does not occur.
    [Dangling] is not a Python exception either: it marks an object id that is
    not allocated in the model heap (impossible in Python). *)
Inductive exn : Type :=
| AssertionError | IndexError | KeyError | TypeError | AttributeError
| ValueError | ZeroDivisionError | StopIteration | RecursionError
| OSError | PreviousStopNotInRouteException | NonFeasibleRouteFoundException
| Diverge | Dangling.

Inductive res (A : Type) : Type :=
| Ok (a : A)
| Raise (e : exn).
Arguments Ok {A} _.
Arguments Raise {A} _.

(** ** State-and-exception monad.  The state survives an exception, as the
    Python heap does. *)
Definition ST (S A : Type) : Type := S -> res A * S.

Section monad.
  Context {S : Type}.
  Definition ret {A} (a : A) : ST S A := fun s => (Ok a, s).
  Definition raise {A} (e : exn) : ST S A := fun s => (Raise e, s).
  Definition bind {A B} (m : ST S A) (k : A -> ST S B) : ST S B :=
    fun s => match m s with
             | (Ok a, s') => k a s'
             | (Raise e, s') => (Raise e, s')
             end.
  Definition get_state : ST S S := fun s => (Ok s, s).

  (** Python [assert b]. *)
  Definition py_assert (b : bool) : ST S unit :=
    if b then ret tt else raise AssertionError.

  (** [l[i]] with [i >= 0]. *)
  Definition py_nth {A} (l : list A) (i : nat) : ST S A :=
    match l !! i with Some a => ret a | None => raise IndexError end.

  (** attribute access on a value that may be [None]. *)
  Definition py_some {A} (o : option A) : ST S A :=
    match o with Some a => ret a | None => raise AttributeError end.

  Fixpoint mapM {A B} (f : A -> ST S B) (l : list A) : ST S (list B) :=
    match l with
    | [] => ret []
    | x :: l => bind (f x) (fun y => bind (mapM f l) (fun ys => ret (y :: ys)))
    end.
  Fixpoint iterM {A} (f : A -> ST S unit) (l : list A) : ST S unit :=
    match l with
    | [] => ret tt
    | x :: l => bind (f x) (fun _ => iterM f l)
    end.
  Fixpoint foldM {A B} (f : B -> A -> ST S B) (b : B) (l : list A) : ST S B :=
    match l with
    | [] => ret b
    | x :: l => bind (f b x) (fun b' => foldM f b' l)
    end.
  Fixpoint filterM {A} (f : A -> ST S bool) (l : list A) : ST S (list A) :=
    match l with
    | [] => ret []
    | x :: l => bind (f x) (fun b => bind (filterM f l) (fun ys =>
                  ret (if b then x :: ys else ys)))
    end.
  (** [all(f(x) for x in l)]: stops at the first false element. *)
  Fixpoint allM {A} (f : A -> ST S bool) (l : list A) : ST S bool :=
    match l with
    | [] => ret true
    | x :: l => bind (f x) (fun b : bool => if b then allM f l else ret false)
    end.
  (** [any(f(x) for x in l)]: stops at the first true element. *)
  Fixpoint anyM {A} (f : A -> ST S bool) (l : list A) : ST S bool :=
    match l with
    | [] => ret false
    | x :: l => bind (f x) (fun b : bool => if b then ret true else anyM f l)
    end.
End monad.

Notation "'let!' x := m 'in' k" := (bind m (fun x => k))
  (at level 200, x pattern, m at level 200, k at level 200,
   format "'[v' 'let!'  x  :=  m  'in' '/' k ']'").
Notation "m ;;; k" := (bind m (fun _ => k))
  (at level 100, right associativity, format "'[v' m  ;;; '/' k ']'").

(** ** Upper limits: a number of ticks or [float("inf")] (constants.py:41).
    [MAX_FLOAT] is [Inf]; used for [latest], [timeout] and vehicle capacity. *)
Inductive lim : Type := Lim (z : Z) | Inf.

(** [x <= l] *)
Definition lim_ge (x : Z) (l : lim) : bool :=
  match l with Lim z => x <=? z | Inf => true end.
(** [l + x] *)
Definition lim_add (l : lim) (x : Z) : lim :=
  match l with Lim z => Lim (z + x) | Inf => Inf end.
(** [min(a, b)]; Python returns the first argument on ties, which is the same
    number. *)
Definition lim_min (a b : lim) : lim :=
  match a, b with
  | Lim x, Lim y => Lim (Z.min x y)
  | Lim x, Inf => Lim x
  | Inf, b => b
  end.
(** [max(x - l, y)], used where a timeout is subtracted: [x - inf = -inf] and
    the maximum is then [y]. *)
Definition max_sub_lim (x : Z) (l : lim) (y : Z) : Z :=
  match l with Lim z => Z.max (x - z) y | Inf => y end.

(** [max(l, default=d)] over integers. *)
Definition py_max (d : Z) (l : list Z) : Z :=
  match l with [] => d | x :: l => foldl Z.max x l end.
(** [min(l, default=Inf)] over limits. *)
Definition py_min_lim (l : list lim) : lim := foldr lim_min Inf l.

Definition zsum (l : list Z) : Z := foldr Z.add 0 l.

(** ** Scores: numbers with both infinities (criterions.py). *)
Inductive score : Type := SNInf | SFin (q : Q) | SPInf.
Definition score_ltb (a b : score) : bool :=
  match a, b with
  | SNInf, SNInf => false
  | SNInf, _ => true
  | SFin x, SFin y => negb (Qle_bool y x)
  | SFin _, SPInf => true
  | _, _ => false
  end.
Definition sfin (z : Z) : score := SFin (inject_Z z).

(** Tuples of numbers compare lexicographically; a strict prefix is smaller
    (used by [max] on objective tuples). *)
Fixpoint tuple_ltb (a b : list Z) : bool :=
  match a, b with
  | [], [] => false
  | [], _ :: _ => true
  | _ :: _, [] => false
  | x :: a, y :: b => (x <? y) || ((x =? y) && tuple_ltb a b)
  end.
(** [tuple(map(add, a, b))]: stops at the shorter tuple. *)
Definition tuple_add (a b : list Z) : list Z := zip_with Z.add a b.

(** ** [max]/[min]/[sorted] with a key.

    [lt] is the "less than" of the key type.  Keys are attached beforehand:
    CPython evaluates the key of every element exactly once, in order. *)
Section keyed.
  Context {A K : Type} (lt : K -> K -> bool).

  (** [max(..., key=...)]: the first element whose key is not exceeded. *)
  Fixpoint max_from (best : K * A) (l : list (K * A)) : K * A :=
    match l with
    | [] => best
    | x :: l => max_from (if lt best.1 x.1 then x else best) l
    end.
  Definition max_keyed (l : list (K * A)) : option A :=
    match l with [] => None | x :: l => Some (max_from x l).2 end.
  (** [min(..., key=...)]. *)
  Fixpoint min_from (best : K * A) (l : list (K * A)) : K * A :=
    match l with
    | [] => best
    | x :: l => min_from (if lt x.1 best.1 then x else best) l
    end.
  Definition min_keyed (l : list (K * A)) : option A :=
    match l with [] => None | x :: l => Some (min_from x l).2 end.

  (** [sorted(..., key=..., reverse=...)]: stable in both directions (CPython
      documents that [reverse=True] keeps the original order of ties). *)
  Definition before (rev : bool) (x y : K) : bool :=
    if rev then lt y x else lt x y.
  Fixpoint insert_keyed (rev : bool) (x : K * A) (l : list (K * A)) : list (K * A) :=
    match l with
    | [] => [x]
    | y :: l' => if before rev y.1 x.1 then y :: insert_keyed rev x l' else x :: l
    end.
  Definition sort_keyed (rev : bool) (l : list (K * A)) : list (K * A) :=
    foldr (insert_keyed rev) [] l.
End keyed.

(** [itertools.combinations(l, 2)] *)
Fixpoint combinations2 {A} (l : list A) : list (A * A) :=
  match l with
  | [] => []
  | x :: l => map (fun y => (x, y)) l ++ combinations2 l
  end.

(** [itertools.permutations(l, 2)]: ordered pairs of distinct positions, in
    lexicographic order of positions. *)
Definition permutations2 {A} (l : list A) : list (A * A) :=
  flat_map (fun i => flat_map (fun j =>
      if decide (i = j) then [] else
        match l !! i, l !! j with Some a, Some b => [(a, b)] | _, _ => [] end)
    (seq 0 (length l))) (seq 0 (length l)).

(** [itertools.product(l, m)] *)
Definition product2 {A B} (l : list A) (m : list B) : list (A * B) :=
  flat_map (fun a => map (fun b => (a, b)) m) l.

(** membership, [set.remove], [set.add], set difference on duplicate-free
    lists of object ids. *)
Definition memb (x : nat) (l : list nat) : bool := bool_decide (x ∈ l).
Definition set_add (x : nat) (l : list nat) : list nat :=
  if memb x l then l else l ++ [x].
Definition set_diff (l m : list nat) : list nat :=
  filter (fun x => x ∉ m) l.
Definition set_union (l m : list nat) : list nat :=
  l ++ set_diff m l.

(** dictionaries as association lists in insertion order *)
Section dict.
  Context {V : Type}.
  Fixpoint dict_get (k : nat) (d : list (nat * V)) : option V :=
    match d with
    | [] => None
    | (k', v) :: d => if decide (k = k') then Some v else dict_get k d
    end.
  Fixpoint dict_set (k : nat) (v : V) (d : list (nat * V)) : list (nat * V) :=
    match d with
    | [] => [(k, v)]
    | (k', v') :: d => if decide (k = k') then (k', v) :: d else (k', v') :: dict_set k v d
    end.
End dict.
