(** Words for what a solver did, independently of its code. *)
From Verif Require Export Solver.

Section solver.
  Context {X : Type} (dict_at : nat -> X -> keywords) (act : call -> ST X nat).

  (** the state changed from [s] to [s'] by these calls, and by nothing else *)
  Inductive performed : X -> list (call * res nat) -> X -> Prop :=
  | performed_nothing s : performed s [] s
  | performed_call s c r s1 l s2 : act c s = (r, s1) -> performed s1 l s2 -> performed s ((c, r) :: l) s2.

  (** the user's code does not touch the user's dictionaries *)
  Definition hands_off : Prop := forall c s d, dict_at d (act c s).2 = dict_at d s.
  (** the keywords of a class when the solver starts *)
  Definition own (s : X) (t : tuned) : keywords :=
    match tu_keywords t with Some d => dict_at d s | None => [] end.
  (** those given for the dispatcher *)
  Definition keyed (x : solver) (s : X) : keywords := own s (Tuned 0 (so_dispatcher x)).
End solver.

(** the calls about an object or class of this role *)
Definition about (c : call) : role := match c with Build w _ _ | Ask w _ _ => w end.
(** [k] is one of the keywords *)
Definition names (ks : keywords) (k : string) : Prop := exists v, In (k, v) ks.

(** The three stages of solver [x], each with its outcome: the loader is built
    and asked for job and fleet; the algorithm is built for them and optimizes;
    the storer is built for the result and stores.  [own]: keywords of the user. *)
Definition loading (x : solver) (own : keywords) (loader job fleet : nat) : list (call * res nat) :=
  [(Build TheLoader (tu_base (so_loader x)) own, Ok loader);
   (Ask TheLoader loader "job", Ok job); (Ask TheLoader loader "fleet", Ok fleet)].
Definition optimizing (x : solver) (own : keywords) (job fleet algorithm result : nat) : list (call * res nat) :=
  [(Build TheAlgorithm (tu_base (so_algorithm x)) ([("fleet"%string, fleet); ("job"%string, job)] ++ own), Ok algorithm);
   (Ask TheAlgorithm algorithm "optimize", Ok result)].
Definition storing (x : solver) (own : keywords) (result storer nothing : nat) : list (call * res nat) :=
  [(Build TheStorer (tu_base (so_storer x)) (("result"%string, result) :: own), Ok storer);
   (Ask TheStorer storer "store", Ok nothing)].
