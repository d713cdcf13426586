(** Proofs about the equality of services (C45). *)
From Verif Require Import SpecEquality.

Lemma c45_same : forall H unit s s',
  sv_position s = sv_position s' -> sv_earliest s = sv_earliest s' ->
  sv_latest s = sv_latest s' -> sv_duration s = sv_duration s' -> service_eqb H unit s s' = true.
Proof.
  intros H unit [p e l d] [p' e' l' d']; cbn. intros -> -> -> ->. apply Z.eqb_refl.
Qed.
Lemma c45_equivalence : forall H unit,
  (forall s, service_eqb H unit s s = true) /\
  (forall s t, service_eqb H unit s t = service_eqb H unit t s) /\
  (forall s t u, service_eqb H unit s t = true -> service_eqb H unit t u = true -> service_eqb H unit s u = true).
Proof.
  intros H unit. split; [|split].
  - intros s. apply Z.eqb_refl.
  - intros s t. apply Z.eqb_sym.
  - intros s t u. unfold service_eqb. rewrite !Z.eqb_eq. congruence.
Qed.

(** -1 and -2 have the same hash, and so do 314159 and infinity *)
Lemma same_hash H unit : 0 < unit -> hash_number H unit (Lim (- unit)) = hash_number H unit (Lim (-2 * unit)).
Proof.
  intros Hu. unfold hash_number.
  replace (- unit) with ((-1) * unit) by lia. rewrite !Z.mod_mul, !Z.div_mul by lia. reflexivity.
Qed.
(** whatever is used to hash the rest, these pairs of different services are equal *)
Lemma c45_naive : forall H unit, 0 < unit ->
  (forall rest e l d,
     service_eqb H unit (Service (- unit :: rest) e l d) (Service (-2 * unit :: rest) e l d) = true) /\
  (forall p l d, service_eqb H unit (Service p (- unit) l d) (Service p (-2 * unit) l d) = true) /\
  (forall p e d, service_eqb H unit (Service p e (Lim (314159 * unit)) d) (Service p e Inf d) = true).
Proof.
  intros H unit Hu. split; [|split].
  - intros rest e l d. unfold service_eqb, hash_service, hash_position. cbn [map sv_position sv_earliest sv_latest sv_duration].
    rewrite (same_hash H unit Hu). apply Z.eqb_refl.
  - intros p l d. unfold service_eqb, hash_service. cbn [sv_position sv_earliest sv_latest sv_duration].
    rewrite (same_hash H unit Hu). apply Z.eqb_refl.
  - intros p e d. unfold service_eqb, hash_service. cbn [sv_position sv_earliest sv_latest sv_duration].
    unfold hash_number at 2 6. rewrite Z.mod_mul, Z.div_mul by lia. apply Z.eqb_refl.
Qed.

Lemma c45_iff : forall H unit s s', collision_free H unit s s' ->
  service_eqb H unit s s' = true <->
  sv_position s = sv_position s' /\ sv_earliest s = sv_earliest s' /\
  sv_latest s = sv_latest s' /\ sv_duration s = sv_duration s'.
Proof.
  intros H unit s s' [Cn Ct]. split; [|intros (?&?&?&?); by apply c45_same].
  unfold service_eqb. rewrite Z.eqb_eq. intros E. unfold hash_service in E.
  assert (T : forall k l, k ∈ tuples_of H unit s -> l ∈ tuples_of H unit s' -> hs_tuple H k = hs_tuple H l -> k = l) by exact Ct.
  apply T in E; [|right; left|right; left]. injection E as E1 E2 E3 E4.
  apply T in E1; [|do 2 right; left|do 2 right; left]. apply T in E2; [|do 3 right; left|do 3 right; left].
  apply T in E3; [|do 4 right; left|do 4 right; left]. apply T in E4; [|do 5 right; left|do 5 right; left].
  injection E1 as E1. injection E2 as E2. injection E3 as E3. injection E4 as E4.
  apply T in E1; [|left|left].
  assert (N : forall x y, x ∈ numbers_of s -> y ∈ numbers_of s' -> hash_number H unit x = hash_number H unit y -> x = y) by exact Cn.
  assert (Hl : forall x (t : service), x ∈ [Lim (sv_earliest t); sv_latest t; Lim (sv_duration t)] -> x ∈ numbers_of t).
  { intros x t Hx. unfold numbers_of. apply elem_of_app. by right. }
  split; [|split; [|split]].
  - assert (Hp : forall z (t : service), z ∈ sv_position t -> Lim z ∈ numbers_of t).
    { intros z t Hz. unfold numbers_of. apply elem_of_app. left. by apply elem_of_list_fmap_1. }
    specialize (fun z => Hp z s) as P. specialize (fun z => Hp z s') as P'.
    clear -N E1 P P'. revert E1 P P'. generalize (sv_position s), (sv_position s').
    induction p as [|z p IH]; intros [|z' p'] E1 P P'; try discriminate; [done|].
    cbn in E1. injection E1 as Ez E1. f_equal.
    + apply (N (Lim z) (Lim z')) in Ez; [congruence|apply P; left|apply P'; left].
    + apply IH; [done|intros; apply P; by right|intros; apply P'; by right].
  - apply (N (Lim _) (Lim _)) in E2; [congruence|apply Hl..]; left.
  - apply N in E3; [congruence|apply Hl..]; right; left.
  - apply (N (Lim _) (Lim _)) in E4; [congruence|apply Hl..]; right; right; left.
Qed.
