(** What a copy of routes is. *)
From Verif Require Export Represents Copies.

(** all objects are there as they were *)
Definition all_there (h h' : heap) : Prop :=
  (forall s c, h_stops h !! s = Some c -> h_stops h' !! s = Some c) /\
  (forall p c, h_pts h !! p = Some c -> h_pts h' !! p = Some c) /\
  (forall r c, h_routes h !! r = Some c -> h_routes h' !! r = Some c).

(** planned trip [p'] is for the trip and has the memoised answer of [p] *)
Definition recalls (h h' : heap) (p p' : nat) : Prop :=
  exists c c', h_pts h !! p = Some c /\ h_pts h' !! p' = Some c' /\ pt_trip c' = pt_trip c /\ pt_feasible c' = pt_feasible c.
(** stop [s'] has the start time asked for and the memoised values of stop [s],
    so have the trips that begin there *)
Definition remembers (h h' : heap) (s s' : nat) : Prop :=
  exists c c', h_stops h !! s = Some c /\ h_stops h' !! s' = Some c' /\
    st_starting c' = st_starting c /\ st_arrival c' = st_arrival c /\ st_departure c' = st_departure c /\
    st_capacity c' = st_capacity c /\ st_feasible c' = st_feasible c /\
    Forall2 (recalls h h') (st_pickups c) (st_pickups c').

Section copied.
  Context {W : World}.
  (** a route that makes the same visits with stops and planned trips of its
      own, of which nobody has asked whether it is feasible *)
  Definition own_copy (h h' : heap) (r r' : nat) : Prop :=
    h_routes h !! r' = None /\ (forall c', h_routes h' !! r' = Some c' -> rt_feasible c' = None) /\
    forall v ids xs, well_formed h r v ids xs -> exists ids',
      well_formed h' r' v ids' xs /\ Forall2 (remembers h h') ids ids' /\
      (forall s', s' ∈ ids' -> h_stops h !! s' = None) /\
      (forall s' c' p, s' ∈ ids' -> h_stops h' !! s' = Some c' -> p ∈ st_pickups c' ++ st_deliveries c' -> h_pts h !! p = None).

  (** stops of the copies are the same exactly where those of the originals are *)
  Definition same_sharing (h h' : heap) (rs rs' : list nat) : Prop :=
    forall i j r q r' q' c d c' d', rs !! i = Some r -> rs !! j = Some q -> rs' !! i = Some r' -> rs' !! j = Some q' ->
      h_routes h !! r = Some c -> h_routes h !! q = Some d -> h_routes h' !! r' = Some c' -> h_routes h' !! q' = Some d' ->
      forall a b s t s' t', rt_stops c !! a = Some s -> rt_stops d !! b = Some t ->
        rt_stops c' !! a = Some s' -> rt_stops d' !! b = Some t' -> s' = t' <-> s = t.

  (** how many stops and planned trips the routes have *)
  Inductive objects_of (h : heap) : list nat -> nat -> Prop :=
  | no_objects : objects_of h [] 0
  | more_objects r v ids xs rs k : well_formed h r v ids xs -> objects_of h rs k ->
      objects_of h (r :: rs) (length ids + length (boards xs) + k).
End copied.

(** what an object refers to, in the order of its attributes *)
Definition refers (h : heap) (x : object) (l : list object) : Prop :=
  match x with
  | AtStop s => exists c, h_stops h !! s = Some c /\
      l = map AtPlanned (st_pickups c) ++ map AtPlanned (st_deliveries c) ++ map AtStop (match st_previous c with Some q => [q] | None => [] end)
  | AtPlanned p => exists c, h_pts h !! p = Some c /\
      l = map AtStop (match pt_pickup c with Some q => [q] | None => [] end) ++ map AtStop (match pt_delivery c with Some q => [q] | None => [] end)
  end.
(** [trail h seen x l]: from [x], always going to the first object referred to
    that has not been seen yet, one comes past the objects [l] *)
Inductive trail (h : heap) : list object -> object -> list object -> Prop :=
| trail_end seen x l : x ∉ seen -> refers h x l -> trail h seen x [x]
| trail_on seen x l1 y l2 l : x ∉ seen -> refers h x (l1 ++ y :: l2) -> (forall z, z ∈ l1 -> z ∈ x :: seen) ->
    trail h (x :: seen) y l -> trail h seen x (x :: l).

Section parts.
  Context {W : World}.
  (** the visits fall into parts, with at most [k] visits and rides each, such
      that those who board in a part alight in it *)
  Definition in_parts (k : nat) (xs : list visit) : Prop :=
    exists yss, xs = concat yss /\
      Forall (fun ys => alights ys ≡ₚ boards ys /\ (length ys + length (boards ys) <= k)%nat) yss.
End parts.
