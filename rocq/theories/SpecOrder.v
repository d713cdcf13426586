(** The same instance and the same random numbers, with other iteration orders
    of Python's sets. *)
From Verif Require Export Values.

Definition reordered (W : World) (f : nat -> list nat -> list nat) (Hf : forall k l, f k l ≡ₚ l) : World :=
  mk_world w_eb w_metric w_trip w_vehicle f Hf w_choice w_choice_lt w_sample w_sample_lt w_sample_nodup.

(** the same visit, with the sets of passengers in another order *)
Definition same_people (x y : visit) : Prop :=
  vi_place x = vi_place y /\ vi_board x ≡ₚ vi_board y /\ vi_alight x ≡ₚ vi_alight y /\ vi_request x = vi_request y.

(** no two of the routes [l], all of which were checked, have equal scores *)
Definition no_ties `{W : World} (k : criterion) (h : heap) (l : list nat) : Prop :=
  (forall r, r ∈ l -> exists b, answered h r b) /\
  forall r s x y, r ∈ l -> s ∈ l -> r <> s -> scored k h r x -> scored k h s y -> beats k x y \/ beats k y x.
