(** C07-C13: the operations that edit routes. *)
From Verif Require Import EditTheorems RefuteTheorems Witness.

(** ** C07.  insert_stop puts the stop right after its predecessor and keeps
    everything else *)
Theorem C07_insert `{W : World} : forall h r v ids xs k q f s x,
  linked h r v ids xs -> ids !! k = Some q -> ids !! S k = Some f ->
  s ∉ ids -> waits_after h v s q x ->
  exists y h', insert_stop r s h = (Ok y, h') /\
    linked h' r v (take (S k) ids ++ s :: drop (S k) ids) (take (S k) xs ++ x :: drop (S k) xs) /\
    relinked h h' f s /\ (forall r', r' <> r -> h_routes h' !! r' = h_routes h !! r').
Proof. exact c07_insert. Qed.
Print Assumptions C07_insert.
Theorem C07_unknown_predecessor `{W : World} : forall h r v ids xs q s c,
  linked h r v ids xs -> h_stops h !! s = Some c -> st_previous c = Some q -> q ∉ ids ->
  insert_stop r s h = (Raise PreviousStopNotInRouteException, h).
Proof. exact c07_unknown. Qed.
Print Assumptions C07_unknown_predecessor.
Theorem C07_after_last `{W : World} : forall h r v ids xs q s c,
  linked h r v ids xs -> h_stops h !! s = Some c -> st_previous c = Some q -> last ids = Some q ->
  insert_stop r s h = (Raise IndexError, h).
Proof. exact c07_after_last. Qed.
Print Assumptions C07_after_last.

Section C07_example.
  #[local] Existing Instance town.
  Example C07_case : linked detour_town 2 0 busy_stops busy_visits /\ busy_stops !! 1%nat = Some 7%nat /\
    busy_stops !! 2%nat = Some 10%nat /\ 12%nat ∉ busy_stops /\ waits_after detour_town 0 12 7 detour.
  Proof.
    split; [apply linkedb_sound; reflexivity|]. split; [reflexivity|]. split; [reflexivity|].
    split; [apply (bool_decide_unpack _); reflexivity|apply waits_afterb_sound; reflexivity].
  Qed.
  Example C07_case_unknown : exists h c, linked h 2 0 busy_stops busy_visits /\ h_stops h !! 12%nat = Some c /\
    st_previous c = Some 4%nat /\ 4%nat ∉ busy_stops.
  Proof.
    exists (after (new_stop 0 [7000] (Some 4%nat) None) busy_town). eexists.
    split; [apply linkedb_sound; reflexivity|]. split; [vm_compute; reflexivity|].
    split; [reflexivity|apply (bool_decide_unpack _); reflexivity].
  Qed.
  Example C07_case_last : exists h c, linked h 2 0 busy_stops busy_visits /\ h_stops h !! 12%nat = Some c /\
    st_previous c = Some 9%nat /\ last busy_stops = Some 9%nat.
  Proof.
    exists (after (new_stop 0 [7000] (Some 9%nat) None) busy_town). eexists.
    split; [apply linkedb_sound; reflexivity|]. by vm_compute.
  Qed.
End C07_example.

(** ** C08.  insert_stop returns the inserted stop

    It never does: it returns the last stop of the route, because the variable
    of its flush loop shadows the parameter (routes.py:229-234). *)
Theorem C08_refuted : exists (W : World) h r v ids xs s q x y h',
  linked h r v ids xs /\ q ∈ ids /\ waits_after h v s q x /\
  insert_stop r s h = (Ok y, h') /\ y <> s.
Proof. exact c08_refuted. Qed.
Print Assumptions C08_refuted.
Theorem C08_returns_last `{W : World} : forall h r v ids xs k q f s x,
  linked h r v ids xs -> ids !! k = Some q -> ids !! S k = Some f ->
  s ∉ ids -> waits_after h v s q x ->
  exists y h', insert_stop r s h = (Ok y, h') /\ last ids = Some y /\ y <> s.
Proof. exact c08_last. Qed.
Print Assumptions C08_returns_last.

(** (the hypotheses of [C08_returns_last] are those of [C07_insert]) *)
Section C08_example.
  #[local] Existing Instance town.
  Example C08_case : result (insert_stop 2 12) detour_town = Ok 9%nat /\ last busy_stops = Some 9%nat.
  Proof. by vm_compute. Qed.
End C08_example.

(** ** C09.  remove_stop_at removes exactly one stop and relinks its neighbours *)
Theorem C09_remove `{W : World} : forall h r v ids xs k q s f,
  linked h r v ids xs -> ids !! k = Some q -> ids !! S k = Some s -> ids !! S (S k) = Some f ->
  exists h', remove_stop_at r (S k) h = (Ok s, h') /\
    linked h' r v (take (S k) ids ++ drop (S (S k)) ids) (take (S k) xs ++ drop (S (S k)) xs) /\
    relinked h h' f q /\ (forall r', r' <> r -> h_routes h' !! r' = h_routes h !! r').
Proof. exact c09_remove. Qed.
Print Assumptions C09_remove.
Theorem C09_last `{W : World} : forall h r v ids xs,
  linked h r v ids xs -> ids <> [] ->
  remove_stop_at r (length ids - 1) h = (Raise IndexError, h).
Proof. exact c09_last. Qed.
Print Assumptions C09_last.

Section C09_example.
  #[local] Existing Instance town.
  Example C09_case : linked busy_town 2 0 busy_stops busy_visits /\
    busy_stops !! 1%nat = Some 7%nat /\ busy_stops !! 2%nat = Some 10%nat /\ busy_stops !! 3%nat = Some 8%nat /\
    result (remove_stop_at 2 2) busy_town = Ok 10%nat.
  Proof. split; [apply linkedb_sound; reflexivity|]. by vm_compute. Qed.
End C09_example.

(** ** C10.  Removing the first stop keeps the chain consistent

    It never does: the previous stop of the new first stop becomes the last
    stop (index -1, routes.py:198-200), so that the route's first stop can no
    longer be asked for and reading any time recurses for ever. *)
Theorem C10_refuted `{W : World} : forall h r v ids xs s0 s1 rest,
  linked h r v ids xs -> ids = s0 :: s1 :: rest ->
  exists h', remove_stop_at r 0 h = (Ok s0, h') /\
    (exists c, h_routes h' !! r = Some c /\ rt_stops c = s1 :: rest) /\
    (exists c, h_stops h' !! s1 = Some c /\ st_previous c = last (s1 :: rest)) /\
    first_stop r h' = (Raise AssertionError, h') /\
    (forall s, s ∈ s1 :: rest -> departure_time s h' = (Raise RecursionError, h')).
Proof. exact c10_cycle. Qed.
Print Assumptions C10_refuted.

Section C10_example.
  #[local] Existing Instance town.
  Example C10_case : linked busy_town 2 0 busy_stops busy_visits /\ busy_stops = 6%nat :: 7%nat :: [10; 8; 11; 9]%nat /\
    result (remove_stop_at 2 0 ;;; departure_time 8) busy_town = Raise RecursionError.
  Proof. split; [apply linkedb_sound; reflexivity|]. by vm_compute. Qed.
End C10_example.

(** ** C11.  Appending a planned trip adds exactly that trip, pickup before
    delivery *)
Theorem C11_append `{W : World} : forall h r v ids xs t p pk dl i j,
  on_tour h r v ids xs -> joins_at h v ids t p pk dl i j -> t ∉ boards xs ->
  exists h', append_planned_trip r p h = (Ok tt, h') /\
    on_tour h' r v (take (S i) ids ++ pk :: drop (S i) (take j ids) ++ dl :: drop j ids) (serve t i j xs) /\
    boards (serve t i j xs) ≡ₚ t :: boards xs.
Proof. exact c11_append. Qed.
Print Assumptions C11_append.
(** [serve] is what the property asks for: all old visits in their order, the
    two new ones in this order, and nothing else *)
Theorem C11_serve `{W : World} : forall t i j xs, (i < j < length xs)%nat ->
  xs `sublist_of` serve t i j xs /\ [pick_up t; drop_off t] `sublist_of` serve t i j xs /\
  length (serve t i j xs) = (length xs + 2)%nat.
Proof. exact c11_loses_nothing. Qed.
Print Assumptions C11_serve.

Section C11_example.
  #[local] Existing Instance town.
  Example C11_case : on_tour join_town 3 0 unread_stops busy_visits /\
    joins_at join_town 0 unread_stops 2 5 18 19 2 4 /\ 2%nat ∉ boards busy_visits.
  Proof.
    split; [apply on_tourb_sound; reflexivity|]. split; [apply joins_atb_sound; reflexivity|].
    apply (bool_decide_unpack _); reflexivity.
  Qed.
End C11_example.

(** ** C12.  remove_trip removes exactly that trip *)
Theorem C12_remove `{W : World} : forall h r v ids xs t,
  on_tour h r v ids xs -> t ∈ boards xs -> dedicated t xs ->
  exists h' ids', remove_trip r t h = (Ok tt, h') /\
    on_tour h' r v ids' (without t xs) /\ ids' `sublist_of` ids /\
    length ids = (length ids' + 2)%nat /\
    boards (without t xs) = filter (fun u => u <> t) (boards xs).
Proof. exact c12_remove. Qed.
Print Assumptions C12_remove.
Theorem C12_undo `{W : World} : forall h r v ids xs t p pk dl i j,
  on_tour h r v ids xs -> joins_at h v ids t p pk dl i j -> t ∉ boards xs ->
  exists h', (append_planned_trip r p ;;; remove_trip r t) h = (Ok tt, h') /\ on_tour h' r v ids xs.
Proof. exact c12_undo. Qed.
Print Assumptions C12_undo.

Section C12_example.
  #[local] Existing Instance town.
  Example C12_case : on_tour busy_town 2 0 busy_stops busy_visits /\ 1%nat ∈ boards busy_visits /\
    dedicated 1 busy_visits /\ map vi_board (without 1 busy_visits) = [[]; [0]; []; []]%nat.
  Proof.
    split; [apply on_tourb_sound; reflexivity|]. split; [apply (bool_decide_unpack _); reflexivity|].
    split; [|reflexivity]. intros x Hx Hm. unfold busy_visits in Hx.
    repeat (apply elem_of_cons in Hx as [->|Hx]; [destruct Hm as [Hm|Hm]; try reflexivity; by apply elem_of_nil in Hm|]).
    by apply elem_of_nil in Hx.
  Qed.
End C12_example.

(** ** C13.  Cloning gives an equal route and editing the clone never changes
    the original *)
Theorem C13_clone `{W : World} : forall h r v ids xs desired,
  on_tour h r v ids xs ->
  exists r' h' th new, route_clone r desired h = (Ok r', h') /\
    on_tour h' r' v (take th ids ++ new) xs /\
    (th = 0 \/ 2 <= th < desired)%nat /\
    (forall s, s ∈ new -> h_stops h !! s = None) /\
    (forall s c p, s ∈ new -> h_stops h' !! s = Some c -> p ∈ st_pickups c ++ st_deliveries c -> h_pts h !! p = None) /\
    h_routes h !! r' = None /\ unasked h' r' new /\
    (forall s c, h_stops h !! s = Some c -> h_stops h' !! s = Some c) /\
    (forall p c, h_pts h !! p = Some c -> h_pts h' !! p = Some c) /\
    (forall k c, h_routes h !! k = Some c -> h_routes h' !! k = Some c).
Proof. exact c13_clone. Qed.
Print Assumptions C13_clone.
(** a stop inserted into the clone at or behind the requested place *)
Theorem C13_edit `{W : World} : forall h r v ids xs desired r' h1 ids' k q f s x,
  on_tour h r v ids xs -> route_clone r desired h = (Ok r', h1) ->
  linked h1 r' v ids' xs -> ids' !! k = Some q -> ids' !! S k = Some f -> (desired <= S (S k))%nat ->
  s ∉ ids' -> waits_after h1 v s q x ->
  exists y h2, insert_stop r' s h1 = (Ok y, h2) /\
    linked h2 r' v (take (S k) ids' ++ s :: drop (S k) ids') (take (S k) xs ++ x :: drop (S k) xs) /\
    routes_kept h h2.
Proof. exact c13_edit. Qed.
Print Assumptions C13_edit.

Section C13_example.
  #[local] Existing Instance town.
  Example C13_case : on_tour shift_town 2 1 shift_stops shift_visits /\
    exists r' h1 h2, route_clone 2 5 shift_town = (Ok r', h1) /\
      linked h2 r' 1 (stops_in h2 r') shift_visits /\
      take 4 (stops_in h2 r') = take 3 shift_stops ++ [12%nat] /\ h2 = after (new_stop 1 [7000] (Some 13%nat) None) h1 /\
      waits_after h2 1 15 13 detour /\ stops_in h2 r' !! 4%nat = Some 13%nat /\ stops_in h2 r' !! 5%nat = Some 14%nat.
  Proof.
    split; [apply on_tourb_sound; reflexivity|].
    do 2 eexists. exists (after (new_stop 1 [7000] (Some 13%nat) None) (after (route_clone 2 5) shift_town)).
    split; [vm_compute; reflexivity|]. split; [apply linkedb_sound; reflexivity|].
    split; [vm_compute; reflexivity|]. split; [vm_compute; reflexivity|]. split; [apply waits_afterb_sound; reflexivity|].
    split; reflexivity.
  Qed.
End C13_example.
