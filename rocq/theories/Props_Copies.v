(** * Copying object by object

    [deepcopy_within] (copy.deepcopy with its memo, under a limit on nested
    objects) is in Copies.v, [deepcopy_routes] (all at once, as the rest of the
    model uses it) in Routes.v.  SpecCopies.v has [own_copy] (a route with the
    same visits and memoised values on stops and planned trips of its own),
    [all_there], [objects_of] and [trail]. *)
From Verif Require Import LongTheorems PartProofs DeepTheorems SpecCopies Copies Witness Checker Represents Spec.

(** ** C90.  Deep copies *)
(** the limit being the number of stops and planned trips of the routes or more *)
Theorem C90_copies : forall (W : World) n h rs k,
  objects_of h rs k -> (k <= n)%nat ->
  exists rs' h', deepcopy_within n rs h = (Ok rs', h') /\ all_there h h' /\ NoDup rs' /\ Forall2 (own_copy h h') rs rs' /\ same_sharing h h' rs rs'.
Proof. exact c90_copies. Qed.
Print Assumptions C90_copies.
(** it need only be the number of stops and passengers between two moments at
    which the vehicle is empty *)
Theorem C90_parts : forall (W : World) n h rs,
  (forall r, r ∈ rs -> exists v ids xs, well_formed h r v ids xs /\ in_parts n xs) ->
  exists rs' h', deepcopy_within n rs h = (Ok rs', h') /\ all_there h h' /\ NoDup rs' /\ Forall2 (own_copy h h') rs rs' /\ same_sharing h h' rs rs'.
Proof. exact c90_parts. Qed.
Print Assumptions C90_parts.
(** the copy that the rest of the model uses meets the same specification *)
Theorem C90_at_once : forall (W : World) h rs,
  (forall r, r ∈ rs -> is_Some (h_routes h !! r)) ->
  exists rs' h', deepcopy_routes rs h = (Ok rs', h') /\ all_there h h' /\ NoDup rs' /\ Forall2 (own_copy h h') rs rs' /\ same_sharing h h' rs rs'.
Proof. exact c90_at_once. Qed.
Print Assumptions C90_at_once.
(** a lower limit never gives another result, only a RecursionError *)
Theorem C90_limit : forall (W : World) n k h rs,
  (n <= k)%nat ->
  fst (deepcopy_within n rs h) = Raise RecursionError \/ deepcopy_within n rs h = deepcopy_within k rs h.
Proof. exact c90_limit. Qed.
Print Assumptions C90_limit.
(** it does so if some trail is longer *)
Theorem C90_deep : forall (W : World) n h r rs c a s ids l,
  h_routes h !! r = Some c -> rt_stops c = a :: s :: ids ->
  refers h (AtStop a) [] -> trail h [AtStop a] (AtStop s) l -> (n < length l)%nat ->
  fst (deepcopy_within n (r :: rs) h) = Raise RecursionError.
Proof. exact c90_deep. Qed.
Print Assumptions C90_deep.
(** which happens on tours, whatever the limit *)
Theorem C90_no_limit : forall n,
  exists (W : World) h r v ids xs, on_tour h r v ids xs /\ fst (deepcopy_within n [r] h) = Raise RecursionError.
Proof. exact c90_no_limit. Qed.
Print Assumptions C90_no_limit.

Section C90_example.
  #[local] Existing Instance town.
  Example C90_case : objects_of unread_town [3]%nat 8%nat /\
    fst (deepcopy_within 8 [3]%nat unread_town) = Ok [4]%nat /\ fst (deepcopy_within 6 [3]%nat unread_town) = Ok [4]%nat /\
    fst (deepcopy_within 5 [3]%nat unread_town) = Raise RecursionError /\
    stops_in (snd (deepcopy_within 8 [3]%nat unread_town)) 4 = [20; 21; 23; 22; 24; 25]%nat.
  Proof.
    split; [|vm_compute; auto].
    apply (more_objects unread_town 3 0 unread_stops busy_visits [] 0); [|constructor].
    apply well_formedb_sound. vm_compute. reflexivity.
  Qed.
  (** here the bound of C90_parts is the lowest possible *)
  Example C90_parts_case : well_formed unread_town 3 0 unread_stops busy_visits /\ in_parts 6 busy_visits.
  Proof.
    split; [apply well_formedb_sound; vm_compute; reflexivity|].
    exists [take 1 busy_visits; take 4 (drop 1 busy_visits); drop 5 busy_visits]. split; [reflexivity|].
    repeat constructor; vm_compute; (reflexivity || lia || constructor).
  Qed.
  Example C90_deep_case : refers unread_town (AtStop 12) [] /\
    trail unread_town [AtStop 12] (AtStop 13) [AtStop 13; AtPlanned 4; AtStop 15; AtStop 14; AtPlanned 3; AtStop 16]%nat.
  Proof.
    split; [eexists; split; reflexivity|].
    eapply (trail_on _ _ _ [] (AtPlanned 4) [AtStop 12]); [set_solver|eexists; split; reflexivity|set_solver|].
    eapply (trail_on _ _ _ [AtStop 13] (AtStop 15) []); [set_solver|eexists; split; reflexivity|set_solver|].
    eapply (trail_on _ _ _ [AtPlanned 4] (AtStop 14) []); [set_solver|eexists; split; reflexivity|set_solver|].
    eapply (trail_on _ _ _ [] (AtPlanned 3) [AtStop 13]); [set_solver|eexists; split; reflexivity|set_solver|].
    eapply (trail_on _ _ _ [AtStop 14] (AtStop 16) []); [set_solver|eexists; split; reflexivity|set_solver|].
    eapply trail_end; [set_solver|eexists; split; reflexivity].
  Qed.
End C90_example.
