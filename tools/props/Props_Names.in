(** * The names of routes

    [route_identifier] and [route_iter] are in Names.v.  SpecNames.v has [plain]
    (no brackets and no bars), [same_calls] (people of the same names board and
    alight), [same_visit], [needed], [unhurried] and [uncrowded]. *)
From Verif Require Import NameTheorems SpecNames WitnessNames Names Loaders SpecLoad LoadTheorems Witness Checker.

(** ** C84.  The identifier of a route tells what the route does *)
(** every route has one, and asking for it changes nothing *)
@C84_gives c84_gives
(** routes with the same identifier make as many visits, for people of the same
    names *)
@C84_tells c84_tells
(** and the other way round, when nobody boards or alights together *)
@C84_same c84_same
(** tours of one vehicle with the same identifier run at the same times *)
@C84_times c84_times
(** what is printed for a route tells the vehicle, too *)
@C84_printed c84_printed
(** the names in files of both formats are plain and distinct *)
@C84_cordeau c84_cordeau
@C84_hashcode c84_hashcode
(** other names do not tell what the route does *)
@C84_unlike_names c84_unlike_names

Section C84_example.
  #[local] Existing Instance town.
  Example C84_case : on_tour busy_town 2 0 busy_stops busy_visits /\ on_tour unread_town 3 0 unread_stops busy_visits /\
    plain_names busy_visits /\ distinct_names busy_visits busy_visits /\ needed busy_visits /\ unhurried busy_visits /\
    Forall uncrowded busy_visits /\
    fst (route_identifier 2 busy_town) = Ok "[]|[PA]|[PX]|[DA]|[DX]|[]"%string /\
    fst (route_identifier 3 unread_town) = Ok "[]|[PA]|[PX]|[DA]|[DX]|[]"%string.
  Proof.
    split; [apply on_tourb_sound; reflexivity|]. split; [apply on_tourb_sound; reflexivity|].
    split; [intros t Ht; change (t ∈ [0; 1]%nat) in Ht; rewrite !elem_of_cons in Ht; destruct Ht as [->|[->|Ht]]; [..|by apply elem_of_nil in Ht];
      repeat split; discriminate|].
    split; [intros t u Ht Hu; change (t ∈ [0; 1]%nat) in Ht; change (u ∈ [0; 1]%nat) in Hu; rewrite !elem_of_cons in Ht, Hu;
      destruct Ht as [->|[->|Ht]]; [..|by apply elem_of_nil in Ht]; destruct Hu as [->|[->|Hu]]; [| |by apply elem_of_nil in Hu| | |by apply elem_of_nil in Hu];
      first [done|discriminate]|].
    split; [intros i x Hx H0 H1; do 6 (destruct i as [|i]; [cbn in *; (congruence || (injection Hx as <-; cbn; lia))|]); discriminate Hx|].
    split; [repeat constructor|]. split; [repeat constructor|]. split; vm_compute; reflexivity.
  Qed.
  (** vehicles are not part of the identifier, but of what is printed *)
  Definition two_idle : heap := Eval vm_compute in after (new_route 0 ;;; new_route 1) empty_heap.
  Example C84_case_vehicles : on_tour two_idle 0 0 [0; 1]%nat (visits_of two_idle 0) /\ on_tour two_idle 1 1 [2; 3]%nat (visits_of two_idle 1) /\
    fst (route_identifier 0 two_idle) = Ok "[]|[]"%string /\ fst (route_identifier 1 two_idle) = Ok "[]|[]"%string /\
    fst (route_iter 0 two_idle) = Ok ("v", ["[]"; "[]"])%string /\ fst (route_iter 1 two_idle) = Ok ("w", ["[]"; "[]"])%string.
  Proof.
    split; [apply on_tourb_sound; reflexivity|]. split; [apply on_tourb_sound; reflexivity|]. repeat split.
  Qed.
End C84_example.
