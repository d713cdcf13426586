(** * The names of routes

    [route_identifier] and [route_iter] are in Names.v.  SpecNames.v has [plain]
    (no brackets and no bars), [same_calls] (people of the same names board and
    alight), [same_visit], [needed], [unhurried] and [uncrowded]. *)
From Verif Require Import NameTheorems SpecNames WitnessNames Names Loaders SpecLoad LoadTheorems Witness Checker.

(** ** C84.  The identifier of a route tells what the route does *)
(** every route has one, and asking for it changes nothing *)
Theorem C84_gives `{W : World} : forall h r v ids xs, well_formed h r v ids xs ->
  exists name h', route_identifier r h = (Ok name, h') /\ routes_kept h h'.
Proof. exact c84_gives. Qed.
Print Assumptions C84_gives.
(** routes with the same identifier make as many visits, for people of the same
    names *)
Theorem C84_tells `{W : World} : forall h r v ids xs h1 k s is ys name h' h1',
  well_formed h r v ids xs -> well_formed h1 k s is ys -> plain_names xs -> plain_names ys ->
  route_identifier r h = (Ok name, h') -> route_identifier k h1 = (Ok name, h1') -> Forall2 same_calls xs ys.
Proof. exact c84_tells. Qed.
Print Assumptions C84_tells.
(** and the other way round, when nobody boards or alights together *)
Theorem C84_same `{W : World} : forall h r v ids xs h1 k s is ys name h' name1 h1',
  well_formed h r v ids xs -> well_formed h1 k s is ys -> Forall uncrowded xs -> Forall2 same_calls xs ys ->
  route_identifier r h = (Ok name, h') -> route_identifier k h1 = (Ok name1, h1') -> name = name1.
Proof. exact c84_same. Qed.
Print Assumptions C84_same.
(** tours of one vehicle with the same identifier run at the same times *)
Theorem C84_times `{W : World} : forall h r v ids xs h1 k is ys name h' h1',
  on_tour h r v ids xs -> on_tour h1 k v is ys -> plain_names xs -> plain_names ys -> distinct_names xs ys ->
  needed xs -> unhurried xs -> unhurried ys ->
  route_identifier r h = (Ok name, h') -> route_identifier k h1 = (Ok name, h1') ->
  Forall2 same_visit xs ys /\ timetable v xs = timetable v ys.
Proof. exact c84_times. Qed.
Print Assumptions C84_times.
(** what is printed for a route tells the vehicle, too *)
Theorem C84_printed `{W : World} : forall h r v ids xs h1 k s is ys a ns b h' h1',
  well_formed h r v ids xs -> well_formed h1 k s is ys -> plain_names xs -> plain_names ys ->
  route_iter r h = (Ok (a, ns), h') -> route_iter k h1 = (Ok (b, ns), h1') ->
  a = vh_identifier (w_vehicle v) /\ b = vh_identifier (w_vehicle s) /\ Forall2 same_calls xs ys.
Proof. exact c84_printed. Qed.
Print Assumptions C84_printed.
(** the names in files of both formats are plain and distinct *)
Theorem C84_cordeau : forall e i s ts s', paired i -> cordeau_job e (dial_a_ride_file (unit_of e) i) s = (Ok ts, s') ->
  forall (W : World) vs xs ys, holds vs ts -> (forall t, t ∈ boards xs ++ boards ys -> (t < length ts)%nat) ->
    plain_names xs /\ distinct_names xs ys.
Proof. exact c84_cordeau. Qed.
Print Assumptions C84_cordeau.
Theorem C84_hashcode : forall e i s ts s', hashcode_job e (hash_code_file (unit_of e) i) s = (Ok ts, s') ->
  forall (W : World) vs xs ys, holds vs ts -> (forall t, t ∈ boards xs ++ boards ys -> (t < length ts)%nat) ->
    plain_names xs /\ distinct_names xs ys.
Proof. exact c84_hashcode. Qed.
Print Assumptions C84_hashcode.
(** other names do not tell what the route does *)
Theorem C84_unlike_names : ~ forall (W : World) h r v ids xs h1 k s is ys name h' h1',
  on_tour h r v ids xs -> on_tour h1 k s is ys ->
  route_identifier r h = (Ok name, h') -> route_identifier k h1 = (Ok name, h1') -> Forall2 same_calls xs ys.
Proof. exact c84_unlike_names. Qed.
Print Assumptions C84_unlike_names.

Section C84_example.
  #[local] Existing Instance town.
  Example C84_case : on_tour busy_town 2 0 busy_stops busy_visits /\ on_tour unread_town 3 0 unread_stops busy_visits /\
    plain_names busy_visits /\ distinct_names busy_visits busy_visits /\ needed busy_visits /\ unhurried busy_visits /\
    Forall uncrowded busy_visits /\
    fst (route_identifier 2 busy_town) = Ok "[]|[PA]|[PX]|[DA]|[DX]|[]"%string /\
    fst (route_identifier 3 unread_town) = Ok "[]|[PA]|[PX]|[DA]|[DX]|[]"%string.
  Proof.
    split; [apply on_tourb_sound; reflexivity|]. split; [apply on_tourb_sound; reflexivity|].
    split; [intros t Ht; change (t ∈ [0; 1]%nat) in Ht; rewrite !elem_of_cons in Ht; destruct Ht as [->|[->|Ht]]; [..|by apply elem_of_nil in Ht];
      repeat split; discriminate|].
    split; [intros t u Ht Hu; change (t ∈ [0; 1]%nat) in Ht; change (u ∈ [0; 1]%nat) in Hu; rewrite !elem_of_cons in Ht, Hu;
      destruct Ht as [->|[->|Ht]]; [..|by apply elem_of_nil in Ht]; destruct Hu as [->|[->|Hu]]; [| |by apply elem_of_nil in Hu| | |by apply elem_of_nil in Hu];
      first [done|discriminate]|].
    split; [intros i x Hx H0 H1; do 6 (destruct i as [|i]; [cbn in *; (congruence || (injection Hx as <-; cbn; lia))|]); discriminate Hx|].
    split; [repeat constructor|]. split; [repeat constructor|]. split; vm_compute; reflexivity.
  Qed.
  (** vehicles are not part of the identifier, but of what is printed *)
  Definition two_idle : heap := Eval vm_compute in after (new_route 0 ;;; new_route 1) empty_heap.
  Example C84_case_vehicles : on_tour two_idle 0 0 [0; 1]%nat (visits_of two_idle 0) /\ on_tour two_idle 1 1 [2; 3]%nat (visits_of two_idle 1) /\
    fst (route_identifier 0 two_idle) = Ok "[]|[]"%string /\ fst (route_identifier 1 two_idle) = Ok "[]|[]"%string /\
    fst (route_iter 0 two_idle) = Ok ("v", ["[]"; "[]"])%string /\ fst (route_iter 1 two_idle) = Ok ("w", ["[]"; "[]"])%string.
  Proof.
    split; [apply on_tourb_sound; reflexivity|]. split; [apply on_tourb_sound; reflexivity|]. repeat split.
  Qed.
End C84_example.
