(** C61: the drawing of a solution.  [drives], [meeting_place],
    [names_trip_at] and [places_apart] are in SpecPlot.v. *)
From Verif Require Import SpecPlot PlotTheorems Witness.

(** ** C61.  The drawing shows all places, trips and legs

    Places and legs are complete, but a place is labelled with one trip only
    and a leg is drawn in the colour of one route only. *)
Theorem C61_refuted : ~ forall (W : World) h pl job nodes edges h', well_planned h pl -> NoDup pl -> NoDup job ->
  generate_graph pl job h = (Ok (nodes, edges), h') ->
  forall t, t ∈ job -> (origin_position (w_trip t), "+" +:+ tr_identifier (w_trip t)) ∈ nodes /\
                     (destination_position (w_trip t), "-" +:+ tr_identifier (w_trip t)) ∈ nodes.
Proof. exact c61_naive. Qed.
Print Assumptions C61_refuted.
Theorem C61_overdrawn_refuted : ~ forall (W : World) h pl job nodes edges h', well_planned h pl -> NoDup pl -> NoDup job ->
  generate_graph pl job h = (Ok (nodes, edges), h') ->
  exists colour : nat -> nat, (forall r r', r ∈ pl -> r' ∈ pl -> colour r = colour r' -> r = r') /\
    forall r p q, r ∈ pl -> drives h r p q -> ((p, q), colour r) ∈ edges.
Proof. exact c61_overdrawn. Qed.
Print Assumptions C61_overdrawn_refuted.
(** what is drawn in general *)
Theorem C61_graph `{W : World} : forall h pl job, well_planned h pl ->
  exists nodes edges h' order, generate_graph pl job h = (Ok (nodes, edges), h') /\ only_memoised h h' /\
    NoDup (map fst nodes) /\ NoDup (map fst edges) /\ order ≡ₚ pl /\
    (forall p, p ∈ map fst nodes <-> meeting_place job p \/ exists r q, r ∈ pl /\ (drives h r p q \/ drives h r q p)) /\
    (forall p l, (p, l) ∈ nodes -> names_trip_at job p l \/ ~ meeting_place job p /\ l = EmptyString) /\
    (forall p q, (p, q) ∈ map fst edges <-> exists r, r ∈ pl /\ drives h r p q) /\
    (forall p q c, ((p, q), c) ∈ edges <->
       (exists r, order !! c = Some r /\ drives h r p q) /\
       (forall c' r', (c < c')%nat -> order !! c' = Some r' -> ~ drives h r' p q)).
Proof. exact c61_graph. Qed.
Print Assumptions C61_graph.
(** labels and colours when nothing coincides *)
Theorem C61_labels_partial `{W : World} : forall h pl job nodes edges h', well_planned h pl -> places_apart job ->
  generate_graph pl job h = (Ok (nodes, edges), h') ->
  forall t, t ∈ job -> (origin_position (w_trip t), "+" +:+ tr_identifier (w_trip t)) ∈ nodes /\
                     (destination_position (w_trip t), "-" +:+ tr_identifier (w_trip t)) ∈ nodes.
Proof. exact c61_labels. Qed.
Print Assumptions C61_labels_partial.
Theorem C61_colours_partial `{W : World} : forall h pl job nodes edges h', well_planned h pl -> NoDup pl ->
  generate_graph pl job h = (Ok (nodes, edges), h') ->
  (forall r r' p q, r ∈ pl -> r' ∈ pl -> drives h r p q -> drives h r' p q -> r = r') ->
  forall r r' p q p' q' c c', r ∈ pl -> r' ∈ pl -> drives h r p q -> drives h r' p' q' ->
    ((p, q), c) ∈ edges -> ((p', q'), c') ∈ edges -> (c = c' <-> r = r').
Proof. exact c61_colours. Qed.
Print Assumptions C61_colours_partial.

Section C61_example.
  #[local] Existing Instance town.
  Example C61_case : well_planned busy_town [2]%nat /\ places_apart [0; 1; 2]%nat /\
    exists nodes edges, fst (generate_graph [2]%nat [0; 1; 2]%nat busy_town) = Ok (nodes, edges) /\
      gd_get [1000] nodes = Some "+A"%string /\ gd_get [0] nodes = Some ""%string /\ length nodes = 7%nat /\ length edges = 5%nat.
  Proof.
    split. { intros r Hr. apply elem_of_list_singleton in Hr as ->. exists 0%nat, busy_stops, busy_visits. by apply well_formedb_sound. }
    split.
    { split; [|split]; intros t t' Ht Ht'; repeat (apply elem_of_cons in Ht as [->|Ht]); try (by apply elem_of_nil in Ht);
        repeat (apply elem_of_cons in Ht' as [->|Ht']); try (by apply elem_of_nil in Ht'); by vm_compute. }
    eexists _, _. split; [vm_compute; reflexivity|]. repeat split.
  Qed.
End C61_example.
