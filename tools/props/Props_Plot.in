(** C61: the drawing of a solution.  [drives], [meeting_place],
    [names_trip_at] and [places_apart] are in SpecPlot.v. *)
From Verif Require Import SpecPlot PlotTheorems Witness.

(** ** C61.  The drawing shows all places, trips and legs

    Places and legs are complete, but a place is labelled with one trip only
    and a leg is drawn in the colour of one route only. *)
@C61_refuted c61_naive
@C61_overdrawn_refuted c61_overdrawn
(** what is drawn in general *)
@C61_graph c61_graph
(** labels and colours when nothing coincides *)
@C61_labels_partial c61_labels
@C61_colours_partial c61_colours

Section C61_example.
  #[local] Existing Instance town.
  Example C61_case : well_planned busy_town [2]%nat /\ places_apart [0; 1; 2]%nat /\
    exists nodes edges, fst (generate_graph [2]%nat [0; 1; 2]%nat busy_town) = Ok (nodes, edges) /\
      gd_get [1000] nodes = Some "+A"%string /\ gd_get [0] nodes = Some ""%string /\ length nodes = 7%nat /\ length edges = 5%nat.
  Proof.
    split. { intros r Hr. apply elem_of_list_singleton in Hr as ->. exists 0%nat, busy_stops, busy_visits. by apply well_formedb_sound. }
    split.
    { split; [|split]; intros t t' Ht Ht'; repeat (apply elem_of_cons in Ht as [->|Ht]); try (by apply elem_of_nil in Ht);
        repeat (apply elem_of_cons in Ht' as [->|Ht']); try (by apply elem_of_nil in Ht'); by vm_compute. }
    eexists _, _. split; [vm_compute; reflexivity|]. repeat split.
  Qed.
End C61_example.
