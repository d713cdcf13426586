(** * Limits on nested calls

    [feasible_within n] and the other readings under a limit are in Depth.v,
    [unread] and [picked] in SpecDepth.v, [linked], [well_formed], [on_tour]
    and [planned_between] in Represents.v. *)
From Verif Require Import DepthTheorems SpecDepth Depth Reads Witness TimeTheorems.

(** ** C83.  Checking a route nests calls as deeply as the route is long *)
(** a lower limit changes no answer: it can only make the check give up *)
@C83_limit c83_limit
(** with room for all stops of the route the check is the one without a limit *)
@C83_enough c83_enough
(** a route that has not been read since it was changed is checked only if
    there is room for all its stops *)
@C83_unread c83_unread
(** a planned trip is checked only if there is room for all stops before its
    delivery, whatever is memoised *)
@C83_trip c83_trip
(** reading the departures from the first stop to the last needs room for two *)
@C83_in_order c83_in_order

Section C83_example.
  #[local] Existing Instance town.
  (** six stops: five are not enough to check the route *)
  Example C83_case : sane /\ on_tour unread_town 3 0 unread_stops busy_visits /\ unread unread_town unread_stops /\
    length unread_stops = 6%nat /\ fst (feasible_within 5 3 unread_town) = Raise RecursionError /\
    fst (feasible_within 6 3 unread_town) = Ok true.
  Proof.
    split; [apply town_sane|]. split; [apply on_tourb_sound; reflexivity|].
    split; [|split; [reflexivity|split; vm_compute; reflexivity]].
    intros s c Hs. unfold unread_stops in Hs. rewrite !elem_of_cons in Hs.
    destruct Hs as [->|[->|[->|[->|[->|[->|Hs]]]]]]; [cbn; intros [= <-]; done..|by apply elem_of_nil in Hs].
  Qed.
  (** all departures are memoised, the second passenger alights at the fifth
      stop: room for four stops is not enough to check the trip *)
  Definition read_town : heap := Eval vm_compute in snd (mapM (departure_within 2) unread_stops unread_town).
  Example C83_case_read : linked unread_town 3 0 unread_stops busy_visits /\
    mapM (departure_within 2) unread_stops unread_town = (Ok [0; 1000; 2000; 4000; 5000; 10000], read_town) /\
    well_formed read_town 3 0 unread_stops busy_visits /\
    unread_stops !! 4%nat = Some 16%nat /\ picked read_town unread_stops 14 3 /\ planned_between read_town 0 3 14 16 /\
    (pt_feasible <$> h_pts read_town !! 3%nat) = Some None /\
    fst (pt_feasible_within 4 3 read_town) = Raise RecursionError /\ fst (pt_feasible_within 5 3 read_town) = Ok true.
  Proof.
    split; [apply wf_linked; apply well_formedb_sound; reflexivity|].
    split; [vm_compute; reflexivity|]. split; [apply well_formedb_sound; reflexivity|]. split; [reflexivity|].
    split; [exists 2%nat; eexists; split; [reflexivity|split; [reflexivity|left]]|].
    split; [eexists; split; [reflexivity|done]|]. split; [reflexivity|]. split; vm_compute; reflexivity.
  Qed.
End C83_example.
