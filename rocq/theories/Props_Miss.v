(** * Insertions that keep all limits are found

    [admissible], [serve] and [similar] are in Spec.v, [tidy] and [on_tour] in
    Represents.v, [fits] and [honest] in SpecFair.v. *)
From Verif Require Import MissTheorems MissRefute.

(** ** C70.  An insertion that keeps all limits is never missed *)
(** Full statement: if inserting trip [t] into a tour at [i] and [j] gives an
    admissible tour, then [compute] with [only_feasible] returns a route with
    these visits.  It is false of the code: the attempt asks the vehicle to
    leave at the length of the wait at the first visit, which may be earlier
    than before, and then the route takes too long for its vehicle. *)
Theorem C70_refuted : exists (W : World) h r v ids xs t i j h',
  sane /\ tidy h /\ honest h /\ on_tour h r v ids xs /\ t ∉ boards xs /\ (i < j < length xs)%nat /\
  admissible v xs /\ admissible v (serve t i j xs) /\ compute true r [t] i j h = (Ok [], h').
Proof. exact c70_refuted. Qed.
Print Assumptions C70_refuted.

(** It holds if the extended tour keeps the duration limit of the vehicle even
    when the vehicle leaves as early as it can ([fits]), for a single insertion
    and, behind the first visit, for all insertions of the exhaustive strategy.
    Missing: tours that keep the duration limit only with a late departure. *)
Theorem C70_compute_partial `{W : World} : forall r t h v ids xs i j,
  sane -> tidy h -> honest h -> on_tour h r v ids xs -> t ∉ boards xs -> (i < j < length xs)%nat ->
  fits v (serve t i j xs) ->
  exists r' h' ids' xs', compute true r [t] i j h = (Ok [r'], h') /\ h_routes h !! r' = None /\
    on_tour h' r' v ids' xs' /\ similar v (serve t i j xs) xs' /\ fits v xs' /\ tidy h' /\ honest h'.
Proof. exact c70_compute. Qed.
Print Assumptions C70_compute_partial.
Theorem C70_strategy_partial `{W : World} : forall r ts h v ids xs,
  sane -> tidy h -> honest h -> on_tour h r v ids xs -> (forall t, t ∈ ts -> t ∉ boards xs) ->
  exists rs h', strategy_compute Intensive true r ts h = (Ok rs, h') /\ tidy h' /\ honest h' /\
    forall t i j, t ∈ ts -> (1 <= i)%nat -> (i < j < length xs)%nat -> fits v (serve t i j xs) ->
      exists r' ids' xs', r' ∈ rs /\ on_tour h' r' v ids' xs' /\ similar v (serve t i j xs) xs' /\ fits v xs'.
Proof. exact c70_strategy. Qed.
Print Assumptions C70_strategy_partial.

Section C70_example.
  #[local] Existing Instance town.
  (** the route of vehicle 1 serves trips 3 and 2, trip 4 fits between them *)
  Example C70_case : sane /\ tidy unmet_town /\ honest unmet_town /\
    on_tour unmet_town unmet_route 1 (stops_in unmet_town unmet_route) (visits_of unmet_town unmet_route) /\
    4%nat ∉ boards (visits_of unmet_town unmet_route) /\ (2 < 4 < length (visits_of unmet_town unmet_route))%nat /\
    fits 1 (serve 4 2 4 (visits_of unmet_town unmet_route)).
  Proof.
    split; [apply town_sane|]. split; [apply tidyb_sound; reflexivity|]. split; [exact unmet_honest|]. split; [exact unmet_tour|].
    split; [apply (bool_decide_unpack _); reflexivity|]. split; [cbn; lia|]. split; [apply admissibleb_sound; vm_compute; reflexivity|].
    intros T HT. vm_compute in HT. injection HT as <-. vm_compute. congruence.
  Qed.
End C70_example.
