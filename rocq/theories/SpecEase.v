(** The same instance with higher limits. *)
From Verif Require Export Spec.

Definition higher (l l' : lim) : Prop :=
  match l, l' with _, Inf => True | Lim z, Lim z' => z <= z' | Inf, Lim _ => False end.
(** the same service, possibly open longer *)
Definition eased_service (s s' : service) : Prop :=
  sv_position s' = sv_position s /\ sv_earliest s' = sv_earliest s /\ sv_duration s' = sv_duration s /\ higher (sv_latest s) (sv_latest s').
(** world [W'] is world [W] with higher limits: services close later, rides and
    routes may take longer and vehicles carry more; [strict] tells whether a
    longer ride may move the earliest pickup (trips.py:118-120) *)
Record eased_world (strict : Prop) (W W' : World) : Prop := {
  ew_eb : @w_eb W' = @w_eb W;
  ew_metric : @w_metric W' = @w_metric W;
  ew_trip : forall t, eased_service (tr_origin (@w_trip W t)) (tr_origin (@w_trip W' t)) /\
    eased_service (tr_destination (@w_trip W t)) (tr_destination (@w_trip W' t)) /\
    tr_capacity (@w_trip W' t) = tr_capacity (@w_trip W t) /\ higher (tr_timeout (@w_trip W t)) (tr_timeout (@w_trip W' t));
  ew_pickup : strict -> forall t, origin_earliest (@w_trip W' t) = origin_earliest (@w_trip W t);
  ew_vehicle : forall v, eased_service (vh_origin (@w_vehicle W v)) (vh_origin (@w_vehicle W' v)) /\
    eased_service (vh_destination (@w_vehicle W v)) (vh_destination (@w_vehicle W' v)) /\
    higher (vh_capacity (@w_vehicle W v)) (vh_capacity (@w_vehicle W' v)) /\ higher (vh_timeout (@w_vehicle W v)) (vh_timeout (@w_vehicle W' v))
}.
