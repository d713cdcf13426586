(** What it means to serve a trip correctly, without its tightened windows. *)
From Verif Require Export World.

(** [x] is no later than the limit [l] *)
Definition not_after (x : Z) (l : lim) : Prop :=
  match l with Lim z => x <= z | Inf => True end.

Section trip.
  Context {W : World}.

  (** the pickup starts at [p] and the delivery at [d]: both within the
      windows the user gave, the delivery after the pickup's service and the
      journey, and no longer on board than the timeout *)
  Record served_at (t : trip) (p d : Z) : Prop := {
    sa_pickup : sv_earliest (tr_origin t) <= p /\ not_after p (sv_latest (tr_origin t));
    sa_delivery : sv_earliest (tr_destination t) <= d /\ not_after d (sv_latest (tr_destination t));
    sa_travel : p + sv_duration (tr_origin t)
                  + dist (sv_position (tr_origin t)) (sv_position (tr_destination t)) <= d;
    sa_timeout : not_after (d - (p + sv_duration (tr_origin t))) (tr_timeout t)
  }.
End trip.
