(** The tightened windows of a trip (C36). *)
From Verif Require Import SpecTrip.

Lemma lim_min_not_after x a b : not_after x (lim_min a b) <-> not_after x a /\ not_after x b.
Proof. destruct a, b; cbn; lia. Qed.

Lemma c36_delivery `{W : World} : forall t p d, served_at t p d ->
  destination_earliest t <= d /\ not_after d (destination_latest t).
Proof.
  intros t p d [[H1 H2] [H3 H4] H5 H6]. unfold destination_earliest, destination_latest, svc_dist.
  split; [lia|]. rewrite lim_min_not_after. split; [|done].
  destruct (tr_timeout t), (sv_latest (tr_origin t)); cbn in *; lia.
Qed.

(** The windows of the pickup admit every correct service up to the
    difference between the two service durations. *)
Lemma c36_pickup `{W : World} : forall t p d, served_at t p d ->
  origin_earliest t <= p + Z.max 0 (origin_duration t - destination_duration t) /\
  not_after (p - Z.max 0 (destination_duration t - origin_duration t)) (origin_latest t).
Proof.
  intros t p d [[H1 H2] [H3 H4] H5 H6].
  unfold origin_earliest, origin_latest, origin_duration, destination_duration, svc_dist. split.
  - destruct (tr_timeout t); cbn in *; lia.
  - rewrite lim_min_not_after.
    destruct (sv_latest (tr_origin t)), (sv_latest (tr_destination t)); cbn in *; lia.
Qed.

Lemma c36_equal `{W : World} : forall t p d, served_at t p d ->
  origin_duration t = destination_duration t ->
  origin_earliest t <= p /\ not_after p (origin_latest t) /\
  destination_earliest t <= d /\ not_after d (destination_latest t).
Proof.
  intros t p d H E. destruct (c36_pickup _ _ _ H) as [H1 H2].
  rewrite E, Z.sub_diag, Z.max_l in H1, H2 by done. rewrite Z.add_0_r in H1. rewrite Z.sub_0_r in H2.
  destruct (c36_delivery _ _ _ H). done.
Qed.

(** Pickup lasts 5, delivery 0, journey 10, timeout 10, delivery due at 100:
    starting the pickup at 85 is correct but [origin_earliest] is 90. *)
Definition slow_pickup : trip :=
  Trip "s" (Service [0] 0 Inf 5000) (Service [10000] 100000 Inf 0) 1000 0 (Lim 10000).
(** Pickup lasts 0, delivery 5 and may start until 100: starting the pickup at
    90 is correct but [origin_latest] is 85. *)
Definition slow_delivery : trip :=
  Trip "d" (Service [0] 0 Inf 0) (Service [10000] 0 (Lim 100000) 5000) 1000 0 Inf.

Lemma c36_refuted : forall W : World,
  (exists t p d, served_at t p d /\ p < origin_earliest t) /\
  (exists t p d, served_at t p d /\ ~ not_after p (origin_latest t)).
Proof.
  intros W. assert (E : dist [0] [10000] = 10000) by (unfold dist; destruct w_metric; reflexivity).
  split.
  - exists slow_pickup, 85000, 100000. split; [|vm_compute; reflexivity].
    split; cbn [tr_origin tr_destination slow_pickup sv_position]; rewrite ?E; cbn; lia.
  - exists slow_delivery, 90000, 100000. split.
    + split; cbn [tr_origin tr_destination slow_delivery sv_position]; rewrite ?E; cbn; lia.
    + unfold origin_latest, svc_dist. cbn [tr_origin tr_destination slow_delivery sv_position].
      rewrite E. cbn. lia.
Qed.
