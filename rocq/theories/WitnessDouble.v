(** A concrete route with doubles: one passenger, three stops and the way home. *)
From Coq Require Import Lra Lia.
From Verif Require Export DoubleTheorems.

Lemma double_int z : (Z.abs z < 2 ^ 53)%Z -> double (IZR z).
Proof.
  intros H. apply generic_format_FLT. exists (Float radix2 z 0); [unfold F2R; cbn; ring|exact H|cbn; lia].
Qed.

Definition ride_home : dtrip := DTrip 10 (Some 30) 2 0 (Some 100) 1 (Some 50) 20.
Definition short_way : droute :=
  DRoute 5 (Some 200) None
    [DStop 0 [] [] None; DStop 8 [ride_home] [] None; DStop 20 [] [ride_home] (Some 40); DStop 28 [] [] None]
    [(1, 2, ride_home)%nat].

Ltac exact_max := cbn; unfold opens_pickup, opens_delivery; cbn; unfold Rmax; repeat match goal with |- context [Rle_dec ?a ?b] => destruct (Rle_dec a b); try lra end.
Lemma short_times : timetable 5 (dr_stops short_way) = [DTimes 5 5 5; DTimes 13 13 15; DTimes 35 40 41; DTimes 69 69 69].
Proof.
  assert (E0 : opens (DStop 0 [] [] None) = 0) by reflexivity.
  assert (E1 : opens (DStop 8 [ride_home] [] None) = 10) by (unfold opens; exact_max).
  assert (E2 : opens (DStop 20 [] [ride_home] (Some 40)) = 32) by (unfold opens; exact_max).
  assert (E3 : opens (DStop 28 [] [] None) = 0) by reflexivity.
  cbn [short_way dr_stops timetable ds_travel ds_request]. rewrite E0, E1, E2, E3. unfold lasts. cbn [ds_pickups ds_deliveries map app max_of fold_right].
  replace (Rmax (Rmax (5 + 0) 0) (5 + 0)) with 5 by exact_max. cbn [ride_home dt_origin_duration dt_destination_duration].
  replace (5 + 0) with 5 by ring. replace (5 + 8) with 13 by ring. replace (Rmax (Rmax 13 10) 13) with 13 by exact_max.
  replace (13 + 2) with 15 by ring. replace (15 + 20) with 35 by ring. rewrite (Rmax_left 40 32), (Rmax_left 40 35) by lra.
  replace (40 + 1) with 41 by ring. replace (41 + 28) with 69 by ring. replace (Rmax (Rmax 69 0) 69) with 69 by exact_max.
  replace (69 + 0) with 69 by ring. reflexivity.
Qed.
Lemma short_truly i : truly short_way i = nth i [DTimes 5 5 5; DTimes 13 13 15; DTimes 35 40 41; DTimes 69 69 69] no_times.
Proof. unfold truly. rewrite <- short_times. reflexivity. Qed.
Lemma ride_home_double : double_trip ride_home.
Proof. split; cbn; repeat split; try (apply double_int; reflexivity); lra. Qed.
Lemma short_double : double (dr_earliest short_way) /\ forall s, In s (dr_stops short_way) -> double_stop s.
Proof.
  split; [apply double_int; reflexivity|]. intros s Hs. cbn in Hs.
  repeat (destruct Hs as [<-|Hs]); try destruct Hs; split; cbn.
  all: try (split; [apply double_int; reflexivity|lra]).
  all: try (intros t [<-|[]]; exact ride_home_double).
  all: try discriminate.
  all: try (intros t []; fail).
  intros v [= <-]. apply double_int. reflexivity.
Qed.
Lemma short_forward : rides_forward short_way.
Proof. intros i j t [[= <- <- <-]|[]]. cbn. lia. Qed.
Lemma ride_home_moderate : moderate_trip 1000 ride_home.
Proof. split; cbn; rewrite ?Rabs_pos_eq by lra; lra. Qed.
Lemma short_moderate : moderate 1000 short_way.
Proof.
  split.
  - lra.
  - cbn. rewrite Rabs_pos_eq; lra.
  - intros s Hs. cbn in Hs. repeat (destruct Hs as [<-|Hs]); try destruct Hs; cbn.
    all: split; [lra|]; split; [try exact I; rewrite Rabs_pos_eq; lra|].
    all: split; intros t; try (intros [<-|[]]; exact ride_home_moderate); intros [].
  - intros i j t [[= <- <- <-]|[]]. exact ride_home_moderate.
  - discriminate.
  - rewrite short_truly. cbn. lra.
Qed.
Lemma short_keeps : keeps_limits 0 short_way.
Proof.
  split; rewrite ?short_truly; cbn -[truly]; [lra|exact I|]. intros i j t [[= <- <- <-]|[]]. rewrite !short_truly. cbn -[truly].
  split; [lra|]. intros k [->| ->]; rewrite short_truly; cbn; split; intros t'; try (intros []; fail); intros [<-|[]]; split; cbn; try lra.
  - intros l [= <-]. lra.
  - intros l m [= <-] [= <-]. lra.
Qed.
Lemma short_rounding : rounding 1000 (length (dr_stops short_way)) <= ERROR_BOUND.
Proof.
  assert (HB : Rabs (ERROR_BOUND - 1 / 1000) <= eps 1). { apply rnd_err; [lra|]. rewrite Rabs_pos_eq; lra. }
  unfold eps in HB. apply abs_le in HB. unfold rounding. cbn. lra.
Qed.
