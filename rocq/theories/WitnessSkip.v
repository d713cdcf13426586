(** A route past three places, and the one that leaves out the second. *)
From Coq Require Import Lra Lia.
From Verif Require Export WitnessDouble SpecStraight.

Definition round_the_corner : droute := DRoute 5 None None [DStop 0 [] [] None; DStop 3 [] [] None; DStop 4 [] [] None] [].
Definition straight_on : droute := DRoute 5 None None [DStop 0 [] [] None; DStop 7 [] [] None] [].

Lemma int_abs x y : (Z.abs x < 2 ^ 53)%Z -> (Z.abs y < 2 ^ 53)%Z -> (Z.abs (x - y) < 2 ^ 53)%Z -> Rabs (fsub (IZR x) (IZR y)) = IZR (Z.abs (x - y)).
Proof. intros _ _ H. unfold fsub. rewrite <- minus_IZR, rnd_id by (apply double_int, H). symmetry. apply abs_IZR. Qed.
Lemma blocks_3 : d_manhattan [0; 0] [3; 0] = 3.
Proof.
  unfold d_manhattan, fsum. cbn [combine map fold_left]. rewrite !int_abs by reflexivity. cbn [Z.abs Z.sub Z.add Z.opp].
  unfold fadd. rewrite <- !plus_IZR. cbn [Z.add]. rewrite (rnd_id 3) by (apply double_int; reflexivity). rewrite <- !plus_IZR. apply rnd_id, double_int. reflexivity.
Qed.
Lemma blocks_4 : d_manhattan [3; 0] [3; 4] = 4.
Proof.
  unfold d_manhattan, fsum. cbn [combine map fold_left]. rewrite !int_abs by reflexivity. change (Z.abs (3 - 3)) with 0%Z. change (Z.abs (0 - 4)) with 4%Z.
  unfold fadd. rewrite <- !plus_IZR. cbn [Z.add]. rewrite (rnd_id 0) by (apply double_int; reflexivity). rewrite <- !plus_IZR. apply rnd_id, double_int. reflexivity.
Qed.
Lemma blocks_7 : d_manhattan [0; 0] [3; 4] = 7.
Proof.
  unfold d_manhattan, fsum. cbn [combine map fold_left]. rewrite !int_abs by reflexivity. cbn [Z.abs Z.sub Z.add Z.opp].
  unfold fadd. rewrite <- !plus_IZR. cbn [Z.add]. rewrite (rnd_id 3) by (apply double_int; reflexivity). rewrite <- !plus_IZR. apply rnd_id, double_int. reflexivity.
Qed.
Lemma plain_moderate ws : ws <> [] -> (forall w, In w ws -> 0 <= w) ->
  let r := DRoute 5 None None (map (fun w => DStop w [] [] None) ws) [] in
  dm_departure (truly r (length (dr_stops r) - 1)) <= 10000000 -> moderate 10000000 r.
Proof.
  intros H0 Hw r Hb. split.
  - lra.
  - cbn. lra.
  - intros s Hs. cbn in Hs. apply in_map_iff in Hs as (w & <- & Hin). cbn. split; [apply Hw, Hin|]. split; [exact I|]. split; intros t [].
  - intros i j t [].
  - cbn. destruct ws; [contradiction|discriminate].
  - exact Hb.
Qed.
Lemma plain_times now w ws : 0 <= now + w ->
  timetable now (map (fun w => DStop w [] [] None) (w :: ws)) = DTimes (now + w) (now + w) (now + w) :: timetable (now + w) (map (fun w => DStop w [] [] None) ws).
Proof.
  intros H. cbn [map timetable ds_travel ds_request]. change (opens (DStop w [] [] None)) with 0. change (lasts (DStop w [] [] None)) with 0.
  rewrite (Rmax_left (now + w) 0), (Rmax_left (now + w) (now + w)), Rplus_0_r by lra. reflexivity.
Qed.
Lemma corner_moderate : moderate 10000000 round_the_corner.
Proof.
  apply (plain_moderate [0; 3; 4]); [discriminate|intros w [<-|[<-|[<-|[]]]]; lra|].
  unfold truly. cbn [dr_stops dr_earliest]. rewrite !plain_times by lra. cbn. lra.
Qed.
Lemma straight_moderate : moderate 10000000 straight_on.
Proof.
  apply (plain_moderate [0; 7]); [discriminate|intros w [<-|[<-|[]]]; lra|].
  unfold truly. cbn [dr_stops dr_earliest]. rewrite !plain_times by lra. cbn. lra.
Qed.
Lemma corner_left_out : leaves_out 1 (d_manhattan [0; 0] [3; 0]) (d_manhattan [3; 0] [3; 4]) (d_manhattan [0; 0] [3; 4]) round_the_corner straight_on.
Proof.
  rewrite blocks_3, blocks_4, blocks_7. split; [reflexivity|].
  exists [DStop 0 [] [] None], (DStop 3 [] [] None), (DStop 4 [] [] None), []. repeat split; reflexivity.
Qed.
