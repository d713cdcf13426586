(** Proofs about the loaders (C37, C38, C39). *)
From Verif Require Import Loaders SpecLoad SpecSurface SurfaceTheorems.
From Verif Require Import TimeTheorems WitnessLoad.

Lemma unit_pos e : 0 < unit_of e.
Proof. unfold unit_of. lia. Qed.

Lemma py_int_units e m : py_range (py_int e (Z.of_nat m * unit_of e)) = seq 0 m.
Proof. unfold py_range, py_int. rewrite Z.quot_mul by (pose proof (unit_pos e); lia). by rewrite Nat2Z.id. Qed.
Lemma py_int_half_units e n : py_int_half e (2 * Z.of_nat n * unit_of e) = Z.of_nat n.
Proof.
  unfold py_int_half. pose proof (unit_pos e).
  replace (2 * Z.of_nat n * unit_of e) with (Z.of_nat n * (2 * unit_of e)) by lia.
  rewrite Z.div_mul; lia.
Qed.

Section nth.
  Context {S A B : Type}.
  Lemma py_nth_some (l : list A) i a (k : A -> ST S B) s :
    l !! i = Some a -> bind (py_nth l i) k s = k a s.
  Proof. intros E. unfold bind, py_nth. by rewrite E. Qed.
  Lemma py_nth_none (l : list A) i (k : A -> ST S B) s :
    l !! i = None -> bind (py_nth l i) k s = (Raise IndexError, s).
  Proof. intros E. unfold bind, py_nth. by rewrite E. Qed.
End nth.

(** creating a position always succeeds *)
Lemma create_bind {B} c (k : pobj -> ST surface B) s :
  exists s' p, po_coords p = c /\ bind (get_or_create_position c) k s = k p s'.
Proof.
  destruct (create_runs c s) as (s' & p & E & _ & Hc & _). exists s', p. split; [done|].
  unfold bind. by rewrite E.
Qed.

Lemma imap_seq_lookup {A} (f : nat -> A) m i : map f (seq 0 m) !! i = if decide (i < m)%nat then Some (f i) else None.
Proof.
  change (map f (seq 0 m)) with (f <$> seq 0 m). rewrite list_lookup_fmap. case_decide.
  - by rewrite lookup_seq_lt.
  - by rewrite lookup_seq_ge by lia.
Qed.

(** ** Fleet of a Cordeau-Laporte file *)
Lemma cordeau_fleet_runs e i s : exists vs s',
  cordeau_fleet e (dial_a_ride_file (unit_of e) i) s = (Ok vs, s') /\
  vs = map (fun k => Vehicle (pretty k) (Service [pt_x (dr_depot i); pt_y (dr_depot i)] 0 Inf 0) None
              (Lim (dr_capacity i)) (Lim (dr_longest_tour i))) (seq 0 (dr_vehicles i)).
Proof.
  unfold cordeau_fleet, dial_a_ride_file. do 3 (erewrite py_nth_some by reflexivity).
  destruct (create_bind (slice 1 3 (point_line (dr_depot i))) (fun depot_position =>
     let! capacity := py_nth [Z.of_nat (dr_vehicles i) * unit_of e; 2 * Z.of_nat (length (dr_pickups i)) * unit_of e;
        dr_longest_tour i; dr_capacity i; dr_longest_ride i] 3 in
     let! timeout := py_nth [Z.of_nat (dr_vehicles i) * unit_of e; 2 * Z.of_nat (length (dr_pickups i)) * unit_of e;
        dr_longest_tour i; dr_capacity i; dr_longest_ride i] 2 in
     ret (map (fun idx => Vehicle (pretty idx) (plain_service depot_position) None (Lim capacity) (Lim timeout))
       (py_range (py_int e (Z.of_nat (dr_vehicles i) * unit_of e))))) s) as (s' & p & Hp & E).
  cbv zeta. rewrite E. do 2 (erewrite py_nth_some by reflexivity).
  eexists _, _. split; [reflexivity|]. rewrite py_int_units. unfold plain_service. by rewrite Hp.
Qed.

Lemma c37_fleet : forall e i s, exists vs s',
  cordeau_fleet e (dial_a_ride_file (unit_of e) i) s = (Ok vs, s') /\
  length vs = dr_vehicles i /\
  forall k v, vs !! k = Some v ->
    vh_identifier v = pretty k /\
    sv_position (vh_origin v) = [pt_x (dr_depot i); pt_y (dr_depot i)] /\
    sv_position (vh_destination v) = [pt_x (dr_depot i); pt_y (dr_depot i)] /\
    vh_capacity v = Lim (dr_capacity i) /\ vh_timeout v = Lim (dr_longest_tour i).
Proof.
  intros e i s. destruct (cordeau_fleet_runs e i s) as (vs & s' & E & ->).
  eexists _, _. split; [exact E|]. split; [by rewrite map_length, seq_length|].
  intros k v. rewrite imap_seq_lookup. case_decide; [|done]. by intros [= <-].
Qed.

Lemma c37_fleet_missing : forall e d s, (length d < 2)%nat ->
  cordeau_fleet e d s = (Raise IndexError, s).
Proof.
  intros e [|r0 [|r1 d]] s H; cbn in H; try lia; unfold cordeau_fleet.
  - by rewrite py_nth_none.
  - rewrite (py_nth_some _ _ r0) by done. destruct r0 as [|x r0]; [by rewrite py_nth_none|].
    rewrite (py_nth_some _ _ x) by done. by rewrite py_nth_none.
Qed.

(** ** Job of a Cordeau-Laporte file *)

(** one service: succeeds exactly on a full line *)
Lemma cordeau_service_runs {B} row (k : service -> ST surface B) s : (7 <= length row)%nat ->
  exists s', bind (cordeau_service row) k s =
    k (Service (slice 1 3 row) (nth 5 row 0) (Lim (nth 6 row 0)) (nth 3 row 0)) s'.
Proof.
  intros H. destruct row as [|a [|b [|c [|d [|e [|f [|g row]]]]]]]; cbn in H; try lia. clear H.
  set (row' := a :: b :: c :: d :: e :: f :: g :: row).
  unfold cordeau_service.
  destruct (create_runs (slice 1 3 row') s) as (s' & p & E & _ & Hc & _).
  exists s'. unfold bind. rewrite E, <- Hc. reflexivity.
Qed.
Lemma cordeau_service_short {B} row (k : service -> ST surface B) s : ~ (7 <= length row)%nat ->
  exists s', bind (cordeau_service row) k s = (Raise IndexError, s').
Proof.
  intros H. unfold cordeau_service.
  destruct (create_runs (slice 1 3 row) s) as (s' & p & E & _).
  exists s'. unfold bind. rewrite E. unfold py_nth.
  destruct (row !! 5%nat); [|done]. unfold ret at 1. destruct (row !! 6%nat) eqn:E6; [|done].
  exfalso. apply H. apply lookup_lt_Some in E6. lia.
Qed.

Definition line_service (row : list Z) : service :=
  Service (slice 1 3 row) (nth 5 row 0) (Lim (nth 6 row 0)) (nth 3 row 0).

Lemma cordeau_trip_ok d n i p q hd s T :
  full_line d (i + 2) p -> full_line d (i + 2 + n) q -> nth 4 p 0 = - nth 4 q 0 ->
  d !! 0%nat = Some hd -> hd !! 4%nat = Some T ->
  exists s', cordeau_trip d n i s =
    (Ok (Trip (pretty (i + 1)%nat) (line_service p) (line_service q) (nth 4 p 0) 0 (Lim T)), s').
Proof.
  intros [E1 L1] [E2 L2] Hq E0 ET. unfold cordeau_trip. cbv zeta.
  rewrite (py_nth_some _ _ _ _ _ E1).
  match goal with |- context [bind (cordeau_service p) ?k s] =>
    destruct (cordeau_service_runs p k s L1) as (s1 & ->) end.
  rewrite (py_nth_some _ _ _ _ _ E2).
  match goal with |- context [bind (cordeau_service q) ?k s1] =>
    destruct (cordeau_service_runs q k s1 L2) as (s2 & ->) end.
  assert (H1 : p !! 4%nat = Some (nth 4 p 0)).
  { rewrite nth_lookup. destruct (p !! 4%nat) eqn:E; [done|]. apply lookup_ge_None in E. lia. }
  assert (H2 : q !! 4%nat = Some (nth 4 q 0)).
  { rewrite nth_lookup. destruct (q !! 4%nat) eqn:E; [done|]. apply lookup_ge_None in E. lia. }
  rewrite (py_nth_some _ _ _ _ _ H1), (py_nth_some _ _ _ _ _ H2).
  rewrite (proj2 (Z.eqb_eq _ _) Hq). unfold py_assert. unfold bind at 1, ret at 1.
  rewrite (py_nth_some _ _ _ _ _ H1), (py_nth_some _ _ _ _ _ E0), (py_nth_some _ _ _ _ _ ET).
  eexists. reflexivity.
Qed.
Lemma cordeau_trip_mismatch d n i p q s :
  full_line d (i + 2) p -> full_line d (i + 2 + n) q -> nth 4 p 0 <> - nth 4 q 0 ->
  exists s', cordeau_trip d n i s = (Raise AssertionError, s').
Proof.
  intros [E1 L1] [E2 L2] Hq. unfold cordeau_trip. cbv zeta.
  rewrite (py_nth_some _ _ _ _ _ E1).
  match goal with |- context [bind (cordeau_service p) ?k s] =>
    destruct (cordeau_service_runs p k s L1) as (s1 & ->) end.
  rewrite (py_nth_some _ _ _ _ _ E2).
  match goal with |- context [bind (cordeau_service q) ?k s1] =>
    destruct (cordeau_service_runs q k s1 L2) as (s2 & ->) end.
  assert (H1 : p !! 4%nat = Some (nth 4 p 0)).
  { rewrite nth_lookup. destruct (p !! 4%nat) eqn:E; [done|]. apply lookup_ge_None in E. lia. }
  assert (H2 : q !! 4%nat = Some (nth 4 q 0)).
  { rewrite nth_lookup. destruct (q !! 4%nat) eqn:E; [done|]. apply lookup_ge_None in E. lia. }
  rewrite (py_nth_some _ _ _ _ _ H1), (py_nth_some _ _ _ _ _ H2).
  rewrite (proj2 (Z.eqb_neq _ _) Hq). eexists. reflexivity.
Qed.
Lemma cordeau_trip_missing d n i s :
  ~ ((exists p, full_line d (i + 2) p) /\ (exists q, full_line d (i + 2 + n) q)) ->
  exists s', cordeau_trip d n i s = (Raise IndexError, s').
Proof.
  intros H. unfold cordeau_trip. cbv zeta.
  destruct (d !! (i + 2)%nat) as [p|] eqn:E1; [|rewrite py_nth_none by done; eauto].
  rewrite (py_nth_some _ _ _ _ _ E1).
  destruct (decide (7 <= length p)%nat) as [L1|L1].
  2: { match goal with |- context [bind (cordeau_service p) ?k s] =>
    destruct (cordeau_service_short p k s L1) as (s1 & ->) end. eauto. }
  match goal with |- context [bind (cordeau_service p) ?k s] =>
    destruct (cordeau_service_runs p k s L1) as (s1 & ->) end.
  destruct (d !! (i + 2 + n)%nat) as [q|] eqn:E2; [|rewrite py_nth_none by done; eauto].
  rewrite (py_nth_some _ _ _ _ _ E2).
  destruct (decide (7 <= length q)%nat) as [L2|L2].
  2: { match goal with |- context [bind (cordeau_service q) ?k s1] =>
    destruct (cordeau_service_short q k s1 L2) as (s2 & ->) end. eauto. }
  destruct H. split; eexists; split; done.
Qed.

(** the trips before the first defective one are built *)
Lemma mapM_prefix {S A B} (f : A -> ST S B) l1 l2 s0 (P : A -> Prop) :
  Forall P l1 -> (forall a s, P a -> exists b s', f a s = (Ok b, s')) ->
  exists bs s1, length bs = length l1 /\
    mapM f (l1 ++ l2) s0 = (let! ys := mapM f l2 in ret (bs ++ ys)) s1.
Proof.
  intros H Hf. revert s0. induction H as [|a l1 Ha H IH]; intros s0.
  - exists [], s0. split; [done|]. cbn [app]. unfold bind. by destruct (mapM f l2 s0) as [[?|?] ?].
  - destruct (Hf a s0 Ha) as (b & s1 & E). destruct (IH s1) as (bs & s2 & Hl & E2).
    exists (b :: bs), s2. split; [cbn; lia|]. cbn [app mapM]. unfold bind at 1. rewrite E.
    unfold bind at 1. rewrite E2. unfold bind. by destruct (mapM f l2 s2) as [[?|?] ?].
Qed.

Lemma announces_half e hd n x : announces (unit_of e) hd n -> hd !! 1%nat = Some x -> py_int_half e x = Z.of_nat n.
Proof.
  intros (x' & E & H) E'. rewrite E in E'. injection E' as ->. unfold py_int_half.
  pose proof (unit_pos e). symmetry. apply (Z.div_unique_pos _ _ _ (x - Z.of_nat n * (2 * unit_of e))); lia.
Qed.

Lemma cordeau_job_unfold e d hd n s : d !! 0%nat = Some hd -> announces (unit_of e) hd n ->
  cordeau_job e d s = mapM (cordeau_trip d n) (seq 0 n) s.
Proof.
  intros E Ha. unfold cordeau_job. rewrite (py_nth_some _ _ _ _ _ E).
  pose proof Ha as (x & Ex & Hx). rewrite (py_nth_some _ _ _ _ _ Ex). cbv zeta.
  rewrite (announces_half e hd n x Ha Ex). unfold py_range. by rewrite Nat2Z.id.
Qed.

Lemma c37_mismatch : forall e d hd n i p q s,
  d !! 0%nat = Some hd -> (5 <= length hd)%nat -> announces (unit_of e) hd n -> (i < n)%nat ->
  (forall j, (j < i)%nat -> sound_trip d n j) ->
  full_line d (i + 2) p -> full_line d (i + 2 + n) q -> nth 4 p 0 <> - nth 4 q 0 ->
  exists s', cordeau_job e d s = (Raise AssertionError, s').
Proof.
  intros e d hd n i p q s E0 L0 Ha Hi Hj Hp Hq Hne.
  rewrite (cordeau_job_unfold _ _ _ _ _ E0 Ha).
  replace (seq 0 n) with (seq 0 i ++ i :: seq (S i) (n - S i)).
  2: { change (i :: seq (S i) (n - S i)) with (seq (0 + i) (S (n - S i))). rewrite <- seq_app. f_equal. lia. }
  destruct (lookup_lt_is_Some_2 hd 4) as [T ET]; [lia|].
  destruct (mapM_prefix (cordeau_trip d n) (seq 0 i) (i :: seq (S i) (n - S i)) s (fun j => (j < i)%nat))
    as (bs & s1 & _ & ->).
  - apply Forall_forall. intros j ?%elem_of_seq. lia.
  - intros j s' Hlt. destruct (Hj j Hlt) as (p' & q' & Hp' & Hq' & Hl).
    destruct (cordeau_trip_ok d n j p' q' hd s' T Hp' Hq' Hl E0 ET) as (s2 & ->). eauto.
  - unfold bind at 1. cbn [mapM]. unfold bind at 1.
    destruct (cordeau_trip_mismatch d n i p q s1 Hp Hq Hne) as (s2 & ->). eauto.
Qed.

Lemma c37_missing : forall e d hd n i s,
  d !! 0%nat = Some hd -> (5 <= length hd)%nat -> announces (unit_of e) hd n -> (i < n)%nat ->
  (forall j, (j < i)%nat -> sound_trip d n j) ->
  ~ ((exists p, full_line d (i + 2) p) /\ (exists q, full_line d (i + 2 + n) q)) ->
  exists s', cordeau_job e d s = (Raise IndexError, s').
Proof.
  intros e d hd n i s E0 L0 Ha Hi Hj Hm.
  rewrite (cordeau_job_unfold _ _ _ _ _ E0 Ha).
  replace (seq 0 n) with (seq 0 i ++ i :: seq (S i) (n - S i)).
  2: { change (i :: seq (S i) (n - S i)) with (seq (0 + i) (S (n - S i))). rewrite <- seq_app. f_equal. lia. }
  destruct (lookup_lt_is_Some_2 hd 4) as [T ET]; [lia|].
  destruct (mapM_prefix (cordeau_trip d n) (seq 0 i) (i :: seq (S i) (n - S i)) s (fun j => (j < i)%nat))
    as (bs & s1 & _ & ->).
  - apply Forall_forall. intros j ?%elem_of_seq. lia.
  - intros j s' Hlt. destruct (Hj j Hlt) as (p' & q' & Hp' & Hq' & Hl).
    destruct (cordeau_trip_ok d n j p' q' hd s' T Hp' Hq' Hl E0 ET) as (s2 & ->). eauto.
  - unfold bind at 1. cbn [mapM]. unfold bind at 1.
    destruct (cordeau_trip_missing d n i s1 Hm) as (s2 & ->). eauto.
Qed.

(** and if every trip is sound, they are all built from their lines *)
Lemma mapM_all {S A B} (f : A -> ST S B) (R : A -> B -> Prop) l s :
  (forall a s, a ∈ l -> exists b s', f a s = (Ok b, s') /\ R a b) ->
  exists bs s', mapM f l s = (Ok bs, s') /\ Forall2 R l bs.
Proof.
  revert s. induction l as [|a l IH]; intros s Hf.
  - by exists [], s.
  - destruct (Hf a s ltac:(left)) as (b & s1 & E & Hb).
    destruct (IH s1) as (bs & s2 & E2 & Hbs). { intros a' s' Ha. apply Hf. by right. }
    exists (b :: bs), s2. split; [|by constructor]. cbn. unfold bind. by rewrite E, E2.
Qed.

Lemma c37_table : forall e d hd n T s,
  d !! 0%nat = Some hd -> hd !! 4%nat = Some T -> announces (unit_of e) hd n ->
  (forall i, (i < n)%nat -> sound_trip d n i) ->
  exists ts s', cordeau_job e d s = (Ok ts, s') /\ length ts = n /\
  forall i t p q, ts !! i = Some t -> d !! (i + 2)%nat = Some p -> d !! (i + 2 + n)%nat = Some q ->
    t = Trip (pretty (i + 1)%nat)
          (Service (firstn 2 (skipn 1 p)) (nth 5 p 0) (Lim (nth 6 p 0)) (nth 3 p 0))
          (Service (firstn 2 (skipn 1 q)) (nth 5 q 0) (Lim (nth 6 q 0)) (nth 3 q 0))
          (nth 4 p 0) 0 (Lim T).
Proof.
  intros e d hd n T s E0 ET Ha Hs. rewrite (cordeau_job_unfold _ _ _ _ _ E0 Ha).
  destruct (mapM_all (cordeau_trip d n) (fun i t => forall p q, d !! (i + 2)%nat = Some p -> d !! (i + 2 + n)%nat = Some q ->
    t = Trip (pretty (i + 1)%nat) (line_service p) (line_service q) (nth 4 p 0) 0 (Lim T)) (seq 0 n) s)
    as (ts & s' & E & F).
  - intros i s1 Hi%elem_of_seq. destruct (Hs i ltac:(lia)) as (p & q & Hp & Hq & Hl).
    destruct (cordeau_trip_ok d n i p q hd s1 T Hp Hq Hl E0 ET) as (s2 & ->).
    eexists _, _. split; [done|]. destruct Hp as [Ep _], Hq as [Eq _]. intros p' q' Ep' Eq'. congruence.
  - exists ts, s'. split; [done|]. pose proof (Forall2_length _ _ _ F) as HL. rewrite seq_length in HL.
    split; [done|]. intros i t p q Et Ep Eq.
    pose proof (lookup_lt_Some _ _ _ Et) as Hi.
    pose proof (Forall2_lookup_lr _ _ _ i i t F) as G. rewrite lookup_seq_lt in G by lia.
    specialize (G eq_refl Et). cbn beta in G. rewrite (G p q Ep Eq). unfold line_service, slice.
    destruct p as [|? p], q as [|? q]; reflexivity.
Qed.

Lemma c37_job : forall e i s, paired i -> exists ts s',
  cordeau_job e (dial_a_ride_file (unit_of e) i) s = (Ok ts, s') /\
  length ts = length (dr_pickups i) /\
  forall k t p q, ts !! k = Some t -> dr_pickups i !! k = Some p -> dr_deliveries i !! k = Some q ->
    tr_identifier t = pretty (k + 1)%nat /\ service_at p (tr_origin t) /\ service_at q (tr_destination t) /\
    tr_capacity t = pt_load p /\ tr_timeout t = Lim (dr_longest_ride i).
Proof.
  intros e i s Hp. set (d := dial_a_ride_file (unit_of e) i). set (n := length (dr_pickups i)).
  assert (Hn : length (dr_deliveries i) = n) by (symmetry; apply (Forall2_length _ _ _ Hp)).
  assert (HP : forall k p, dr_pickups i !! k = Some p -> d !! (k + 2)%nat = Some (point_line p)).
  { intros k p E. unfold d, dial_a_ride_file. replace (k + 2)%nat with (S (S k)) by lia.
    change ((map point_line (dr_pickups i) ++ map point_line (dr_deliveries i)) !! k = Some (point_line p)).
    pose proof (lookup_lt_Some _ _ _ E). change (map point_line) with (fmap (M := list) point_line).
    rewrite lookup_app_l by (rewrite fmap_length; done). by rewrite list_lookup_fmap, E. }
  assert (HD : forall k p, dr_deliveries i !! k = Some p -> d !! (k + 2 + n)%nat = Some (point_line p)).
  { intros k p E. unfold d, dial_a_ride_file. replace (k + 2 + n)%nat with (S (S (n + k))) by lia.
    change ((map point_line (dr_pickups i) ++ map point_line (dr_deliveries i)) !! (n + k)%nat = Some (point_line p)).
    change (map point_line) with (fmap (M := list) point_line).
    rewrite lookup_app_r by (rewrite fmap_length; fold n; lia). rewrite fmap_length. fold n.
    replace (n + k - n)%nat with k by lia. by rewrite list_lookup_fmap, E. }
  destruct (c37_table e d [Z.of_nat (dr_vehicles i) * unit_of e; 2 * Z.of_nat (length (dr_pickups i)) * unit_of e;
   dr_longest_tour i; dr_capacity i; dr_longest_ride i] n (dr_longest_ride i) s) as (ts & s' & E & HL & Ht).
  - reflexivity.
  - reflexivity.
  - eexists. split; [reflexivity|]. fold n. pose proof (unit_pos e). lia.
  - intros k Hk. destruct (lookup_lt_is_Some_2 (dr_pickups i) k) as [p Ep]; [done|].
    destruct (lookup_lt_is_Some_2 (dr_deliveries i) k) as [q Eq]; [lia|].
    exists (point_line p), (point_line q). split; [split; [by apply HP|cbn; lia]|].
    split; [split; [by apply HD|cbn; lia]|].
    pose proof (Forall2_lookup_lr _ _ _ k p q Hp Ep Eq) as Hl. cbn in *. lia.
  - exists ts, s'. split; [done|]. split; [done|]. intros k t p q Et Ep Eq.
    rewrite (Ht k t _ _ Et (HP _ _ Ep) (HD _ _ Eq)). done.
Qed.

(** names are all different *)
Lemma c37_names : forall i j : nat, pretty i = pretty j -> i = j.
Proof. intros i j. apply (inj pretty). Qed.

(** ** C38 *)
Lemma c38_ignored : forall e hd row row' rest s,
  slice 1 3 row = slice 1 3 row' ->
  cordeau_fleet e (hd :: row :: rest) s = cordeau_fleet e (hd :: row' :: rest) s.
Proof.
  intros e hd row row' rest s E. unfold cordeau_fleet.
  erewrite !(py_nth_some (hd :: _)) by reflexivity.
  destruct (hd !! 0%nat) as [x|] eqn:Ex; [|by rewrite !py_nth_none].
  rewrite !(py_nth_some _ _ _ _ _ Ex). cbv zeta.
  erewrite !(py_nth_some (hd :: _)) by reflexivity. by rewrite E.
Qed.

Lemma c38_open : forall e d s vs s' v,
  cordeau_fleet e d s = (Ok vs, s') -> v ∈ vs ->
  sv_earliest (vh_origin v) = 0 /\ sv_latest (vh_destination v) = Inf.
Proof.
  intros e d s vs s' v E Hv. unfold cordeau_fleet in E.
  destruct (d !! 0%nat) as [hd|] eqn:E0; [rewrite (py_nth_some _ _ _ _ _ E0) in E|by rewrite py_nth_none in E].
  destruct (hd !! 0%nat) as [x|] eqn:Ex; [rewrite (py_nth_some _ _ _ _ _ Ex) in E|by rewrite py_nth_none in E].
  cbv zeta in E.
  destruct (d !! 1%nat) as [row|] eqn:E1; [rewrite (py_nth_some _ _ _ _ _ E1) in E|by rewrite py_nth_none in E].
  destruct (create_runs (slice 1 3 row) s) as (s1 & p & Ec & _).
  unfold bind at 1 in E. rewrite Ec in E.
  destruct (hd !! 3%nat) as [c|] eqn:E3; [rewrite (py_nth_some _ _ _ _ _ E3) in E|by rewrite py_nth_none in E].
  destruct (hd !! 2%nat) as [t|] eqn:E2; [rewrite (py_nth_some _ _ _ _ _ E2) in E|by rewrite py_nth_none in E].
  injection E as <- <-. apply elem_of_list_fmap in Hv as (k & -> & _). done.
Qed.

(** A route of a loaded vehicle reported feasible although it leaves the depot
    before it opens and returns after it closes. *)
Lemma c38_refuted : exists e i vs ts s1 s2, paired i /\
  cordeau_fleet e (dial_a_ride_file (unit_of e) i) cordeau_surface = (Ok vs, s1) /\
  cordeau_job e (dial_a_ride_file (unit_of e) i) s1 = (Ok ts, s2) /\
  exists (W : World) h r k ids xs T0 T1, w_eb = e /\ w_metric = sf_metric cordeau_surface /\ holds vs ts /\
    sane /\ well_formed h r k ids xs /\ unasked h r ids /\ (k < length vs)%nat /\
    result (route_feasible r) h = Ok true /\
    head (timetable k xs) = Some T0 /\ tm_departure T0 + eb < pt_open (dr_depot i) /\
    last (timetable k xs) = Some T1 /\ pt_close (dr_depot i) + eb < tm_departure T1.
Proof.
  exists 1%positive, depot_case, depot_vehicles, depot_trips. eexists _, _.
  split; [apply Forall2_cons; split; [reflexivity|constructor]|].
  split; [vm_compute; reflexivity|]. split; [vm_compute; reflexivity|].
  exists depot_world, depot_heap, 2%nat, 0%nat, depot_stops, depot_visits. eexists _, _.
  split; [done|]. split; [done|]. split; [apply holds_world_of|].
  split; [split; intros [|[|t]]; vm_compute; try split; congruence|].
  split; [apply well_formedb_sound; vm_compute; reflexivity|]. split; [apply unaskedb_sound; vm_compute; reflexivity|].
  split; [vm_compute; lia|]. split; [vm_compute; reflexivity|].
  split; [vm_compute; reflexivity|]. split; [vm_compute; reflexivity|].
  split; [vm_compute; reflexivity|]. vm_compute; reflexivity.
Qed.

(** ** C39 *)
Lemma c39_fleet : forall e i s, exists vs s',
  hashcode_fleet e (hash_code_file (unit_of e) i) s = (Ok vs, s') /\
  length vs = hc_vehicles i /\
  forall k v, vs !! k = Some v ->
    vh_identifier v = pretty k /\ sv_position (vh_origin v) = [0; 0] /\
    sv_position (vh_destination v) = [0; 0] /\ sv_earliest (vh_origin v) = 0 /\
    sv_latest (vh_destination v) = Lim (hc_steps i) /\
    vh_capacity v = Lim (unit_of e) /\ vh_timeout v = Inf.
Proof.
  intros e i s. unfold hashcode_fleet, hash_code_file.
  do 3 (erewrite py_nth_some by reflexivity). cbv zeta.
  destruct (create_runs [0; 0] s) as (s' & p & E & _ & Hc & _). unfold bind at 1. rewrite E.
  eexists _, _. split; [reflexivity|]. rewrite py_int_units. split; [by rewrite map_length, seq_length|].
  intros k v. rewrite imap_seq_lookup. case_decide; [|done]. intros [= <-]. cbn. rewrite Hc. done.
Qed.

Lemma hashcode_trips e bonus rs : forall (f : nat -> nat) s, exists ts s',
  mapM (fun '(i, row) => hashcode_trip e (pretty i) bonus row)
    (imap (fun i r => (f i, r)) (map (fun r => [rd_from_x r; rd_from_y r; rd_to_x r; rd_to_y r; rd_earliest r; rd_latest r]) rs)) s
    = (Ok ts, s') /\
  ts = imap (fun i r => Trip (pretty (f i)) (Service [rd_from_x r; rd_from_y r] (rd_earliest r) (Lim (rd_latest r)) 0)
                (Service [rd_to_x r; rd_to_y r] 0 Inf 0) (unit_of e) bonus Inf) rs.
Proof.
  induction rs as [|r rs IH]; intros f s.
  - by exists [], s.
  - cbn [map imap mapM hashcode_trip].
    destruct (create_runs [rd_from_x r; rd_from_y r] s) as (s1 & p & E1 & _ & H1 & _).
    destruct (create_runs [rd_to_x r; rd_to_y r] s1) as (s2 & q & E2 & _ & H2 & _).
    destruct (IH (f ∘ S) s2) as (ts & s3 & E3 & ->).
    eexists _, s3. unfold bind at 1. unfold bind at 1. rewrite E1. unfold bind at 1. rewrite E2.
    unfold ret at 1. unfold bind at 1. unfold compose in *. rewrite E3. split; [reflexivity|].
    f_equal. unfold plain_service. by rewrite H1, H2.
Qed.

Lemma c39_job : forall e i s, exists ts s',
  hashcode_job e (hash_code_file (unit_of e) i) s = (Ok ts, s') /\
  length ts = length (hc_rides i) /\
  forall k t r, ts !! k = Some t -> hc_rides i !! k = Some r ->
    tr_identifier t = pretty k /\
    sv_position (tr_origin t) = [rd_from_x r; rd_from_y r] /\
    sv_position (tr_destination t) = [rd_to_x r; rd_to_y r] /\
    sv_earliest (tr_origin t) = rd_earliest r /\ sv_latest (tr_origin t) = Lim (rd_latest r) /\
    sv_duration (tr_origin t) = 0 /\ sv_duration (tr_destination t) = 0 /\
    sv_earliest (tr_destination t) = 0 /\ sv_latest (tr_destination t) = Inf /\
    tr_capacity t = unit_of e /\ tr_bonus t = hc_bonus i /\ tr_timeout t = Inf.
Proof.
  intros e i s. unfold hashcode_job, hash_code_file. do 2 (erewrite py_nth_some by reflexivity). cbn [drop].
  destruct (hashcode_trips e (hc_bonus i) (hc_rides i) (fun k => k) s) as (ts & s' & E & ->).
  exists (imap (fun k r => Trip (pretty k) (Service [rd_from_x r; rd_from_y r] (rd_earliest r) (Lim (rd_latest r)) 0)
                (Service [rd_to_x r; rd_to_y r] 0 Inf 0) (unit_of e) (hc_bonus i) Inf) (hc_rides i)), s'.
  split; [exact E|]. split; [by rewrite imap_length|].
  intros k t r Et Er. rewrite list_lookup_imap, Er in Et. injection Et as <-. cbn. done.
Qed.

Lemma c39_malformed : forall e hd bonus row rest s, hd !! 4%nat = Some bonus -> length row <> 6%nat ->
  hashcode_job e (hd :: row :: rest) s = (Raise TypeError, s).
Proof.
  intros e hd bonus row rest s E H. unfold hashcode_job. erewrite py_nth_some by reflexivity.
  rewrite (py_nth_some _ _ _ _ _ E). cbn [drop imap mapM].
  destruct row as [|a [|b [|c [|d [|f [|g [|h row]]]]]]]; try reflexivity. done.
Qed.

(** what feasibility does guarantee for routes of a loaded instance *)
Lemma c39_guarantees `{W : World} : forall i vs ts s1 s2 h r k ids xs,
  hashcode_fleet w_eb (hash_code_file (unit_of w_eb) i) hashcode_surface = (Ok vs, s1) ->
  hashcode_job w_eb (hash_code_file (unit_of w_eb) i) s1 = (Ok ts, s2) ->
  holds vs ts -> sane ->
  well_formed h r k ids xs -> ids <> [] -> unasked h r ids -> (k < length vs)%nat ->
  result (route_feasible r) h = Ok true ->
  (forall T, last (timetable k xs) = Some T -> tm_departure T <= hc_steps i + eb) /\
  (forall t rd a b x T, hc_rides i !! t = Some rd -> ride xs t a b -> xs !! a = Some x ->
     timetable k xs !! a = Some T -> rd_earliest rd <= tm_start T + eb /\ tm_start T <= rd_latest rd + eb).
Proof.
  intros i vs ts s1 s2 h r k ids xs EF EJ [HV HT] [SD SC] R Hne U Hk ER.
  destruct (c39_fleet w_eb i hashcode_surface) as (vs' & s1' & EF' & Hlen & Hvs).
  rewrite EF in EF'. injection EF' as <- <-.
  destruct (c39_job w_eb i s1) as (ts' & s2' & EJ' & Hlen' & Hts).
  rewrite EJ in EJ'. injection EJ' as <- <-.
  destruct (c05_feasible h r k ids xs SD SC R Hne U) as (b & h' & E & Hb & _).
  unfold result in ER. rewrite E in ER. cbn in ER. injection ER as ->.
  apply proj1 in Hb. specialize (Hb eq_refl). split.
  - intros T HT'. pose proof (ad_return _ _ Hb T HT') as G.
    destruct (lookup_lt_is_Some_2 vs k Hk) as [v Ev].
    unfold v_destination_latest in G. rewrite (HV k v Ev) in G.
    destruct (Hvs k v Ev) as (_ & _ & _ & _ & G1 & _). rewrite G1 in G. exact G.
  - intros t rd a b' x T Erd Hr Ex ET.
    destruct Hr as (x' & y & Ex' & Ey & Hx & Hy). rewrite Ex in Ex'. injection Ex' as <-.
    assert (Hlt : (b' < length (timetable k xs))%nat).
    { unfold timetable. assert (G : forall l ys, length (schedule l ys) = length ys).
      { intros l ys. revert l. induction ys as [|z ys IH]; intros l; cbn; [done|]. by rewrite IH. }
      rewrite G. by eapply lookup_lt_Some. }
    destruct (lookup_lt_is_Some_2 _ _ Hlt) as [Tj ETj].
    destruct (ad_rides _ _ Hb t a b' x y T Tj) as ((Hon & _) & _); try done.
    { by exists x, y. }
    destruct (Hon t Hx) as [H1 H2].
    destruct (lookup_lt_is_Some_2 ts t) as [tt Ett].
    { rewrite Hlen'. by eapply lookup_lt_Some. }
    rewrite (HT t tt Ett) in H1, H2.
    destruct (Hts t tt rd Ett Erd) as (_ & Hpo & Hpd & H3 & H4 & H5 & H6 & H7 & H8 & H9 & H10 & H11).
    unfold origin_earliest in H1. unfold origin_latest in H2. rewrite H11, H3 in H1. rewrite H8, H4 in H2.
    cbn in H1, H2. done.
Qed.

(** A route reported feasible that delivers the ride after its latest finish. *)
Lemma c39_refuted : exists e i vs ts s1 s2,
  hashcode_fleet e (hash_code_file (unit_of e) i) hashcode_surface = (Ok vs, s1) /\
  hashcode_job e (hash_code_file (unit_of e) i) s1 = (Ok ts, s2) /\
  exists (W : World) h r k ids xs t rd a b T, w_eb = e /\ w_metric = sf_metric hashcode_surface /\ holds vs ts /\
    sane /\ well_formed h r k ids xs /\ unasked h r ids /\ (k < length vs)%nat /\
    result (route_feasible r) h = Ok true /\
    hc_rides i !! t = Some rd /\ ride xs t a b /\
    timetable k xs !! b = Some T /\ rd_latest rd + eb < tm_start T.
Proof.
  exists 1%positive, ride_case, ride_vehicles, ride_trips. eexists _, _.
  split; [vm_compute; reflexivity|]. split; [vm_compute; reflexivity|].
  exists ride_world, ride_heap, 2%nat, 0%nat, ride_stops, ride_visits, 0%nat. eexists _, 1%nat, 2%nat, _.
  split; [done|]. split; [done|]. split; [apply holds_world_of|].
  split; [split; intros [|[|t]]; vm_compute; try split; congruence|].
  split; [apply well_formedb_sound; vm_compute; reflexivity|]. split; [apply unaskedb_sound; vm_compute; reflexivity|].
  split; [vm_compute; lia|]. split; [vm_compute; reflexivity|].
  split; [vm_compute; reflexivity|]. split.
  { eexists _, _. split; [vm_compute; reflexivity|]. split; [vm_compute; reflexivity|].
    split; apply (bool_decide_unpack _); vm_compute; reflexivity. }
  split; [vm_compute; reflexivity|]. vm_compute; reflexivity.
Qed.
