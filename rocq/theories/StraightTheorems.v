(** Straight-line distances in double precision, and detours under both metrics. *)
From Coq Require Import Reals List Lia Lra Psatz.
From Flocq.Core Require Import Core.
From Flocq.Prop Require Import Relative.
From Verif Require Import DoubleTheorems SpecStraight.

Local Notation u := unit_roundoff.
Local Notation eta := (bpow radix2 (-1075)).
Definition squares (l : list (R * R)) : R := fold_right Rplus 0 (map (fun '(x, y) => (x - y) ^ 2) l).

Lemma straight_combine a b : straight a b = sqrt (squares (combine a b)).
Proof.
  unfold straight, squares. f_equal. revert b. induction a as [|x a IH]; intros [|y b]; try reflexivity.
  cbn [length Nat.min seq map combine fold_right nth]. f_equal. rewrite <- IH, <- seq_shift, map_map. reflexivity.
Qed.
Lemma squares_pos l : 0 <= squares l.
Proof. induction l as [|[x y] l IH]; [cbn; lra|]. unfold squares in *. cbn [map fold_right]. pose proof (pow2_ge_0 (x - y)). lra. Qed.

(** ** One rounding *)
Lemma rnd_near x : 0 <= x -> x * (1 - u) - eta <= rnd x <= x * (1 + u) + eta.
Proof.
  intros H. destruct (@error_N_FLT radix2 (-1074) 53 eq_refl (fun z => negb (Z.even z)) x) as (e & f & He & Hf & _ & E).
  change (rnd x = x * (1 + e) + f) in E. rewrite E.
  assert (He' : Rabs e <= u). { apply Rle_trans with (1 := He). unfold u. cbn. lra. }
  assert (Hf' : Rabs f <= eta). { apply Rle_trans with (1 := Hf). change (-1074)%Z with (1 + -1075)%Z. rewrite bpow_plus. change (bpow radix2 1) with 2. lra. }
  apply Rabs_le_inv in He', Hf'. assert (x * - u <= x * e <= x * u) by (split; apply Rmult_le_compat_l; lra). lra.
Qed.
Lemma eta_pos : 0 < eta.
Proof. apply bpow_gt_0. Qed.
Lemma term_near x y : double x -> double y ->
  (x - y) ^ 2 * (1 - u) ^ 3 - eta <= rnd (fsub x y * fsub x y) <= ((x - y) ^ 2 + eta) * (1 + u) ^ 3.
Proof.
  intros Hx Hy. pose proof u_bounds as Hu. pose proof eta_pos as He. pose proof (sub_rel x y Hx Hy) as Hs.
  pose proof (Rabs_pos (x - y)) as Ha. pose proof (rnd_near _ (square_pos (fsub x y))) as Hr.
  assert (Hq : Rabs (fsub x y) * Rabs (fsub x y) = fsub x y * fsub x y).
  { rewrite <- Rabs_mult. apply Rabs_pos_eq, square_pos. }
  assert (Hq' : Rabs (x - y) * Rabs (x - y) = (x - y) ^ 2). { rewrite <- Rabs_mult, Rabs_pos_eq; [ring|apply square_pos]. }
  rewrite <- Hq in *. rewrite <- Hq'. set (w := Rabs (fsub x y)) in *. set (v := Rabs (x - y)) in *.
  assert (L : (v * (1 - u)) * (v * (1 - u)) <= w * w) by (apply Rmult_le_compat; try (apply Rmult_le_pos); lra).
  assert (U : w * w <= (v * (1 + u)) * (v * (1 + u))).
  { assert (0 <= v * (1 - u)) by (apply Rmult_le_pos; lra). apply Rmult_le_compat; lra. }
  split.
  - apply Rle_trans with (w * w * (1 - u) - eta); [|apply Hr].
    replace (v * v * (1 - u) ^ 3) with (v * (1 - u) * (v * (1 - u)) * (1 - u)) by ring.
    apply Rplus_le_compat_r, Rmult_le_compat_r; lra.
  - apply Rle_trans with (w * w * (1 + u) + eta); [apply Hr|].
    replace ((v * v + eta) * (1 + u) ^ 3) with (v * (1 + u) * (v * (1 + u)) * (1 + u) + eta * (1 + u) ^ 3) by ring.
    apply Rplus_le_compat; [apply Rmult_le_compat_r; lra|].
    rewrite <- (Rmult_1_r eta) at 1. apply Rmult_le_compat_l; [lra|]. apply pow_R1_Rle. lra.
Qed.

(** ** Sum of the squares *)
Lemma pow_down n : 0 < (1 - u) ^ n <= 1.
Proof.
  pose proof u_bounds as Hu. split; [apply pow_lt; lra|]. apply Rle_trans with (1 ^ n); [apply pow_incr; lra|rewrite pow1; lra].
Qed.
Lemma pow_up n : 1 <= (1 + u) ^ n.
Proof. pose proof u_bounds as Hu. apply pow_R1_Rle. lra. Qed.
Lemma pow_down_le n k : (k <= n)%nat -> (1 - u) ^ n <= (1 - u) ^ k.
Proof.
  intros H. replace n with (k + (n - k))%nat by lia. rewrite pow_add. rewrite <- (Rmult_1_r ((1 - u) ^ k)) at 2.
  pose proof (pow_down k). pose proof (pow_down (n - k)). apply Rmult_le_compat_l; lra.
Qed.
Lemma pow_up_le n k : (k <= n)%nat -> (1 + u) ^ k <= (1 + u) ^ n.
Proof. intros H. pose proof u_bounds as Hu. apply Rle_pow; [lra|exact H]. Qed.
Definition terms (l : list (R * R)) : list R := map (fun '(x, y) => rnd (fsub x y * fsub x y)) l.
Lemma sum_near l x q j n : double x -> 0 <= x -> 0 <= q -> (3 <= n)%nat ->
  q * (1 - u) ^ n - INR j * eta <= x <= (q + INR j * eta) * (1 + u) ^ n ->
  (forall p, In p l -> double (fst p) /\ double (snd p)) ->
  (q + squares l) * (1 - u) ^ (n + length l) - INR (j + length l) * eta <= fold_left fadd (terms l) x <=
  (q + squares l + INR (j + length l) * eta) * (1 + u) ^ (n + length l).
Proof.
  revert x q j n. induction l as [|[y z] l IH]; intros x q j n Hx H0 Hq Hn Hxx Hl.
  { unfold squares. cbn. rewrite Rplus_0_r, !Nat.add_0_r. exact Hxx. }
  pose proof u_bounds as Hu. pose proof eta_pos as He. destruct (Hl (y, z) (or_introl eq_refl)) as [Hy Hz]. cbn in Hy, Hz.
  unfold squares, terms. cbn [map fold_right fold_left length]. fold (squares l). fold (terms l). rewrite <- Rplus_assoc.
  replace (n + S (length l))%nat with (S n + length l)%nat by lia. replace (j + S (length l))%nat with (S j + length l)%nat by lia.
  pose proof (term_near y z Hy Hz) as Ht. pose proof (pow2_ge_0 (y - z)) as Hs. set (w := rnd (fsub y z * fsub y z)) in *. set (v := (y - z) ^ 2) in *.
  assert (W0 : 0 <= w) by apply rnd_pos, square_pos. assert (Hw : double w) by apply rnd_double.
  pose proof (pow_down_le n 3 Hn) as P1. pose proof (pow_up_le n 3 Hn) as P2. pose proof (pow_down n) as P3. pose proof (pow_up n) as P4.
  assert (S1 : v * (1 - u) ^ n - eta <= w). { apply Rle_trans with (v * (1 - u) ^ 3 - eta); [|apply Ht]. apply Rplus_le_compat_r, Rmult_le_compat_l; lra. }
  assert (S2 : w <= (v + eta) * (1 + u) ^ n). { apply Rle_trans with ((v + eta) * (1 + u) ^ 3); [apply Ht|]. apply Rmult_le_compat_l; lra. }
  assert (Hadd := add_rel x w Hx Hw ltac:(lra)). pose proof (pos_INR j) as Hj.
  apply IH; [apply rnd_double|apply rnd_pos; lra|lra|lia| |intros p Hp; apply Hl; right; exact Hp].
  rewrite S_INR. cbn [pow]. split.
  - apply Rle_trans with ((x + w) * (1 - u)); [|apply Hadd].
    apply Rle_trans with (((q * (1 - u) ^ n - INR j * eta) + (v * (1 - u) ^ n - eta)) * (1 - u)); [|apply Rmult_le_compat_r; lra].
    assert (0 <= INR j * eta) by (apply Rmult_le_pos; lra).
    assert ((INR j * eta + eta) * (1 - u) <= (INR j * eta + eta) * 1) by (apply Rmult_le_compat_l; lra). lra.
  - apply Rle_trans with ((x + w) * (1 + u)); [apply Hadd|].
    apply Rle_trans with (((q + INR j * eta) * (1 + u) ^ n + (v + eta) * (1 + u) ^ n) * (1 + u)); [apply Rmult_le_compat_r; lra|].
    right. ring.
Qed.
Lemma fsum_near l : (forall p, In p l -> double (fst p) /\ double (snd p)) ->
  squares l * (1 - u) ^ (length l + 2) - INR (length l) * eta <= fsum (terms l) <=
  (squares l + INR (length l) * eta) * (1 + u) ^ (length l + 2).
Proof.
  intros Hl. unfold fsum. destruct l as [|[y z] l].
  { unfold squares, terms. cbn. lra. }
  destruct (Hl (y, z) (or_introl eq_refl)) as [Hy Hz]. cbn in Hy, Hz.
  replace (length ((y, z) :: l) + 2)%nat with (3 + length l)%nat by (cbn; lia). cbn [length].
  change (INR (S (length l))) with (INR (1 + length l)).
  unfold squares, terms. cbn [map fold_left fold_right]. fold (squares l). fold (terms l).
  apply sum_near; [apply rnd_double| |apply pow2_ge_0|lia| |intros p Hp; apply Hl; right; exact Hp].
  - apply rnd_pos. rewrite Rplus_0_l. apply rnd_pos, square_pos.
  - unfold fadd. rewrite Rplus_0_l, rnd_id by apply rnd_double. change (INR 1) with 1. rewrite Rmult_1_l.
    split; apply term_near; assumption.
Qed.

(** ** The root *)
Lemma sqrt_below x y : 0 <= y -> x <= y * y -> sqrt x <= y.
Proof. intros Hy H. rewrite <- (sqrt_square y Hy). apply sqrt_le_1_alt, H. Qed.
Lemma sqrt_above x y : 0 <= x -> y * y <= x -> y <= sqrt x.
Proof.
  intros Hx H. destruct (Rle_dec 0 y) as [Hy|Hy]; [|pose proof (sqrt_pos x); lra].
  rewrite <- (sqrt_square y Hy). apply sqrt_le_1_alt, H.
Qed.
(** the square of [2^-537] is [2 * eta] and more than that is not needed *)
Lemma tiny_square n : INR n * eta <= (INR n * bpow radix2 (-537) * (3 / 4)) * (INR n * bpow radix2 (-537) * (3 / 4)) /\ 
  eta <= bpow radix2 (-537) * (1 / 4).
Proof.
  assert (E : bpow radix2 (-537) * bpow radix2 (-537) = 2 * eta).
  { change 2 with (bpow radix2 1). rewrite <- !bpow_plus. reflexivity. }
  pose proof eta_pos as He. split.
  - replace (INR n * bpow radix2 (-537) * (3 / 4) * (INR n * bpow radix2 (-537) * (3 / 4))) with (INR n * INR n * (9 / 16) * (2 * eta))
      by (rewrite <- E; generalize (bpow radix2 (-537)); intros; field).
    assert (INR n <= INR n * INR n). { rewrite <- mult_INR. apply le_INR. nia. }
    pose proof (pos_INR n). assert (INR n * eta <= INR n * INR n * eta) by (apply Rmult_le_compat_r; lra).
    assert (0 <= INR n * INR n * eta) by (apply Rmult_le_pos; [apply Rmult_le_pos|]; lra). lra.
  - replace (-1075)%Z with (-537 + -538)%Z by reflexivity. rewrite bpow_plus. apply Rmult_le_compat_l; [apply bpow_ge_0|].
    apply Rle_trans with (bpow radix2 (-2)); [apply bpow_le; lia|]. change (bpow radix2 (-2)) with (/ 4). lra.
Qed.
Lemma c91_euclidean : forall a b, (forall x, In x a -> double x) -> (forall x, In x b -> double x) ->
  let n := Nat.min (length a) (length b) in
  straight a b * (1 - unit_roundoff) ^ (n + 3) - tiny n <= d_euclidean a b <= (straight a b + tiny n) * (1 + unit_roundoff) ^ (n + 3).
Proof.
  intros a b Ha Hb n. rewrite straight_combine. unfold d_euclidean. fold (terms (combine a b)).
  assert (Hl : forall p, In p (combine a b) -> double (fst p) /\ double (snd p)).
  { intros [x y] H. split; [apply Ha, (in_combine_l _ _ _ _ H)|apply Hb, (in_combine_r _ _ _ _ H)]. }
  assert (Hn : n = length (combine a b)) by (rewrite combine_length; reflexivity). rewrite Hn. clear n Hn.
  destruct (Nat.eq_dec (length (combine a b)) 0) as [E|E].
  { apply length_zero_iff_nil in E. rewrite E. unfold squares, terms, fsum, tiny. cbn [map fold_left fold_right length]. rewrite sqrt_0, (rnd_id 0 double_0). cbn. lra. }
  pose proof (fsum_near _ Hl) as [L U]. set (n := length (combine a b)) in *. set (q := squares (combine a b)) in *.
  assert (Hq : 0 <= q) by apply squares_pos. set (s := fsum (terms (combine a b))) in *.
  assert (Hs : 0 <= s).
  { unfold s, fsum. apply fold_fadd_good; [apply double_0|lra|]. intros y Hy. apply in_map_iff in Hy as ([v w] & <- & _). apply rnd_pos, square_pos. }
  pose proof (tiny_square n) as [T1 T2]. pose proof eta_pos as He. pose proof u_bounds as Hu.
  assert (Hn : 1 <= INR n) by (apply (le_INR 1); lia).
  assert (Ht : 0 < bpow radix2 (-537)) by apply bpow_gt_0.
  assert (Hte : INR n * bpow radix2 (-537) * (3 / 4) + eta <= tiny n).
  { unfold tiny. assert (1 * bpow radix2 (-537) <= INR n * bpow radix2 (-537)) by (apply Rmult_le_compat_r; lra). lra. }
  set (t := INR n * bpow radix2 (-537) * (3 / 4)) in *. assert (Ht0 : 0 <= t) by (unfold t; repeat apply Rmult_le_pos; lra).
  pose proof (rnd_near _ (sqrt_pos s)) as [R1 R2]. pose proof (sqrt_pos q) as Hsq. pose proof (sqrt_sqrt q Hq) as Eq.
  replace (n + 3)%nat with (S (n + 2)) by lia. cbn [pow]. set (m := (n + 2)%nat) in *. pose proof (pow_down m) as P1. pose proof (pow_up m) as P2.
  split.
  - assert (A : sqrt q * (1 - u) ^ m - t <= sqrt s).
    { destruct (Rle_dec (sqrt q * (1 - u) ^ m - t) 0) as [H|H]; [pose proof (sqrt_pos s); lra|].
      apply sqrt_above; [exact Hs|]. apply Rle_trans with (2 := L).
      set (z := sqrt q * (1 - u) ^ m) in *.
      assert (z * z <= q * (1 - u) ^ m).
      { unfold z. replace (sqrt q * (1 - u) ^ m * (sqrt q * (1 - u) ^ m)) with (sqrt q * sqrt q * (1 - u) ^ m * (1 - u) ^ m) by ring. rewrite Eq.
        rewrite <- (Rmult_1_r (q * (1 - u) ^ m)) at 2. apply Rmult_le_compat_l; [apply Rmult_le_pos; lra|lra]. }
      assert (0 <= t * (z - t)) by (apply Rmult_le_pos; lra). lra. }
    assert (B : (sqrt q * (1 - u) ^ m - t) * (1 - u) <= sqrt s * (1 - u)) by (apply Rmult_le_compat_r; lra).
    assert (t * (1 - u) <= t * 1) by (apply Rmult_le_compat_l; lra). lra.
  - assert (A : sqrt s <= (sqrt q + t) * (1 + u) ^ m).
    { apply sqrt_below; [apply Rmult_le_pos; lra|]. apply Rle_trans with (1 := U).
      replace ((sqrt q + t) * (1 + u) ^ m * ((sqrt q + t) * (1 + u) ^ m)) with ((sqrt q + t) * (sqrt q + t) * (1 + u) ^ m * (1 + u) ^ m) by ring.
      assert (0 <= sqrt q * t) by (apply Rmult_le_pos; lra).
      assert (C : q + INR n * eta <= (sqrt q + t) * (sqrt q + t)) by lra.
      assert (D : 0 <= INR n * eta) by (apply Rmult_le_pos; lra).
      apply Rle_trans with ((sqrt q + t) * (sqrt q + t) * (1 + u) ^ m); [apply Rmult_le_compat_r; lra|].
      rewrite <- (Rmult_1_r ((sqrt q + t) * (sqrt q + t) * (1 + u) ^ m)) at 1. apply Rmult_le_compat_l; [apply Rmult_le_pos; lra|lra]. }
    assert (B : sqrt s * (1 + u) <= (sqrt q + t) * (1 + u) ^ m * (1 + u)) by (apply Rmult_le_compat_r; lra).
    assert (1 * 1 <= (1 + u) * (1 + u) ^ m) by (apply Rmult_le_compat; lra).
    assert (eta <= (tiny n - t) * ((1 + u) * (1 + u) ^ m)).
    { apply Rle_trans with ((tiny n - t) * 1); [lra|]. apply Rmult_le_compat_l; lra. }
    lra.
Qed.

(** ** Detours *)
Lemma root_step x y p q : 0 <= p -> 0 <= q -> sqrt ((x + y) ^ 2 + (p + q) ^ 2) <= sqrt (x ^ 2 + p ^ 2) + sqrt (y ^ 2 + q ^ 2).
Proof.
  intros Hp Hq. pose proof (triangle (x + y) (p + q) 0 0 y q) as H. unfold dist_euc, Rsqr in H.
  replace ((x + y) ^ 2 + (p + q) ^ 2) with ((x + y - 0) * (x + y - 0) + (p + q - 0) * (p + q - 0)) by ring.
  replace (x ^ 2 + p ^ 2) with ((x + y - y) * (x + y - y) + (p + q - q) * (p + q - q)) by ring.
  replace (y ^ 2 + q ^ 2) with ((y - 0) * (y - 0) + (q - 0) * (q - 0)) by ring. exact H.
Qed.
Lemma straight_detour a b c : length a = length b -> length b = length c -> straight a c <= straight a b + straight b c.
Proof.
  rewrite !straight_combine. revert b c. induction a as [|x a IH]; intros [|y b] [|z c]; try discriminate.
  { intros _ _. unfold squares. cbn. rewrite sqrt_0. lra. }
  intros [= E1] [= E2]. specialize (IH b c E1 E2). unfold squares in *. cbn [combine map fold_right]. fold (squares (combine a b)) (squares (combine b c)) (squares (combine a c)) in *.
  pose proof (squares_pos (combine a b)) as P1. pose proof (squares_pos (combine b c)) as P2. pose proof (squares_pos (combine a c)) as P3.
  pose proof (sqrt_sqrt _ P1) as Q1. pose proof (sqrt_sqrt _ P2) as Q2. pose proof (sqrt_sqrt _ P3) as Q3.
  pose proof (sqrt_pos (squares (combine a b))) as R1. pose proof (sqrt_pos (squares (combine b c))) as R2. pose proof (sqrt_pos (squares (combine a c))) as R3.
  set (p := sqrt (squares (combine a b))) in *. set (q := sqrt (squares (combine b c))) in *. set (r := sqrt (squares (combine a c))) in *.
  rewrite <- Q1, <- Q2, <- Q3. pose proof (root_step (x - y) (y - z) p q R1 R2) as H.
  replace (p * p) with (p ^ 2) by ring. replace (q * q) with (q ^ 2) by ring. apply Rle_trans with (2 := H).
  apply sqrt_le_1_alt. replace (x - y + (y - z)) with (x - z) by ring. apply Rplus_le_compat_l.
  cbn [pow]. rewrite !Rmult_1_r. apply Rmult_le_compat; assumption.
Qed.
Lemma blocks_detour a b c : length a = length b -> length b = length c -> blocks a c <= blocks a b + blocks b c.
Proof.
  rewrite !blocks_combine. revert b c. induction a as [|x a IH]; intros [|y b] [|z c]; try discriminate; [cbn; lra|].
  intros [= E1] [= E2]. specialize (IH b c E1 E2). cbn [combine map fold_right]. pose proof (Rabs_triang (x - y) (y - z)) as H.
  replace (x - y + (y - z)) with (x - z) in H by ring. lra.
Qed.
Lemma c91_exact : forall a b c, length a = length b -> length b = length c ->
  blocks a c <= blocks a b + blocks b c /\ straight a c <= straight a b + straight b c.
Proof. intros a b c H1 H2. split; [apply blocks_detour|apply straight_detour]; assumption. Qed.

(** products of powers, as one factor *)
Lemma bernoulli k : 1 - INR k * u <= (1 - u) ^ k.
Proof.
  pose proof u_bounds as Hu. induction k as [|k IH]; [cbn; lra|]. rewrite S_INR. cbn [pow]. pose proof (pos_INR k) as Hk.
  assert (0 <= INR k * u * u) by (repeat apply Rmult_le_pos; lra).
  assert ((1 - u) * (1 - INR k * u) <= (1 - u) * (1 - u) ^ k) by (apply Rmult_le_compat_l; lra). lra.
Qed.
Lemma both_ways m : (1 + u) ^ m * (1 - u) ^ m <= 1.
Proof.
  rewrite <- Rpow_mult_distr. pose proof u_bounds as Hu. apply Rle_trans with (1 ^ m); [|rewrite pow1; lra].
  apply pow_incr. assert (0 <= u * u < 1). { split; [apply Rmult_le_pos; lra|]. assert (u * u <= 1 * u) by (apply Rmult_le_compat_r; lra). lra. }
  split; lra.
Qed.
Lemma detour_close m d e f r s t : 0 <= d -> 0 <= e -> 0 <= f -> 0 <= t -> 
  d <= (r + s + t) * (1 + u) ^ m -> r * (1 - u) ^ m - t <= e -> s * (1 - u) ^ m - t <= f -> double e -> double f ->
  d * (1 - INR (2 * m + 1) * u) <= fadd e f + 3 * t.
Proof.
  intros Hd He Hf Ht H1 H2 H3 He' Hf'. pose proof u_bounds as Hu.
  pose proof (pow_down m) as P1. pose proof (pow_up m) as P2. pose proof (both_ways m) as P3.
  pose proof (add_rel e f He' Hf' ltac:(lra)) as [A _].
  assert (B : d * (1 - u) ^ m <= (r + s + t) * (1 + u) ^ m * (1 - u) ^ m) by (apply Rmult_le_compat_r; lra).
  assert (C : d * (1 - u) ^ m * (1 - u) ^ m <= e + f + 3 * t).
  { apply Rle_trans with ((r + s + t) * (1 + u) ^ m * (1 - u) ^ m * (1 - u) ^ m); [apply Rmult_le_compat_r; lra|].
    replace ((r + s + t) * (1 + u) ^ m * (1 - u) ^ m * (1 - u) ^ m) with (((r * (1 - u) ^ m + s * (1 - u) ^ m + t * (1 - u) ^ m)) * ((1 + u) ^ m * (1 - u) ^ m)) by ring.
    assert (T : t * (1 - u) ^ m <= t * 1) by (apply Rmult_le_compat_l; lra).
    apply Rle_trans with ((e + f + 3 * t) * ((1 + u) ^ m * (1 - u) ^ m)).
    - apply Rmult_le_compat_r; [apply Rmult_le_pos; lra|]. lra.
    - rewrite <- (Rmult_1_r (e + f + 3 * t)) at 2. apply Rmult_le_compat_l; lra. }
  assert (D : d * (1 - INR (2 * m + 1) * u) <= d * ((1 - u) ^ m * (1 - u) ^ m * (1 - u))).
  { apply Rmult_le_compat_l; [exact Hd|]. replace ((1 - u) ^ m * (1 - u) ^ m * (1 - u)) with ((1 - u) ^ (2 * m + 1)).
    - apply bernoulli.
    - rewrite pow_add. replace (2 * m)%nat with (m + m)%nat by lia. rewrite pow_add. cbn. ring. }
  assert (E : d * (1 - u) ^ m * (1 - u) ^ m * (1 - u) <= (e + f + 3 * t) * (1 - u)) by (apply Rmult_le_compat_r; lra).
  assert (F : t * (1 - u) <= t * 1) by (apply Rmult_le_compat_l; lra). lra.
Qed.
Lemma tiny_pos n : 0 <= tiny n.
Proof. unfold tiny. apply Rmult_le_pos; [apply pos_INR|apply bpow_ge_0]. Qed.
Lemma c91_detour : forall a b c, (forall x, In x a -> double x) -> (forall x, In x b -> double x) -> (forall x, In x c -> double x) ->
  length a = length b -> length b = length c ->
  d_manhattan a c * (1 - INR (2 * length a + 1) * unit_roundoff) <= fadd (d_manhattan a b) (d_manhattan b c) /\
  d_euclidean a c * (1 - INR (2 * length a + 7) * unit_roundoff) <= fadd (d_euclidean a b) (d_euclidean b c) + 3 * tiny (length a).
Proof.
  intros a b c Ha Hb Hc E1 E2. destruct (c65_travel a b) as [[M1 M2] [M3 M4]]. destruct (c65_travel b c) as [[N1 N2] [N3 N4]].
  destruct (c65_travel a c) as [[_ O2] [_ O4]]. pose proof u_bounds as Hu. destruct (c91_exact a b c E1 E2) as [D D']. split.
  - pose proof (c65_accurate a c Ha Hc) as [_ A]. pose proof (c65_accurate a b Ha Hb) as [B _]. pose proof (c65_accurate b c Hb Hc) as [C _].
    rewrite <- E2, <- E1, !Nat.min_id in *. pose proof (pow_up (length a)) as P.
    replace (fadd (d_manhattan a b) (d_manhattan b c)) with (fadd (d_manhattan a b) (d_manhattan b c) + 3 * 0) by ring.
    apply (detour_close _ _ _ _ (blocks a b) (blocks b c)); try assumption; try lra.
    apply Rle_trans with (1 := A). apply Rmult_le_compat_r; lra.
  - pose proof (c91_euclidean a c Ha Hc) as [_ A]. pose proof (c91_euclidean a b Ha Hb) as [B _]. pose proof (c91_euclidean b c Hb Hc) as [C _].
    rewrite <- E2, <- E1, !Nat.min_id in *. pose proof (pow_up (length a + 3)) as P.
    replace (2 * length a + 7)%nat with (2 * (length a + 3) + 1)%nat by lia.
    apply (detour_close _ _ _ _ (straight a b) (straight b c)); try assumption; try apply tiny_pos.
    apply Rle_trans with (1 := A). apply Rmult_le_compat_r; lra.
Qed.

(** ** With numbers *)
Lemma c91_numbers : forall a b c, (forall x, In x a -> double x) -> (forall x, In x b -> double x) -> (forall x, In x c -> double x) ->
  length a = length b -> length b = length c -> (length a <= 1000)%nat ->
  (d_manhattan a c <= 100000000 -> d_manhattan a c <= fadd (d_manhattan a b) (d_manhattan b c) + ERROR_BOUND / 10) /\
  (d_euclidean a c <= 100000000 -> d_euclidean a c <= fadd (d_euclidean a b) (d_euclidean b c) + ERROR_BOUND / 10).
Proof.
  intros a b c Ha Hb Hc E1 E2 Hn. destruct (c91_detour a b c Ha Hb Hc E1 E2) as [A B].
  destruct (c65_travel a c) as [[_ O2] [_ O4]]. pose proof u_bounds as Hu.
  assert (HB : Rabs (ERROR_BOUND - 1 / 1000) <= eps 1). { apply rnd_err; [lra|]. rewrite Rabs_pos_eq; lra. }
  unfold eps in HB. apply abs_le in HB.
  apply le_INR in Hn. pose proof (INR_IZR_INZ 1000) as E. cbn [Z.of_nat] in E. rewrite E in Hn. cbn in Hn. pose proof (pos_INR (length a)) as Hp.
  rewrite !plus_INR, !mult_INR in *. change (INR 2) with 2 in *. change (INR 1) with 1 in *.
  replace (INR 7) with 7 in B by (cbn; lra). set (n := INR (length a)) in *.
  assert (Ht : tiny (length a) <= 1 / 1000000).
  { unfold tiny. fold n. apply Rle_trans with (1000 * bpow radix2 (-40)).
    - apply Rmult_le_compat; [exact Hp|apply bpow_ge_0|exact Hn|apply bpow_le; lia].
    - change (bpow radix2 (-40)) with (/ 1099511627776). lra. }
  assert (K1 : (2 * n + 1) * u <= 2007 * u) by (apply Rmult_le_compat_r; lra).
  assert (K2 : (2 * n + 7) * u <= 2007 * u) by (apply Rmult_le_compat_r; lra).
  assert (K3 : forall d k, 0 <= d -> d <= 100000000 -> k <= 2007 * u -> d * k <= 100000000 * (2007 * u)).
  { intros d k H1 H2 H3. apply Rle_trans with (d * (2007 * u)); [apply Rmult_le_compat_l|apply Rmult_le_compat_r]; lra. }
  assert (K4 : 100000000 * (2007 * u) <= 3 / 100000) by (unfold u; lra).
  split; intros H.
  - pose proof (K3 _ _ O2 H K1). lra.
  - pose proof (K3 _ _ O4 H K2). lra.
Qed.

(** ** A detour that looks shorter *)
Lemma rnd_at x e z : bpow radix2 e <= x < bpow radix2 (e + 1) -> (-1022 <= e)%Z ->
  Rabs (x * bpow radix2 (52 - e) - IZR z) < / 2 -> rnd x = IZR z * bpow radix2 (e - 52).
Proof.
  intros [H1 H2] He H. unfold rnd, round, F2R, scaled_mantissa, cexp. cbn [Fnum Fexp].
  assert (M : mag radix2 x = (e + 1)%Z :> Z).
  { apply mag_unique_pos. replace (e + 1 - 1)%Z with e by lia. split; assumption. }
  rewrite M. unfold binary64, FLT_exp. replace (Z.max (e + 1 - 53) (-1074)) with (e - 52)%Z by lia.
  replace (- (e - 52))%Z with (52 - e)%Z by lia. rewrite (Znearest_imp _ _ z H). reflexivity.
Qed.
Local Notation v := (/ 36028797018963968).
Lemma v_bpow : bpow radix2 (-55) = v.
Proof. reflexivity. Qed.
Lemma v_double m : (Z.abs m < 9007199254740992)%Z -> double (IZR m * v).
Proof.
  intros H. apply generic_format_FLT. exists (Float radix2 m (-55)); [unfold F2R; cbn [Fnum Fexp]; rewrite v_bpow; reflexivity|exact H|cbn; lia].
Qed.
Lemma v_square_double m : (Z.abs m < 9007199254740992)%Z -> double (IZR m * (v * v)).
Proof.
  intros H. apply generic_format_FLT. exists (Float radix2 m (-110)); [|exact H|cbn; lia].
  unfold F2R. cbn [Fnum Fexp]. change (-110)%Z with (-55 + -55)%Z. rewrite bpow_plus, v_bpow. reflexivity.
Qed.
Lemma one_double : double 1.
Proof. apply (generic_format_bpow radix2 binary64 0). unfold binary64, FLT_exp. lia. Qed.
Lemma rnd_one x z : 1 <= x < 2 -> Rabs (x * 4503599627370496 - IZR z) < / 2 -> rnd x = IZR z * / 4503599627370496.
Proof.
  intros H1 H2. change (/ 4503599627370496) with (bpow radix2 (0 - 52)). apply rnd_at; [exact H1|lia|exact H2].
Qed.
Lemma far : rnd (1 + 6 * v) = 1 + 8 * v.
Proof. rewrite (rnd_one _ 4503599627370497); [lra|lra|]. apply Rabs_def1; lra. Qed.
Lemma middle : rnd (1 + 3 * v) = 1.
Proof. rewrite (rnd_one _ 4503599627370496); [lra|lra|]. apply Rabs_def1; lra. Qed.
Lemma far_double : double (1 + 8 * v).
Proof. rewrite <- far. apply rnd_double. Qed.
Lemma far_square : rnd ((1 + 8 * v) * (1 + 8 * v)) = 1 + 16 * v.
Proof. rewrite (rnd_one _ 4503599627370498); [lra|lra|]. apply Rabs_def1; lra. Qed.
Lemma far_root : rnd (sqrt (1 + 16 * v)) = 1 + 8 * v.
Proof.
  assert (A : sqrt (1 + 16 * v) <= 1 + 8 * v) by (apply sqrt_below; lra).
  assert (B : 1 + 7 * v <= sqrt (1 + 16 * v)) by (apply sqrt_above; lra).
  rewrite (rnd_one _ 4503599627370497); [lra|lra|]. apply Rabs_def1; lra.
Qed.
Lemma c91_shorter : exists a b c, (forall x, In x [a; b; c] -> double x) /\
  fadd (d_manhattan [a] [b]) (d_manhattan [b] [c]) < d_manhattan [a] [c] /\
  fadd (d_euclidean [a] [b]) (d_euclidean [b] [c]) < d_euclidean [a] [c].
Proof.
  exists 1, (-3 * v), (-6 * v).
  assert (D3 : double (3 * v)) by (apply v_double; reflexivity).
  assert (S1 : fsub 1 (-3 * v) = 1) by (unfold fsub; replace (1 - -3 * v) with (1 + 3 * v) by ring; exact middle).
  assert (S2 : fsub (-3 * v) (-6 * v) = 3 * v) by (unfold fsub; replace (-3 * v - -6 * v) with (3 * v) by ring; exact (rnd_id _ D3)).
  assert (S3 : fsub 1 (-6 * v) = 1 + 8 * v) by (unfold fsub; replace (1 - -6 * v) with (1 + 6 * v) by ring; exact far).
  split; [|split].
  - intros x [<-|[<-|[<-|[]]]]; [exact one_double|apply v_double; reflexivity..].
  - unfold d_manhattan, fsum. cbn [combine map fold_left]. rewrite S1, S2, S3.
    rewrite !Rabs_pos_eq by lra. unfold fadd. rewrite !Rplus_0_l, (rnd_id 1 one_double), (rnd_id _ D3), (rnd_id _ far_double), middle. lra.
  - unfold d_euclidean, fsum. cbn [combine map fold_left]. rewrite S1, S2, S3.
    assert (D9 : double (3 * v * (3 * v))). { replace (3 * v * (3 * v)) with (9 * (v * v)) by ring. apply v_square_double. reflexivity. }
    assert (D16 : double (1 + 16 * v)) by (rewrite <- far_square; apply rnd_double).
    unfold fadd. rewrite !Rplus_0_l, far_square, Rmult_1_l, !(rnd_id 1 one_double), !(rnd_id _ D9), (rnd_id _ D16), far_root, sqrt_1, sqrt_square by lra.
    rewrite (rnd_id 1 one_double), (rnd_id _ D3), middle. lra.
Qed.
(** places with fewer coordinates are near everything *)
Lemma c91_fewer_coordinates : exists a b c, (forall x, In x (a ++ b ++ c) -> double x) /\
  fadd (d_manhattan a b) (d_manhattan b c) = 0 /\ fadd (d_euclidean a b) (d_euclidean b c) = 0 /\ 0 < d_manhattan a c /\ 0 < straight a c.
Proof.
  exists [0; 1], [0], [0; 0]. split; [|split; [|split; [|split]]].
  - intros x H. cbn in H. destruct H as [<-|[<-|[<-|[<-|[<-|[]]]]]]; (apply double_0 || apply one_double).
  - unfold d_manhattan, fsum. cbn. unfold fsub, fadd. rewrite Rminus_0_r, Rabs_pos_eq; rewrite (rnd_id 0 double_0); [|lra]. rewrite !Rplus_0_l, !(rnd_id 0 double_0). rewrite Rplus_0_l. apply rnd_id, double_0.
  - unfold d_euclidean, fsum. cbn. unfold fsub, fadd. rewrite Rminus_0_r, (rnd_id 0 double_0), Rmult_0_l, (rnd_id 0 double_0), !Rplus_0_l, (rnd_id 0 double_0), sqrt_0, (rnd_id 0 double_0). rewrite Rplus_0_l. apply rnd_id, double_0.
  - apply (c65_apart _ _ 1%nat); [| |cbn; lia|cbn; lra]; intros x [<-|[<-|[]]]; (apply double_0 || apply one_double).
  - unfold straight. cbn. apply sqrt_lt_R0. lra.
Qed.
