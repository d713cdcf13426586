(** Totals of computed values. *)
From Coq Require Import Reals List Lia Lra Permutation.
From Verif Require Import DoubleTheorems SpecTotals StraightTheorems.

Local Notation u := unit_roundoff.
Local Notation v := (/ 36028797018963968).
Definition near (n : nat) (x' x : R) : Prop := double x /\ 0 <= x' /\ x' * (1 - u) ^ n <= x <= x' * (1 + u) ^ n.
Lemma near_pos n x' x : near n x' x -> 0 <= x.
Proof.
  intros (_ & H & A & _). pose proof (pow_down n). assert (0 <= x' * (1 - u) ^ n) by (apply Rmult_le_pos; lra). lra.
Qed.
Lemma near_more n k x' x : (n <= k)%nat -> near n x' x -> near k x' x.
Proof.
  intros H (D & P & A & B). split; [exact D|]. split; [exact P|].
  pose proof (pow_down_le k n H). pose proof (pow_up_le k n H). split.
  - apply Rle_trans with (2 := A). apply Rmult_le_compat_l; lra.
  - apply Rle_trans with (1 := B). apply Rmult_le_compat_l; lra.
Qed.
Lemma near_add n x' x y' y : near n x' x -> near n y' y -> near (S n) (x' + y') (fadd x y).
Proof.
  intros Hx Hy. pose proof (near_pos _ _ _ Hx) as X0. pose proof (near_pos _ _ _ Hy) as Y0. pose proof u_bounds as Hu.
  destruct Hx as (Dx & Px & Ax & Bx), Hy as (Dy & Py & Ay & By). split; [apply rnd_double|]. split; [lra|].
  pose proof (add_rel x y Dx Dy ltac:(lra)) as [L U]. cbn [pow]. split.
  - apply Rle_trans with (2 := L). replace ((x' + y') * ((1 - u) * (1 - u) ^ n)) with ((x' * (1 - u) ^ n + y' * (1 - u) ^ n) * (1 - u)) by ring.
    apply Rmult_le_compat_r; lra.
  - apply Rle_trans with (1 := U). replace ((x' + y') * ((1 + u) * (1 + u) ^ n)) with ((x' * (1 + u) ^ n + y' * (1 + u) ^ n) * (1 + u)) by ring.
    apply Rmult_le_compat_r; lra.
Qed.
Lemma fold_near l' l n x' x : Forall2 (near n) l' l -> near n x' x -> near (n + length l) (x' + total l') (fold_left fadd l x).
Proof.
  intros H. revert l n x' x H. induction l' as [|y' l' IH]; intros l n x' x H Hx.
  - inversion H; subst. cbn. rewrite Rplus_0_r, Nat.add_0_r. exact Hx.
  - inversion H as [|? y ? l2 Hy Hl]; subst. cbn [fold_left length total fold_right]. fold (total l').
    rewrite <- Rplus_assoc. replace (n + S (length l2))%nat with (S n + length l2)%nat by lia. apply IH.
    + clear - Hl. induction Hl; constructor; [eapply near_more; [|eassumption]; lia|assumption].
    + apply near_add; assumption.
Qed.
Lemma near_0 n : near n 0 0.
Proof. split; [apply double_0|]. split; lra. Qed.
Lemma fsum_total l' l n : Forall2 (near n) l' l -> near (n + length l) (total l') (fsum l).
Proof. intros H. unfold fsum. rewrite <- (Rplus_0_l (total l')). apply fold_near; [exact H|apply near_0]. Qed.
Lemma near_self l : amounts l -> Forall2 (near 0) l l.
Proof.
  induction l as [|x l IH]; intros H; constructor.
  - destruct (H x (or_introl eq_refl)). split; [assumption|]. split; [assumption|]. cbn. lra.
  - apply IH. intros y Hy. apply H. right. exact Hy.
Qed.
Lemma total_app l m : total (l ++ m) = total l + total m.
Proof. unfold total. induction l as [|x l IH]; cbn; [lra|]. rewrite IH. lra. Qed.
Lemma total_concat ls : total (concat ls) = total (map total ls).
Proof. induction ls as [|l ls IH]; [reflexivity|]. cbn [concat map]. rewrite total_app, IH. reflexivity. Qed.
Lemma routes_near (routes : list (list R)) k : amounts (concat routes) -> no_longer k routes ->
  Forall2 (near k) (map total routes) (map fsum routes).
Proof.
  induction routes as [|r routes IH]; intros Ha Hk; constructor.
  - apply near_more with (length r); [apply Hk; left; reflexivity|]. apply (fsum_total r r 0). apply near_self.
    intros x Hx. apply Ha. cbn. apply in_or_app. left. exact Hx.
  - apply IH; [intros x Hx; apply Ha; cbn; apply in_or_app; right; exact Hx|intros x Hx; apply Hk; right; exact Hx].
Qed.
Lemma planning_near (routes : list (list R)) k : amounts (concat routes) -> no_longer k routes ->
  near (k + length routes) (driven routes) (fsum (map fsum routes)).
Proof.
  intros Ha Hk. unfold driven. rewrite total_concat, <- (map_length fsum routes). apply fsum_total, routes_near; assumption.
Qed.
Lemma fold_opp l x : fold_left fadd (map Ropp l) (- x) = - fold_left fadd l x.
Proof.
  revert x. induction l as [|y l IH]; intros x; [reflexivity|]. cbn [map fold_left].
  replace (fadd (- x) (- y)) with (- fadd x y); [apply IH|]. unfold fadd, rnd. rewrite <- round_NE_opp. f_equal. ring.
Qed.
Lemma dial_fsum routes : d_dial_a_ride routes = - fsum (map fsum routes).
Proof.
  unfold d_dial_a_ride, d_route_distance, fsum. rewrite <- fold_opp, map_map, Ropp_0. reflexivity.
Qed.

Lemma c93_distance : forall routes k, amounts (concat routes) -> no_longer k routes ->
  let n := (k + length routes)%nat in
  driven routes * (1 - unit_roundoff) ^ n <= - d_dial_a_ride routes <= driven routes * (1 + unit_roundoff) ^ n.
Proof. intros routes k Ha Hk n. rewrite dial_fsum, Ropp_involutive. apply (planning_near routes k Ha Hk). Qed.
Lemma c93_durations : forall routes p k, amounts (concat (concat routes)) -> no_longer p (concat routes) -> no_longer k routes ->
  let n := (p + k + length routes)%nat in
  ridden routes * (1 - unit_roundoff) ^ n <= d_taxi_sharing routes <= ridden routes * (1 + unit_roundoff) ^ n.
Proof.
  intros routes p k Ha Hp Hk n. unfold d_taxi_sharing, ridden.
  assert (H : Forall2 (near (p + k)) (map (fun r => total (concat r)) routes) (map d_route_taxi routes)).
  { clear n. induction routes as [|r routes IH]; constructor.
    - apply near_more with (p + length r)%nat; [specialize (Hk r (or_introl eq_refl)); lia|].
      apply (planning_near r p).
      + intros x Hx. apply Ha. cbn. rewrite concat_app. apply in_or_app. left. exact Hx.
      + intros x Hx. apply Hp. cbn. apply in_or_app. left. exact Hx.
    - apply IH.
      + intros x Hx. apply Ha. cbn. rewrite concat_app. apply in_or_app. right. exact Hx.
      + intros x Hx. apply Hp. cbn. apply in_or_app. right. exact Hx.
      + intros x Hx. apply Hk. right. exact Hx. }
  apply fsum_total in H. rewrite map_length in H. fold n in H.
  replace (total (concat (concat routes))) with (total (map (fun r => total (concat r)) routes)); [apply H|].
  clear. induction routes as [|r routes IH]; [reflexivity|]. cbn. rewrite concat_app, total_app, <- IH. reflexivity.
Qed.
Lemma c93_best : forall a b k, amounts (concat a) -> amounts (concat b) -> no_longer k a -> no_longer k b ->
  let n := (k + Nat.max (length a) (length b))%nat in
  driven a * (1 + unit_roundoff) ^ n < driven b * (1 - unit_roundoff) ^ n -> d_dial_a_ride b < d_dial_a_ride a.
Proof.
  intros a b k Ha Hb Ka Kb n H.
  assert (A : near n (driven a) (fsum (map fsum a))) by (eapply near_more; [|apply planning_near; eassumption]; unfold n; lia).
  assert (B : near n (driven b) (fsum (map fsum b))) by (eapply near_more; [|apply planning_near; eassumption]; unfold n; lia).
  rewrite !dial_fsum. destruct A as (_ & _ & _ & A), B as (_ & _ & B & _). lra.
Qed.
Lemma c93_margin : forall a b k, amounts (concat a) -> amounts (concat b) -> no_longer k a -> no_longer k b ->
  let n := (k + Nat.max (length a) (length b))%nat in
  driven a < driven b * (1 - 2 * INR n * unit_roundoff) -> d_dial_a_ride b < d_dial_a_ride a.
Proof.
  intros a b k Ha Hb Ka Kb n H. apply (c93_best a b k Ha Hb Ka Kb). fold n.
  pose proof (bernoulli (n + n)) as B. rewrite plus_INR, pow_add in B.
  pose proof (pow_down n) as P1. pose proof (pow_up n) as P2. pose proof (both_ways n) as P3.
  assert (Db : 0 <= driven b) by apply (planning_near b k Hb Kb).
  set (p := (1 - u) ^ n) in *. set (q := (1 + u) ^ n) in *.
  assert (E : driven a < driven b * (p * p)).
  { apply Rlt_le_trans with (1 := H). apply Rmult_le_compat_l; [exact Db|]. lra. }
  assert (F : driven a * q < driven b * (p * p) * q) by (apply Rmult_lt_compat_r; lra).
  assert (G : driven b * p * (q * p) <= driven b * p * 1).
  { apply Rmult_le_compat_l; [apply Rmult_le_pos; lra|exact P3]. }
  replace (driven b * (p * p) * q) with (driven b * p * (q * p)) in F by ring. lra.
Qed.
Lemma total_perm l m : Permutation l m -> total l = total m.
Proof. unfold total. induction 1 as [|x l m H IH|x y l|l m o H1 IH1 H2 IH2]; cbn; lra. Qed.
Lemma concat_perm (a b : list (list R)) : Permutation a b -> Permutation (concat a) (concat b).
Proof.
  induction 1 as [|x l m H IH|x y l|l m o H1 IH1 H2 IH2]; cbn; [constructor|apply Permutation_app_head, IH| |eapply Permutation_trans; eassumption].
  rewrite !app_assoc. apply Permutation_app_tail, Permutation_app_comm.
Qed.
Lemma c93_order : forall a b k, Permutation a b -> amounts (concat a) -> no_longer k a ->
  let n := (k + length a)%nat in
  Rabs (d_dial_a_ride a - d_dial_a_ride b) <= driven a * ((1 + unit_roundoff) ^ n - (1 - unit_roundoff) ^ n).
Proof.
  intros a b k Hp Ha Ka n.
  assert (Hb : amounts (concat b)). { intros x Hx. apply Ha. apply (Permutation_in x (Permutation_sym (concat_perm _ _ Hp)) Hx). }
  assert (Kb : no_longer k b). { intros x Hx. apply Ka. apply (Permutation_in x (Permutation_sym Hp) Hx). }
  assert (E : driven a = driven b) by (apply total_perm, concat_perm, Hp).
  pose proof (c93_distance a k Ha Ka) as [A1 A2]. pose proof (c93_distance b k Hb Kb) as [B1 B2].
  rewrite <- (Permutation_length Hp), <- E in B1, B2. fold n in A1, A2, B1, B2. apply Rabs_le. lra.
Qed.

(** ** Witnesses *)
Lemma add_exact x y : double (x + y) -> fadd x y = x + y.
Proof. apply rnd_id. Qed.
Lemma scattered : fsum (map fsum [[1]; [3 * v]; [3 * v]; [v]]) = 1.
Proof.
  assert (D3 : double (3 * v)) by (apply v_double; reflexivity). assert (D1 : double (1 * v)) by (apply v_double; reflexivity). rewrite Rmult_1_l in D1.
  unfold fsum. cbn [map fold_left]. unfold fadd. rewrite !Rplus_0_l, ?(rnd_id 1 one_double), ?(rnd_id _ D3), ?(rnd_id _ D1), ?(rnd_id 1 one_double), ?middle.
  rewrite (rnd_one _ 4503599627370496); [lra|lra|]. apply Rabs_def1; lra.
Qed.
Lemma gathered : fsum (map fsum [[3 * v]; [3 * v]; [1]]) = 1 + 8 * v.
Proof.
  assert (D3 : double (3 * v)) by (apply v_double; reflexivity). assert (D6 : double (6 * v)) by (apply v_double; reflexivity).
  unfold fsum. cbn [map fold_left]. unfold fadd. rewrite !Rplus_0_l, ?(rnd_id _ D3), ?(rnd_id 1 one_double), ?(rnd_id _ D3).
  replace (3 * v + 3 * v) with (6 * v) by ring. rewrite (rnd_id _ D6), Rplus_comm. exact far.
Qed.
Lemma one_first : fsum (map fsum [[1]; [3 * v]; [3 * v]]) = 1.
Proof.
  assert (D3 : double (3 * v)) by (apply v_double; reflexivity).
  unfold fsum. cbn [map fold_left]. unfold fadd. rewrite !Rplus_0_l, ?(rnd_id _ D3), ?(rnd_id 1 one_double), ?middle. reflexivity.
Qed.
Lemma parts_amounts l : (forall x, In x l -> x = 1 \/ x = 3 * v \/ x = v) -> amounts l.
Proof.
  intros H x Hx. destruct (H x Hx) as [-> |[-> | ->]].
  - split; [exact one_double|lra].
  - split; [apply v_double; reflexivity|lra].
  - split; [|lra]. rewrite <- (Rmult_1_l v). apply v_double. reflexivity.
Qed.
Lemma c93_order_matters : exists a b, Permutation a b /\ amounts (concat a) /\ d_dial_a_ride a <> d_dial_a_ride b.
Proof.
  exists [[1]; [3 * v]; [3 * v]], [[3 * v]; [3 * v]; [1]]. split; [|split].
  - change [[3 * v]; [3 * v]; [1]] with ([[3 * v]; [3 * v]] ++ [[1]]). apply Permutation_cons_append.
  - apply parts_amounts. intros x H. cbn in H. intuition congruence.
  - rewrite !dial_fsum, one_first, gathered. lra.
Qed.
Lemma c93_worse_preferred : exists a b, amounts (concat a) /\ amounts (concat b) /\ driven a < driven b /\ d_dial_a_ride a < d_dial_a_ride b.
Proof.
  exists [[3 * v]; [3 * v]; [1]], [[1]; [3 * v]; [3 * v]; [v]].
  split; [apply parts_amounts; intros x H; cbn in H; intuition congruence|].
  split; [apply parts_amounts; intros x H; cbn in H; intuition congruence|].
  split; [unfold driven; cbn; lra|]. rewrite !dial_fsum, scattered, gathered. lra.
Qed.
