(** Facts about the recurrence of Spec.v. *)
From Verif Require Export Spec Heap.

Lemma manhattan_nonneg a b : 0 <= manhattan a b.
Proof.
  unfold manhattan. revert b. induction a as [|x a IH]; intros [|y b]; cbn; try lia.
  specialize (IH b). unfold zsum in IH. lia.
Qed.
Lemma euclidean_nonneg a b : 0 <= euclidean a b.
Proof. apply Z.sqrt_nonneg. Qed.
Lemma metric_distance_nonneg m a b : 0 <= metric_distance m a b.
Proof. destruct m; [apply euclidean_nonneg | apply manhattan_nonneg]. Qed.
Lemma manhattan_refl a : manhattan a a = 0.
Proof. unfold manhattan. induction a as [|x a IH]; cbn; [done|]. unfold zsum in IH. lia. Qed.
Lemma euclidean_refl a : euclidean a a = 0.
Proof.
  unfold euclidean. replace (zsum _) with 0; [done|].
  induction a as [|x a IH]; cbn; [done|]. unfold zsum in IH. lia.
Qed.
Lemma metric_distance_refl m a : metric_distance m a a = 0.
Proof. destruct m; [apply euclidean_refl | apply manhattan_refl]. Qed.

Section sched.
  Context {W : World}.

  Lemma dist_nonneg a b : 0 <= dist a b.
  Proof. apply metric_distance_nonneg. Qed.
  Lemma dist_refl a : dist a a = 0.
  Proof. apply metric_distance_refl. Qed.

  Lemma foldl_max_acc x y l : foldl Z.max (Z.max x y) l = Z.max x (foldl Z.max y l).
  Proof.
    revert x y. induction l as [|z l IH]; intros x y; cbn; [done|].
    rewrite <- Z.max_assoc. apply IH.
  Qed.
  Lemma py_max_max_or d l : py_max d l = max_or d l.
  Proof.
    destruct l as [|x l]; [done|]. cbn.
    induction l as [|y l IH]; [done|]. cbn.
    rewrite <- IH, Z.max_comm, foldl_max_acc. done.
  Qed.
  Lemma foldr_max_ge x l y : y = x \/ y ∈ l -> y <= foldr Z.max x l.
  Proof.
    induction l as [|z l IH]; cbn; intros H.
    - destruct H as [->|H]; [lia|]. inversion H.
    - rewrite elem_of_cons in H.
      assert (Hc : (y = x \/ y ∈ l) \/ y = z) by tauto.
      destruct Hc as [Hc| ->]; [specialize (IH Hc)|]; lia.
  Qed.
  Lemma max_or_in d l : l <> [] -> max_or d l ∈ l.
  Proof.
    destruct l as [|x l]; [done|]. intros _. cbn.
    induction l as [|y l IH]; cbn; [set_solver|].
    destruct (Z.max_spec y (foldr Z.max x l)) as [[_ ->]|[_ ->]]; set_solver.
  Qed.
  Lemma max_or_ge d l y : y ∈ l -> y <= max_or d l.
  Proof.
    destruct l as [|x l]; [intros H; inversion H|].
    intros H. apply foldr_max_ge. set_solver.
  Qed.
  Lemma max_or_nonneg l : (forall y, y ∈ l -> 0 <= y) -> 0 <= max_or 0 l.
  Proof.
    intros H. destruct l as [|x l]; [done|]. apply H, max_or_in. done.
  Qed.

  Lemma visit_duration_nonneg x : sane_durations -> 0 <= visit_duration x.
  Proof.
    intros Hd. apply max_or_nonneg. intros y Hy.
    rewrite elem_of_app, !elem_of_list_fmap in Hy.
    destruct Hy as [(t & -> & _)|(t & -> & _)]; apply Hd.
  Qed.

  (** ** Backward view: the visits up to a stop, latest first *)
  Fixpoint back (v : nat) (A : list visit) : leg :=
    match A with
    | [] => ready v
    | x :: A => leave x (advance (back v A) x)
    end.
  (** timing of the first element of a reversed list of visits *)
  Definition tm (v : nat) (x : visit) (A : list visit) : timing := advance (back v A) x.

  Definition leg_time (l : leg) : Z := l.1.1.
  Definition leg_place (l : leg) : position := l.1.2.
  Definition leg_load (l : leg) : Z := l.2.

  Lemma tm_arrival_eq v x A :
    tm_arrival (tm v x A) = leg_time (back v A) + dist (leg_place (back v A)) (vi_place x).
  Proof. unfold tm, advance. destruct (back v A) as [[? ?] ?]; done. Qed.
  Lemma tm_start_eq v x A :
    tm_start (tm v x A) =
    Z.max (Z.max (default (tm_arrival (tm v x A)) (vi_request x)) (visit_earliest x)) (tm_arrival (tm v x A)).
  Proof. unfold tm, advance. destruct (back v A) as [[? ?] ?]; done. Qed.
  Lemma tm_departure_eq v x A :
    tm_departure (tm v x A) = tm_start (tm v x A) + visit_duration x.
  Proof. unfold tm, advance. destruct (back v A) as [[? ?] ?]; done. Qed.
  Lemma tm_load_eq v x A :
    tm_load (tm v x A) = leg_load (back v A) + weight (vi_board x) - weight (vi_alight x).
  Proof. unfold tm, advance. destruct (back v A) as [[? ?] ?]; done. Qed.
  Lemma back_cons v x A : back v (x :: A) = (tm_departure (tm v x A), vi_place x, tm_load (tm v x A)).
  Proof. done. Qed.

  Lemma schedule_app l xs ys :
    schedule l (xs ++ ys) = schedule l xs ++ schedule (foldl (fun l x => leave x (advance l x)) l xs) ys.
  Proof.
    revert l. induction xs as [|x xs IH]; intros l; cbn; [done|]. by rewrite IH.
  Qed.
  Lemma schedule_length l xs : length (schedule l xs) = length xs.
  Proof. revert l. induction xs as [|x xs IH]; intros l; cbn; [done|]. by rewrite IH. Qed.
  Lemma back_foldl v A :
    back v A = foldl (fun l x => leave x (advance l x)) (ready v) (reverse A).
  Proof.
    induction A as [|x A IH]; [done|].
    rewrite reverse_cons, foldl_app, <- IH. done.
  Qed.
  Lemma timetable_lookup v xs i x :
    xs !! i = Some x ->
    timetable v xs !! i = Some (tm v x (reverse (take i xs))).
  Proof.
    intros Hx. unfold timetable.
    rewrite <- (take_drop_middle xs i x Hx) at 1.
    rewrite schedule_app.
    pose proof (lookup_lt_Some _ _ _ Hx).
    rewrite lookup_app_r; rewrite schedule_length, take_length; [|lia].
    replace (i - i `min` length xs)%nat with 0%nat by lia. cbn.
    unfold tm. by rewrite back_foldl, reverse_involutive.
  Qed.

  (** ** Monotonicity *)
  Lemma tm_arrival_le_start v x A : tm_arrival (tm v x A) <= tm_start (tm v x A).
  Proof. rewrite tm_start_eq. lia. Qed.
  Lemma tm_start_le_departure v x A :
    sane_durations -> tm_start (tm v x A) <= tm_departure (tm v x A).
  Proof. intros Hd. rewrite tm_departure_eq. pose proof (visit_duration_nonneg x Hd). lia. Qed.
  Lemma back_le_arrival v x A : leg_time (back v A) <= tm_arrival (tm v x A).
  Proof. rewrite tm_arrival_eq. pose proof (dist_nonneg (leg_place (back v A)) (vi_place x)). lia. Qed.
  Lemma back_mono v B A : sane_durations -> leg_time (back v A) <= leg_time (back v (B ++ A)).
  Proof.
    intros Hd. induction B as [|x B IH]; cbn [app]; [lia|].
    rewrite back_cons. cbn.
    pose proof (back_le_arrival v x (B ++ A)).
    pose proof (tm_arrival_le_start v x (B ++ A)).
    pose proof (tm_start_le_departure v x (B ++ A) Hd). lia.
  Qed.

  (** load along the way *)
  Lemma sum_of_app a b : sum_of (a ++ b) = sum_of a + sum_of b.
  Proof. unfold sum_of. induction a as [|y l IH]; cbn; [done|]. lia. Qed.
  Lemma weight_app a b : weight (a ++ b) = weight a + weight b.
  Proof. unfold weight. by rewrite map_app, sum_of_app. Qed.
  Lemma boards_app a b : boards (a ++ b) = boards a ++ boards b.
  Proof. apply flat_map_app. Qed.
  Lemma alights_app a b : alights (a ++ b) = alights a ++ alights b.
  Proof. apply flat_map_app. Qed.
  Lemma back_load v A :
    leg_load (back v A) = weight (boards (reverse A)) - weight (alights (reverse A)).
  Proof.
    induction A as [|x A IH]; [done|].
    rewrite back_cons. unfold leg_load at 1. cbn [snd]. rewrite tm_load_eq, IH.
    rewrite reverse_cons, boards_app, alights_app, !weight_app.
    unfold boards at 3, alights at 3. cbn [flat_map]. rewrite !app_nil_r. lia.
  Qed.
  Lemma zsum_sum_of l : zsum l = sum_of l.
  Proof. done. Qed.
End sched.
