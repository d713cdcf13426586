(** A computable check of the feasibility conditions, for the examples. *)
From Verif Require Export Checker.

Section admissible_check.
  Context {W : World}.

  Definition rideb (v : nat) (xs : list visit) (i j : nat) : bool :=
    match xs !! i, xs !! j, timetable v xs !! i, timetable v xs !! j with
    | Some x, Some y, Some Ti, Some Tj =>
        forallb (fun t => negb (bool_decide (t ∈ vi_alight y)) || ride_okb v t x y Ti Tj) (vi_board x)
    | _, _, _, _ => true
    end.
  Definition admissibleb (v : nat) (xs : list visit) : bool :=
    match head xs, last xs, head (timetable v xs), last (timetable v xs) with
    | Some x0, Some xn, Some T0, Some Tn =>
        bool_decide (vi_place x0 = v_origin_position v) && bool_decide (vi_place xn = v_destination_position v) &&
        lim_ge (tm_departure Tn) (lim_add (v_destination_latest v) eb) &&
        lim_ge (tm_departure Tn - tm_departure T0) (lim_add (v_timeout v) eb) &&
        forallb (fun i => forallb (fun j => rideb v xs i j) (seq 0 (length xs))) (seq 0 (length xs))
    | _, _, _, _ => false
    end.
  Lemma admissibleb_sound v xs : admissibleb v xs = true -> admissible v xs.
  Proof.
    intros H. destruct xs as [|x xs0]; [done|]. apply route_okb_admissible; [done|]. set (xs := x :: xs0) in *.
    unfold admissibleb in H.
    destruct (head xs) as [x0|] eqn:E1; [|done]. destruct (last xs) as [xn|] eqn:E2; [|done].
    destruct (head (timetable v xs)) as [T0|] eqn:E3; [|done]. destruct (last (timetable v xs)) as [Tn|] eqn:E4; [|done].
    rewrite !andb_true_iff, !bool_decide_eq_true, !lim_ge_add in H. destruct H as [[[[H1 H2] H3] H4] H5].
    exists x0, xn, T0, Tn. do 8 (split; [done|]).
    intros t i j y z Ti Tj (y' & z' & Hy' & Hz' & Hb & Ha) Hy Hz HTi HTj.
    rewrite Hy in Hy'. rewrite Hz in Hz'. injection Hy' as <-. injection Hz' as <-.
    assert (Hi : i ∈ seq 0 (length xs)) by (apply elem_of_seq; apply lookup_lt_Some in Hy; lia).
    assert (Hj : j ∈ seq 0 (length xs)) by (apply elem_of_seq; apply lookup_lt_Some in Hz; lia).
    apply elem_of_list_In in Hi, Hj. rewrite forallb_forall in H5. specialize (H5 i Hi).
    rewrite forallb_forall in H5. specialize (H5 j Hj). unfold rideb in H5. rewrite Hy, Hz, HTi, HTj in H5.
    rewrite forallb_forall in H5. apply elem_of_list_In in Hb. specialize (H5 t Hb).
    rewrite bool_decide_eq_true_2 in H5 by done. done.
  Qed.
End admissible_check.
