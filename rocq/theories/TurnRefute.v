(** 2-opt: routes it could still improve. *)
From Verif Require Export TwoOptSettled WitnessTurns ShiftTheorems CalmCheck AdmissibleCheck.

Lemma c80_busy `{W : World} : forall h pl, single_stops h pl -> no_idle_stops h pl.
Proof.
  intros h pl S r v ids xs Hr R Hl E. destruct (S r v ids xs Hr R) as (x0 & mid & xn & -> & F).
  assert (Hal : alights (x0 :: mid ++ [xn]) = []).
  { pose proof (rides_all _ (tour_rides _ _ (proj2 R))) as P. rewrite E in P. symmetry in P. by apply Permutation_nil in P. }
  destruct mid as [|x mid]; [cbn in Hl; lia|]. inversion F as [|? ? Hx _]; subst. unfold events in Hx.
  assert (Hin : x ∈ x0 :: (x :: mid) ++ [xn]) by (right; left).
  assert (E1 : vi_board x = []).
  { destruct (vi_board x) as [|t l] eqn:Eb; [done|]. assert (t ∈ boards (x0 :: (x :: mid) ++ [xn])); [|rewrite E in H; inversion H].
    apply elem_of_boards. exists x. split; [done|]. rewrite Eb. left. }
  assert (E2 : vi_alight x = []).
  { destruct (vi_alight x) as [|t l] eqn:Eb; [done|]. assert (t ∈ alights (x0 :: (x :: mid) ++ [xn])); [|rewrite Hal in H; inversion H].
    apply elem_of_alights. exists x. split; [done|]. rewrite Eb. left. }
  by rewrite E1, E2 in Hx.
Qed.
Lemma one_each_single `{W : World} h r : one_each h [r].
Proof.
  intros i j q q' v ids ids' xs xs' Hi Hj _ _. apply lookup_lt_Some in Hi, Hj. cbn in Hi, Hj. lia.
Qed.
Lemma lex_unpack x y : bool_decide (lex_lt x y) = true -> lex_lt x y.
Proof. apply bool_decide_eq_true. Qed.

Lemma c80_refuted : exists (W : World) fuel o threshold h vs ts initial pl h' r v ids xs ys i k,
  sane /\ tidy h /\ honest h /\ valid_planning h vs ts initial /\ single_stops h initial /\ (1 <= threshold)%nat /\
  local_search_optimize fuel TwoOpt o threshold initial h = (Ok pl, h') /\ one_each h' pl /\
  r ∈ pl /\ on_tour h' r v ids xs /\ better_turn o v xs ys i k.
Proof.
  exists line, 1%nat, DialARide, 1%nat, pair_line, [0%nat], (@boards (visits_of pair_line 2)), [2%nat], [2%nat], same_line, 2%nat, 0%nat.
  exists (stops_in same_line 2), (visits_of same_line 2), (turned 1 2 (visits_of same_line 2)), 1%nat, 2%nat.
  split; [apply line_sane|]. split; [apply tidyb_sound; reflexivity|]. split; [apply never_denied_honest; vm_compute; reflexivity|].
  assert (R : @on_tour line pair_line 2 0 (stops_in pair_line 2) (visits_of pair_line 2)) by (apply on_tourb_sound; reflexivity).
  destruct (@valid_one line _ _ _ _ _ R) as [V S]; [apply simpleb_sound; reflexivity|].
  split; [exact V|]. split; [exact S|]. split; [lia|]. split; [vm_compute; reflexivity|]. split; [apply one_each_single|].
  split; [left|]. split; [apply on_tourb_sound; reflexivity|].
  split; [lia|]. split; [lia|]. split; [vm_compute; lia|]. split; [done|]. split; [apply tourb_sound; reflexivity|].
  split; [apply admissibleb_sound; vm_compute; reflexivity|]. apply lex_unpack. vm_compute. reflexivity.
Qed.

Lemma c80_refuted_twice : exists (W : World) fuel o threshold h vs ts initial pl h' r v ids xs ys i k,
  sane /\ tidy h /\ honest h /\ valid_planning h vs ts initial /\ single_stops h initial /\ (1 <= threshold)%nat /\
  local_search_optimize fuel TwoOpt o threshold initial h = (Ok pl, h') /\
  r ∈ pl /\ on_tour h' r v ids xs /\ better_turn o v xs ys i k /\ tried i k (length xs).
Proof.
  exists line, 2%nat, DialARide, 1%nat, back_line, [0%nat], (@boards (visits_of back_line 4)), [4%nat], [6; 7]%nat, twice_line, 6%nat, 0%nat.
  exists (stops_in twice_line 6), (visits_of twice_line 6), (turned 2 3 (visits_of twice_line 6)), 2%nat, 3%nat.
  split; [apply line_sane|]. split; [apply tidyb_sound; reflexivity|]. split; [apply never_denied_honest; vm_compute; reflexivity|].
  assert (R : @on_tour line back_line 4 0 (stops_in back_line 4) (visits_of back_line 4)) by (apply on_tourb_sound; reflexivity).
  destruct (@valid_one line _ _ _ _ _ R) as [V S]; [apply simpleb_sound; reflexivity|].
  split; [exact V|]. split; [exact S|]. split; [lia|]. split; [vm_compute; reflexivity|].
  split; [left|]. split; [apply on_tourb_sound; reflexivity|]. split; [|left; lia].
  split; [lia|]. split; [lia|]. split; [vm_compute; lia|]. split; [done|]. split; [apply tourb_sound; reflexivity|].
  split; [apply admissibleb_sound; vm_compute; reflexivity|]. apply lex_unpack. vm_compute. reflexivity.
Qed.
