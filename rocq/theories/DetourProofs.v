(** Leaving out the visits of one trip. *)
From Verif Require Import SpecDetour Choices RepresentsProofs RemoveProofs SchedProofs TourProofs.

Section detour.
  Context {W : World}.
  Lemma no_shortcuts_sub ps qs : (forall p, p ∈ qs -> p ∈ ps) -> no_shortcuts ps -> no_shortcuts qs.
  Proof. intros H N a b c Ha Hb Hc. apply N; auto. Qed.

  (** being no later than [l] at all these places, with at least [k] less on board *)
  Definition before (ps : list position) (k : Z) (l' l : leg) : Prop :=
    (forall p, p ∈ ps -> l'.1.1 + dist l'.1.2 p <= l.1.1 + dist l.1.2 p) /\ l'.2 + k <= l.2.
  Definition sooner_by (k : Z) (T T' : timing) : Prop :=
    tm_arrival T <= tm_arrival T' /\ tm_start T <= tm_start T' /\ tm_departure T <= tm_departure T' /\ tm_load T + k <= tm_load T'.
  Fixpoint finish (l : leg) (xs : list visit) : leg :=
    match xs with [] => l | x :: xs => finish (leave x (advance l x)) xs end.
  Lemma schedule_finish l xs ys : schedule l (xs ++ ys) = schedule l xs ++ schedule (finish l xs) ys.
  Proof. revert l. induction xs as [|x xs IH]; intros l; cbn; [done|]. by rewrite IH. Qed.

  Lemma before_advance ps k l' l x : vi_place x ∈ ps -> before ps k l' l ->
    sooner_by k (advance l' x) (advance l x) /\ before ps k (leave x (advance l' x)) (leave x (advance l x)).
  Proof.
    destruct l' as [[n' p'] w'], l as [[n p] w]. intros Hx [B1 B2]. specialize (B1 _ Hx). cbn in B1, B2.
    assert (S : sooner_by k (advance (n', p', w') x) (advance (n, p, w) x)).
    { unfold sooner_by, advance. cbn. destruct (vi_request x); cbn; lia. }
    split; [done|]. destruct S as (_ & _ & S3 & S4). split; [intros q _; cbn in *; lia|exact S4].
  Qed.
  Lemma before_same ps k xs : forall l' l, (forall x, x ∈ xs -> vi_place x ∈ ps) -> before ps k l' l ->
    Forall2 (sooner_by k) (schedule l' xs) (schedule l xs) /\ before ps k (finish l' xs) (finish l xs).
  Proof.
    induction xs as [|x xs IH]; intros l' l Hp B; cbn; [by split|].
    destruct (before_advance ps k l' l x) as [S B']; [apply Hp; left|done|].
    destruct (IH _ _ ltac:(intros y Hy; apply Hp; by right) B') as [F B2]. split; [by constructor|done].
  Qed.
  Lemma before_skip ps k l' l x : sane_durations -> no_shortcuts (l.1.2 :: ps) -> vi_place x ∈ ps -> before ps k l' l ->
    before ps (k + weight (vi_board x) - weight (vi_alight x)) l' (leave x (advance l x)).
  Proof.
    destruct l' as [[n' p'] w'], l as [[n p] w]. intros SD N Hx [B1 B2]. cbn in *. split; cbn; [|lia].
    intros q Hq. specialize (B1 q Hq). cbn in B1. pose proof (N p (vi_place x) q ltac:(left) ltac:(by right) ltac:(by right)).
    pose proof (visit_duration_nonneg x SD). lia.
  Qed.
  Lemma finish_place l xs : (finish l xs).1.2 = match last xs with Some x => vi_place x | None => l.1.2 end.
  Proof.
    revert l. induction xs as [|x xs IH]; intros l; cbn [finish]; [done|]. rewrite IH. destruct xs as [|y xs]; [done|].
    change (last (x :: y :: xs)) with (last (y :: xs)). destruct (last (y :: xs)) eqn:E; [done|]. by apply last_None in E.
  Qed.
  Lemma finish_place_in l xs (ps : list position) : l.1.2 ∈ ps -> (forall x, x ∈ xs -> vi_place x ∈ ps) -> (finish l xs).1.2 ∈ ps.
  Proof. intros Hl Hx. rewrite finish_place. destruct (last xs) eqn:E; [|done]. apply Hx. by apply last_Some_elem_of. Qed.

  (** the schedule of the remaining visits *)
  Lemma detour_schedule v t A x B y C : sane -> vi_board x = [t] -> vi_alight x = [] -> vi_board y = [] -> vi_alight y = [t] ->
    no_shortcuts (v_origin_position v :: map vi_place (A ++ x :: B ++ y :: C)) ->
    exists TA TB TC Tx Ty, timetable v (A ++ x :: B ++ y :: C) = TA ++ Tx :: TB ++ Ty :: TC /\
      length TA = length A /\ length TB = length B /\ length TC = length C /\
      exists TB' TC', timetable v (A ++ B ++ C) = TA ++ TB' ++ TC' /\
        Forall2 sooner TB' TB /\ Forall2 sooner TC' TC.
  Proof.
    intros [SD SC] Bx Ax By Ay N. set (ps := v_origin_position v :: map vi_place (A ++ x :: B ++ y :: C)) in *.
    assert (P : forall z, z ∈ A ++ x :: B ++ y :: C -> vi_place z ∈ ps) by (intros z Hz; right; apply elem_of_list_fmap; by exists z).
    unfold timetable. set (lA := finish (ready v) A).
    assert (HA : lA.1.2 ∈ ps) by (apply finish_place_in; [left|intros z Hz; apply P; set_solver]).
    set (Tx := advance lA x). set (lx := leave x Tx). set (lB := finish lx B). set (Ty := advance lB y). set (ly := leave y Ty).
    exists (schedule (ready v) A), (schedule lx B), (schedule ly C), Tx, Ty.
    split. { rewrite schedule_finish. cbn [schedule]. fold lA Tx lx. rewrite schedule_finish. done. }
    split; [apply schedule_length|]. split; [apply schedule_length|]. split; [apply schedule_length|].
    exists (schedule lA B), (schedule (finish lA B) C). split; [by rewrite !schedule_finish|].
    assert (W0 : 0 <= weight [t]) by by apply weight_nonneg.
    assert (B0 : before ps 0 lA lA) by (split; [done|lia]).
    assert (B1 : before ps (0 + weight [t] - 0) lA lx).
    { replace (0 + weight [t] - 0) with (0 + weight (vi_board x) - weight (vi_alight x)) by (by rewrite Bx, Ax).
      apply before_skip; [done| |apply P; set_solver|done]. eapply no_shortcuts_sub; [|exact N]. intros p [->|Hp]%elem_of_cons; done. }
    destruct (before_same ps _ B lA lx ltac:(intros z Hz; apply P; set_solver) B1) as [F1 B2].
    assert (HB : lB.1.2 ∈ ps) by (apply finish_place_in; [cbn; apply P; set_solver|intros z Hz; apply P; set_solver]).
    assert (B3 : before ps (0 + weight [t] - 0 + 0 - weight [t]) (finish lA B) ly).
    { replace (0 + weight [t] - 0 + 0 - weight [t]) with (0 + weight [t] - 0 + weight (vi_board y) - weight (vi_alight y)) by (by rewrite By, Ay).
      apply before_skip; [done| |apply P; set_solver|done]. eapply no_shortcuts_sub; [|exact N]. intros p [->|Hp]%elem_of_cons; done. }
    destruct (before_same ps _ C _ ly ltac:(intros z Hz; apply P; set_solver) B3) as [F2 _].
    split; (eapply Forall2_impl; [eassumption|]); intros T T' (?&?&?&?); repeat split; lia.
  Qed.

  Definition shifted (a b i : nat) : nat := if decide (i < a)%nat then i else if decide (i < a + b)%nat then S i else S (S i).
  Lemma shifted_lookup {X} (A B C : list X) x y i :
    (A ++ x :: B ++ y :: C) !! shifted (length A) (length B) i = (A ++ B ++ C) !! i.
  Proof.
    unfold shifted. destruct (decide (i < length A)%nat) as [H|H]; [by rewrite !lookup_app_l by done|].
    rewrite (lookup_app_r A (B ++ C)) by lia. destruct (decide (i < length A + length B)%nat) as [H1|H1].
    - rewrite lookup_app_r by lia. replace (S i - length A)%nat with (S (i - length A)) by lia. cbn. rewrite (lookup_app_l B (y :: C)), (lookup_app_l B C) by lia. done.
    - rewrite lookup_app_r by lia. replace (S (S i) - length A)%nat with (S (S (i - length A))) by lia. cbn.
      rewrite (lookup_app_r B (y :: C)), (lookup_app_r B C) by lia. replace (S (i - length A) - length B)%nat with (S (i - length A - length B)) by lia. done.
  Qed.
  Lemma dedicated_visits t xs : rides xs -> t ∈ boards xs -> dedicated t xs ->
    exists A x B y C, xs = A ++ x :: B ++ y :: C /\ vi_board x = [t] /\ vi_alight x = [] /\ vi_board y = [] /\ vi_alight y = [t] /\
      without t xs = A ++ B ++ C /\ (forall z, z ∈ A ++ B ++ C -> ~ mentions t z).
  Proof.
    intros R Ht D. destruct (rides_trip_split t xs R Ht) as (A & x & B & y & C & -> & Hx & Hy & Hn).
    exists A, x, B, y, C. split; [done|].
    assert (Ex : events x = 1%nat) by (apply D; [set_solver|by left]). assert (Ey : events y = 1%nat) by (apply D; [set_solver|by right]).
    unfold events in Ex, Ey. split; [|split; [|split; [|split; [|split; [|done]]]]].
    - destruct (vi_board x) as [|a [|b l]]; cbn in Ex; [inversion Hx| |lia]. by apply elem_of_list_singleton in Hx as ->.
    - destruct (vi_board x) as [|a l]; [inversion Hx|]. cbn in Ex. destruct (vi_alight x); [done|cbn in Ex; lia].
    - destruct (vi_alight y) as [|a l]; [inversion Hy|]. cbn in Ey. destruct (vi_board y); [done|cbn in Ey; lia].
    - destruct (vi_alight y) as [|a [|b l]]; cbn in Ey; [inversion Hy| |lia]. by apply elem_of_list_singleton in Hy as ->.
    - apply without_split; [by left|by right|done].
  Qed.
  Lemma sooner_refl T : sooner T T.
  Proof. unfold sooner. lia. Qed.
  Lemma Forall2_sooner_refl l : Forall2 sooner l l.
  Proof. induction l; constructor; [apply sooner_refl|done]. Qed.

  Lemma without_schedule v t xs : sane -> tour v xs -> t ∈ boards xs -> dedicated t xs -> no_shortcuts (v_origin_position v :: map vi_place xs) ->
    exists f : nat -> nat, (forall i, i <= f i <= i + 2)%nat /\ (forall i j, i < j -> f i < f j)%nat /\ f 0%nat = 0%nat /\
      S (f (length (without t xs) - 1)%nat) = length xs /\
      (forall i, without t xs !! i = xs !! f i) /\
      (forall i T, timetable v (without t xs) !! i = Some T -> exists T', timetable v xs !! f i = Some T' /\ sooner T T').
  Proof.
    intros Sn T Ht D N. destruct (dedicated_visits t xs (tour_rides _ _ T) Ht D) as (A & x & B & y & C & E & Bx & Ax & By & Ay & Ew & Hn).
    rewrite Ew. rewrite E in N. destruct (detour_schedule v t A x B y C Sn Bx Ax By Ay N) as (TA & TB & TC & Tx & Ty & E1 & L1 & L2 & L3 & TB' & TC' & E2 & F2 & F3).
    exists (shifted (length A) (length B)).
    assert (HA : (0 < length A)%nat).
    { destruct A as [|a A]; [|cbn; lia]. destruct (tour_first _ _ T) as (x0 & rest & E0 & _ & _ & B0 & _). rewrite E in E0. cbn in E0. injection E0 as -> _. congruence. }
    assert (HC : (0 < length C)%nat).
    { destruct C as [|c C]; [|cbn; lia]. destruct (tour_last _ _ T) as (front & xn & E0 & _ & _ & An). rewrite E in E0.
      rewrite app_comm_cons, app_assoc in E0. apply app_inj_tail in E0 as [_ ->]. congruence. }
    split; [intros i; unfold shifted; repeat case_decide; lia|]. split; [intros i j Hij; unfold shifted; repeat case_decide; lia|].
    split; [unfold shifted; rewrite decide_True by lia; done|].
    split. { rewrite E, !app_length. cbn. rewrite !app_length. cbn. unfold shifted. rewrite decide_False, decide_False by lia. lia. }
    split; [intros i; by rewrite E, shifted_lookup|]. intros i T' HT. rewrite E2 in HT. rewrite E, E1, <- L1, <- L2, shifted_lookup.
    assert (F : Forall2 sooner (TA ++ TB' ++ TC') (TA ++ TB ++ TC)) by (apply Forall2_app; [apply Forall2_sooner_refl|by apply Forall2_app]).
    destruct (Forall2_lookup_l _ _ _ _ _ F HT) as (T2 & H2 & S2). eauto.
  Qed.

  Lemma sooner_at_most x y l : x <= y -> at_most y l -> at_most x l.
  Proof. destruct l; cbn; [lia|done]. Qed.
  Lemma timetable_earliest v xs i x T : xs !! i = Some x -> timetable v xs !! i = Some T -> visit_earliest x <= tm_start T.
  Proof.
    unfold timetable. generalize (ready v) as l. revert i. induction xs as [|z xs IH]; intros [|i] l; cbn; try done; [|apply IH].
    intros [= ->] [= <-]. destruct l as [[n p] w]. cbn. lia.
  Qed.
  Lemma sooner_on_time v xs i x T T' : xs !! i = Some x -> timetable v xs !! i = Some T -> sooner T T' -> on_time v x T' -> on_time v x T.
  Proof.
    intros Hx HT (_ & S2 & _ & S4) (O1 & O2 & O3). pose proof (timetable_earliest v xs i x T Hx HT) as E. unfold visit_earliest in E.
    pose proof (eq_refl : eb = Zpos w_eb) as Eb. split; [|split].
    - intros u Hu. destruct (O1 u Hu) as [_ O]. split; [|by eapply sooner_at_most].
      assert (origin_earliest (w_trip u) <= tm_start T); [|lia]. etransitivity; [|exact E]. apply max_or_ge, elem_of_app. left. apply elem_of_list_fmap. eauto.
    - intros u Hu. destruct (O2 u Hu) as [_ O]. split; [|by eapply sooner_at_most].
      assert (destination_earliest (w_trip u) <= tm_start T); [|lia]. etransitivity; [|exact E]. apply max_or_ge, elem_of_app. right. apply elem_of_list_fmap. eauto.
    - by eapply sooner_at_most.
  Qed.
  Lemma last_nth {X} (l : list X) : last l = l !! (length l - 1)%nat.
  Proof. rewrite last_lookup. f_equal. lia. Qed.
  Lemma without_admissible v t xs : sane -> tour v xs -> t ∈ boards xs -> dedicated t xs -> no_shortcuts (v_origin_position v :: map vi_place xs) ->
    (forall u, u ∈ boards xs -> u <> t -> tr_timeout (w_trip u) = Inf) ->
    admissible v xs -> admissible v (without t xs).
  Proof.
    intros Sn T Ht D N Hlim [A1 A2 A3 A4 A5]. destruct (without_schedule v t xs Sn T Ht D N) as (f & F1 & F2 & F3 & F4 & F5 & F6).
    pose proof (tour_without v t xs D T) as T'. set (ys := without t xs) in *.
    assert (HL : length (timetable v xs) = length xs) by apply schedule_length.
    assert (HL' : length (timetable v ys) = length ys) by apply schedule_length.
    assert (LT : forall U, last (timetable v ys) = Some U -> exists U', last (timetable v xs) = Some U' /\ sooner U U').
    { intros U HU. rewrite last_nth, HL' in HU. destruct (F6 _ _ HU) as (U' & HU' & SU). exists U'. split; [|done].
      rewrite last_nth, HL. by replace (length xs - 1)%nat with (f (length ys - 1)%nat) by lia. }
    split.
    - destruct (tour_first _ _ T') as (x0 & rest & -> & _ & P & _). by exists x0.
    - destruct (tour_last _ _ T') as (fr & xn & -> & P & _). exists xn. by rewrite last_snoc.
    - intros U HU. destruct (LT U HU) as (U' & HU' & S1 & S2 & S3 & S4). eapply sooner_at_most; [exact S3|by apply A3].
    - intros U0 U H0 HU. destruct (LT U HU) as (U' & HU' & S1 & S2 & S3 & S4).
      assert (E0 : head (timetable v xs) = Some U0).
      { destruct (tour_first _ _ T) as (x0 & rest & E & _ & _ & B0 & A0). subst ys. rewrite E in H0 |- *.
        unfold without in H0. rewrite filter_cons_True in H0; [exact H0|]. rewrite B0, A0. apply not_elem_of_nil. }
      eapply sooner_at_most; [|by apply (A4 U0 U')]. lia.
    - intros u i j x y Ti Tj (x' & y' & Hx' & Hy' & Hu & Hv) Hx Hy HTi HTj. rewrite Hx in Hx'. injection Hx' as <-. rewrite Hy in Hy'. injection Hy' as <-.
      destruct (F6 _ _ HTi) as (Ti' & HTi' & Si), (F6 _ _ HTj) as (Tj' & HTj' & Sj).
      pose proof Hx as Hx2. pose proof Hy as Hy2. rewrite F5 in Hx2, Hy2.
      destruct (A5 u (f i) (f j) x y Ti' Tj') as (O1 & O2 & _); [by exists x, y|done..|].
      split; [exact (sooner_on_time v ys i x Ti Ti' Hx HTi Si O1)|]. split; [exact (sooner_on_time v ys j y Tj Tj' Hy HTj Sj O2)|]. rewrite Hlim; [done| |].
      + apply elem_of_boards. exists x. split; [by eapply elem_of_list_lookup_2|done].
      + intros ->. apply elem_of_list_lookup_2, without_elem in Hx as [_ Hx]. apply Hx. by left.
  Qed.
End detour.
