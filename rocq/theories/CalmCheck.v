(** Computable checks that recorded answers are right, for the examples. *)
From Verif Require Export AdmissibleCheck.
From Verif Require Import SpecCalm FairTheorems MissProofs Choices.

Section calm_check.
  Context {W : World}.
  (** all routes keep all limits, and no stop is late or overloaded *)
  Definition contentb (h : heap) : bool :=
    forallb (fun r => match h_routes h !! r with
      | Some c => on_tourb h r (rt_vehicle c) (rt_stops c) (visits_of h r) && admissibleb (rt_vehicle c) (visits_of h r) &&
          forallb (fun p : visit * timing => stop_okb (rt_vehicle c) p.1 p.2) (combine (visits_of h r) (timetable (rt_vehicle c) (visits_of h r)))
      | None => true end) (seq 0 (length (h_routes h))).
  Lemma contentb_all h r v ids xs : contentb h = true -> on_tour h r v ids xs ->
    admissible v xs /\ forall i x T, xs !! i = Some x -> timetable v xs !! i = Some T -> on_time v x T.
  Proof.
    unfold contentb. intros H R. apply on_tour_RouteOK in R. destruct (rw_cell _ _ _ _ _ (proj1 R)) as (c & Hc & V & I).
    assert (Hr : r ∈ seq 0 (length (h_routes h))) by (apply elem_of_seq; apply lookup_lt_Some in Hc; lia).
    pose proof (forallb_elem _ _ _ H Hr) as E. cbn beta in E. rewrite Hc, !andb_true_iff in E. destruct E as [[E1 E2] E3].
    apply on_tourb_sound, on_tour_RouteOK in E1. destruct (RouteW_det _ _ _ _ _ _ _ _ (proj1 R) (proj1 E1)) as (-> & -> & ->).
    split; [by apply admissibleb_sound|]. intros i x T Hx HT. apply stop_okb_on_time.
    assert (Hin : (x, T) ∈ combine (visits_of h r) (timetable (rt_vehicle c) (visits_of h r))).
    { revert Hx HT. generalize (timetable (rt_vehicle c) (visits_of h r)) as ts. generalize (visits_of h r) as ys. clear. revert i.
      intros i ys. revert i. induction ys as [|y ys IH]; intros [|i] [|t ts]; cbn; try done; [by intros [= ->] [= ->]; left|]. intros Hx HT. right. by eapply IH. }
    exact (forallb_elem _ _ _ E3 Hin).
  Qed.
  Lemma content_almost h r v ids xs : contentb h = true -> on_tour h r v ids xs -> almost v xs.
  Proof.
    intros H R. destruct (contentb_all h r v ids xs H R) as [[A1 A2 A3 A4 A5] O]. apply almost_nearly; [by apply on_tour_RouteOK in R as [_ R]|].
    split; [done|]. intros t i j Hr. assert (Hh : forall k, heeded v xs k) by (intros k x T Hx HT; split; [|intros _]; by apply (O k x T Hx HT)).
    split; [done|]. split; [done|]. intros Ti Tj HTi HTj. pose proof Hr as (x & y & Hx & Hy & _). by apply (A5 t i j x y Ti Tj).
  Qed.
  Lemma content_fair h : contentb h = true -> fair h.
  Proof.
    intros H r v ids xs R. destruct (contentb_all h r v ids xs H R) as [A O].
    pose proof (content_almost h r v ids xs H R) as N. apply almost_nearly in N; [|by apply on_tour_RouteOK in R as [_ R]].
    assert (Hh : forall k, heeded v xs k) by (intros k x T Hx HT; split; [|intros _]; by apply (O k x T Hx HT)).
    split; [|split]; [done| |done]. intros i j s d c p pc Hi Hj Hc Hp Hpc P1 P2 _. apply on_tour_RouteOK in R.
    destruct (link_of_pickup _ _ _ _ _ _ _ _ _ (proj1 R) Hi Hc Hp) as (j' & d' & dc & pc' & _ & Hj' & Hd' & Ha & Hpc' & _ & _ & P2').
    rewrite Hpc in Hpc'. injection Hpc' as <-. rewrite P2 in P2'. injection P2' as <-.
    pose proof (NoDup_lookup_eq _ _ _ _ (RouteW_NoDup _ _ _ _ _ (proj1 R)) Hj Hj') as <-.
    destruct (RouteW_lookup _ _ _ _ _ _ _ (proj1 R) Hi) as (c1 & x & Hc1 & Hx & Ex & _). rewrite Hc in Hc1. injection Hc1 as <-.
    destruct (RouteW_lookup _ _ _ _ _ _ _ (proj1 R) Hj) as (c2 & y & Hc2 & Hy & Ey & _). rewrite Hd' in Hc2. injection Hc2 as <-.
    apply N. exists x, y. split; [done|]. split; [done|].
    assert (E : pt_trip pc = trip_of h p) by (unfold trip_of; by rewrite Hpc). rewrite Ex, Ey, E. cbn. split; apply elem_of_list_fmap; by exists p.
  Qed.
  Definition never_deniedb (h : heap) : bool :=
    forallb (fun c => bool_decide (st_feasible c <> Some false)) (h_stops h) &&
    forallb (fun c => bool_decide (pt_feasible c <> Some false)) (h_pts h).
  Lemma never_denied_honest h : never_deniedb h = true -> honest h.
  Proof.
    unfold never_deniedb. rewrite andb_true_iff. intros [H1 H2] r v ids xs _. split.
    - intros i s c _ Hc Hf. exfalso. apply elem_of_list_lookup_2 in Hc. pose proof (forallb_elem _ _ _ H1 Hc) as E. by apply bool_decide_eq_true in E.
    - intros i j s d c p pc _ _ _ _ Hp _ _ Hf. exfalso. apply elem_of_list_lookup_2 in Hp. pose proof (forallb_elem _ _ _ H2 Hp) as E. by apply bool_decide_eq_true in E.
  Qed.
  Definition calmb (h : heap) (pl : list nat) : bool :=
    forallb (fun r => forallb (fun x => bool_decide (vi_request x = None)) (drop 1 (visits_of h r))) pl.
  Lemma content_untimed h pl : contentb h = true -> calmb h pl = true -> untimed h pl.
  Proof.
    intros H C r v ids xs Hr R. split.
    - apply calm_elem. intros x Hx. pose proof (forallb_elem _ _ _ C Hr) as E. cbn beta in E.
      assert (xs = visits_of h r) as ->.
      { apply on_tour_RouteOK in R. destruct (rw_cell _ _ _ _ _ (proj1 R)) as (c & Hc & V & I).
        assert (Hr' : r ∈ seq 0 (length (h_routes h))) by (apply elem_of_seq; apply lookup_lt_Some in Hc; lia).
        pose proof (forallb_elem _ _ _ H Hr') as F. cbn beta in F. rewrite Hc, !andb_true_iff in F. destruct F as [[F _] _].
        apply on_tourb_sound, on_tour_RouteOK in F. by destruct (RouteW_det _ _ _ _ _ _ _ _ (proj1 R) (proj1 F)) as (_ & _ & ->). }
      pose proof (forallb_elem _ _ _ E Hx) as F. by apply bool_decide_eq_true in F.
    - intros _. split; [by apply (content_almost h r v ids xs)|]. intros _. by apply (contentb_all h r v ids xs).
  Qed.
End calm_check.
