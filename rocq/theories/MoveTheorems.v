(** C74: search by reallocation takes a best move and ends where none is left. *)
From Verif Require Export MoveProofs.
From Verif Require Import MissProofs Reads.

Section local_optimum.
  Context {W : World}.
  #[local] Existing Instance simple_shape.

  Lemma open_Movable o h pl gain : open_move o h pl gain <->
    exists q r v w t i j, q ∈ pl /\ r ∈ pl /\ q <> r /\ Movable o h q r v w t i j gain.
  Proof.
    split.
    - intros (q & r & v & w & ids & ids' & xs & ys & t & i & j & Hq & Hr & Hne & R & R' & H16 & Hm). exists q, r, v, w, t, i, j.
      do 3 (split; [done|]). exists ids, ids', xs, ys. by rewrite <- !on_tour_RouteOK.
    - intros (q & r & v & w & t & i & j & Hq & Hr & Hne & ids & ids' & xs & ys & R & R' & H16 & Hm).
      exists q, r, v, w, ids, ids', xs, ys, t, i, j. do 3 (split; [done|]). by rewrite !on_tour_RouteOK.
  Qed.
  (** routes of a planning as they were *)
  Lemma open_move_kept o h h' pl A gain : Plan h pl A -> routes_kept h h' -> open_move o h' pl gain -> open_move o h pl gain.
  Proof.
    intros P [_ K] (q & r & v & w & ids & ids' & xs & ys & t & i & j & Hq & Hr & Hne & [R T] & [R' T'] & H16 & Hm).
    destruct (Plan_served _ _ _ _ P Hq) as (v1 & B1 & ids1 & L1 & [R1 T1] & _). destruct (Plan_served _ _ _ _ P Hr) as (v2 & B2 & ids2 & L2 & [R2 T2] & _).
    apply well_formed_RouteW in R1, R2. pose proof (K _ _ _ _ R1) as K1. pose proof (K _ _ _ _ R2) as K2.
    apply well_formed_RouteW in K1, K2, R, R'.
    destruct (RouteW_det _ _ _ _ _ _ _ _ K1 R) as (-> & -> & ->). destruct (RouteW_det _ _ _ _ _ _ _ _ K2 R') as (-> & -> & ->).
    exists q, r, v, w, ids, ids', xs, ys, t, i, j. by repeat (split; [done|]).
  Qed.

  Definition settled (o : objective) (h : heap) (pl : planning) : Prop := forall gain, open_move o h pl gain -> gain <= 0.
  Lemma round_settled o h best A cur h1 h2 : sane -> HInv h -> Worth false h -> Plan h best A ->
    ls_improve Reallocation o best h = (Ok cur, h1) -> objective_best o [best; cur] h1 = (Ok (Some 0%nat), h2) -> settled o h best.
  Proof.
    intros Hs HI Wf P E1 E2 gain Hg. apply open_Movable in Hg as (q & r & v & w & t & i & j & Hq & Hr & Hne & Mv).
    destruct (Plan_sold o h best A P) as (z & Z & Wx).
    pose proof (improve_runs o h best A z Hs HI (False_ind _) P Z) as G. apply runs_eq in G as (cur' & h1' & E1' & Ev & HI1 & A' & P' & I).
    rewrite E1 in E1'. injection E1' as <- <-. destruct (Improved_same _ _ _ _ _ _ I) as [K T].
    pose proof (improve_hits o h best A z q r v w t i j gain Hs HI Wf P Z Hq Hr Hne Mv) as G. apply runs_eq in G as (cur' & h1' & E1' & z1 & Z1 & Hz).
    rewrite E1 in E1'. injection E1' as <- <-.
    destruct (Plan_sold o h1 cur A' P') as (z' & Z' & Wy). pose proof (Sold_det _ _ _ _ _ Z' Z1) as ->.
    assert (G1 : routes_kept h h1).
    { apply grow_kept, untouched_grow. pose proof (ls_improve_framed Reallocation o best h) as U. by rewrite E1 in U. }
    pose proof (total_worth_kept _ _ _ _ _ G1 Wx) as W1.
    destruct (objective_best_eq o h1 [best; cur]) as (res & h2' & E2' & _ & Hw).
    { intros pl [->|[->|H]%elem_of_cons]%elem_of_cons; [eapply Plan_planned, Plan_evolves; [exact Ev|exact P]|by eapply Plan_planned|inversion H]. }
    rewrite E2 in E2'. injection E2' as <- <-. destruct Hw as (pl & x & [= <-] & Wx' & _ & Hn).
    pose proof (total_worth_det _ _ _ _ _ Wx' W1) as ->. specialize (Hn 1%nat cur _ ltac:(lia) eq_refl Wy).
    destruct (Z.le_gt_cases z1 z) as [|Hlt]; [lia|]. exfalso. apply Hn. destruct o.
    - rewrite T. apply lex_later, lex_here. done.
    - by apply lex_here.
    - by apply lex_here.
  Qed.

  Lemma loop_settled o threshold fuel : sane -> (1 <= threshold)%nat -> forall count best A h pl h', HInv h -> Worth false h -> Plan h best A ->
    ((1 <= count)%nat -> settled o h best) ->
    ls_loop fuel Reallocation o threshold count best h = (Ok pl, h') -> settled o h' pl.
  Proof.
    intros Hs Hth. induction fuel as [|fuel IH]; intros count best A h pl h' HI Wf P Hc; cbn [ls_loop].
    { destruct (Nat.ltb_spec count threshold) as [Hlt|Hlt]; [done|]. intros [= <- <-]. apply Hc. lia. }
    destruct (Nat.ltb_spec count threshold) as [Hlt|Hlt]; [|intros [= <- <-]; apply Hc; lia].
    destruct (Plan_worth o h best A P) as (x & Wx & _).
    destruct (ls_round (Sh := simple_shape) o h best A x Hs HI (False_ind _) P Wx) as (cur & w & h1 & h2 & A' & R1 & R2 & HI2 & [Ev2 K2] & P2 & P' & F1 & F2 & W2 & Hw).
    rewrite (bind_ok _ _ _ _ _ R1), (bind_ok _ _ _ _ _ R2).
    assert (Wf2 : Worth false h2) by (by apply Ev2).
    destruct Hw as [[-> _]| ->].
    - apply (IH 0%nat cur A' h2 pl h' HI2 Wf2 P'). lia.
    - apply (IH (S count) best A h2 pl h' HI2 Wf2 P2). intros _ gain Hg. apply (round_settled o h best A cur h1 h2 Hs HI Wf P R1 R2).
      exact (open_move_kept o h h2 best A gain P K2 Hg).
  Qed.

  Lemma without_similar v t L L' : (forall x, L !! 1%nat = Some x -> ~ mentions t x) -> tour v L -> tour v L' -> similar v L L' ->
    similar v (without t L) (without t L').
  Proof.
    intros Hx T T' (E1 & E2 & E3).
    destruct (tour_first _ _ T) as (x0 & rest & -> & Hr & _ & B0 & A0). destruct (tour_first _ _ T') as (y0 & rest' & -> & _ & _ & B0' & A0').
    cbn in E2. rewrite !drop_0 in E2. subst rest'. destruct rest as [|x1 X]; [done|].
    assert (Hm : ~ mentions t x1) by by apply Hx.
    assert (EZ : forall z, vi_board z = [] -> vi_alight z = [] -> without t (z :: x1 :: X) = z :: x1 :: without t X).
    { intros z Hz1 Hz2. unfold without. rewrite filter_cons_True by (rewrite Hz1, Hz2; apply not_elem_of_nil). f_equal.
      rewrite filter_cons_True; [done|]. unfold mentions in Hm. by rewrite elem_of_app. }
    rewrite !EZ by done. set (Y := without t X). clearbody Y. split; [|split].
    - cbn in E1 |- *. assert (E : anytime x0 = anytime y0) by congruence. by rewrite E.
    - done.
    - set (T1 := fun z => advance (leave z (advance (ready v) z)) x1).
      assert (ET : forall z Y, drop 1 (map service_of (timetable v (z :: x1 :: Y))) =
        service_of (T1 z) :: map service_of (schedule (leave x1 (T1 z)) Y)) by done.
      rewrite ET, ET in E3. rewrite ET, ET. clearbody T1.
      assert (E : service_of (T1 x0) = service_of (T1 y0)) by congruence. rewrite E. do 2 f_equal.
      apply service_of_eq in E as (_ & E4 & E5). unfold leave. by rewrite E4, E5.
  Qed.
  Lemma similar_dedicated v t L L' : tour v L -> tour v L' -> similar v L L' -> dedicated t L -> dedicated t L'.
  Proof.
    intros T T' (_ & E2 & _) D.
    destruct (tour_first _ _ T) as (x0 & rest & -> & _ & _ & B0 & A0). destruct (tour_first _ _ T') as (y0 & rest' & -> & _ & _ & B0' & A0').
    cbn in E2. rewrite !drop_0 in E2. subst rest'. intros x [->|Hx]%elem_of_cons M; [|apply D; [by right|done]].
    exfalso. unfold mentions in M. rewrite B0', A0' in M. destruct M as [M|M]; inversion M.
  Qed.
End local_optimum.

#[local] Existing Instance simple_shape.
Lemma c74_best_move `{W : World} : forall o h vs ts initial,
  sane -> tidy h -> honest h -> valid_planning h vs ts initial -> single_stops h initial ->
  exists pl h' x y a b, ls_improve Reallocation o initial h = (Ok pl, h') /\
    total_worth o h initial x /\ total_worth o h' pl y /\ last x = Some a /\ last y = Some b /\
    a <= b /\ forall gain, open_move o h initial gain -> a + gain <= b.
Proof.
  intros o h vs ts initial Hs HT Hh V G. apply tidy_HInv in HT. pose proof (proj1 (honest_Worth h HT) Hh) as Wf.
  destruct (valid_Plan _ _ _ _ V (proj1 (single_good _ _) G)) as (A & P & EK & EU). destruct (Plan_sold o h initial A P) as (z & Z & Wx).
  pose proof (improve_runs o h initial A z Hs HT (False_ind _) P Z) as R. apply runs_eq in R as (pl & h' & E & Ev & HI & A' & P' & I).
  destruct (Plan_sold o h' pl A' P') as (z' & Z' & Wy). eexists pl, h', _, _, z, z'.
  split; [done|]. split; [exact Wx|]. split; [exact Wy|]. split; [by destruct o|]. split; [by destruct o|]. split.
  { destruct I as [[_ HZ]|(_ & z1 & Hz & HZ)]; rewrite (Sold_det _ _ _ _ _ Z' HZ); lia. }
  intros gain (q & r & v & w & t & i & j & Hq & Hr & Hne & Mv)%open_Movable.
  pose proof (improve_hits o h initial A z q r v w t i j gain Hs HT Wf P Z Hq Hr Hne Mv) as H. apply runs_eq in H as (pl1 & h1 & E1 & z1 & Z1 & Hz).
  rewrite E in E1. injection E1 as <- <-. by rewrite (Sold_det _ _ _ _ _ Z' Z1).
Qed.
Lemma c74_local_optimum `{W : World} : forall fuel o threshold h vs ts initial pl h',
  sane -> tidy h -> honest h -> valid_planning h vs ts initial -> single_stops h initial -> (1 <= threshold)%nat ->
  local_search_optimize fuel Reallocation o threshold initial h = (Ok pl, h') ->
  forall gain, open_move o h' pl gain -> gain <= 0.
Proof.
  intros fuel o threshold h vs ts initial pl h' Hs HT Hh V G Hth E. apply tidy_HInv in HT. pose proof (proj1 (honest_Worth h HT) Hh) as Wf.
  destruct (valid_Plan _ _ _ _ V (proj1 (single_good _ _) G)) as (A & P & EK & EU).
  eapply loop_settled; [done|done|done|done|exact P| |exact E]. lia.
Qed.
(** behind the first visit of both vehicles *)
Lemma c74_later `{W : World} : forall o v xs w ys t i j,
  tour v xs -> tour w ys -> t ∈ boards xs -> dedicated t xs -> t ∉ boards ys ->
  (forall x, xs !! 1%nat = Some x -> ~ mentions t x) -> (1 <= i < j)%nat -> (j < length ys)%nat ->
  fits v (without t xs) -> fits w (serve t i j ys) ->
  move o v xs w ys t i j (price o v (without t xs) + price o w (serve t i j ys) - price o v xs - price o w ys).
Proof.
  intros o v xs w ys t i j T1 T2 Ht D Ht' Hf Hi Hj F1 F2. split; [done|]. split; [lia|].
  intros xs' ys' T1' S1 T2' S2. pose proof (without_similar v t xs xs' Hf T1 T1' S1) as S3.
  pose proof (serve_similar w t i j ys ys' ltac:(lia) ltac:(lia) S2) as S4.
  assert (T3 : tour v (without t xs')) by (apply tour_without; [exact (similar_dedicated v t xs xs' T1 T1' S1 D)|done]).
  assert (T4 : tour w (serve t i j ys')).
  { apply tour_serve; [done|by rewrite <- (boards_anytime ys'), <- (proj1 S2), boards_anytime|].
    rewrite <- (similar_tour _ _ _ T2' S2). lia. }
  split; [exact (similar_fits v _ _ T3 S3 F1)|]. split; [exact (similar_fits w _ _ T4 S4 F2)|].
  unfold price. rewrite <- (value_similar o v (without t xs) (without t xs')), <- (value_similar o w (serve t i j ys) (serve t i j ys')); try done.
  - by apply tour_serve; [| |lia].
  - by apply tour_without.
Qed.
