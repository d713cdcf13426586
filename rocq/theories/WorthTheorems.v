(** On whole numbers objective values are the same in both models. *)
From Verif Require Import TimeTheorems ValueTheorems.
From Verif Require Import SpecWorth TotalTheorems WholeTheorems BridgeTheorems.
From Coq Require Import Lra Lia.

Section worth.
  Context `{W : World}.
  Lemma real_opp z : real (- z) = - real z.
  Proof. replace (- z)%Z with (0 - z)%Z by lia. rewrite real_sub, real_0. lra. Qed.
  Lemma legs_total p : SpecTotals.total (real_legs p) = real (travelled p.1 p.2).
  Proof.
    destruct p as [v xs]. unfold real_legs, travelled. cbn [fst snd]. generalize (v_origin_position v) as here.
    induction xs as [|x xs IH]; intros here; cbn -[real]; [symmetry; exact real_0|]. rewrite real_add. f_equal. apply IH.
  Qed.
  Lemma dial_value (l : list (nat * list visit)) : exists n, total_value DialARide (map (fun p => value_of DialARide p.1 p.2) l) =
    [n; (- foldr (fun p z => travelled p.1 p.2 + z) 0 l)%Z].
  Proof.
    induction l as [|p l [n IH]]; [exists 0%Z; reflexivity|]. unfold total_value in *. cbn [map foldr]. rewrite IH.
    eexists. cbn -[travelled]. f_equal. f_equal. lia.
  Qed.
  Lemma taxi_value (l : list (nat * list visit)) : total_value TaxiSharing (map (fun p => value_of TaxiSharing p.1 p.2) l) =
    [foldr (fun p z => (sum_of (map (fun t => unless_empty t (ride_time p.1 p.2 t)) (boards p.2)) + z)%Z) 0%Z l].
  Proof. unfold total_value. induction l as [|p l IH]; [reflexivity|]. cbn [map foldr]. rewrite IH. reflexivity. Qed.
  Lemma sum_total l : SpecTotals.total (map real l) = real (sum_of l).
  Proof. induction l as [|x l IH]; [symmetry; exact real_0|].
    change (real x + SpecTotals.total (map real l) = real (x + sum_of l)). rewrite IH, real_add. reflexivity.
  Qed.
  Lemma boards_concat (f : nat -> Z) (xs : list visit) :
    concat (map (fun x => map (fun t => real (f t)) (vi_board x)) xs) = map real (map f (boards xs)).
  Proof.
    unfold boards. induction xs as [|x xs IH]; [reflexivity|]. cbn -[real]. rewrite IH, !map_app, !map_map. reflexivity.
  Qed.
  Lemma durations_total p : SpecTotals.total (concat (real_durations p)) =
    real (sum_of (map (fun t => unless_empty t (ride_time p.1 p.2 t)) (boards p.2))).
  Proof.
    rewrite <- sum_total. f_equal. apply (boards_concat (fun t => unless_empty t (ride_time p.1 p.2 t))).
  Qed.
  Lemma described_worth o h pl l : Forall2 (described h) pl l -> total_worth o h pl (total_value o (map (fun p => value_of o p.1 p.2) l)).
  Proof.
    intros F. eexists. split; [|reflexivity]. induction F as [|r p pl l [ids R] F IH]; constructor; [|exact IH].
    exists (p.1), ids, (p.2). split; [exact R|reflexivity].
  Qed.
  Lemma described_gives o h pl l : Forall2 (described h) pl l ->
    exists h', planning_value o pl h = (Ok (total_value o (map (fun p => value_of o p.1 p.2) l)), h').
  Proof.
    intros F. pose proof (planning_value_gives o h pl _ (described_worth o h pl l F)) as G. apply gives_eq in G as (h' & E & _).
    exists h'. exact E.
  Qed.
End worth.

Lemma c96_driven `{W : World} : forall h pl l, Forall2 (described h) pl l ->
  exists n z h', planning_value DialARide pl h = (Ok [n; z], h') /\ SpecTotals.driven (map real_legs l) = - real z.
Proof.
  intros h pl l F. destruct (described_gives DialARide h pl l F) as [h' E]. destruct (dial_value l) as [n V]. rewrite V in E.
  eexists _, _, _. split; [exact E|]. rewrite real_opp, Ropp_involutive. clear. unfold SpecTotals.driven. rewrite TotalTheorems.total_concat.
  induction l as [|p l IH]; [symmetry; exact real_0|]. cbn [map foldr].
  change (SpecTotals.total (real_legs p) + SpecTotals.total (map SpecTotals.total (map real_legs l)) = real (travelled p.1 p.2 + foldr (fun p z => (travelled p.1 p.2 + z)%Z) 0%Z l)).
  rewrite real_add, IH, legs_total. reflexivity.
Qed.
Lemma c96_ridden `{W : World} : forall h pl l, Forall2 (described h) pl l ->
  exists z h', planning_value TaxiSharing pl h = (Ok [z], h') /\ ridden (map real_durations l) = real z.
Proof.
  intros h pl l F. destruct (described_gives TaxiSharing h pl l F) as [h' E]. rewrite taxi_value in E.
  eexists _, _. split; [exact E|]. clear. unfold ridden.
  induction l as [|p l IH]; cbn [map concat foldr]; [symmetry; exact real_0|]. rewrite concat_app, TotalTheorems.total_app, IH, durations_total, <- real_add. reflexivity.
Qed.
Lemma c96_distance `{W : World} : forall h pl l, Forall2 (described h) pl l ->
  (forall x, In x (concat (map real_legs l)) -> whole x /\ 0 <= x) -> SpecTotals.driven (map real_legs l) < two53 ->
  exists n z h', planning_value DialARide pl h = (Ok [n; z], h') /\ d_dial_a_ride (map real_legs l) = real z.
Proof.
  intros h pl l F HW HB. destruct (c96_driven h pl l F) as (n & z & h' & E & D). exists n, z, h'. split; [exact E|].
  rewrite (c94_distance _ HW HB), D. lra.
Qed.
Lemma c96_durations `{W : World} : forall h pl l, Forall2 (described h) pl l ->
  (forall x, In x (concat (concat (map real_durations l))) -> whole x /\ 0 <= x) -> ridden (map real_durations l) < two53 ->
  exists z h', planning_value TaxiSharing pl h = (Ok [z], h') /\ d_taxi_sharing (map real_durations l) = real z.
Proof.
  intros h pl l F HW HB. destruct (c96_ridden h pl l F) as (z & h' & E & D). exists z, h'. split; [exact E|].
  rewrite (c94_durations _ HW HB), D. reflexivity.
Qed.
(** which of two plannings has the smaller number *)
Lemma c96_order `{W : World} : forall h pl l pl' l', Forall2 (described h) pl l -> Forall2 (described h) pl' l' ->
  (forall x, In x (concat (map real_legs l)) -> whole x /\ 0 <= x) -> SpecTotals.driven (map real_legs l) < two53 ->
  (forall x, In x (concat (map real_legs l')) -> whole x /\ 0 <= x) -> SpecTotals.driven (map real_legs l') < two53 ->
  exists n z h1 n' z' h2, planning_value DialARide pl h = (Ok [n; z], h1) /\ planning_value DialARide pl' h = (Ok [n'; z'], h2) /\
    ((z < z')%Z <-> d_dial_a_ride (map real_legs l) < d_dial_a_ride (map real_legs l')).
Proof.
  intros h pl l pl' l' F F' A B A' B'. destruct (c96_distance h pl l F A B) as (n & z & h1 & E & D). destruct (c96_distance h pl' l' F' A' B') as (n' & z' & h2 & E' & D').
  exists n, z, h1, n', z', h2. split; [exact E|]. split; [exact E'|]. rewrite D, D'. split; intros H.
  - apply Rnot_le_lt. rewrite <- real_le. lia.
  - apply Z.nle_gt. rewrite real_le. lra.
Qed.
