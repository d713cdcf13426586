(** * Objective values in both models, on whole numbers

    [planning_value] is of the model with whole ticks (Objectives.v),
    [d_dial_a_ride] and [d_taxi_sharing] of the model in double precision
    (Totals.v), [driven] and [ridden] are exact (SpecTotals.v); [described h r p]:
    route [r] has the vehicle and the visits [p] (SpecWorth.v). *)
From Verif Require Import ValueTheorems WitnessValues.
From Verif Require Import SpecWorth TotalTheorems WholeTheorems BridgeTheorems WorthTheorems.
From Coq Require Import Lra Lia.

(** ** C96.  Objective values *)
Theorem C96_driven `{W : World} : forall h pl l, Forall2 (described h) pl l ->
  exists n z h', planning_value DialARide pl h = (Ok [n; z], h') /\ SpecTotals.driven (map real_legs l) = - real z.
Proof. exact c96_driven. Qed.
Print Assumptions C96_driven.
Theorem C96_ridden `{W : World} : forall h pl l, Forall2 (described h) pl l ->
  exists z h', planning_value TaxiSharing pl h = (Ok [z], h') /\ ridden (map real_durations l) = real z.
Proof. exact c96_ridden. Qed.
Print Assumptions C96_ridden.
Theorem C96_distance `{W : World} : forall h pl l, Forall2 (described h) pl l ->
  (forall x, In x (concat (map real_legs l)) -> whole x /\ 0 <= x) -> SpecTotals.driven (map real_legs l) < two53 ->
  exists n z h', planning_value DialARide pl h = (Ok [n; z], h') /\ d_dial_a_ride (map real_legs l) = real z.
Proof. exact c96_distance. Qed.
Print Assumptions C96_distance.
Theorem C96_durations `{W : World} : forall h pl l, Forall2 (described h) pl l ->
  (forall x, In x (concat (concat (map real_durations l))) -> whole x /\ 0 <= x) -> ridden (map real_durations l) < two53 ->
  exists z h', planning_value TaxiSharing pl h = (Ok [z], h') /\ d_taxi_sharing (map real_durations l) = real z.
Proof. exact c96_durations. Qed.
Print Assumptions C96_durations.
Theorem C96_order `{W : World} : forall h pl l pl' l', Forall2 (described h) pl l -> Forall2 (described h) pl' l' ->
  (forall x, In x (concat (map real_legs l)) -> whole x /\ 0 <= x) -> SpecTotals.driven (map real_legs l) < two53 ->
  (forall x, In x (concat (map real_legs l')) -> whole x /\ 0 <= x) -> SpecTotals.driven (map real_legs l') < two53 ->
  exists n z h1 n' z' h2, planning_value DialARide pl h = (Ok [n; z], h1) /\ planning_value DialARide pl' h = (Ok [n'; z'], h2) /\
    ((z < z')%Z <-> d_dial_a_ride (map real_legs l) < d_dial_a_ride (map real_legs l')).
Proof. exact c96_order. Qed.
Print Assumptions C96_order.

Section C96_example.
  #[local] Existing Instance meter.
  Let plan : list (nat * list visit) := [(0, meter_visits 2); (1, meter_visits 4)]%nat.
  (** two vehicles drive 18 units, three people ride for 6 *)
  Example C96_case : Forall2 (described meter_town) [2; 4]%nat plan /\
    (forall x, In x (concat (map real_legs plan)) -> whole x /\ 0 <= x) /\ SpecTotals.driven (map real_legs plan) < two53 /\
    (forall x, In x (concat (concat (map real_durations plan))) -> whole x /\ 0 <= x) /\ ridden (map real_durations plan) < two53 /\
    (planning_value DialARide [2; 4]%nat meter_town).1 = Ok [3; -18000]%Z /\ d_dial_a_ride (map real_legs plan) = -18 /\
    (planning_value TaxiSharing [2; 4]%nat meter_town).1 = Ok [6000]%Z /\ d_taxi_sharing (map real_durations plan) = 6.
  Proof.
    assert (U : forall k, @real meter (k * 1000) = IZR k).
    { intros k. unfold real, ticks_per_unit. cbn [w_eb meter]. replace (IZR _) with (IZR k * 1000) by (rewrite mult_IZR; reflexivity).
      match goal with |- context [?a / ?b] => replace b with 1000 by (vm_compute IZR; lra) end. lra. }
    assert (G : forall l, Forall (fun z => z = z / 1000 * 1000 /\ 0 <= z)%Z l -> forall x, In x (map (@real meter) l) -> whole x /\ 0 <= x).
    { intros l Hl x Hx. apply in_map_iff in Hx as (z & <- & Hz). rewrite Forall_forall in Hl.
      destruct (Hl z Hz) as [E P]. rewrite E, U. split; [eexists; reflexivity|]. apply IZR_le, Z.div_pos; lia. }
    assert (F : Forall2 (described meter_town) [2; 4]%nat plan).
    { repeat constructor; [exists (meter_stops 2)|exists (meter_stops 4)]; apply well_formedb_sound; reflexivity. }
    assert (E1 : exists l, concat (map (@real_legs meter) plan) = map (@real meter) l /\ Forall (fun z => z = z / 1000 * 1000 /\ 0 <= z)%Z l).
    { exists (concat (map (fun p => (fix legs here xs := match xs with [] => [] | x :: xs => World.dist here (vi_place x) :: legs (vi_place x) xs end)
        (v_origin_position p.1) p.2) plan)). split; [reflexivity|]. vm_compute. repeat constructor; congruence. }
    assert (E2 : exists l, concat (concat (map (@real_durations meter) plan)) = map (@real meter) l /\ Forall (fun z => z = z / 1000 * 1000 /\ 0 <= z)%Z l).
    { exists (concat (map (fun p => map (fun t => unless_empty t (ride_time p.1 p.2 t)) (boards p.2)) plan)). split; [reflexivity|].
      vm_compute. repeat constructor; congruence. }
    assert (H1 : forall x, In x (concat (map (@real_legs meter) plan)) -> whole x /\ 0 <= x) by (destruct E1 as (l & -> & Hl); exact (G l Hl)).
    assert (H2 : forall x, In x (concat (concat (map (@real_durations meter) plan))) -> whole x /\ 0 <= x) by (destruct E2 as (l & -> & Hl); exact (G l Hl)).
    assert (V1 : (planning_value DialARide [2; 4]%nat meter_town).1 = Ok [3; -18000]%Z) by (vm_compute; reflexivity).
    assert (V2 : (planning_value TaxiSharing [2; 4]%nat meter_town).1 = Ok [6000]%Z) by (vm_compute; reflexivity).
    assert (D1 : SpecTotals.driven (map real_legs plan) = 18).
    { destruct (c96_driven _ _ _ F) as (n & z & h' & E & ->). rewrite E in V1. injection V1 as -> ->.
      change (-18000)%Z with (-18 * 1000)%Z. rewrite U. lra. }
    assert (D2 : ridden (map real_durations plan) = 6).
    { destruct (c96_ridden _ _ _ F) as (z & h' & E & ->). rewrite E in V2. injection V2 as ->. change 6000%Z with (6 * 1000)%Z. apply U. }
    split; [exact F|]. split; [exact H1|]. split; [rewrite D1; unfold two53; lra|]. split; [exact H2|]. split; [rewrite D2; unfold two53; lra|].
    split; [exact V1|]. split; [rewrite c94_distance, D1; [lra|exact H1|rewrite D1; unfold two53; lra]|]. split; [exact V2|].
    rewrite c94_durations; [exact D2|exact H2|rewrite D2; unfold two53; lra].
  Qed.
End C96_example.
