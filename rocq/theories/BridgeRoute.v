(** The answer of Route.feasible in the model with ticks is the one in double
    precision, on whole numbers. *)
From Verif Require Import TimeTheorems OneShiftTheorems.
From Verif Require Import SpecBridge DoubleTheorems WholeTheorems BridgeTheorems.
From Coq Require Import Lra Lia.

Lemma c95_route `{W : World} : forall M h r v ids xs rs, sane_durations -> sane_capacities ->
  well_formed h r v ids xs -> ids <> [] -> unasked h r ids ->
  moderate M (real_route v xs rs) -> M <= two50 -> whole_route (real_route v xs rs) -> (forall i j t, In (i, j, t) rs <-> ride xs t i j) ->
  exists b h', route_feasible r h = (Ok b, h') /\
    (b = true <-> d_feasible (real_route v xs rs) = Some true /\ in_place v xs /\ not_overloaded v xs).
Proof.
  intros M h r v ids xs rs SD SC R Hne U HM HB HW Hrs. destruct (c05_feasible h r v ids xs SD SC R Hne U) as (b & h' & E & Hb & _).
  exists b, h'. split; [exact E|]. rewrite Hb. apply (c95_admissible M v xs rs HM HB HW Hrs).
  intros t i j (x & y & Hx & Hy & Hb1 & Hb2). exact (rides_before xs i j x y t (wf_rides _ _ _ _ _ R) Hx Hy Hb1 Hb2).
Qed.

