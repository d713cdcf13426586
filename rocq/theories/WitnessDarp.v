(** An instance of the dial-a-ride problem with two vehicles and two trips, and
    one whose optimum is known. *)
From Verif Require Export SpecDarp DarpTheorems WitnessLoad.
From Coq Require Import Lqa.
From Verif Require Import MilpProofs.

(** both vehicles at (0,0); the trips go from (1,0) to (3,0) and from (0,1) to
    (0,3) *)
Definition cross_world : World := world_of 1 Manhattan
  [Vehicle "a" (Service [0; 0] 0 (Lim 1440000) 0) None (Lim 3000) (Lim 60000);
   Vehicle "b" (Service [0; 0] 0 (Lim 1440000) 0) None (Lim 2000) (Lim 10000)]
  [Trip "1" (Service [1000; 0] 2000 (Lim 9000) 100) (Service [3000; 0] 0 (Lim 90000) 100) 1000 0 (Lim 4000);
   Trip "2" (Service [0; 1000] 0 (Lim 8000) 200) (Service [0; 3000] 5000 (Lim 70000) 200) 1000 0 (Lim 9000)].
(** each vehicle serves one trip *)
Definition cross_solution : assignment := Assignment
  (fun k => match k with 0%nat => arcs [(0, 1); (1, 3); (3, 5)]%nat 0%nat | _ => arcs [(0, 2); (2, 4); (4, 5)]%nat 0%nat end)
  (fun _ => listed [0; 2000; 1000; 4100; 5000; 9000] 0%nat)
  (fun _ => listed [0; 1000; 1000; 0; 0; 0] 0%nat).
Lemma takes_time_check `{W : World} vs ts a :
  forallb (fun k => forallb (fun i => forallb (fun j => implb (Qeq_bool (as_x a k i j) 1) (0 <? dist (pos vs ts i) (pos vs ts j)))
    (seq 0 (2 * length ts + 2))) (seq 0 (2 * length ts + 2))) (seq 0 (length vs)) = true -> takes_time vs ts a.
Proof.
  intros H k i j (Hk & Hi & Hj & E) _ _. left. rewrite forallb_forall in H. specialize (H k ltac:(apply in_seq; lia)).
  rewrite forallb_forall in H. specialize (H i ltac:(apply in_seq; lia)). rewrite forallb_forall in H. specialize (H j ltac:(apply in_seq; lia)).
  apply Qeq_bool_iff in E. rewrite E in H. cbn in H. lia.
Qed.
Lemma one_space_check `{W : World} vs ts d : forallb (fun i => length (pos vs ts i) =? d)%nat (seq 0 (node_count ts)) = true -> one_space vs ts.
Proof.
  intros H i j Hi Hj. rewrite forallb_forall in H. pose proof (H i ltac:(apply in_seq; lia)) as H1. pose proof (H j ltac:(apply in_seq; lia)) as H2.
  apply Nat.eqb_eq in H1, H2. congruence.
Qed.
Lemma elem_pair (P : nat -> Prop) : P 0%nat -> P 1%nat -> forall x, x ∈ [0; 1]%nat -> P x.
Proof. intros H0 H1 x Hx. rewrite !elem_of_cons, elem_of_nil in Hx. by destruct Hx as [->|[->|[]]]. Qed.
Lemma elem_lone (P : nat -> Prop) : P 0%nat -> forall x, x ∈ [0%nat] -> P x.
Proof. intros H0 x Hx. by apply elem_of_list_singleton in Hx as ->. Qed.
Section cross.
  #[local] Existing Instance cross_world.
  Notation two := [0; 1]%nat.
  Lemma cross_instance : NoDup two /\ one_depot two /\ finite two two /\ moving two /\ direct two two /\ roomy two two /\ one_space two two.
  Proof.
    split; [apply NoDup_cons_2; [by rewrite elem_of_list_singleton|apply NoDup_singleton]|]. split; [|split; [split|split; [|split; [|split]]]].
    - intros v v' Hv Hv'. revert v Hv. apply elem_pair; revert v' Hv'; by apply elem_pair.
    - by refine (elem_pair _ _ _).
    - by refine (elem_pair _ _ _).
    - by refine (elem_pair _ _ _).
    - apply direct_check. by vm_compute.
    - intros v t Hv Ht. revert v Hv. apply elem_pair; revert t Ht; apply elem_pair; vm_compute; by split.
    - apply (one_space_check _ _ 2). by vm_compute.
  Qed.
  Lemma cross_solves : solves two two (fun _ _ _ => false) cross_solution.
  Proof. apply solves_check; by vm_compute. Qed.
  Lemma cross_takes_time : takes_time two two cross_solution.
  Proof. apply takes_time_check. by vm_compute. Qed.
  Lemma cross_modest : modest two two cross_solution.
  Proof. unfold modest. by vm_compute. Qed.
  Lemma cross_plan : plan two two [shuttle 0 0; shuttle 1 1].
  Proof.
    split; [|done]. constructor; [|constructor; [|constructor]].
    - destruct (shuttle_tour 0 0). split; [done|]. split; [done|]. apply exactb_exact. by vm_compute.
    - destruct (shuttle_tour 1 1). split; [done|]. split; [done|]. apply exactb_exact. by vm_compute.
  Qed.
  Lemma cross_day : within_day two [shuttle 0 0; shuttle 1 1].
  Proof. intros [|[|k]] v xs T Hk Hxs HT; [| |done]; injection Hk as <-; injection Hxs as <-; vm_compute in HT; injection HT as <-; by vm_compute. Qed.
End cross.

(** a vehicle drives from (0,0) to (3,0), with a passenger from (1,0) to (2,0) *)
Definition line_world : World := world_of 1 Manhattan
  [Vehicle "a" (Service [0; 0] 0 (Lim 1440000) 0) (Some (Service [3000; 0] 0 (Lim 1440000) 0)) (Lim 3000) (Lim 60000)]
  [Trip "1" (Service [1000; 0] 2000 (Lim 9000) 100) (Service [2000; 0] 0 (Lim 90000) 100) 1000 0 (Lim 4000)].
Definition line_solution : assignment := Assignment (arcs [(0, 1); (1, 2); (2, 3)]%nat) (listed [0; 2000; 3100; 9000]) (listed [0; 1000; 0; 0]).
Lemma ones_map {A B} (g : A -> B) (f : B -> Q) l : ones f (map g l) = map g (ones (fun y => f (g y)) l).
Proof. induction l as [|y l IH]; [done|]. unfold ones in *. cbn. destruct (Qeq_bool (f (g y)) 1); cbn; by rewrite IH. Qed.
Section line.
  #[local] Existing Instance line_world.
  Notation one := [0%nat].
  Lemma line_instance : NoDup one /\ one_depot one /\ finite one one /\ moving one /\ direct one one /\ roomy one one /\ one_space one one.
  Proof.
    split; [apply NoDup_singleton|]. split; [|split; [split|split; [|split; [|split]]]].
    - intros v v' Hv Hv'. revert v Hv. apply elem_lone; revert v' Hv'; by apply elem_lone.
    - by refine (elem_lone _ _).
    - by refine (elem_lone _ _).
    - by refine (elem_lone _ _).
    - apply direct_check. by vm_compute.
    - intros v t Hv Ht. revert v Hv. apply elem_lone; revert t Ht; apply elem_lone; vm_compute; by split.
    - apply (one_space_check _ _ 2). by vm_compute.
  Qed.
  Lemma line_solves : solves one one (fun _ _ _ => false) line_solution.
  Proof. apply solves_check; by vm_compute. Qed.
  Lemma line_modest : modest one one line_solution.
  Proof. unfold modest. by vm_compute. Qed.
  Lemma line_optimal : optimal one one (fun _ _ _ => false) line_solution.
  Proof.
    split; [apply line_solves|]. intros a Ha.
    pose proof (solves_binary 0%nat [] one _ a (proj1 (proj2 (proj2 line_instance))) (proj1 (proj2 (proj2 (proj2 line_instance)))) Ha) as B.
    apply (solves_system 0%nat [] one _ (proj1 (proj2 (proj2 line_instance))) (proj1 (proj2 (proj2 (proj2 line_instance))))) in Ha.
    assert (S : forall i, (i < 3)%nat -> length (ones (fun j => as_x a 0%nat i j) (seq 0 4)) = 1%nat).
    { assert (S1 : length (ones (fun j => as_x a 0%nat 1%nat j) (seq 0 4)) = 1%nat).
      { pose proof (sy_once _ _ _ _ Ha 1%nat ltac:(cbn; lia)) as H. change (product2 (seq 0 (2 * length one + 2)) (seq 0 (length one))) with (map (fun j => (j, 0%nat)) (seq 0 4)) in H.
        rewrite ones_map in H. by rewrite map_length in H. }
      intros [|[|[|i]]] Hi; [apply (sy_first _ _ _ _ Ha 0%nat); cbn; lia|done| |lia].
      pose proof (sy_pair _ _ _ _ Ha 0%nat 1%nat ltac:(cbn; lia) ltac:(cbn; lia)) as S2. exact (eq_trans (eq_sym S2) S1). }
    assert (S' : forall i, (i < 3)%nat -> (as_x a 0 i 0 + as_x a 0 i 1 + as_x a 0 i 2 + as_x a 0 i 3 == 1)%Q).
    { intros i Hi. specialize (S i Hi). apply sum_one in S; [apply Qeq_bool_iff in S; cbn in S; rewrite <- S; ring|].
      intros j Hj. apply elem_of_seq in Hj. apply B; cbn; lia. }
    assert (P : forall i j, (i < 4)%nat -> (j < 4)%nat -> (0 <= as_x a 0 i j)%Q).
    { intros i j Hi Hj. destruct (B 0%nat i j ltac:(cbn; lia) ltac:(cbn; lia) ltac:(cbn; lia)) as [-> | ->]; lra. }
    assert (C : (objective_value one one a >= 1000 * (as_x a 0 0 0 + as_x a 0 0 1 + as_x a 0 0 2 + as_x a 0 0 3) +
      1000 * (as_x a 0 1 0 + as_x a 0 1 1 + as_x a 0 1 2 + as_x a 0 1 3) + 1000 * (as_x a 0 2 0 + as_x a 0 2 1 + as_x a 0 2 2 + as_x a 0 2 3))%Q).
    { unfold objective_value. change (product2 (routes_indexer one) (product2 (positions_indexer one) (positions_indexer one))) with
        (map (fun p => (0%nat, p)) (product2 (seq 0 4) (seq 0 4))).
      cbn [map product2 seq flat_map app qsum foldr].
      repeat match goal with |- context [cost one one ?i ?j] => let c := eval vm_compute in (cost one one i j) in change (cost one one i j) with c end.
      pose proof (P 0 0)%nat. pose proof (P 0 1)%nat. pose proof (P 0 2)%nat. pose proof (P 0 3)%nat.
      pose proof (P 1 0)%nat. pose proof (P 1 1)%nat. pose proof (P 1 2)%nat. pose proof (P 1 3)%nat.
      pose proof (P 2 0)%nat. pose proof (P 2 1)%nat. pose proof (P 2 2)%nat. pose proof (P 2 3)%nat.
      pose proof (P 3 0)%nat. pose proof (P 3 1)%nat. pose proof (P 3 2)%nat. pose proof (P 3 3)%nat.
      repeat match goal with H : (_ < _)%nat -> _ |- _ => specialize (H ltac:(lia)) end.
      unfold inject_Z. lra. }
    rewrite (S' 0%nat ltac:(lia)), (S' 1%nat ltac:(lia)), (S' 2%nat ltac:(lia)) in C.
    setoid_replace (objective_value one one line_solution) with (3000 # 1)%Q by (by vm_compute). lra.
  Qed.
End line.
