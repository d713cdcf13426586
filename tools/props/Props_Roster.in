(** C77: from a Cordeau-Laporte file to driving schedules.  SpecRoster.v has the
    rules in the terms of the file: [passable] (the tasks can be done one after
    the other at the given times), [orderly slack i ro] (the work is passable,
    nobody gets off before they got on, nobody is served before the opening
    time, neither the capacity nor the longest ride is exceeded), [punctual]
    (everybody is served by the closing time), [short_enough] (the longest tour
    is not exceeded), [scheduled h r ro] (the roster of a route), [divided i h
    pl ros] (one roster for each vehicle of the file and no request in two). *)
From Verif Require Import RosterTheorems RosterRefute WitnessRoster FileLoader SpecFile FileProofs SubmitRefute.

(** ** C77.  A Cordeau-Laporte file becomes schedules that keep its limits

    The vehicles and trips that the loader reads from the file are given to the
    insertion algorithm or to GRASP in any order and with any choices of the
    random generator.  Refuted: a passenger to be picked up by 3 is picked up at
    86, behind a visit whose start was put off for another candidate; and a
    vehicle that must be back after 50 is away for 76, because candidates share
    the stop at which the tour begins.  What holds: the schedules are orderly,
    and on tours without requested starts also punctual.  The closing time of
    the depot is not kept either (C38). *)
@C77_refuted c77_refuted
@C77_tour_refuted c77_tour_refuted
@C77_insertion_partial c77_insertion
@C77_grasp_partial c77_grasp

Section C77_example.
  #[local] Existing Instance tardy_world.
  Example C77_case : tabulates whole (text_of tardy_lines) (dial_a_ride_file (unit_of 1) tardy_case) /\
    paired tardy_case /\ ordinary tardy_case /\ (1 <= dr_vehicles tardy_case)%nat /\
    w_eb = 1%positive /\ w_metric = Euclidean /\ made_of tardy_vehicles tardy_trips /\
    ic_only_feasible near_config = true /\ (1 <= ic_random near_config)%nat /\
    insertion_optimize near_config [0%nat] [0; 1; 2]%nat None empty_heap = (Ok [28%nat], tardy_heap) /\
    scheduled tardy_heap 28 tardy_roster /\
    tardy_roster = Roster 0 [(Pick 0, 85000); (Pick 1, 86000); (Drop 1, 89000); (Pick 2, 100000); (Drop 2, 103000); (Drop 0, 105000)] 109000.
  Proof.
    split; [apply read_table_tabulates; vm_compute; reflexivity|]. split; [apply tardy_paired|]. split; [apply tardy_paired|].
    split; [cbn; lia|]. split; [reflexivity|]. split; [reflexivity|]. split; [apply made_of_world_of|]. split; [reflexivity|]. split; [cbn; lia|].
    split; [vm_compute; reflexivity|]. split; [|reflexivity]. eexists _, _, _. split; [exact tardy_on_tour|vm_compute; reflexivity].
  Qed.
  Example C77_case_rules : orderly eb tardy_case tardy_roster /\
    ~ orderly eb tardy_case (Roster 0 [(Pick 0, 500)] 9000) /\ punctual eb tardy_case (Roster 0 [(Pick 1, 2000)] 4000).
  Proof.
    split; [|split].
    - destruct (c77_insertion 1 whole (fun _ => Some (text_of tardy_lines)) tardy_case (text_of tardy_lines)) as (o & vs & o' & ts & x & E & G);
        [reflexivity|apply read_table_tabulates; vm_compute; reflexivity|apply tardy_paired|apply tardy_paired|].
      apply (f_equal fst) in E. vm_compute in E. injection E as _ Ev _ Et.
      destruct (G tardy_world near_config [0%nat] [0; 1; 2]%nat) as (pl & h & ros & E & D & F & _);
        [reflexivity|reflexivity|rewrite <- Ev, <- Et; apply made_of_world_of|rewrite <- Ev; reflexivity|rewrite <- Et; reflexivity|reflexivity|cbn; lia|].
      assert (E' : insertion_optimize near_config [0%nat] [0; 1; 2]%nat None empty_heap = (Ok [28%nat], tardy_heap)) by (vm_compute; reflexivity).
      rewrite E' in E. pose proof (f_equal fst E) as Ep. apply (f_equal snd) in E. cbn [fst snd] in Ep, E. injection Ep as <-. subst h.
      apply (single_divided _ _ _ _ _ _ _ tardy_on_tour) in D as ->. apply (Forall_singleton (orderly eb tardy_case)) in F.
      assert (Er : roster_of 0 (visits_of tardy_heap 28) = tardy_roster) by (vm_compute; reflexivity). rewrite Er in F. exact F.
    - intros [_ _ _ H _ _ _]. specialize (H 0%nat). cbn in H. destruct H as [H _]. apply elem_of_list_singleton in H; [done|]. left.
    - intros t s p [= -> ->]%elem_of_list_singleton [= <-]. vm_compute. discriminate.
  Qed.
End C77_example.
Section C77_example_calm.
  #[local] Existing Instance long_world.
  Example C77_case_calm : insertion_optimize near_config [0%nat] [0; 1; 2]%nat None empty_heap = (Ok [4%nat], long_heap) /\
    on_tour long_heap 4 0 (stops_in long_heap 4) (visits_of long_heap 4) /\ calm (visits_of long_heap 4) (length (visits_of long_heap 4)) /\
    roster_of 0 (visits_of long_heap 4) = Roster 29000 [(Pick 1, 100000); (Drop 1, 101000); (Pick 0, 102000); (Drop 0, 103000)] 105000.
  Proof.
    split; [vm_compute; reflexivity|]. split; [exact long_on_tour|]. split; [|vm_compute; reflexivity].
    apply calm_elem. change (drop 1 _) with (drop 1 (visits_of long_heap 4)). apply Forall_forall. vm_compute. repeat constructor.
  Qed.
End C77_example_calm.
