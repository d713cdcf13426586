(** C75 and C76: from a HashCode file to the stored submission.
    SpecSubmission.v has the rules: [drivable slack steps c rs] (from state
    [c] the rides [rs] can be driven in this order, each begun by its latest
    step, and the vehicle is home by step [steps]), [workable slack i kss] (no
    more vehicles than there are, no ride twice, all drivable from the
    [garage]), [submits text kss] (the text lists [kss]), [ride_points] and
    [contest_points] (what rides driven as early as possible are worth),
    [made_of vs ts] (the world of these vehicles and trips) and [listed h pl
    kss] ([kss] are the trips of the routes of [pl] that have any). *)
From Verif Require Import SubmitTheorems SubmitRefute WitnessSubmit FileLoader SpecFile FileProofs.

(** ** C75.  A HashCode file becomes a submission that can be driven

    The vehicles and trips that the loader reads from the file, given to the
    insertion algorithm or to GRASP in any order and with any choices of the
    random generator, lead to a stored text that lists rides which can be
    driven one after the other, although the stored text has no times. *)
Theorem C75_insertion : forall e number contents i text,
  contents 0%nat = Some text -> tabulates number text (hash_code_file (unit_of e) i) ->
  exists o vs o' ts x, ask_loader_all number contents e HashCodeLayout [Fleet; Job] new_loader = ([Ok (GotFleet o vs); Ok (GotJob o' ts)], x) /\
  forall (W : World) cfg fleet job old, w_eb = e -> w_metric = sf_metric hashcode_surface -> made_of vs ts ->
    fleet ≡ₚ seq 0 (length vs) -> job ≡ₚ seq 0 (length ts) -> ic_only_feasible cfg = true -> (1 <= ic_random cfg)%nat ->
    exists pl h answer h' kss, insertion_optimize cfg fleet job None empty_heap = (Ok pl, h) /\
      file_store (hashcode_format true pl) (FileState old true None h) = (Ok tt, FileState (Some answer) true (Some answer) h') /\
      submits answer kss /\ listed h pl kss /\ workable eb i kss /\ (in_units (unit_of e) i -> workable 0 i kss).
Proof. exact c75_insertion. Qed.
Print Assumptions C75_insertion.
Theorem C75_grasp : forall e number contents i text,
  contents 0%nat = Some text -> tabulates number text (hash_code_file (unit_of e) i) -> (1 <= hc_vehicles i)%nat ->
  exists o vs o' ts x, ask_loader_all number contents e HashCodeLayout [Fleet; Job] new_loader = ([Ok (GotFleet o vs); Ok (GotJob o' ts)], x) /\
  forall (W : World) obj cfg fleet job episodes first old, w_eb = e -> w_metric = sf_metric hashcode_surface -> made_of vs ts ->
    fleet ≡ₚ seq 0 (length vs) -> job ≡ₚ seq 0 (length ts) -> ic_only_feasible cfg = true -> (1 <= ic_random cfg)%nat ->
    (1 <= episodes)%nat -> (1 <= first)%nat -> obj <> TaxiSharing ->
    exists n pl h answer h' kss,
      (forall fuel, (n <= fuel)%nat -> grasp_optimize fuel obj cfg fleet job episodes first empty_heap = (Ok pl, h)) /\
      file_store (hashcode_format true pl) (FileState old true None h) = (Ok tt, FileState (Some answer) true (Some answer) h') /\
      submits answer kss /\ listed h pl kss /\ workable eb i kss /\ (in_units (unit_of e) i -> workable 0 i kss).
Proof. exact c75_grasp. Qed.
Print Assumptions C75_grasp.

Section C75_example.
  #[local] Existing Instance delayed_world.
  Example C75_case : tabulates whole (text_of delayed_lines) (hash_code_file (unit_of 1) delayed_case) /\
    w_eb = 1%positive /\ w_metric = sf_metric hashcode_surface /\ made_of delayed_vehicles delayed_trips /\
    ic_only_feasible score_config = true /\ (1 <= ic_random score_config)%nat /\ (1 <= hc_vehicles delayed_case)%nat /\
    exists h', insertion_optimize score_config [0%nat] [0; 1]%nat None empty_heap = (Ok delayed_routes, delayed_heap) /\
      hashcode_format true delayed_routes delayed_heap = (Ok "2 1 0"%string, h').
  Proof.
    split; [apply read_table_tabulates; vm_compute; reflexivity|]. split; [reflexivity|]. split; [reflexivity|].
    split; [apply made_of_world_of|]. split; [reflexivity|]. split; [cbn; lia|]. split; [cbn; lia|].
    eexists. split; vm_compute; reflexivity.
  Qed.
  Example C75_case_grasp :
    match grasp_optimize 5 HashCode score_config [0%nat] [0; 1]%nat 1 1 empty_heap with
    | (Ok pl, h) => fst (hashcode_format true pl h) = Ok "2 1 0"%string
    | _ => False
    end.
  Proof. vm_compute. reflexivity. Qed.
  Example C75_case_rules : workable 0 delayed_case [[1; 0]%nat] /\ ~ workable 0 delayed_case [[0; 1]%nat].
  Proof.
    split.
    - split; [cbn; lia|repeat constructor; set_solver|set_solver|]. intros ks ->%elem_of_list_singleton.
      eexists. split; [repeat constructor|]. vm_compute. repeat split; discriminate.
    - intros [_ _ _ H]. destruct (H [0; 1]%nat ltac:(left)) as (rs & Hr & Hd).
      inversion Hr as [|? ? ? ? E1 Hr1]; subst. inversion Hr1 as [|? ? ? ? E2 Hr2]; subst. inversion Hr2; subst.
      injection E1 as <-. injection E2 as <-. vm_compute in Hd.
      destruct Hd as (_ & Hd & _). by apply Hd.
  Qed.
End C75_example.

(** ** C76.  The submission is worth what was reported

    The value of the planning for the HashCode objective, against the points
    for driving the listed rides as early as possible.  Refuted: a departure
    put off for one ride is not taken back when another ride is put before it,
    so rides are planned too late and the report misses bonuses that the
    submission gets.  By the rules of the contest, where a ride must be
    finished by its latest step, the report can be too high as well.  What
    holds: by the rules of the code, which only ask that a ride begins by its
    latest step, the report is never too high, and it is exact if the first
    ride of every vehicle begins as early as possible. *)
Theorem C76_refuted : ~ forall (W : World) i vs ts s1 s2 cfg fleet job pl h kss z p,
  hashcode_fleet w_eb (hash_code_file (unit_of w_eb) i) hashcode_surface = (Ok vs, s1) ->
  hashcode_job w_eb (hash_code_file (unit_of w_eb) i) s1 = (Ok ts, s2) ->
  w_metric = sf_metric hashcode_surface -> made_of vs ts ->
  fleet ≡ₚ seq 0 (length vs) -> job ≡ₚ seq 0 (length ts) -> ic_only_feasible cfg = true -> (1 <= ic_random cfg)%nat ->
  insertion_optimize cfg fleet job None empty_heap = (Ok pl, h) -> listed h pl kss -> total_worth HashCode h pl [z] ->
  total_points (ride_points (hc_bonus i) garage) i kss p -> in_units (unit_of w_eb) i -> 0 <= hc_bonus i ->
  z = p.
Proof. exact c76_refuted. Qed.
Print Assumptions C76_refuted.
Theorem C76_contest_refuted : ~ forall (W : World) i vs ts s1 s2 cfg fleet job pl h kss z p,
  hashcode_fleet w_eb (hash_code_file (unit_of w_eb) i) hashcode_surface = (Ok vs, s1) ->
  hashcode_job w_eb (hash_code_file (unit_of w_eb) i) s1 = (Ok ts, s2) ->
  w_metric = sf_metric hashcode_surface -> made_of vs ts ->
  fleet ≡ₚ seq 0 (length vs) -> job ≡ₚ seq 0 (length ts) -> ic_only_feasible cfg = true -> (1 <= ic_random cfg)%nat ->
  insertion_optimize cfg fleet job None empty_heap = (Ok pl, h) -> listed h pl kss -> total_worth HashCode h pl [z] ->
  total_points (contest_points (hc_bonus i) garage) i kss p -> in_units (unit_of w_eb) i -> 0 <= hc_bonus i ->
  z <= p.
Proof. exact c76_contest_refuted. Qed.
Print Assumptions C76_contest_refuted.
Theorem C76_at_most_partial `{W : World} : forall i vs ts s1 s2 cfg fleet job pl h kss w,
  hashcode_fleet w_eb (hash_code_file (unit_of w_eb) i) hashcode_surface = (Ok vs, s1) ->
  hashcode_job w_eb (hash_code_file (unit_of w_eb) i) s1 = (Ok ts, s2) ->
  w_metric = sf_metric hashcode_surface -> made_of vs ts ->
  fleet ≡ₚ seq 0 (length vs) -> job ≡ₚ seq 0 (length ts) -> ic_only_feasible cfg = true -> (1 <= ic_random cfg)%nat ->
  insertion_optimize cfg fleet job None empty_heap = (Ok pl, h) -> listed h pl kss -> total_worth HashCode h pl w ->
  0 <= hc_bonus i ->
  exists z p, w = [z] /\ total_points (ride_points (hc_bonus i) garage) i kss p /\ z <= p.
Proof. exact c76_at_most. Qed.
Print Assumptions C76_at_most_partial.
Theorem C76_prompt_partial `{W : World} : forall i vs ts s1 s2 cfg fleet job pl h kss w,
  hashcode_fleet w_eb (hash_code_file (unit_of w_eb) i) hashcode_surface = (Ok vs, s1) ->
  hashcode_job w_eb (hash_code_file (unit_of w_eb) i) s1 = (Ok ts, s2) ->
  w_metric = sf_metric hashcode_surface -> made_of vs ts ->
  fleet ≡ₚ seq 0 (length vs) -> job ≡ₚ seq 0 (length ts) -> ic_only_feasible cfg = true -> (1 <= ic_random cfg)%nat ->
  insertion_optimize cfg fleet job None empty_heap = (Ok pl, h) -> listed h pl kss -> total_worth HashCode h pl w ->
  prompt i h pl ->
  exists z, w = [z] /\ total_points (ride_points (hc_bonus i) garage) i kss z.
Proof. exact c76_prompt. Qed.
Print Assumptions C76_prompt_partial.

Section C76_example.
  #[local] Existing Instance delayed_world.
  Example C76_case : insertion_optimize score_config [0%nat] [0; 1]%nat None empty_heap = (Ok delayed_routes, delayed_heap) /\
    listed delayed_heap delayed_routes [[1; 0]%nat] /\ total_worth HashCode delayed_heap delayed_routes [2000] /\
    total_points (ride_points 2000 garage) delayed_case [[1; 0]%nat] 6000.
  Proof.
    split; [vm_compute; reflexivity|]. split; [apply delayed_listed|]. split; [apply delayed_worth|apply delayed_points].
  Qed.
  Example C76_case_prompt : insertion_optimize early_config [0%nat] [0; 1]%nat None empty_heap = (Ok early_routes, early_heap) /\
    listed early_heap early_routes [[1; 0]%nat] /\ prompt delayed_case early_heap early_routes.
  Proof.
    split; [vm_compute; reflexivity|]. split; [apply early_listed|].
    intros r v ids xs t ts rd Hr R Hb Hrd. apply elem_of_list_singleton in Hr as ->.
    destruct (on_tour_det _ _ _ _ _ _ _ _ R early_on_tour) as (-> & _ & ->). injection Hb as <- <-. injection Hrd as <-.
    vm_compute. reflexivity.
  Qed.
End C76_example.
