(** C31-C33: algorithms built on other algorithms. *)
From Verif Require Import MetaTheorems GraspTheorems WitnessSearch ShiftTheorems.

(** ** C31.  Iterative algorithm returns the best of its episodes *)
(** for any inner algorithm that yields well-formed plannings and leaves
    existing routes as they are *)
Theorem C31_best `{W : World} : forall o alg restart n init (I : heap -> Prop) G h b h',
  I h -> steady o alg init I G ->
  iterative_optimize o alg restart n init h = (Ok b, h') ->
  exists l, length l = n /\ episodes o alg restart init h l h' /\ leads o h' l b.
Proof. exact c31_best. Qed.
Print Assumptions C31_best.
(** an exception is that of an episode *)
Theorem C31_fails `{W : World} : forall o alg restart n init (I : heap -> Prop) G h e h',
  I h -> steady o alg init I G ->
  iterative_optimize o alg restart n init h = (Raise e, h') ->
  (n = 0%nat /\ e = AssertionError /\ h' = h) \/
  exists l h1 start, (length l < n)%nat /\ episodes o alg restart init h l h1 /\ begins o restart init h1 l start /\
    optimize o (alg start) h1 = (Raise e, h').
Proof. exact c31_fails. Qed.
Print Assumptions C31_fails.
Theorem C31_none `{W : World} : forall o alg restart init h,
  iterative_optimize o alg restart 0 init h = (Raise AssertionError, h).
Proof. exact c31_none. Qed.
Print Assumptions C31_none.
(** the insertion algorithm is such an inner algorithm *)
Theorem C31_insertion `{W : World} : forall o cfg fleet job restart n h,
  sane -> tidy h -> NoDup fleet -> fleet <> [] -> NoDup job -> (1 <= ic_random cfg)%nat -> (1 <= n)%nat ->
  exists l b h', iterative_optimize o (insertion_algorithm cfg fleet job) restart n None h = (Ok b, h') /\
    length l = n /\ episodes o (insertion_algorithm cfg fleet job) restart None h l h' /\ leads o h' l b /\
    tidy h' /\ valid_planning h' fleet job b.
Proof. exact c31_insertion. Qed.
Print Assumptions C31_insertion.

Section C31_example.
  #[local] Existing Instance loop.
  Example C31_case : sane /\ tidy empty_heap /\ NoDup [0; 1]%nat /\ (1 <= ic_random loop_config)%nat /\
    iterative_optimize DialARide (insertion_algorithm loop_config [0; 1]%nat [0; 1]%nat) true 2 None empty_heap =
      (Ok [2; 5]%nat, served_loop) /\
    exists l, length l = 2%nat /\ leads DialARide served_loop l [2; 5]%nat.
  Proof.
    assert (H1 : sane) by apply loop_sane.
    assert (H2 : tidy empty_heap) by (apply tidyb_sound; reflexivity).
    assert (H3 : NoDup [0; 1]%nat) by (apply (bool_decide_unpack _); reflexivity).
    assert (H4 : (1 <= ic_random loop_config)%nat) by (cbn; lia).
    assert (E : iterative_optimize DialARide (insertion_algorithm loop_config [0; 1]%nat [0; 1]%nat) true 2 None empty_heap =
      (Ok [2; 5]%nat, served_loop)) by (vm_compute; reflexivity).
    split; [done|]. split; [done|]. split; [done|]. split; [done|]. split; [done|].
    destruct (C31_insertion DialARide loop_config [0; 1]%nat [0; 1]%nat true 2 empty_heap H1 H2 H3 ltac:(done) H3 H4 ltac:(lia))
      as (l & b & h' & E' & Hl & _ & Hb & _).
    rewrite E in E'. injection E' as <- <-. exists l. split; [exact Hl|exact Hb].
  Qed.
  (** no episode at all *)
  Example C31_case_none :
    iterative_optimize DialARide (insertion_algorithm loop_config [0; 1]%nat [0; 1]%nat) true 0 None empty_heap =
      (Raise AssertionError, empty_heap).
  Proof. reflexivity. Qed.
  (** a local search fails without a planning to start from *)
  Example C31_case_fails :
    steady DialARide (local_search_algorithm 5 Reallocation DialARide 1) None (fun _ => True) (fun _ _ => False) /\
    iterative_optimize DialARide (local_search_algorithm 5 Reallocation DialARide 1) true 2 None empty_heap =
      (Raise AttributeError, empty_heap).
  Proof.
    split; [|reflexivity]. split; [done| |done].
    intros h start pl h' _ [->|(b & _ & [])] E. vm_compute in E. discriminate E.
  Qed.
End C31_example.

(** ** C32.  Sequential algorithm chains its stages *)
Theorem C32_chain `{W : World} : forall o algs init h pl h',
  sequential_optimize o algs init h = (Ok pl, h') ->
  exists ps hs, trail o algs init h ps hs /\ length ps = length algs /\ last hs = Some h' /\
    given init ps (length algs) = Some pl.
Proof. exact c32_chain. Qed.
Print Assumptions C32_chain.
Theorem C32_runs `{W : World} : forall o algs init h ps hs pl h',
  trail o algs init h ps hs -> length ps = length algs -> last hs = Some h' -> given init ps (length algs) = Some pl ->
  sequential_optimize o algs init h = (Ok pl, h').
Proof. exact c32_runs. Qed.
Print Assumptions C32_runs.
(** the first failing stage determines the outcome, whatever stages follow *)
Theorem C32_stops `{W : World} : forall o algs init h e h',
  sequential_optimize o algs init h = (Raise e, h') ->
  (algs = [] /\ init = None /\ h' = h) \/
  exists k a ps hs hk, algs !! k = Some a /\ length ps = k /\ trail o algs init h ps hs /\ last hs = Some hk /\
    optimize o (a (given init ps k)) hk = (Raise e, h') /\
    forall later, sequential_optimize o (take (S k) algs ++ later) init h = (Raise e, h').
Proof. exact c32_stops. Qed.
Print Assumptions C32_stops.

Section C32_example.
  #[local] Existing Instance loop.
  Definition two_stages : list algorithm :=
    [local_search_algorithm 5 Reallocation DialARide 1; insertion_algorithm loop_config [1; 0]%nat [0; 1; 3]%nat].
  Example C32_case :
    match sequential_optimize DialARide two_stages (Some [1; 3]%nat) split_loop with
    | (Ok pl, h') => result (mapM route_trips pl) h' = Ok [[]; [1; 0; 3]]%nat
    | _ => False
    end /\
    result (sequential_optimize DialARide two_stages None) split_loop = Raise AttributeError /\
    result (sequential_optimize DialARide [] (Some [1; 3]%nat)) split_loop = Ok [1; 3]%nat.
  Proof. split; [vm_compute; reflexivity|]. split; vm_compute; reflexivity. Qed.
End C32_example.

(** ** C33.  GRASP returns a valid planning *)
(** [Diverge] stands for a local search that has not ended within [fuel] rounds *)
Theorem C33_valid `{W : World} : forall fuel o cfg fleet job episodes first h,
  sane -> tidy h -> NoDup fleet -> NoDup job -> (1 <= ic_random cfg)%nat ->
  fleet <> [] -> (1 <= episodes)%nat -> (1 <= first)%nat ->
  match grasp_optimize fuel o cfg fleet job episodes first h with
  | (Ok pl, h') => tidy h' /\ valid_planning h' fleet job pl /\ single_stops h' pl /\ routes_kept h h'
  | (Raise e, _) => e = Diverge
  end.
Proof. exact c33_valid. Qed.
Print Assumptions C33_valid.
(** for the objectives whose values are whole numbers, there is enough fuel *)
Theorem C33_ends `{W : World} : forall o cfg fleet job episodes first h,
  sane -> tidy h -> NoDup fleet -> NoDup job -> (1 <= ic_random cfg)%nat ->
  fleet <> [] -> (1 <= episodes)%nat -> (1 <= first)%nat -> o <> TaxiSharing ->
  exists n pl h', forall fuel, (n <= fuel)%nat -> grasp_optimize fuel o cfg fleet job episodes first h = (Ok pl, h').
Proof. exact c33_ends. Qed.
Print Assumptions C33_ends.
(** and the result is the first best of the plannings of its episodes *)
Theorem C33_best `{W : World} : forall fuel o cfg fleet job n first h pl h',
  sane -> tidy h -> NoDup fleet -> NoDup job -> (1 <= ic_random cfg)%nat ->
  fleet <> [] -> (1 <= n)%nat -> (1 <= first)%nat ->
  grasp_optimize fuel o cfg fleet job n first h = (Ok pl, h') ->
  exists l, length l = n /\ leads o h' l pl /\ forall q, q ∈ l -> valid_planning h' fleet job q.
Proof. exact c33_best. Qed.
Print Assumptions C33_best.
Theorem C33_none `{W : World} : forall fuel o cfg fleet job first h,
  grasp_optimize fuel o cfg fleet job 0 first h = (Raise AssertionError, h).
Proof. exact c33_none. Qed.
Print Assumptions C33_none.

Section C33_example.
  #[local] Existing Instance loop.
  Example C33_case : sane /\ tidy empty_heap /\ NoDup [1; 0]%nat /\ (1 <= ic_random loop_config)%nat /\
    match grasp_optimize 5 DialARide loop_config [1; 0]%nat [0; 1]%nat 1 1 empty_heap with
    | (Ok pl, h') => result (mapM route_trips pl) h' = Ok [[]; [1; 0]]%nat
    | _ => False
    end.
  Proof.
    split; [apply loop_sane|]. split; [apply tidyb_sound; reflexivity|].
    split; [apply (bool_decide_unpack _); reflexivity|]. split; [cbn; lia|]. vm_compute; reflexivity.
  Qed.
End C33_example.
