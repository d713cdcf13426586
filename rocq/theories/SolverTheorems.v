(** Proofs about the solver (C43). *)
From Verif Require Import SpecSolver.

Section proofs.
  Context {X : Type} (dict_at : nat -> X -> keywords) (act : call -> ST X nat).

  Lemma performed_app s l s1 m s2 : performed act s l s1 -> performed act s1 m s2 -> performed act s (l ++ m) s2.
  Proof. induction 1; [done|]. intros. cbn. econstructor; [done|]. auto. Qed.
  Lemma performed_dict s l s' : hands_off dict_at act -> performed act s l s' -> forall d, dict_at d s' = dict_at d s.
  Proof.
    intros H. induction 1 as [|s c r s1 l s2 E _ IH]; intros d; [done|]. rewrite IH.
    pose proof (H c s d) as Hd. by rewrite E in Hd.
  Qed.
  Lemma performed_own s l s' t : hands_off dict_at act -> performed act s l s' -> own dict_at s' t = own dict_at s t.
  Proof. intros H P. unfold own. destruct (tu_keywords t); [|done]. by eapply performed_dict. Qed.

  Lemma clash_spec a b : clash a b = true <-> exists k, names a k /\ names b k.
  Proof.
    unfold clash. rewrite existsb_exists. split.
    - intros ([k v] & Ha & H). apply existsb_exists in H as ([k' v'] & Hb & E). apply String.eqb_eq in E. cbn in E. subst k'.
      exists k. split; eexists; eauto.
    - intros (k & (v & Ha) & (v' & Hb)). exists (k, v). split; [done|]. apply existsb_exists. exists (k, v').
      split; [done|]. apply String.eqb_refl.
  Qed.

  (** one call *)
  Lemma perform_call_spec c log s r t : perform_call act c (log, s) = (r, t) ->
    exists s1, act c s = (r, s1) /\ t = (log ++ [(c, r)], s1).
  Proof. unfold perform_call. destruct (act c s) as [r' s1]. intros [= <- <-]. by exists s1. Qed.
  Lemma build_spec who t given log s r u : build dict_at act who t given (log, s) = (r, u) ->
    (clash given (own dict_at s t) = true /\ r = Raise TypeError /\ u = (log, s)) \/
    (clash given (own dict_at s t) = false /\ exists s1, act (Build who (tu_base t) (given ++ own dict_at s t)) s = (r, s1) /\
      u = (log ++ [(Build who (tu_base t) (given ++ own dict_at s t), r)], s1)).
  Proof.
    unfold build, bind, read_keywords. fold (own dict_at s t). destruct (clash given (own dict_at s t)).
    - intros [= <- <-]. by left.
    - intros E. right. split; [done|]. by apply perform_call_spec.
  Qed.
End proofs.


Section course.
  Context {X : Type} (dict_at : nat -> X -> keywords) (act : call -> ST X nat).
  (** programs whose only effect is that of the calls they log *)
  Definition grows {A} (m : ST (traced (X := X)) A) : Prop := forall log s r t, m (log, s) = (r, t) ->
    exists l s', t = (log ++ l, s') /\ performed act s l s'.
  Lemma grows_bind {A B} (m : ST traced A) (k : A -> ST traced B) :
    grows m -> (forall a, grows (k a)) -> grows (bind m k).
  Proof.
    intros Hm Hk log s r t. unfold bind. destruct (m (log, s)) as [[a|e] t1] eqn:E1.
    - intros E2. apply Hm in E1 as (l & s1 & -> & P1). apply Hk in E2 as (l' & s2 & -> & P2).
      exists (l ++ l'), s2. rewrite app_assoc. split; [done|]. by eapply performed_app.
    - intros [= <- <-]. by apply Hm in E1.
  Qed.
  Lemma grows_ret {A} (a : A) : grows (ret a).
  Proof. intros log s r t [= <- <-]. exists [], s. rewrite app_nil_r. split; [done|constructor]. Qed.
  Lemma grows_raise {A} e : grows (raise (A := A) e).
  Proof. intros log s r t [= <- <-]. exists [], s. rewrite app_nil_r. split; [done|constructor]. Qed.
  Lemma grows_call c : grows (perform_call act c).
  Proof.
    intros log s r t (s1 & E & ->)%perform_call_spec. exists [(c, r)], s1. split; [done|].
    econstructor; [done|constructor].
  Qed.
  Lemma grows_build who t given : grows (build dict_at act who t given).
  Proof.
    intros log s r u [(_ & -> & ->)|(_ & s1 & E & ->)]%build_spec.
    - exists [], s. rewrite app_nil_r. split; [done|constructor].
    - eexists [_], s1. split; [done|]. econstructor; [done|constructor].
  Qed.
  Lemma grows_solve naive x : grows (solve dict_at act naive x).
  Proof.
    unfold solve. apply grows_bind.
    { intros log s r t [= <- <-]. exists [], s. rewrite app_nil_r. split; [done|constructor]. }
    intros [|]; [|apply grows_raise]. unfold dispatch.
    repeat (apply grows_bind; [first [apply grows_call|apply grows_build]|intros ?]). apply grows_ret.
  Qed.
End course.

(** everything that happens to the state of the program is the work of the
    calls in the log: the solver writes nothing itself *)
Lemma c43_frame : forall X (dict_at : nat -> X -> keywords) act naive x s r log s',
  solve dict_at act naive x ([], s) = (r, (log, s')) -> performed act s log s'.
Proof.
  intros X dict_at act naive x s r log s' E. apply (grows_solve dict_at) in E as (l & s1 & [= -> ->] & P). done.
Qed.
(** so the dictionaries stay as they are unless the user's code changes them *)
Lemma c43_dictionaries : forall X (dict_at : nat -> X -> keywords) act naive x s r log s',
  hands_off dict_at act -> solve dict_at act naive x ([], s) = (r, (log, s')) ->
  forall d, dict_at d s' = dict_at d s.
Proof. intros. eapply performed_dict; [done|]. by eapply c43_frame. Qed.

(** all ways to end *)
Section ends.
  Context {X : Type} (dict_at : nat -> X -> keywords) (act : call -> ST X nat).
  Section course.
    Context (x : solver) (kd kl ka ks : keywords).
    Notation clear_a := (~ (names ka "fleet" \/ names ka "job")).
    Notation clear_s := (~ names ks "result").
    Inductive course : res nat -> list (call * res nat) -> Prop :=
    | course_keyed : kd <> [] -> course (Raise TypeError) []
    | course_loader e : kd = [] -> course (Raise e)
        [(Build TheLoader (tu_base (so_loader x)) kl, Raise e)]
    | course_job loader e : kd = [] -> course (Raise e)
        [(Build TheLoader (tu_base (so_loader x)) kl, Ok loader); (Ask TheLoader loader "job", Raise e)]
    | course_fleet loader job e : kd = [] -> course (Raise e)
        [(Build TheLoader (tu_base (so_loader x)) kl, Ok loader);
         (Ask TheLoader loader "job", Ok job); (Ask TheLoader loader "fleet", Raise e)]
    | course_algorithm_clash loader job fleet : kd = [] -> names ka "fleet" \/ names ka "job" ->
        course (Raise TypeError) (loading x kl loader job fleet)
    | course_algorithm loader job fleet e : kd = [] -> clear_a -> course (Raise e)
        (loading x kl loader job fleet ++
         [(Build TheAlgorithm (tu_base (so_algorithm x)) ([("fleet"%string, fleet); ("job"%string, job)] ++ ka), Raise e)])
    | course_optimize loader job fleet algorithm e : kd = [] -> clear_a -> course (Raise e)
        (loading x kl loader job fleet ++
         [(Build TheAlgorithm (tu_base (so_algorithm x)) ([("fleet"%string, fleet); ("job"%string, job)] ++ ka), Ok algorithm);
          (Ask TheAlgorithm algorithm "optimize", Raise e)])
    | course_storer_clash loader job fleet algorithm result : kd = [] -> clear_a -> names ks "result" ->
        course (Raise TypeError) (loading x kl loader job fleet ++ optimizing x ka job fleet algorithm result)
    | course_storer loader job fleet algorithm result e : kd = [] -> clear_a -> clear_s -> course (Raise e)
        (loading x kl loader job fleet ++ optimizing x ka job fleet algorithm result ++
         [(Build TheStorer (tu_base (so_storer x)) (("result"%string, result) :: ks), Raise e)])
    | course_store loader job fleet algorithm result storer e : kd = [] -> clear_a -> clear_s -> course (Raise e)
        (loading x kl loader job fleet ++ optimizing x ka job fleet algorithm result ++
         [(Build TheStorer (tu_base (so_storer x)) (("result"%string, result) :: ks), Ok storer);
          (Ask TheStorer storer "store", Raise e)])
    | course_done loader job fleet algorithm result storer u : kd = [] -> clear_a -> clear_s -> course (Ok result)
        (loading x kl loader job fleet ++ optimizing x ka job fleet algorithm result ++ storing x ks result storer u).
  End course.

  Lemma clash_names2 (a b : string) u v k : clash [(a, u); (b, v)] k = true <-> names k a \/ names k b.
  Proof.
    rewrite clash_spec. split.
    - intros (n & (w & [[= -> ->]|[[= -> ->]|[]]]) & ?); auto.
    - intros [H|H]; [exists a|exists b]; (split; [|done]); eexists; cbn; eauto.
  Qed.
  Lemma clash_names1 (a : string) u k : clash [(a, u)] k = true <-> names k a.
  Proof.
    rewrite clash_spec. split.
    - by intros (n & (w & [[= -> ->]|[]]) & ?).
    - intros H. exists a. split; [|done]. eexists. cbn. eauto.
  Qed.
  Lemma solve_course naive x s r log s' : solve dict_at act naive x ([], s) = (r, (log, s')) ->
    exists ka ks, course x (keyed dict_at x s) (own dict_at s (so_loader x)) ka ks r log /\
      (hands_off dict_at act -> ka = own dict_at s (so_algorithm x) /\ ks = own dict_at s (so_storer x)).
  Proof.
    unfold solve, bind at 1, read_keywords at 1. change (match so_dispatcher x with Some d => dict_at d s | None => [] end) with (keyed dict_at x s).
    destruct (keyed dict_at x s) as [|p l] eqn:Ek.
    2:{ unfold raise. intros [= <- <- <-]. eexists _, _. split; [by apply course_keyed|by split]. }
    unfold dispatch, bind at 1.
    destruct (build dict_at act TheLoader _ _ _) as [[loader|e] t1] eqn:E1;
      apply build_spec in E1 as [(Hc & E1 & ->)|(_ & s1 & E1 & ->)]; try discriminate.
    2:{ intros [= <- <- <-]. eexists _, _. split; [by apply course_loader|by split]. }
    cbn [app] in *. unfold bind at 1.
    destruct (perform_call act _ _) as [[job|e] t2] eqn:E2; apply perform_call_spec in E2 as (s2 & E2 & ->).
    2:{ intros [= <- <- <-]. eexists _, _. split; [by apply course_job|by split]. }
    unfold bind at 1.
    destruct (perform_call act _ _) as [[fleet|e] t3] eqn:E3; apply perform_call_spec in E3 as (s3 & E3 & ->).
    2:{ intros [= <- <- <-]. eexists _, _. split; [by apply course_fleet|by split]. }
    assert (O3 : hands_off dict_at act -> forall t, own dict_at s3 t = own dict_at s t).
    { intros H t. eapply (performed_own dict_at act _ [_; _; _]); [done|].
      econstructor; [exact E1|]. econstructor; [exact E2|]. econstructor; [exact E3|]. constructor. }
    unfold bind at 1.
    destruct (build dict_at act TheAlgorithm _ _ _) as [[algorithm|e] t4] eqn:E4;
      apply build_spec in E4 as [(Hc & E4 & ->)|(Hc & s4 & E4 & ->)]; try discriminate.
    2:{ injection E4 as ->. intros [= <- <- <-]. eexists _, _. split; [apply course_algorithm_clash; [done|by apply clash_names2 in Hc]|].
        intros H. split; [by apply O3|done]. }
    2:{ intros [= <- <- <-]. eexists _, _. split; [apply course_algorithm; [done|]|].
        - intros Hx. apply (clash_names2 _ _ fleet job) in Hx. congruence.
        - intros H. split; [by apply O3|done]. }
    assert (Ca : ~ (names (own dict_at s3 (so_algorithm x)) "fleet" \/ names (own dict_at s3 (so_algorithm x)) "job")).
    { intros Hx. apply (clash_names2 _ _ fleet job) in Hx. congruence. }
    unfold bind at 1.
    destruct (perform_call act _ _) as [[result|e] t5] eqn:E5; apply perform_call_spec in E5 as (s5 & E5 & ->).
    2:{ intros [= <- <- <-]. eexists _, _. split; [by apply course_optimize|]. intros H. split; [by apply O3|done]. }
    assert (O5 : hands_off dict_at act -> forall t, own dict_at s5 t = own dict_at s t).
    { intros H t. rewrite <- (O3 H). eapply (performed_own dict_at act _ [_; _]); [done|].
      econstructor; [exact E4|]. econstructor; [exact E5|]. constructor. }
    unfold bind at 1.
    destruct (build dict_at act TheStorer _ _ _) as [[storer|e] t6] eqn:E6;
      apply build_spec in E6 as [(Hs & E6 & ->)|(Hs & s6 & E6 & ->)]; try discriminate.
    2:{ injection E6 as ->. intros [= <- <- <-]. eexists _, _.
        split; [apply course_storer_clash; [done|done|by apply clash_names1 in Hs]|].
        intros H. split; [by apply O3|by apply O5]. }
    2:{ intros [= <- <- <-]. eexists _, _. split; [apply course_storer; [done|done|]|].
        - intros Hx. apply (clash_names1 _ result) in Hx. congruence.
        - intros H. split; [by apply O3|by apply O5]. }
    assert (Cs : ~ names (own dict_at s5 (so_storer x)) "result").
    { intros Hx. apply (clash_names1 _ result) in Hx. congruence. }
    unfold bind at 1.
    destruct (perform_call act _ _) as [[u|e] t7] eqn:E7; apply perform_call_spec in E7 as (s7 & E7 & ->).
    - intros [= <- <- <-]. eexists _, _. split; [by apply course_done|]. intros H. split; [by apply O3|by apply O5].
    - intros [= <- <- <-]. eexists _, _. split; [by apply course_store|]. intros H. split; [by apply O3|by apply O5].
  Qed.
End ends.

(** a solver that returns has loaded job and fleet, optimized once, stored that
    result once, and returns it *)
Lemma c43_success : forall X (dict_at : nat -> X -> keywords) act naive x s result log s',
  solve dict_at act naive x ([], s) = (Ok result, (log, s')) ->
  exists ka ks loader job fleet algorithm storer u,
    log = loading x (own dict_at s (so_loader x)) loader job fleet ++
          optimizing x ka job fleet algorithm result ++ storing x ks result storer u /\
    (hands_off dict_at act -> ka = own dict_at s (so_algorithm x) /\ ks = own dict_at s (so_storer x)).
Proof.
  intros X dict_at act naive x s result log s' E. apply solve_course in E as (ka & ks & C & H).
  exists ka, ks. inversion C; subst. by do 6 eexists.
Qed.

(** an exception of the user's code ends the pipeline and is passed on; while
    loading or optimizing, it means that nothing is stored *)
Lemma c43_failure : forall X (dict_at : nat -> X -> keywords) act naive x s r log s' c e,
  solve dict_at act naive x ([], s) = (r, (log, s')) -> (c, Raise e) ∈ log ->
  r = Raise e /\ last log = Some (c, Raise e) /\
  (about c <> TheStorer -> forall c' r', (c', r') ∈ log -> about c' <> TheStorer).
Proof.
  intros X dict_at act naive x s r log s' c e E Hin. apply solve_course in E as (ka & ks & C & _).
  assert (G : forall c' r', (c', r') ∈ log -> (exists v, r' = Ok v) \/ (r = r' /\ last log = Some (c', r'))).
  { inversion C; subst; intros c' r' Hc; cbn in Hc |- *;
      repeat (apply elem_of_cons in Hc as [[= -> ->]|Hc]; [first [by left; eexists|by right]|]); inversion Hc. }
  destruct (G _ _ Hin) as [[v ?]|[-> Hl]]; [done|]. split; [done|]. split; [done|].
  intros Hs c' r' Hc'. inversion C; subst; cbn in Hl, Hc'; try injection Hl as <-; cbn in Hs; try done;
    repeat (apply elem_of_cons in Hc' as [[= -> ->]|Hc']; [done|]); inversion Hc'.
Qed.
(** whatever goes wrong, what is stored is what was optimized *)
Lemma c43_stored : forall X (dict_at : nat -> X -> keywords) act naive x s r log s' base given r',
  solve dict_at act naive x ([], s) = (r, (log, s')) -> (Build TheStorer base given, r') ∈ log ->
  exists algorithm result more,
    (Ask TheAlgorithm algorithm "optimize", Ok result) ∈ log /\ given = ("result"%string, result) :: more /\
    (forall v, r = Ok v -> v = result).
Proof.
  intros X dict_at act naive x s r log s' base given r' E Hin. apply solve_course in E as (ka & ks & C & _).
  inversion C; subst; cbn in Hin;
    repeat (apply elem_of_cons in Hin; destruct Hin as [Hin|Hin];
      [try discriminate Hin; injection Hin as -> -> ->; exists algorithm, result;
       eexists; (split; [unfold loading, optimizing; cbn; set_solver|]); (split; [reflexivity|]); intros v [=]; congruence|]);
    inversion Hin.
Qed.

(** keywords given twice *)
Lemma c43_dispatcher : forall X (dict_at : nat -> X -> keywords) act naive x s d,
  so_dispatcher x = Some d -> dict_at d s <> [] ->
  solve dict_at act naive x ([], s) = (Raise TypeError, ([], s)).
Proof.
  intros X dict_at act naive x s d Hd Hk. unfold solve, bind, read_keywords. rewrite Hd. by destruct (dict_at d s).
Qed.
(** those of the algorithm are noticed after loading, before anything of the
    algorithm runs *)
Lemma c43_algorithm : forall X (dict_at : nat -> X -> keywords) act naive x s r log s',
  hands_off dict_at act -> keyed dict_at x s = [] ->
  names (own dict_at s (so_algorithm x)) "fleet" \/ names (own dict_at s (so_algorithm x)) "job" ->
  solve dict_at act naive x ([], s) = (r, (log, s')) ->
  (forall c r', (c, r') ∈ log -> about c = TheLoader) /\
  ((forall c r', (c, r') ∈ log -> exists v, r' = Ok v) ->
     r = Raise TypeError /\ exists loader job fleet, log = loading x (own dict_at s (so_loader x)) loader job fleet).
Proof.
  intros X dict_at act naive x s r log s' H Hk Hn E. apply solve_course in E as (ka & ks & C & [-> ->]%(fun f => f H)).
  split.
  - inversion C; subst; try tauto; intros c r' Hc; cbn in Hc;
      repeat (apply elem_of_cons in Hc as [[= -> ->]|Hc]; [done|]); inversion Hc.
  - intros Hok. assert (Hno : forall c e, (c, Raise e) ∉ log) by (intros c e Hc; by destruct (Hok _ _ Hc)).
    inversion C; subst; try tauto; try congruence; try (by split; [|by do 3 eexists]);
      exfalso; eapply Hno; cbn; repeat (apply elem_of_list_here || apply elem_of_list_further).
Qed.
(** those of the storer after the optimization, before anything is stored *)
Lemma c43_storer : forall X (dict_at : nat -> X -> keywords) act naive x s r log s',
  hands_off dict_at act -> keyed dict_at x s = [] ->
  names (own dict_at s (so_storer x)) "result" ->
  solve dict_at act naive x ([], s) = (r, (log, s')) ->
  (exists e, r = Raise e) /\ (forall c r', (c, r') ∈ log -> about c <> TheStorer) /\
  ((forall c r', (c, r') ∈ log -> exists v, r' = Ok v) -> r = Raise TypeError).
Proof.
  intros X dict_at act naive x s r log s' H Hk Hn E. apply solve_course in E as (ka & ks & C & [-> ->]%(fun f => f H)).
  split; [inversion C; subst; try tauto; by eexists|]. split.
  - inversion C; subst; try tauto; intros c r' Hc; cbn in Hc;
      repeat (apply elem_of_cons in Hc as [[= -> ->]|Hc]; [done|]); inversion Hc.
  - intros Hok. assert (Hno : forall c e, (c, Raise e) ∉ log) by (intros c e Hc; by destruct (Hok _ _ Hc)).
    inversion C; subst; try tauto; try congruence;
      exfalso; eapply Hno; cbn; repeat (apply elem_of_list_here || apply elem_of_list_further).
Qed.
(** so "before anything runs" is false of both *)
Lemma c43_naive : forall X (act : call -> ST X nat) naive (s : X),
  (forall c s, exists v s', act c s = (Ok v, s')) ->
  exists (dict_at : nat -> X -> keywords) x log s', solve dict_at act naive x ([], s) = (Raise TypeError, (log, s')) /\
    exists algorithm result, (Ask TheAlgorithm algorithm "optimize", Ok result) ∈ log.
Proof.
  intros X act naive s H. exists (fun _ _ => [("result"%string, 0%nat)]).
  exists (Solver (Tuned 0 None) (Tuned 1 None) (Tuned 2 (Some 0%nat)) None).
  unfold solve, dispatch, bind, read_keywords, build, perform_call. cbn.
  do 5 match goal with |- context [act ?c ?t] => destruct (H c t) as (? & ? & ->); cbn end.
  do 2 eexists. split; [reflexivity|]. do 2 eexists. repeat (apply elem_of_list_here || apply elem_of_list_further).
Qed.
