(** C33: plannings stay valid through the episodes of GRASP. *)
From Verif Require Export MetaTheorems.

Section fine.
  Context {W : World} {Sh : Shape} {Ls : Loose}.
  Context (Hs : sane) (fleet job : list nat) (Hf : NoDup fleet) (Hne : fleet <> []) (bad : exn -> Prop).

  Definition Good (h : heap) (pl : planning) : Prop :=
    exists A, Plan h pl A /\ map fst A ≡ₚ fleet /\ (forall t, t ∈ concat (map snd A) -> t ∈ job).
  Lemma Good_evolves h h' pl : evolves h h' -> Good h pl -> Good h' pl.
  Proof. intros E (A & P & H1 & H2). exists A. split; [by eapply Plan_evolves|done]. Qed.
  Lemma Good_valid h pl : Good h pl <-> valid_planning h fleet job pl /\ all_good h pl.
  Proof.
    split.
    - intros (A & P & H1 & H2). by eapply Plan_valid.
    - intros [V G]. destruct (valid_Plan _ _ _ _ V G) as (A & P & H). by exists A.
  Qed.
  Lemma Good_planned h pl : Good h pl -> well_planned h pl.
  Proof. intros (A & P & _). by eapply Plan_planned. Qed.
  Lemma Good_nonempty h pl : Good h pl -> pl <> [].
  Proof.
    intros (A & (F & _) & H1 & _) ->. inversion F; subst. apply Permutation_nil in H1. done.
  Qed.
  Lemma Good_tours h pl : Good h pl -> forall r, r ∈ pl -> a_tour h r.
  Proof.
    intros (A & P & _) r Hr. destruct (Plan_served _ _ _ _ P Hr) as (v & B & ids & L & R & _).
    exists v, ids, L. by apply on_tour_RouteOK.
  Qed.

  (** recorded answers are fair where this matters *)
  Definition Inv (h : heap) : Prop := HInv h /\ (trusted -> Trust h).
  Lemma Inv_evolves h h' : Inv h -> evolves h h' -> HInv h' -> Inv h'.
  Proof. intros [_ HT] E HI. split; [done|]. exact (trust_evolves _ _ E HT). Qed.
  (** between [h] and [h'] routes were only added *)
  Definition Grown (h h' : heap) : Prop := evolves h h' /\ Inv h' /\ routes_kept h h'.
  Lemma Grown_trans h1 h2 h3 : Grown h1 h2 -> Grown h2 h3 -> Grown h1 h3.
  Proof. intros (A1 & A2 & A3) (B1 & B2 & B3). split; [by eapply evolves_trans|]. split; [done|by eapply kept_trans]. Qed.
  Lemma Grown_soft h h' : Inv h -> soft h h' -> Grown h h'.
  Proof.
    intros HI S. split; [by apply evolves_soft|]. split; [|by apply soft_kept].
    apply (Inv_evolves h); [done|by apply evolves_soft|]. eapply HInv_soft; [apply HI|done].
  Qed.
  Lemma Grown_refl h : Inv h -> Grown h h.
  Proof. intros HI. apply Grown_soft; [done|apply soft_refl]. Qed.
  Definition fine (m : M planning) (h : heap) : Prop :=
    match m h with
    | (Ok pl, h') => Grown h h' /\ Good h' pl
    | (Raise e, _) => bad e
    end.
  Definition allowed (cold : Prop) (h : heap) (start : option planning) : Prop :=
    match start with None => cold | Some b => Good h b end.
  Definition Alg (cold : Prop) (alg : algorithm) : Prop :=
    forall h start, Inv h -> allowed cold h start -> fine (alg start) h.

  Lemma allowed_evolves cold h h' start : evolves h h' -> allowed cold h start -> allowed cold h' start.
  Proof. intros E. destruct start; [|done]. by apply Good_evolves. Qed.
  Lemma optimize_after o m h pl h1 : m h = (Ok pl, h1) -> Grown h h1 -> Good h1 pl ->
    exists h', optimize o m h = (Ok pl, h') /\ Grown h h' /\ Good h' pl.
  Proof.
    intros E1 G1 Gd. assert (HI : Inv h1) by apply G1.
    pose proof (planning_feasible_runs h1 pl Hs (Good_nonempty _ _ Gd) (Good_tours _ _ Gd)) as P.
    apply runs_eq in P as (b & h2 & E2 & [S2 _]).
    assert (G2 : Good h2 pl) by (eapply Good_evolves; [by apply evolves_soft|done]).
    destruct (well_planned_worth o h2 pl (Good_planned _ _ G2)) as [x Wx].
    pose proof (planning_value_gives o h2 pl x Wx) as V. apply gives_eq in V as (h3 & E3 & [S3 _]).
    exists h3. split.
    { unfold optimize. rewrite (bind_ok _ _ _ _ _ E1), (bind_ok _ _ _ _ _ E2), (bind_ok _ _ _ _ _ E3). done. }
    assert (G3 : Grown h1 h2) by by apply Grown_soft. assert (G4 : Grown h2 h3) by (apply Grown_soft; [apply G3|done]).
    split; [by eapply Grown_trans; [|eapply Grown_trans]|]. eapply Good_evolves; [apply G4|done].
  Qed.
  Lemma optimize_fine o m h : fine m h -> fine (optimize o m) h.
  Proof.
    unfold fine at 1. intros F. destruct (m h) as [[pl|e] h1] eqn:E.
    - destruct F as [G1 Gd]. destruct (optimize_after o m h pl h1 E G1 Gd) as (h' & E' & R). unfold fine. by rewrite E'.
    - unfold fine, optimize, bind. by rewrite E.
  Qed.
  Lemma fine_bind_Good h m (k : planning -> M planning) : fine m h ->
    (forall pl h', Grown h h' -> Good h' pl -> fine (k pl) h') -> fine (bind m k) h.
  Proof.
    unfold fine. unfold bind. destruct (m h) as [[pl|e] h1]; [|done]. intros [G1 Gd] Hk. specialize (Hk pl h1 G1 Gd).
    destruct (k pl h1) as [[pl2|e] h2]; [|done]. destruct Hk as [G2 Gd2]. split; [by eapply Grown_trans|done].
  Qed.

  Lemma compare_grown o h l : Inv h -> (forall b, b ∈ l -> Good h b) ->
    exists w h', objective_best o l h = (Ok w, h') /\ Grown h h' /\
      (forall i, w = Some i -> (i < length l)%nat).
  Proof.
    intros HI Hl. destruct (objective_best_eq o h l) as (w & h' & E & [S _] & Hw).
    { intros b Hb. by apply Good_planned, Hl. }
    exists w, h'. split; [done|]. split; [by apply Grown_soft|]. intros i ->. destruct Hw as (pl & x & Hi & _).
    by eapply lookup_lt_Some.
  Qed.

  Lemma insertion_fine cfg : (trusted -> ic_only_feasible cfg = true) -> NoDup job -> (1 <= ic_random cfg)%nat -> Alg True (insertion_algorithm cfg fleet job).
  Proof.
    intros Hof Hj Hr h start HI Ha. unfold insertion_algorithm, fine. cbn beta.
    assert (HT : trusted -> ic_only_feasible cfg = true /\ Trust h) by (intros T; split; [by apply Hof|by apply HI]). destruct start as [b|]; cbn in Ha.
    - apply Good_valid in Ha as [V G]. pose proof (insertion_framed cfg fleet job b h) as U.
      pose proof (insertion_warm_runs cfg fleet job h fleet job b Hs (proj1 HI) V G HT Hj Hr) as R.
      apply runs_eq in R as (pl & h' & E & Ev & HI' & V' & G' & _).
      change (@Some (list nat) b) with (@Some planning b) in E. rewrite E in U |- *. cbn [snd] in U.
      split; [split; [done|]; split; [by eapply Inv_evolves|by apply grow_kept, untouched_grow]|].
      apply Good_valid. split; [|done]. destruct V' as [V1 V2 V3 V4]. split; [done|done| |done].
      intros r v ts t H1 H2 H3. pose proof (V3 r v ts t H1 H2 H3) as [?|?]%elem_of_app; done.
    - pose proof (insertion_cold_framed cfg fleet job h) as U.
      pose proof (insertion_cold_runs cfg fleet job h Hs (proj1 HI) HT Hf Hj Hr) as R.
      apply runs_eq in R as (pl & h' & E & Ev & HI' & V' & G'). rewrite E in U |- *. cbn [snd] in U.
      split; [split; [done|]; split; [by eapply Inv_evolves|by apply grow_kept, untouched_grow]|]. by apply Good_valid.
  Qed.
  Lemma ls_fine fuel o threshold : bad Diverge -> Alg False (local_search_algorithm fuel Reallocation o threshold).
  Proof.
    intros Hbad h [b|] HI Ha; [|done]. cbn in Ha. destruct Ha as (A & P & EK & EU).
    destruct (Plan_worth o h b A P) as (x & Wx & _).
    pose proof (ls_loop_runs o threshold x A h fuel Hs (proj2 HI) 0%nat b A x h (proj1 HI)) as L.
    unfold local_search_algorithm, local_search_optimize, fine.
    assert (K0 : routes_kept h h) by by split.
    specialize (L (evolves_refl _) K0 P ltac:(done) ltac:(done) Wx ltac:(by left)).
    destruct (ls_loop _ _ _ _ _ _ _) as [[pl|e] h']; [|by subst e].
    destruct L as (A' & y & HI' & Ev & K & P' & F1 & F2 & _ & _).
    split; [split; [done|]; split; [by eapply Inv_evolves|done]|].
    exists A'. split; [done|]. split; [by rewrite F1|]. intros t. rewrite F2. apply EU.
  Qed.
  Lemma sequential_fine cold o a algs : Alg cold a -> Forall (Alg False) algs -> Alg cold (sequential_optimize o (a :: algs)).
  Proof.
    intros Ha Hl.
    assert (L : forall b h, Inv h -> Good h b -> fine (let! c := sequential_loop o algs (Some b) in py_some c) h).
    { clear Ha a. induction Hl as [|a algs Ha Hl IH]; intros b h HI Gd.
      - unfold fine. cbn. split; [by apply Grown_refl|done].
      - cbn [sequential_loop]. assert (F : fine (optimize o (a (Some b))) h) by by apply optimize_fine, Ha.
        unfold fine in F |- *. unfold bind at 1 2. destruct (optimize o (a (Some b)) h) as [[pl|e] h1]; [|done].
        destruct F as [G1 Gd1]. specialize (IH pl h1 ltac:(apply G1) Gd1). unfold fine, bind in IH.
        destruct (sequential_loop o algs (Some pl) h1) as [[c|e] h2]; [|done].
        destruct (py_some c h2) as [[pl2|e] h3]; [|done]. destruct IH as [G2 ?]. split; [by eapply Grown_trans|done]. }
    intros h start HI Hst. unfold sequential_optimize. cbn [sequential_loop].
    assert (F : fine (optimize o (a start)) h) by by apply optimize_fine, Ha.
    unfold fine in F |- *. unfold bind at 1 2. destruct (optimize o (a start) h) as [[pl|e] h1]; [|done].
    destruct F as [G1 Gd1]. specialize (L pl h1 ltac:(apply G1) Gd1). unfold fine, bind in L.
    destruct (sequential_loop o algs (Some pl) h1) as [[c|e] h2]; [|done].
    destruct (py_some c h2) as [[pl2|e] h3]; [|done]. destruct L as [G2 ?]. split; [by eapply Grown_trans|done].
  Qed.
  Lemma iterative_fine cold o alg restart n : Alg cold alg -> (1 <= n)%nat -> Alg cold (iterative_optimize o alg restart n).
  Proof.
    intros Ha Hn h init HI Hst.
    assert (L : forall n best h, Inv h -> allowed cold h init -> (match best with Some b => Good h b | None => (1 <= n)%nat end) ->
      fine (let! b := iterative_loop o alg restart init n best in match b with None => raise AssertionError | Some b => ret b end) h).
    { clear Hn n h HI Hst. induction n as [|n IH]; intros best h HI Hst Hb.
      { destruct best as [b|]; [|lia]. unfold fine. cbn. split; [by apply Grown_refl|done]. }
      cbn [iterative_loop]. set (start := match best with Some b => if restart then init else Some b | None => init end).
      assert (F : fine (optimize o (alg start)) h).
      { apply optimize_fine, Ha; [done|]. unfold start. destruct best; [destruct restart|]; done. }
      unfold fine in F |- *. unfold bind at 1 2. destruct (optimize o (alg start) h) as [[pl|e] h1]; [|done].
      destruct F as [G1 Gd1].
      assert (Hstep : exists b' h2, (match best with
        | None => let! _ := objective_best o [pl] in ret (Some pl)
        | Some b => let! w := objective_best o [b; pl] in ret (Some (match w with Some 1%nat => pl | _ => b end))
        end) h1 = (Ok (Some b'), h2) /\ Grown h h2 /\ Good h2 b').
      { destruct best as [b|].
        - assert (Gb : Good h1 b) by (eapply Good_evolves; [apply G1|done]).
          destruct (compare_grown o h1 [b; pl]) as (w & h2 & E & G2 & _); [apply G1| |].
          { intros q [->|[->|H]%elem_of_cons]%elem_of_cons; [done|done|inversion H]. }
          exists (match w with Some 1%nat => pl | _ => b end), h2. rewrite (bind_ok _ _ _ _ _ E). split; [done|].
          split; [by eapply Grown_trans|]. destruct w as [[|[|k]]|]; (eapply Good_evolves; [apply G2|done]).
        - destruct (compare_grown o h1 [pl]) as (w & h2 & E & G2 & _); [apply G1| |].
          { by intros q ->%elem_of_list_singleton. }
          exists pl, h2. rewrite (bind_ok _ _ _ _ _ E). split; [done|].
          split; [by eapply Grown_trans|]. eapply Good_evolves; [apply G2|done]. }
      destruct Hstep as (b' & h2 & E2 & G2 & Gd2). unfold bind at 1. rewrite E2.
      specialize (IH (Some b') h2 ltac:(apply G2)). unfold fine, bind in IH.
      assert (Hst2 : allowed cold h2 init) by (eapply allowed_evolves; [apply G2|done]). specialize (IH Hst2 Gd2).
      destruct (iterative_loop _ _ _ _ _ _ h2) as [[c|e] h3]; [|done]. destruct c as [c|]; [|done].
      cbn in IH |- *. destruct IH as [G3 ?]. split; [by eapply Grown_trans|done]. }
    apply L; [done|done|done].
  Qed.
  Lemma Alg_cold (cold : Prop) alg : cold -> Alg cold alg -> Alg True alg.
  Proof. intros Hc Ha h start HI Hst. apply Ha; [done|]. by destruct start. Qed.
  Lemma grasp_inner_fine fuel o cfg first : (trusted -> ic_only_feasible cfg = true) -> bad Diverge -> NoDup job -> (1 <= ic_random cfg)%nat -> (1 <= first)%nat ->
    Alg True (sequential_optimize o
         [ (fun init => iterative_optimize o (insertion_algorithm cfg fleet job) true first init);
           (fun init => iterative_optimize o (default_sequential fuel o cfg fleet job) false 3 init) ]).
  Proof.
    intros Hof Hbad Hj Hr Hfi. apply sequential_fine.
    - apply iterative_fine; [by apply insertion_fine|done].
    - constructor; [|constructor]. apply iterative_fine; [|lia]. apply sequential_fine; [by apply ls_fine|].
      constructor; [|constructor]. intros h start HI Hst. apply insertion_fine; [done|done|done|done|]. by destruct start.
  Qed.
  Lemma grasp_fine fuel o cfg episodes first h : (trusted -> ic_only_feasible cfg = true) -> bad Diverge -> NoDup job -> (1 <= ic_random cfg)%nat -> (1 <= first)%nat -> (1 <= episodes)%nat ->
    Inv h -> fine (grasp_optimize fuel o cfg fleet job episodes first) h.
  Proof.
    intros Hof Hbad Hj Hr Hfi He HI. unfold grasp_optimize. apply optimize_fine.
    apply (iterative_fine True); [|done|done|done]. intros h1 start HI1 _.
    by apply (grasp_inner_fine fuel o cfg first Hof Hbad Hj Hr Hfi h1 None).
  Qed.
  Lemma Alg_steady (cold : Prop) o alg init : Alg cold alg -> (init = None -> cold) ->
    steady o alg init (fun h => Inv h /\ allowed cold h init) Good.
  Proof.
    intros Ha Hc. split.
    - intros h pl _. apply Good_planned.
    - intros h start pl h' [HI Hi] Hst E.
      assert (F : fine (optimize o (alg start)) h).
      { apply optimize_fine, Ha; [done|]. by destruct Hst as [->|(b & -> & ?)]. }
      unfold fine in F. rewrite E in F. destruct F as [(Ev & HI' & K) Gd]. split; [split; [done|by eapply allowed_evolves]|].
      split; [done|]. split; [done|]. intros b. by apply Good_evolves.
    - intros h l w h' [HI Hi] Hl E. destruct (compare_grown o h l HI Hl) as (w' & h2 & E2 & (Ev & HI' & _) & _).
      rewrite E in E2. injection E2 as <- <-. split; [split; [done|by eapply allowed_evolves]|]. intros b. by apply Good_evolves.
  Qed.
End fine.

#[local] Existing Instance simple_shape.
Lemma tidy_Inv `{W : World} h : HInv h -> Inv h.
Proof. intros HI. split; [done|by intros []]. Qed.
Lemma c17_single `{W : World} : forall cfg fleet job h pl h',
  sane -> tidy h -> NoDup fleet -> NoDup job -> (1 <= ic_random cfg)%nat ->
  insertion_optimize cfg fleet job None h = (Ok pl, h') -> single_stops h' pl.
Proof.
  intros cfg fleet job h pl h' Hs HT Hf Hj Hr E. apply tidy_HInv in HT.
  pose proof (@insertion_cold_runs _ simple_shape cfg fleet job h Hs HT (False_ind _) Hf Hj Hr) as R. unfold runs in R. rewrite E in R.
  by destruct R as (_ & _ & _ & G).
Qed.
Lemma c19_single `{W : World} : forall cfg fleet job h vs ts rs0 pl h',
  sane -> tidy h -> valid_planning h vs ts rs0 -> single_stops h rs0 -> NoDup job -> (1 <= ic_random cfg)%nat ->
  insertion_optimize cfg fleet job (Some rs0) h = (Ok pl, h') -> single_stops h' pl.
Proof.
  intros cfg fleet job h vs ts rs0 pl h' Hs HT V G Hj Hr E. apply tidy_HInv in HT.
  pose proof (@insertion_warm_runs _ simple_shape cfg fleet job h vs ts rs0 Hs HT V G (False_ind _) Hj Hr) as R. unfold runs in R. rewrite E in R.
  by destruct R as (_ & _ & _ & G' & _).
Qed.

(** ** C31 for insertion *)
Lemma c31_insertion `{W : World} : forall o cfg fleet job restart n h,
  sane -> tidy h -> NoDup fleet -> fleet <> [] -> NoDup job -> (1 <= ic_random cfg)%nat -> (1 <= n)%nat ->
  exists l b h', iterative_optimize o (insertion_algorithm cfg fleet job) restart n None h = (Ok b, h') /\
    length l = n /\ episodes o (insertion_algorithm cfg fleet job) restart None h l h' /\ leads o h' l b /\
    tidy h' /\ valid_planning h' fleet job b.
Proof.
  intros o cfg fleet job restart n h Hs HT Hf Hne Hj Hr Hn. apply tidy_HInv in HT.
  pose proof (insertion_fine Hs fleet job Hf (fun _ => False) cfg (False_ind _) Hj Hr) as Ha. pose proof (tidy_Inv h HT) as HI0.
  pose proof (Alg_steady Hs fleet job Hne (fun _ => False) True o _ None Ha ltac:(done)) as St.
  pose proof (iterative_fine Hs fleet job Hne (fun _ => False) True o _ restart n Ha Hn h None HI0 I) as F. unfold fine in F.
  destruct (iterative_optimize _ _ _ _ _ _) as [[b|e] h'] eqn:E.
  - destruct (c31_best o _ restart n None _ _ h b h' (conj HI0 I) St E) as (l & Hl & HE & HL).
    destruct F as [(_ & HI & _) Gd]. exists l, b, h'. do 4 (split; [done|]). split; [by apply tidy_HInv, HI|].
    by apply Good_valid.
  - done.
Qed.

(** ** C33 *)
Lemma c33_valid `{W : World} : forall fuel o cfg fleet job episodes first h,
  sane -> tidy h -> NoDup fleet -> NoDup job -> (1 <= ic_random cfg)%nat ->
  fleet <> [] -> (1 <= episodes)%nat -> (1 <= first)%nat ->
  match grasp_optimize fuel o cfg fleet job episodes first h with
  | (Ok pl, h') => tidy h' /\ valid_planning h' fleet job pl /\ single_stops h' pl /\ routes_kept h h'
  | (Raise e, _) => e = Diverge
  end.
Proof.
  intros fuel o cfg fleet job episodes first h Hs HT Hf Hj Hr Hne He Hfi. apply tidy_HInv in HT.
  pose proof (grasp_fine Hs fleet job Hf Hne (eq Diverge) fuel o cfg episodes first h (False_ind _) eq_refl Hj Hr Hfi He (tidy_Inv h HT)) as F. unfold fine in F.
  destruct (grasp_optimize _ _ _ _ _ _ _ _) as [[pl|e] h']; [|done]. destruct F as [(_ & HI & K) Gd].
  apply Good_valid in Gd as [V G]. split; [by apply tidy_HInv, HI|]. done.
Qed.

(** ** With enough fuel *)
Section settles.
  Context {W : World} {Sh : Shape} {Ls : Loose}.
  Context (Hs : sane) (fleet job : list nat) (Hf : NoDup fleet) (Hne : fleet <> []).
  Notation Good := (Good fleet job).
  Notation allowed := (allowed fleet job).

  Definition settles (m : nat -> M planning) (h : heap) : Prop :=
    exists n pl h', (forall fuel, (n <= fuel)%nat -> m fuel h = (Ok pl, h')) /\ Grown h h' /\ Good h' pl.
  Definition AlgT (cold : Prop) (alg : nat -> algorithm) : Prop :=
    forall h start, Inv h -> allowed cold h start -> settles (fun fuel => alg fuel start) h.
  Lemma Alg_AlgT cold alg : Alg fleet job (fun _ => False) cold alg -> AlgT cold (fun _ => alg).
  Proof.
    intros Ha h start HI Hst. specialize (Ha h start HI Hst). unfold fine in Ha.
    destruct (alg start h) as [[pl|e] h'] eqn:E; [|done]. exists 0%nat, pl, h'. split; [done|]. apply Ha.
  Qed.
  Lemma optimize_settles o m h : settles m h -> settles (fun fuel => optimize o (m fuel)) h.
  Proof.
    intros (n & pl & h1 & E & G & Gd).
    destruct (optimize_after Hs fleet job Hne o (m n) h pl h1 (E n ltac:(lia)) G Gd) as (h' & E' & G' & Gd').
    exists n, pl, h'. split; [|done]. intros fuel Hfu. rewrite <- E'. unfold optimize, bind. rewrite (E fuel Hfu), (E n ltac:(lia)). done.
  Qed.
  Lemma ls_loop_more s o threshold fuel fuel' : (fuel <= fuel')%nat -> forall count best h pl h',
    ls_loop fuel s o threshold count best h = (Ok pl, h') -> ls_loop fuel' s o threshold count best h = (Ok pl, h').
  Proof.
    revert fuel'. induction fuel as [|fuel IH]; intros fuel' Hl count best h pl h'; cbn [ls_loop].
    - destruct (count <? threshold)%nat eqn:E; [done|]. intros H. destruct fuel'; cbn [ls_loop]; by rewrite E.
    - destruct fuel' as [|fuel']; [lia|]. cbn [ls_loop]. destruct (count <? threshold)%nat; [|done].
      unfold bind. destruct (ls_improve _ _ _ _) as [[c|e] h1]; [|done]. destruct (objective_best _ _ _) as [[w|e] h2]; [|done].
      destruct w as [[|[|k]]|]; apply IH; lia.
  Qed.
  Lemma ls_settles o threshold : o <> TaxiSharing -> AlgT False (fun fuel => local_search_algorithm fuel Reallocation o threshold).
  Proof.
    intros Ho h [b|] HI Hst; [|done]. pose proof Hst as Hst'. destruct Hst as (A & P & EK & EU).
    destruct (Plan_worth o h b A P) as (x & Wx & _).
    set (n := (Z.to_nat (room o (concat (map snd A)) x) * threshold + (threshold - 0))%nat).
    destruct (ls_loop_ends o threshold n Hs Ho 0%nat b A x h (proj1 HI) (proj2 HI) P Wx ltac:(done)) as (pl & h' & E).
    pose proof (ls_fine Hs fleet job (fun _ => True) n o threshold I h (Some b) HI Hst') as F.
    unfold fine, local_search_algorithm, local_search_optimize in F. rewrite E in F.
    exists n, pl, h'. split; [|done]. intros fuel Hfu. cbn. unfold local_search_optimize. by eapply ls_loop_more.
  Qed.
  Lemma sequential_settles cold o a algs : AlgT cold a -> Forall (AlgT False) algs ->
    AlgT cold (fun fuel => sequential_optimize o (a fuel :: map (fun x => x fuel) algs)).
  Proof.
    intros Ha Hl.
    assert (L : forall b h, Inv h -> Good h b ->
      settles (fun fuel => let! c := sequential_loop o (map (fun x => x fuel) algs) (Some b) in py_some c) h).
    { clear Ha a. induction Hl as [|a algs Ha Hl IH]; intros b h HI Gd.
      - exists 0%nat, b, h. split; [done|]. split; [by apply Grown_refl|done].
      - destruct (optimize_settles o (fun fuel => a fuel (Some b)) h) as (n1 & pl & h1 & E1 & G1 & Gd1); [by apply Ha|].
        destruct (IH pl h1 ltac:(apply G1) Gd1) as (n2 & pl2 & h2 & E2 & G2 & Gd2).
        exists (Nat.max n1 n2), pl2, h2. split; [|split; [by eapply Grown_trans|done]].
        intros fuel Hfu. cbn [map sequential_loop]. rewrite <- (E2 fuel) by lia. unfold bind. by rewrite E1 by lia. }
    intros h start HI Hst.
    destruct (optimize_settles o (fun fuel => a fuel start) h) as (n1 & pl & h1 & E1 & G1 & Gd1); [by apply Ha|].
    destruct (L pl h1 ltac:(apply G1) Gd1) as (n2 & pl2 & h2 & E2 & G2 & Gd2).
    exists (Nat.max n1 n2), pl2, h2. split; [|split; [by eapply Grown_trans|done]].
    intros fuel Hfu. unfold sequential_optimize. cbn [sequential_loop]. rewrite <- (E2 fuel) by lia. unfold bind. by rewrite E1 by lia.
  Qed.
  Lemma iterative_settles cold o alg restart n : AlgT cold alg -> (1 <= n)%nat ->
    AlgT cold (fun fuel => iterative_optimize o (alg fuel) restart n).
  Proof.
    intros Ha Hn h init HI Hst.
    assert (L : forall n best h, Inv h -> allowed cold h init -> (match best with Some b => Good h b | None => (1 <= n)%nat end) ->
      settles (fun fuel => let! b := iterative_loop o (alg fuel) restart init n best in
                           match b with None => raise AssertionError | Some b => ret b end) h).
    { clear Hn n h HI Hst. induction n as [|n IH]; intros best h HI Hst Hb.
      { destruct best as [b|]; [|lia]. exists 0%nat, b, h. split; [done|]. split; [by apply Grown_refl|done]. }
      set (start := match best with Some b => if restart then init else Some b | None => init end).
      destruct (optimize_settles o (fun fuel => alg fuel start) h) as (n1 & pl & h1 & E1 & G1 & Gd1).
      { apply Ha; [done|]. unfold start. destruct best; [destruct restart|]; done. }
      assert (Hstep : exists b' h2, (match best with
        | None => let! _ := objective_best o [pl] in ret (Some pl)
        | Some b => let! w := objective_best o [b; pl] in ret (Some (match w with Some 1%nat => pl | _ => b end))
        end) h1 = (Ok (Some b'), h2) /\ Grown h h2 /\ Good h2 b').
      { destruct best as [b|].
        - assert (Gb : Good h1 b) by (eapply Good_evolves; [apply G1|done]).
          destruct (compare_grown fleet job o h1 [b; pl]) as (w & h2 & E & G2 & _); [apply G1| |].
          { intros q [->|[->|H]%elem_of_cons]%elem_of_cons; [done|done|inversion H]. }
          exists (match w with Some 1%nat => pl | _ => b end), h2. rewrite (bind_ok _ _ _ _ _ E). split; [done|].
          split; [by eapply Grown_trans|]. destruct w as [[|[|k]]|]; (eapply Good_evolves; [apply G2|done]).
        - destruct (compare_grown fleet job o h1 [pl]) as (w & h2 & E & G2 & _); [apply G1| |].
          { by intros q ->%elem_of_list_singleton. }
          exists pl, h2. rewrite (bind_ok _ _ _ _ _ E). split; [done|].
          split; [by eapply Grown_trans|]. eapply Good_evolves; [apply G2|done]. }
      destruct Hstep as (b' & h2 & E2 & G2 & Gd2).
      assert (Hst2 : allowed cold h2 init) by (eapply allowed_evolves; [apply G2|done]).
      destruct (IH (Some b') h2 ltac:(apply G2) Hst2 Gd2) as (n3 & pl3 & h3 & E3 & G3 & Gd3).
      exists (Nat.max n1 n3), pl3, h3. split; [|split; [by eapply Grown_trans|done]].
      intros fuel Hfu. cbn [iterative_loop]. fold start. rewrite <- (E3 fuel) by lia. unfold bind at 1 2. rewrite E1 by lia.
      unfold bind at 1. rewrite E2. done. }
    apply L; [done|done|done].
  Qed.
  Lemma grasp_settles o cfg episodes first h : (trusted -> ic_only_feasible cfg = true) -> o <> TaxiSharing -> NoDup job -> (1 <= ic_random cfg)%nat -> (1 <= first)%nat -> (1 <= episodes)%nat ->
    Inv h -> settles (fun fuel => grasp_optimize fuel o cfg fleet job episodes first) h.
  Proof.
    intros Hof Ho Hj Hr Hfi He HI. unfold grasp_optimize. apply optimize_settles.
    pose proof (insertion_fine Hs fleet job Hf (fun _ => False) cfg Hof Hj Hr) as Hi.
    assert (HiF : Alg fleet job (fun _ => False) False (insertion_algorithm cfg fleet job)).
    { intros h1 start HI1 Hst. apply Hi; [done|]. by destruct start. }
    assert (H1 : AlgT True (fun fuel => sequential_optimize o
         [ (fun init => iterative_optimize o (insertion_algorithm cfg fleet job) true first init);
           (fun init => iterative_optimize o (default_sequential fuel o cfg fleet job) false 3 init) ])).
    { refine (sequential_settles True o
        (fun _ => fun init => iterative_optimize o (insertion_algorithm cfg fleet job) true first init)
        [fun fuel => fun init => iterative_optimize o (default_sequential fuel o cfg fleet job) false 3 init] _ _).
      - refine (iterative_settles True o (fun _ => insertion_algorithm cfg fleet job) true first _ Hfi). by apply Alg_AlgT.
      - constructor; [|constructor].
        refine (iterative_settles False o (fun fuel => default_sequential fuel o cfg fleet job) false 3 _ _); [|lia].
        refine (sequential_settles False o (fun fuel => local_search_algorithm fuel Reallocation o 1)
          [fun _ => insertion_algorithm cfg fleet job] _ _); [by apply ls_settles|].
        constructor; [by apply Alg_AlgT|constructor]. }
    refine (iterative_settles True o (fun fuel _ => sequential_optimize o
         [ (fun init => iterative_optimize o (insertion_algorithm cfg fleet job) true first init);
           (fun init => iterative_optimize o (default_sequential fuel o cfg fleet job) false 3 init) ] None) true episodes _ He h None HI I).
    intros h1 start HI1 _. exact (H1 h1 None HI1 I).
  Qed.
End settles.

Lemma c33_ends `{W : World} : forall o cfg fleet job episodes first h,
  sane -> tidy h -> NoDup fleet -> NoDup job -> (1 <= ic_random cfg)%nat ->
  fleet <> [] -> (1 <= episodes)%nat -> (1 <= first)%nat -> o <> TaxiSharing ->
  exists n pl h', forall fuel, (n <= fuel)%nat -> grasp_optimize fuel o cfg fleet job episodes first h = (Ok pl, h').
Proof.
  intros o cfg fleet job episodes first h Hs HT Hf Hj Hr Hne He Hfi Ho. apply tidy_HInv in HT.
  destruct (@grasp_settles _ simple_shape _ Hs fleet job Hf Hne o cfg episodes first h (False_ind _) Ho Hj Hr Hfi He (tidy_Inv h HT)) as (n & pl & h' & E & _). by exists n, pl, h'.
Qed.
Lemma c33_best `{W : World} : forall fuel o cfg fleet job n first h pl h',
  sane -> tidy h -> NoDup fleet -> NoDup job -> (1 <= ic_random cfg)%nat ->
  fleet <> [] -> (1 <= n)%nat -> (1 <= first)%nat ->
  grasp_optimize fuel o cfg fleet job n first h = (Ok pl, h') ->
  exists l, length l = n /\ leads o h' l pl /\ forall q, q ∈ l -> valid_planning h' fleet job q.
Proof.
  intros fuel o cfg fleet job n first h pl h' Hs HT Hf Hj Hr Hne Hn Hfi E. apply tidy_HInv in HT.
  unfold grasp_optimize in E. set (alg := fun _ : option planning => _) in E.
  assert (Ha : Alg fleet job (fun _ => True) True alg).
  { intros h1 start HI1 _. by apply (@grasp_inner_fine _ simple_shape _ Hs fleet job Hf Hne (fun _ => True) fuel o cfg first (False_ind _) I Hj Hr Hfi h1 None). }
  pose proof (Alg_steady Hs fleet job Hne (fun _ => True) True o alg None Ha ltac:(done)) as St.
  pose proof (iterative_fine Hs fleet job Hne (fun _ => True) True o alg true n Ha Hn h None (tidy_Inv h HT) I) as F. unfold fine in F.
  destruct (iterative_optimize o alg true n None h) as [[b|e] h1] eqn:E1.
  2:{ unfold optimize, bind in E. rewrite E1 in E. done. }
  destruct F as [G1 Gd].
  assert (HL : exists l, length l = n /\ leads o h1 l b /\ forall q, q ∈ l -> Good fleet job h1 q).
  { pose proof (iterative_loop_spec o alg true None _ _ St h n [] None h) as L. unfold iterative_optimize, bind in E1.
    destruct (iterative_loop _ _ _ _ _ _ _) as [[best|e] h3]; [|done].
    destruct L as (l & Hlen & HE & [HI3 _] & Hl & Hb).
    { split; [constructor|]. split; [done|]. split; [|done]. intros ? H; inversion H. }
    destruct best as [b'|]; [|done]. injection E1 as -> ->. exists l. split; [done|]. split; [apply Hb|done]. }
  destruct HL as (l & Hlen & Hl & Hg).
  destruct (optimize_after Hs fleet job Hne o (ret b) h1 b h1 eq_refl (Grown_refl _ ltac:(apply G1)) Gd) as (h2 & E2 & G2 & _).
  assert (E3 : optimize o (iterative_optimize o alg true n None) h = (Ok b, h2)).
  { rewrite <- E2. unfold optimize, bind. by rewrite E1. }
  rewrite E in E3. injection E3 as -> ->. exists l. split; [done|]. split.
  - eapply leads_kept; [apply G2| |done]. intros q Hq. by eapply Good_planned, Hg.
  - intros q Hq. apply Good_valid. eapply Good_evolves; [apply G2|by apply Hg].
Qed.
Lemma c33_none `{W : World} : forall fuel o cfg fleet job first h,
  grasp_optimize fuel o cfg fleet job 0 first h = (Raise AssertionError, h).
Proof. done. Qed.
