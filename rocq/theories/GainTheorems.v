(** What the improving stage of GRASP does to the value of a planning (C85). *)
From Verif Require Import GraspTheorems WarmProofs WarmTheorems ShiftTheorems SpecGain WitnessWarm WitnessGain.

#[local] Existing Instance simple_shape.
Section gain.
  Context {W : World} (Hs : sane) (fleet job : list nat) (Hf : NoDup fleet) (Hne : fleet <> []) (Hj : NoDup job).
  Context (o : objective).
  Notation Good := (Good fleet job).
  Notation Alg := (Alg fleet job (eq Diverge)).

  Definition climbs (alg : algorithm) : Prop := forall h b pl h' x y, Inv h -> Good h b -> alg (Some b) h = (Ok pl, h') ->
    total_worth o h b x -> total_worth o h' pl y -> at_least x y.
  Lemma worth_back h h' pl y : routes_kept h h' -> well_planned h pl -> total_worth o h' pl y -> total_worth o h pl y.
  Proof.
    intros K Hw Wy. destruct (well_planned_worth o h pl Hw) as [z Wz].
    rewrite (total_worth_det _ _ _ _ _ Wy (total_worth_kept _ _ _ _ _ K Wz)). done.
  Qed.
  Lemma optimize_split m h pl h' : fine fleet job (eq Diverge) m h -> optimize o m h = (Ok pl, h') ->
    exists h1, m h = (Ok pl, h1) /\ Grown h h1 /\ Good h1 pl /\ Grown h1 h' /\ Good h' pl.
  Proof.
    intros F E. unfold fine in F. destruct (m h) as [[q|e] h1] eqn:Em.
    2:{ unfold optimize, bind in E. by rewrite Em in E. }
    destruct F as [G Gd].
    destruct (optimize_after Hs fleet job Hne o (ret q) h1 q h1 eq_refl (Grown_refl _ ltac:(apply G)) Gd) as (h2 & E2 & G2 & Gd2).
    assert (E3 : optimize o m h = (Ok q, h2)) by (rewrite <- E2; unfold optimize, bind; by rewrite Em).
    rewrite E in E3. injection E3 as -> ->. by exists h1.
  Qed.
  Lemma optimize_climbs alg : Alg False alg -> climbs alg -> climbs (fun b => optimize o (alg b)).
  Proof.
    intros Ha Hc h b pl h' x y HI Gb E Wx Wy. destruct (optimize_split _ _ _ _ (Ha h (Some b) HI Gb) E) as (h1 & E1 & G1 & Gd1 & G2 & Gd2).
    eapply Hc; [exact HI|exact Gb|exact E1|exact Wx|]. eapply worth_back; [apply G2|by eapply Good_planned|done].
  Qed.
  Lemma sequential_climbs algs : Forall (fun a => Alg False a /\ climbs a) algs ->
    forall h b c h' x, Inv h -> Good h b -> sequential_loop o algs (Some b) h = (Ok c, h') -> total_worth o h b x ->
      exists pl, c = Some pl /\ forall y, total_worth o h' pl y -> at_least x y.
  Proof.
    intros HF. induction HF as [|a algs [Ha Hc] HF IH]; intros h b c h' x HI Gb E Wx; cbn [sequential_loop] in E.
    - injection E as <- <-. exists b. split; [done|]. intros y Wy. left. by eapply total_worth_det.
    - unfold bind in E. destruct (optimize o (a (Some b)) h) as [[pl|e] h1] eqn:E1; [|done].
      destruct (optimize_split _ _ _ _ (Ha h (Some b) HI Gb) E1) as (h0 & _ & G0 & _ & G1 & Gd1).
      destruct (well_planned_worth o h1 pl) as [z Wz]; [by eapply Good_planned|].
      destruct (IH h1 pl c h' z) as (p & -> & Hp); [apply G1|done|done|done|]. exists p. split; [done|]. intros y Wy.
      eapply at_least_trans; [|by apply Hp]. eapply (optimize_climbs a Ha Hc); [exact HI|exact Gb|exact E1|done|done].
  Qed.
  Lemma sequential_optimize_climbs algs : Forall (fun a => Alg False a /\ climbs a) algs -> climbs (sequential_optimize o algs).
  Proof.
    intros HF h b pl h' x y HI Gb E Wx Wy. unfold sequential_optimize, bind in E.
    destruct (sequential_loop o algs (Some b) h) as [[c|e] h1] eqn:E1; [|done].
    destruct (sequential_climbs algs HF h b c h1 x HI Gb E1 Wx) as (p & -> & Hp). injection E as -> ->. by apply Hp.
  Qed.
  (** the first episode begins with the given planning, the best is kept *)
  Lemma iterative_climbs alg restart n : Alg False alg -> climbs alg -> (1 <= n)%nat -> climbs (iterative_optimize o alg restart n).
  Proof.
    intros Ha Hc Hn h b pl h' x y HI Gb E Wx Wy.
    pose proof (Alg_steady Hs fleet job Hne (eq Diverge) False o alg (Some b) Ha ltac:(done)) as St.
    unfold iterative_optimize in E. destruct n as [|n]; [lia|]. cbn [iterative_loop] in E.
    unfold bind in E. destruct (optimize o (alg (Some b)) h) as [[p|e] h1] eqn:E1; [|done].
    destruct (optimize_split _ _ _ _ (Ha h (Some b) HI Gb) E1) as (h0 & _ & G0 & _ & G1 & Gd1).
    assert (G01 : Grown h h1) by (by eapply Grown_trans).
    destruct (compare_grown fleet job o h1 [p]) as (w & h2 & E2 & G2 & _); [apply G1|by intros q ->%elem_of_list_singleton|].
    rewrite E2 in E. cbn in E.
    destruct (well_planned_worth o h1 p) as [z Wz]; [by eapply Good_planned|].
    eapply at_least_trans; [eapply (optimize_climbs alg Ha Hc); [exact HI|exact Gb|exact E1|exact Wx|exact Wz]|].
    assert (Gp : Good h2 p) by (eapply Good_evolves; [apply G2|done]).
    assert (L : forall n q h2 z, Inv h2 -> Good h2 b -> Good h2 q -> total_worth o h2 q z ->
      forall c h', iterative_loop o alg restart (Some b) n (Some q) h2 = (Ok c, h') ->
      exists r, c = Some r /\ forall y, total_worth o h' r y -> at_least z y).
    { clear -Hs Hne Ha. induction n as [|n IH]; intros q h2 z HI Gb Gq Wz c h' E; cbn [iterative_loop] in E.
      - injection E as <- <-. exists q. split; [done|]. intros y Wy. left. by eapply total_worth_det.
      - unfold bind at 1 in E. set (start := if restart then Some b else Some q) in E.
        assert (F : fine fleet job (eq Diverge) (alg start) h2) by (apply Ha; [done|by unfold start; destruct restart]).
        destruct (optimize o (alg start) h2) as [[p|e] h3] eqn:E3; [|done].
        destruct (optimize_split _ _ _ _ F E3) as (h0 & _ & G0 & _ & G1 & Gp).
        assert (G03 : Grown h2 h3) by (by eapply Grown_trans).
        assert (Gq3 : Good h3 q) by (eapply Good_evolves; [apply G03|done]).
        destruct (objective_best_eq o h3 [q; p]) as (w & h4 & E4 & [S _] & Hw).
        { intros r [->|[->|H]%elem_of_cons]%elem_of_cons; [by eapply Good_planned|by eapply Good_planned|inversion H]. }
        assert (G4 : Grown h3 h4) by (apply Grown_soft; [apply G1|done]).
        unfold bind at 1 2 in E. rewrite E4 in E. cbn in E.
        assert (Gb4 : Good h4 b) by (eapply Good_evolves; [apply G4|]; eapply Good_evolves; [apply G03|done]).
        assert (Wz3 : total_worth o h3 q z) by (eapply total_worth_kept; [apply G03|done]).
        assert (Wz4 : total_worth o h4 q z) by (eapply total_worth_kept; [apply G4|done]).
        assert (Gq4 : Good h4 q) by (eapply Good_evolves; [apply G4|done]).
        assert (Gp4 : Good h4 p) by (eapply Good_evolves; [apply G4|done]).
        destruct w as [[|[|k]]|]; try (eapply IH in E; [exact E|apply G4|done|done|done]).
        destruct Hw as (p' & y' & [= <-] & Wy' & B & _).
        assert (Hlt : lex_lt z y') by (apply (B 0%nat q z); [lia|done|done]).
        eapply IH in E as (r & -> & Hr); [|apply G4|done|done|eapply total_worth_kept; [apply G4|exact Wy']].
        exists r. split; [done|]. intros y Wy. eapply at_least_trans; [right; exact Hlt|by apply Hr]. }
    destruct (iterative_loop o alg restart (Some b) n (Some p) h2) as [[c|e] h3] eqn:E3; [|done].
    destruct (L n p h2 z ltac:(apply G2) ltac:(eapply Good_evolves; [apply G2|]; eapply Good_evolves; [apply G01|done]) Gp
      ltac:(eapply total_worth_kept; [apply G2|done]) c h3 E3) as (r & -> & Hr).
    injection E as -> ->. by apply Hr.
  Qed.

  Context (Ho : gaining o) (cfg : insertion_config) (Hr : (1 <= ic_random cfg)%nat).
  Lemma insertion_climbs : climbs (insertion_algorithm cfg fleet job).
  Proof.
    intros h b pl h' x y HI Gb E Wx Wy. apply Good_valid in Gb as [V _].
    assert (T : tidy h) by (apply tidy_HInv, HI). unfold insertion_algorithm in E.
    destruct Ho as [->|[-> Hb]].
    - destruct (c82_warm cfg fleet job h fleet job b Hs T V Hj Hr) as (pl' & h'' & E' & _ & H).
      change (Some b) with (@Some (list nat) b) in E. rewrite E in E'. injection E' as <- <-. by apply H.
    - destruct (c82_plain cfg fleet job h fleet job b Hs T V Hj Hr Hb) as (pl' & h'' & E' & H).
      change (Some b) with (@Some (list nat) b) in E. rewrite E in E'. injection E' as <- <-. by apply H.
  Qed.
  Lemma ls_climbs fuel : climbs (local_search_algorithm fuel Reallocation o 1).
  Proof.
    intros h b pl h' x y HI Gb E Wx Wy. apply Good_valid in Gb as [V G].
    assert (T : tidy h) by (apply tidy_HInv, HI). unfold local_search_algorithm in E.
    pose proof (c27_keeps fuel o 1 h fleet job b Hs T V G) as K. rewrite E in K. by apply K.
  Qed.
  Lemma stage_fine fuel : Forall (fun a => Alg False a /\ climbs a) [local_search_algorithm fuel Reallocation o 1; insertion_algorithm cfg fleet job].
  Proof.
    constructor; [split; [by apply ls_fine|apply ls_climbs]|]. constructor; [|constructor]. split; [|apply insertion_climbs].
    intros h start HI Hst. apply insertion_fine; [done|done|by intros []|done|done|done|]. by destruct start.
  Qed.
  Lemma default_fine fuel : Alg False (default_sequential fuel o cfg fleet job) /\ climbs (default_sequential fuel o cfg fleet job).
  Proof.
    pose proof (stage_fine fuel) as F. split; [|by apply sequential_optimize_climbs].
    inversion F as [|? ? [H1 _] F2]; subst. inversion F2 as [|? ? [H2 _] _]; subst.
    apply sequential_fine; [done|done|done|]. by constructor.
  Qed.
  Lemma improving_fine fuel n : (1 <= n)%nat ->
    Alg False (iterative_optimize o (default_sequential fuel o cfg fleet job) false n) /\
    climbs (iterative_optimize o (default_sequential fuel o cfg fleet job) false n).
  Proof.
    intros Hn. destruct (default_fine fuel) as [Ha Hc]. split; [by apply iterative_fine|by apply iterative_climbs].
  Qed.

  (** ** GRASP: each episode leads the planning its first stage found *)
  Context (first : nat) (Hfi : (1 <= first)%nat).
  Notation stages fuel := [ (fun init => iterative_optimize o (insertion_algorithm cfg fleet job) true first init);
           (fun init => iterative_optimize o (default_sequential fuel o cfg fleet job) false 3 init) ].
  (** [p] is what an episode made of [q], between the states [h0] and [h] *)
  Definition begun fuel (h0 h : heap) (q p : planning) : Prop := exists h1 h2 h3, Grown h0 h1 /\ Grown h3 h /\
    iterative_optimize o (insertion_algorithm cfg fleet job) true first None h1 = (Ok q, h2) /\
    sequential_optimize o (stages fuel) None h1 = (Ok p, h3).
  Definition risen fuel (h0 h : heap) (p : planning) : Prop := Good h p /\ exists q, Good h q /\ begun fuel h0 h q p /\
    forall x y, total_worth o h q x -> total_worth o h p y -> at_least x y.
  Lemma risen_grown fuel h0 h h' p : Grown h h' -> risen fuel h0 h p -> risen fuel h0 h' p.
  Proof.
    intros G (Gp & q & Gq & (h1 & h2 & h3 & G1 & G3 & B) & H). split; [eapply Good_evolves; [apply G|done]|]. exists q.
    split; [eapply Good_evolves; [apply G|done]|].
    split; [exists h1, h2, h3; split; [done|]; split; [by eapply Grown_trans|done]|]. intros x y Wx Wy.
    apply H; (eapply worth_back; [apply G|by eapply Good_planned|done]).
  Qed.
  Lemma inner_risen fuel h00 h p h' : Inv h -> Grown h00 h -> sequential_optimize o (stages fuel) None h = (Ok p, h') ->
    Grown h h' /\ risen fuel h00 h' p.
  Proof.
    intros HI G00 E. pose proof E as E00. unfold sequential_optimize, bind in E. cbn [sequential_loop] in E. unfold bind in E.
    assert (F1 : fine fleet job (eq Diverge) (iterative_optimize o (insertion_algorithm cfg fleet job) true first None) h).
    { apply (iterative_fine Hs fleet job Hne (eq Diverge) True); [|done|done|done].
      apply insertion_fine; [done|done|by intros []|done|done]. }
    destruct (optimize o (iterative_optimize o (insertion_algorithm cfg fleet job) true first None) h) as [[q|e] h1] eqn:E1; [|done].
    destruct (optimize_split _ _ _ _ F1 E1) as (h0 & B & G0 & _ & G1 & Gq). cbv beta in E.
    destruct (improving_fine fuel 3 ltac:(lia)) as [Ha Hc].
    destruct (optimize o (iterative_optimize o (default_sequential fuel o cfg fleet job) false 3 (Some q)) h1) as [[p'|e] h2] eqn:E2; [|done].
    assert (HI1 : Inv h1) by apply G1.
    destruct (optimize_split _ _ _ _ (Ha h1 (Some q) HI1 Gq) E2) as (h3 & _ & G2 & _ & G3 & Gp).
    injection E as -> ->. assert (G : Grown h1 h') by (by eapply Grown_trans). split.
    { eapply Grown_trans; [|exact G]. by eapply Grown_trans. }
    split; [done|]. exists q. split; [eapply Good_evolves; [apply G|done]|]. split; [exists h, h0, h'; split; [done|]; split; [apply Grown_refl, G|done]|].
    intros x y Wx Wy. eapply (optimize_climbs _ Ha Hc); [exact HI1|exact Gq|exact E2| |exact Wy].
    eapply worth_back; [apply G|by eapply Good_planned|done].
  Qed.
  Lemma grasp_risen fuel n h pl h' : Inv h -> (1 <= n)%nat -> grasp_optimize fuel o cfg fleet job n first h = (Ok pl, h') ->
    exists l, length l = n /\ leads o h' l pl /\ Forall (risen fuel h h') l.
  Proof.
    intros HI Hn E. unfold grasp_optimize in E. set (alg := fun _ : option planning => _) in E.
    assert (Ha : GraspTheorems.Alg fleet job (fun _ => True) True alg).
    { intros h1 start HI1 _. by apply (@grasp_inner_fine _ simple_shape _ Hs fleet job Hf Hne (fun _ => True) fuel o cfg first (False_ind _) I Hj Hr Hfi h1 None). }
    assert (St : steady o alg None (Grown h) (risen fuel h)).
    { split.
      - intros h0 p _ [Gp _]. by eapply Good_planned.
      - intros h0 start p h1 HI0 _ E0. unfold alg in E0.
        assert (HI00 : Inv h0) by apply HI0.
        destruct (sequential_optimize o (stages fuel) None h0) as [[q|e] h2] eqn:E2.
        2:{ unfold optimize, bind in E0. by rewrite E2 in E0. }
        destruct (inner_risen fuel h h0 q h2 HI00 HI0 E2) as [G2 R2].
        destruct (optimize_after Hs fleet job Hne o (ret q) h2 q h2 eq_refl (Grown_refl _ ltac:(apply G2)) (proj1 R2)) as (h3 & E3 & G3 & _).
        assert (E4 : optimize o (sequential_optimize o (stages fuel) None) h0 = (Ok q, h3)).
        { rewrite <- E3. unfold optimize, bind. by rewrite E2. }
        rewrite E0 in E4. injection E4 as -> ->.
        assert (G : Grown h0 h3) by (by eapply Grown_trans). split; [by eapply Grown_trans|]. split; [exact (risen_grown _ _ _ _ _ G3 R2)|]. split; [apply G|].
        intros b. by apply risen_grown.
      - intros h0 l w h1 HI0 Hl E0. destruct (compare_grown fleet job o h0 l ltac:(apply HI0)) as (w' & h2 & E2 & G2 & _).
        { intros b Hb. by apply Hl. }
        rewrite E0 in E2. injection E2 as <- <-. split; [by eapply Grown_trans|]. intros b. by apply risen_grown. }
    pose proof (iterative_fine Hs fleet job Hne (fun _ => True) True o alg true n Ha Hn h None HI I) as F. unfold fine in F.
    destruct (iterative_optimize o alg true n None h) as [[b|e] h1] eqn:E1.
    2:{ unfold optimize, bind in E. rewrite E1 in E. done. }
    destruct F as [G1 Gd].
    assert (HL : exists l, length l = n /\ leads o h1 l b /\ forall q, q ∈ l -> risen fuel h h1 q).
    { pose proof (iterative_loop_spec o alg true None _ _ St h n [] None h) as L. unfold iterative_optimize, bind in E1.
      destruct (iterative_loop _ _ _ _ _ _ _) as [[best|e] h3]; [|done].
      destruct L as (l & Hlen & HE & HI3 & Hl & Hb).
      { split; [constructor|]. split; [by apply Grown_refl|]. split; [|done]. intros ? H; inversion H. }
      destruct best as [b'|]; [|done]. injection E1 as -> ->. exists l. split; [done|]. split; [apply Hb|done]. }
    destruct HL as (l & Hlen & Hl & Hg).
    destruct (optimize_after Hs fleet job Hne o (ret b) h1 b h1 eq_refl (Grown_refl _ ltac:(apply G1)) Gd) as (h2 & E2 & G2 & _).
    assert (E3 : optimize o (iterative_optimize o alg true n None) h = (Ok b, h2)).
    { rewrite <- E2. unfold optimize, bind. by rewrite E1. }
    rewrite E in E3. injection E3 as -> ->. exists l. split; [done|]. split.
    - eapply leads_kept; [apply G2| |done]. intros q Hq. eapply Good_planned, Hg, Hq.
    - apply Forall_forall. intros q Hq. eapply risen_grown; [apply G2|by apply Hg].
  Qed.
End gain.

Lemma c85_stage_partial `{W : World} : forall fuel o cfg fleet job n h b pl h' x y,
  sane -> tidy h -> valid_planning h fleet job b -> single_stops h b -> NoDup fleet -> NoDup job -> fleet <> [] ->
  (1 <= ic_random cfg)%nat -> (1 <= n)%nat -> gaining o ->
  iterative_optimize o (default_sequential fuel o cfg fleet job) false n (Some b) h = (Ok pl, h') ->
  total_worth o h b x -> total_worth o h' pl y -> at_least x y.
Proof.
  intros fuel o cfg fleet job n h b pl h' x y Hs HT V G Hf Hj Hne Hr Hn Ho E Wx Wy.
  destruct (improving_fine Hs fleet job Hf Hne Hj o Ho cfg Hr fuel n Hn) as [_ Hc].
  eapply Hc; [apply tidy_Inv; by apply tidy_HInv|by apply Good_valid|exact E|done|done].
Qed.
Lemma c85_grasp_partial `{W : World} : forall fuel o cfg fleet job n first h pl h',
  sane -> tidy h -> NoDup fleet -> NoDup job -> fleet <> [] ->
  (1 <= ic_random cfg)%nat -> (1 <= n)%nat -> (1 <= first)%nat -> gaining o ->
  grasp_optimize fuel o cfg fleet job n first h = (Ok pl, h') ->
  exists firsts results, length firsts = n /\ length results = n /\ leads o h' results pl /\
    (forall i q p, firsts !! i = Some q -> results !! i = Some p ->
      exists h1 h2 h3, routes_kept h h1 /\ routes_kept h3 h' /\
        iterative_optimize o (insertion_algorithm cfg fleet job) true first None h1 = (Ok q, h2) /\
        sequential_optimize o
          [ (fun init => iterative_optimize o (insertion_algorithm cfg fleet job) true first init);
            (fun init => iterative_optimize o (default_sequential fuel o cfg fleet job) false 3 init) ] None h1 = (Ok p, h3)) /\
    forall q, q ∈ firsts -> valid_planning h' fleet job q /\ exists x y, total_worth o h' q x /\ total_worth o h' pl y /\ at_least x y.
Proof.
  intros fuel o cfg fleet job n first h pl h' Hs HT Hf Hj Hne Hr Hn Hfi Ho E.
  destruct (grasp_risen Hs fleet job Hf Hne Hj o Ho cfg Hr first Hfi fuel n h pl h') as (l & Hlen & Hl & HR);
    [apply tidy_Inv; by apply tidy_HInv|done|done|].
  assert (H : exists firsts, Forall2 (fun q p => Good fleet job h' p /\ Good fleet job h' q /\
    begun fleet job o cfg first fuel h h' q p /\ forall x y, total_worth o h' q x -> total_worth o h' p y -> at_least x y) firsts l).
  { clear -HR. induction HR as [|p l (Gp & q & Gq & B & H) HR (firsts & IH)].
    - exists []. constructor.
    - exists (q :: firsts). by constructor. }
  destruct H as (firsts & H). exists firsts, l. split; [rewrite <- Hlen; by eapply Forall2_length|]. split; [done|]. split; [done|]. split.
  - intros i q p Hq Hp. destruct (Forall2_lookup_lr _ _ _ _ _ _ H Hq Hp) as (_ & _ & (h1 & h2 & h3 & G1 & G3 & B) & _).
    exists h1, h2, h3. split; [apply G1|]. split; [apply G3|done].
  - intros q [i Hi]%elem_of_list_lookup. destruct (Forall2_lookup_l _ _ _ _ _ H Hi) as (p & Hp & Gp & Gq & B & Hle).
    split; [by apply Good_valid|]. destruct (well_planned_worth o h' p) as [z Wz]; [by eapply Good_planned|].
    destruct (well_planned_worth o h' q) as [x Wx]; [by eapply Good_planned|].
    destruct Hl as (j & y & _ & Wy & _ & Hl). exists x, y. split; [done|]. split; [done|].
    eapply at_least_trans; [by apply Hle|]. by eapply Hl.
Qed.

Lemma bonus_gain : iterative_optimize (W := bonus_world) HashCode
    (default_sequential (W := bonus_world) 5 HashCode (warm_config HashCodeCriterion) [0%nat] [0%nat; 1%nat]) false 3 (Some [1%nat]) bonus_before
  = (Ok [4%nat], gain_after).
Proof. vm_compute. reflexivity. Qed.
Lemma gain_tour_after : @on_tour bonus_world gain_after 4 0 (stops_in gain_after 4) (visits_of gain_after 4).
Proof. apply on_tourb_sound. vm_compute. reflexivity. Qed.
Lemma ride_tour_after : @on_tour bonus_world ride_after 4 0 (stops_in ride_after 4) (visits_of ride_after 4).
Proof. apply on_tourb_sound. vm_compute. reflexivity. Qed.
Lemma grasp_tour_after : @on_tour bonus_world grasp_after 10 0 (stops_in grasp_after 10) (visits_of grasp_after 10).
Proof. apply on_tourb_sound. vm_compute. reflexivity. Qed.
(** with bonuses the stage may lose: a trip that no longer begins in time costs its bonus *)
Lemma c85_refuted : ~ forall (W : World) fuel o cfg fleet job n h b pl h' x y,
  sane -> tidy h -> valid_planning h fleet job b -> single_stops h b -> NoDup fleet -> NoDup job -> fleet <> [] ->
  ic_only_feasible cfg = true -> (1 <= ic_random cfg)%nat -> (1 <= n)%nat ->
  iterative_optimize o (default_sequential fuel o cfg fleet job) false n (Some b) h = (Ok pl, h') ->
  total_worth o h b x -> total_worth o h' pl y -> at_least x y.
Proof.
  intros H. destruct (@found bonus_world (warm_config HashCodeCriterion) _ _ _ _ bonus_sane (NoDup_singleton 0%nat) (NoDup_singleton 0%nat) (le_n 1) bonus_cold) as [T _].
  destruct (@validb_sound bonus_world bonus_before [0%nat] [0%nat; 1%nat] [1%nat] [(0%nat, [0%nat])]) as [V S]; [vm_compute; reflexivity|].
  assert (N : NoDup [0%nat; 1%nat]) by (apply (bool_decide_unpack _); vm_compute; exact I).
  specialize (H bonus_world 5%nat HashCode (warm_config HashCodeCriterion) [0%nat] [0%nat; 1%nat] 3%nat _ _ _ _ _ _ bonus_sane T V S
    (NoDup_singleton 0%nat) N ltac:(done) eq_refl (le_n 1) ltac:(lia) bonus_gain
    (one_worth _ _ _ _ _ _ bonus_tour_before) (one_worth _ _ _ _ _ _ gain_tour_after)).
  vm_compute in H. destruct H as [H|H]; [discriminate|]. inversion H. lia.
Qed.
