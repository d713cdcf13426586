(** Boolean versions of the predicates of Spec.v and Represents.v, used to
    exhibit concrete states that meet the hypotheses of the theorems. *)
From Verif Require Export RepresentsProofs Meta.

Global Instance visit_eq_dec : EqDecision visit.
Proof. solve_decision. Defined.

Section checker.
  Context {W : World}.

  Definition memob {B} `{EqDecision B} (o : option B) (b : B) : bool :=
    match o with None => true | Some x => bool_decide (x = b) end.
  Lemma memob_sound {B} `{EqDecision B} (o : option B) b : memob o b = true -> memoised o b.
  Proof. unfold memob. destruct o; [|by left]. intros ->%bool_decide_eq_true. by right. Qed.
  Definition plansb (h : heap) (ps ts : list nat) : bool :=
    bool_decide (map (fun p => pt_trip <$> h_pts h !! p) ps = map Some ts).
  Lemma plansb_sound h ps ts : plansb h ps ts = true -> plans h ps ts.
  Proof.
    unfold plansb. rewrite bool_decide_eq_true. revert ts.
    induction ps as [|p ps IH]; intros [|t ts] E; try done; [constructor|].
    cbn in E. injection E as E1 E2. constructor; [|by apply IH].
    destruct (h_pts h !! p) as [pc|]; [|done]. cbn in E1. injection E1 as E1. eauto.
  Qed.
  Definition stop_showsb (h : heap) (v : nat) (prev : option nat) (c : stop) (x : visit) (T : timing) : bool :=
    bool_decide (st_vehicle c = v) && bool_decide (st_previous c = prev) &&
    bool_decide (st_position c = vi_place x) && bool_decide (st_starting c = vi_request x) &&
    plansb h (st_pickups c) (vi_board x) && plansb h (st_deliveries c) (vi_alight x) &&
    memob (st_arrival c) (tm_arrival T) && memob (st_departure c) (tm_departure T) &&
    memob (st_capacity c) (tm_load T).
  Lemma stop_showsb_sound h v prev c x T : stop_showsb h v prev c x T = true -> stop_shows h v prev c x T.
  Proof.
    unfold stop_showsb. rewrite !andb_true_iff, !bool_decide_eq_true. intros [[[[[[[[? ?] ?] ?] ?] ?] ?] ?] ?].
    split; try assumption; try (by apply plansb_sound); by eapply memob_sound.
  Qed.
  Definition linkedb (h : heap) (r v : nat) (ids : list nat) (xs : list visit) : bool :=
    match h_routes h !! r with
    | Some c => bool_decide (rt_vehicle c = v) && bool_decide (rt_stops c = ids)
    | None => false
    end && (length ids =? length xs)%nat &&
    forallb (fun i => match ids !! i, xs !! i, timetable v xs !! i with
                      | Some s, Some x, Some T =>
                          match h_stops h !! s with
                          | Some c => stop_showsb h v (before_at ids i) c x T
                          | None => false
                          end
                      | _, _, _ => false
                      end) (seq 0 (length ids)).
  Lemma linkedb_sound h r v ids xs : linkedb h r v ids xs = true -> linked h r v ids xs.
  Proof.
    unfold linkedb. rewrite !andb_true_iff. intros [[H1 H2] H3]. split.
    - destruct (h_routes h !! r) as [c|]; [|done]. rewrite andb_true_iff, !bool_decide_eq_true in H1. exists c. tauto.
    - by apply Nat.eqb_eq.
    - intros i s x T Hs Hx HT. rewrite forallb_forall in H3. specialize (H3 i).
      rewrite Hs, Hx, HT in H3. destruct (h_stops h !! s) as [c|].
      + exists c. split; [done|]. apply stop_showsb_sound, H3. apply in_seq. apply lookup_lt_Some in Hs. lia.
      + discriminate H3. apply in_seq. apply lookup_lt_Some in Hs. lia.
  Qed.

  Definition ridesb (xs : list visit) : bool :=
    bool_decide (NoDup (boards xs)) && bool_decide (NoDup (alights xs)) &&
    forallb (fun t => memb t (boards xs)) (alights xs) && forallb (fun t => memb t (alights xs)) (boards xs) &&
    forallb (fun t => existsb (fun p : visit * visit => memb t (vi_board p.1) && memb t (vi_alight p.2)) (combinations2 xs)) (boards xs) &&
    forallb (fun x => forallb (fun t => bool_decide (vi_place x = origin_position (w_trip t))) (vi_board x) &&
                      forallb (fun t => bool_decide (vi_place x = destination_position (w_trip t))) (vi_alight x)) xs.
  Lemma combinations2_sublist {A} (l : list A) a b : (a, b) ∈ combinations2 l -> [a; b] `sublist_of` l.
  Proof.
    induction l as [|x l IH]; cbn; intros H; [inversion H|]. apply elem_of_app in H as [H|H].
    - apply elem_of_list_fmap in H as (y & [= -> ->] & Hy). apply sublist_skip. by apply sublist1.
    - apply sublist_cons. by apply IH.
  Qed.
  Lemma forallb_elem {A} (f : A -> bool) l x : forallb f l = true -> x ∈ l -> f x = true.
  Proof. rewrite forallb_forall. intros H Hx. apply H. by apply elem_of_list_In. Qed.
  Lemma ridesb_sound xs : ridesb xs = true -> rides xs.
  Proof.
    unfold ridesb. rewrite !andb_true_iff, !bool_decide_eq_true. intros [[[[[H1 H2] H3] H4] H5] H6]. split; [done| | |].
    - apply NoDup_Permutation; [done|done|]. intros t. split; intros Ht.
      + pose proof (forallb_elem _ _ _ H3 Ht) as E. by apply bool_decide_eq_true in E.
      + pose proof (forallb_elem _ _ _ H4 Ht) as E. by apply bool_decide_eq_true in E.
    - intros t Ht. pose proof (forallb_elem _ _ _ H5 Ht) as E. apply existsb_exists in E as ([a b] & Hab & E).
      apply andb_true_iff in E as [E1%bool_decide_eq_true E2%bool_decide_eq_true]. exists a, b.
      split; [|done]. apply combinations2_sublist. by apply elem_of_list_In.
    - intros x Hx. pose proof (forallb_elem _ _ _ H6 Hx) as E. apply andb_true_iff in E as [E1 E2]. split; intros t Ht.
      + pose proof (forallb_elem _ _ _ E1 Ht) as E. by apply bool_decide_eq_true in E.
      + pose proof (forallb_elem _ _ _ E2 Ht) as E. by apply bool_decide_eq_true in E.
  Qed.

  Definition plannedb (h : heap) (v p s d : nat) : bool :=
    match h_pts h !! p with
    | Some pc => bool_decide (pt_vehicle pc = v) && bool_decide (pt_pickup pc = Some s) && bool_decide (pt_delivery pc = Some d)
    | None => false
    end.
  Definition well_formedb (h : heap) (r v : nat) (ids : list nat) (xs : list visit) : bool :=
    linkedb h r v ids xs && ridesb xs &&
    forallb (fun i => match ids !! i with
      | Some s => match h_stops h !! s with
        | Some c => forallb (fun p => existsb (fun j => match ids !! j with
            | Some d => match h_stops h !! d with
               | Some dc => (i <? j)%nat && memb p (st_deliveries dc) && plannedb h v p s d
               | None => false end | None => false end) (seq 0 (length ids))) (st_pickups c)
        | None => true end | None => true end) (seq 0 (length ids)) &&
    forallb (fun j => match ids !! j with
      | Some d => match h_stops h !! d with
        | Some dc => forallb (fun p => existsb (fun i => match ids !! i with
            | Some s => match h_stops h !! s with
               | Some c => (i <? j)%nat && memb p (st_pickups c) && plannedb h v p s d
               | None => false end | None => false end) (seq 0 (length ids))) (st_deliveries dc)
        | None => true end | None => true end) (seq 0 (length ids)).
  Lemma plannedb_sound h v p s d : plannedb h v p s d = true -> planned_between h v p s d.
  Proof.
    unfold plannedb, planned_between. destruct (h_pts h !! p) as [pc|]; [|done].
    rewrite !andb_true_iff, !bool_decide_eq_true. intros [[? ?] ?]. eauto.
  Qed.
  Lemma well_formedb_sound h r v ids xs : well_formedb h r v ids xs = true -> well_formed h r v ids xs.
  Proof.
    unfold well_formedb. rewrite !andb_true_iff. intros [[[H1 H2] H3] H4].
    split; [by apply linkedb_sound|by apply ridesb_sound| |].
    - intros i s c p Hi Hc Hp. pose proof (forallb_elem _ _ i H3) as E. cbn beta in E. rewrite Hi, Hc in E.
      assert (Hin : i ∈ seq 0 (length ids)) by (apply elem_of_seq; apply lookup_lt_Some in Hi; lia).
      specialize (E Hin). pose proof (forallb_elem _ _ _ E Hp) as F. apply existsb_exists in F as (j & _ & F).
      destruct (ids !! j) as [d|] eqn:Hj; [|done]. destruct (h_stops h !! d) as [dc|] eqn:Hd; [|done].
      rewrite !andb_true_iff, Nat.ltb_lt in F. destruct F as [[F1 F2%bool_decide_eq_true] F3%plannedb_sound]. exists j, d, dc. done.
    - intros j d dc p Hj Hd Hp. pose proof (forallb_elem _ _ j H4) as E. cbn beta in E. rewrite Hj, Hd in E.
      assert (Hin : j ∈ seq 0 (length ids)) by (apply elem_of_seq; apply lookup_lt_Some in Hj; lia).
      specialize (E Hin). pose proof (forallb_elem _ _ _ E Hp) as F. apply existsb_exists in F as (i & _ & F).
      destruct (ids !! i) as [s|] eqn:Hi; [|done]. destruct (h_stops h !! s) as [c|] eqn:Hc; [|done].
      rewrite !andb_true_iff, Nat.ltb_lt in F. destruct F as [[F1 F2%bool_decide_eq_true] F3%plannedb_sound]. exists i, s, c. done.
  Qed.
  Definition depotb (p : position) (x : visit) : bool :=
    bool_decide (vi_place x = p) && bool_decide (vi_board x = []) && bool_decide (vi_alight x = []).
  Definition tourb (v : nat) (xs : list visit) : bool :=
    (2 <=? length xs)%nat && ridesb xs &&
    match head xs with Some x => depotb (v_origin_position v) x | None => false end &&
    match last xs with Some x => depotb (v_destination_position v) x | None => false end.
  Lemma depotb_sound p x : depotb p x = true -> vi_place x = p /\ vi_board x = [] /\ vi_alight x = [].
  Proof. unfold depotb. rewrite !andb_true_iff, !bool_decide_eq_true. tauto. Qed.
  Lemma tourb_sound v xs : tourb v xs = true -> tour v xs.
  Proof.
    unfold tourb. rewrite !andb_true_iff, Nat.leb_le. intros [[[H1 H2] H3] H4]. split; [| |by apply ridesb_sound].
    - destruct xs as [|x0 rest]; [done|]. cbn in H3. apply depotb_sound in H3. exists x0, rest.
      split; [done|]. split; [|done]. intros ->. cbn in H1. lia.
    - destruct xs as [|xn front _] using rev_ind; [done|]. rewrite last_snoc in H4. apply depotb_sound in H4. eauto.
  Qed.
  Definition on_tourb (h : heap) (r v : nat) (ids : list nat) (xs : list visit) : bool :=
    well_formedb h r v ids xs && tourb v xs.
  Lemma on_tourb_sound h r v ids xs : on_tourb h r v ids xs = true -> on_tour h r v ids xs.
  Proof. unfold on_tourb. rewrite andb_true_iff. intros [? ?]. split; [by apply well_formedb_sound|by apply tourb_sound]. Qed.

  Definition unaskedb (h : heap) (r : nat) (ids : list nat) : bool :=
    match h_routes h !! r with Some c => bool_decide (rt_feasible c = None) | None => true end &&
    forallb (fun s => match h_stops h !! s with Some c => bool_decide (st_feasible c = None) | None => true end) ids &&
    forallb (fun s => match h_stops h !! s with
                      | Some c => forallb (fun p => match h_pts h !! p with
                                                    | Some pc => bool_decide (pt_feasible pc = None)
                                                    | None => true end) (st_pickups c)
                      | None => true end) ids.
  Lemma unaskedb_sound h r ids : unaskedb h r ids = true -> unasked h r ids.
  Proof.
    unfold unaskedb. rewrite !andb_true_iff. intros [[H1 H2] H3]. split; [|split].
    - intros c Hc. rewrite Hc in H1. by apply bool_decide_eq_true in H1.
    - intros s c Hs Hc. pose proof (forallb_elem _ _ _ H2 Hs) as E. cbn in E. rewrite Hc in E. by apply bool_decide_eq_true in E.
    - intros s c p pc Hs Hc Hp Hpc. pose proof (forallb_elem _ _ _ H3 Hs) as E. cbn in E. rewrite Hc in E.
      pose proof (forallb_elem _ _ _ E Hp) as F. cbn in F. rewrite Hpc in F. by apply bool_decide_eq_true in F.
  Qed.

  Definition waits_afterb (h : heap) (v s q : nat) (x : visit) : bool :=
    match h_stops h !! s with
    | Some c => bool_decide (st_vehicle c = v) && bool_decide (st_previous c = Some q) &&
        bool_decide (st_position c = vi_place x) && bool_decide (st_starting c = vi_request x) &&
        plansb h (st_pickups c) (vi_board x) && plansb h (st_deliveries c) (vi_alight x) &&
        forallb (fun p => negb (memb p (st_deliveries c))) (st_pickups c)
    | None => false
    end.
  Lemma waits_afterb_sound h v s q x : waits_afterb h v s q x = true -> waits_after h v s q x.
  Proof.
    unfold waits_afterb. destruct (h_stops h !! s) as [c|] eqn:Hc; [|done].
    rewrite !andb_true_iff, !bool_decide_eq_true. intros [[[[[[? ?] ?] ?] B] A] D]. exists c.
    apply plansb_sound in B, A. split_and!; try done. intros p Hp Hd.
    pose proof (forallb_elem _ _ _ D Hp) as E. cbn beta in E. unfold memb in E.
    rewrite bool_decide_eq_true_2 in E by done. done.
  Qed.
  Definition joins_atb (h : heap) (v : nat) (ids : list nat) (t p pk dl i j : nat) : bool :=
    match h_pts h !! p with
    | Some pc => bool_decide (pt_vehicle pc = v) && bool_decide (pt_trip pc = t) &&
        bool_decide (pt_pickup pc = Some pk) && bool_decide (pt_delivery pc = Some dl)
    | None => false
    end && negb (memb pk ids) && negb (memb dl ids) && negb (pk =? dl)%nat &&
    match h_stops h !! pk with
    | Some c => bool_decide (st_vehicle c = v) && bool_decide (st_position c = origin_position (w_trip t)) &&
        bool_decide (st_pickups c = [p]) && bool_decide (st_deliveries c = []) &&
        bool_decide (st_starting c = None) && bool_decide (st_previous c = ids !! i)
    | None => false
    end &&
    match h_stops h !! dl with
    | Some c => bool_decide (st_vehicle c = v) && bool_decide (st_position c = destination_position (w_trip t)) &&
        bool_decide (st_pickups c = []) && bool_decide (st_deliveries c = [p]) &&
        bool_decide (st_starting c = None) &&
        bool_decide (st_previous c = (if decide (S i = j) then Some pk else ids !! (j - 1)%nat))
    | None => false
    end && (i <? j)%nat && (j <? length ids)%nat.
  Lemma joins_atb_sound h v ids t p pk dl i j : joins_atb h v ids t p pk dl i j = true -> joins_at h v ids t p pk dl i j.
  Proof.
    unfold joins_atb, memb. rewrite !andb_true_iff, !negb_true_iff, !bool_decide_eq_false, Nat.eqb_neq, !Nat.ltb_lt.
    intros [[[[[[[H1 H2] H3] H4] H5] H6] H7] H8]. split; [| done| | |done].
    - destruct (h_pts h !! p) as [pc|]; [|done]. rewrite !andb_true_iff, !bool_decide_eq_true in H1. exists pc. tauto.
    - destruct (h_stops h !! pk) as [c|]; [|done]. rewrite !andb_true_iff, !bool_decide_eq_true in H5. exists c. tauto.
    - destruct (h_stops h !! dl) as [c|]; [|done]. rewrite !andb_true_iff, !bool_decide_eq_true in H6. exists c. tauto.
  Qed.

  (** the visits a route object stands for, by reading its cells *)
  Definition visits_of (h : heap) (r : nat) : list visit :=
    match h_routes h !! r with
    | Some c => flat_map (fun s => match h_stops h !! s with Some c => [abs h c] | None => [] end) (rt_stops c)
    | None => []
    end.
  Definition stops_in (h : heap) (r : nat) : list nat :=
    match h_routes h !! r with Some c => rt_stops c | None => [] end.

  Definition tidyb (h : heap) : bool :=
    forallb (fun r => match h_routes h !! r with
                      | Some c => on_tourb h r (rt_vehicle c) (rt_stops c) (visits_of h r)
                      | None => true end) (seq 0 (length (h_routes h))) &&
    forallb (fun c1 => forallb (fun c2 =>
        negb (bool_decide (rt_stops c1 !! 0%nat = rt_stops c2 !! 0%nat)) ||
        bool_decide (rt_stops c1 !! 1%nat = rt_stops c2 !! 1%nat)) (h_routes h)) (h_routes h).
  Lemma tidyb_sound h : tidyb h = true -> tidy h.
  Proof.
    unfold tidyb. rewrite andb_true_iff. intros [H1 H2]. split.
    - intros r c Hc. assert (Hr : r ∈ seq 0 (length (h_routes h))) by (apply elem_of_seq; apply lookup_lt_Some in Hc; lia).
      pose proof (forallb_elem _ _ _ H1 Hr) as E. cbn beta in E. rewrite Hc in E. eexists. by apply on_tourb_sound.
    - intros r1 r2 c1 c2 s Hc1 Hc2 E1 E2. apply elem_of_list_lookup_2 in Hc1, Hc2.
      pose proof (forallb_elem _ _ _ H2 Hc1) as E. cbn beta in E. pose proof (forallb_elem _ _ _ E Hc2) as F. cbn beta in F.
      rewrite bool_decide_eq_true_2 in F by congruence. by apply bool_decide_eq_true in F.
  Qed.
End checker.

(** the state after a computation, and its result *)
Definition after {A} (m : M A) (h : heap) : heap := (m h).2.
Definition result {A} (m : M A) (h : heap) : res A := (m h).1.
