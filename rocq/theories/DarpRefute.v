(** C54: optimal solutions that are no best plans. *)
From Verif Require Import SpecDarp SchedProofs TourProofs MilpProofs DarpTheorems WitnessDarp.
From Coq Require Import Lqa.

(** ** An optimum without any plan

    The instance of [c51_loop]: the passenger goes from (1,0) to (50,0) and the
    vehicle is back after 3 units. *)
Definition far_world : World := lone_world [1000; 0] [50000; 0] 0 0 (Lim 3000).
Definition far_solution : assignment :=
  Assignment (arcs [(0, 1); (1, 3); (2, 2)]%nat) (listed [0; 1000; 60000; 2000]) (listed [0; 1000; 0; 1000]).
Section far.
  #[local] Existing Instance far_world.
  Notation one := [0%nat].
  Lemma far_instance : NoDup one /\ one_depot one /\ finite one one /\ moving one /\ direct one one /\ roomy one one /\ one_space one one /\
    (forall v, v ∈ one -> v_origin_earliest v <= 0 /\ below day (v_destination_latest v)).
  Proof.
    destruct (lone_instance [1000; 0] [50000; 0] 0 0 (Lim 3000) ltac:(done)) as (H1 & H2 & H3 & H4 & H5 & H6).
    do 4 (split; [done|]). split; [apply direct_check; by vm_compute|]. split; [done|].
    split; [apply (one_space_check _ _ 2); by vm_compute|done].
  Qed.
  Lemma far_no_plan : ~ exists tours, plan one one tours.
  Proof.
    destruct far_instance as (H1 & H2 & H3 & H4 & D & _).
    intros (tours & Hp). refine (_ (plan_shift 0%nat one 0%nat tours eq_refl H3 H4 D _ Hp)); vm_compute; [|by split]. intros H. by apply H.
  Qed.
  Lemma far_solves : solves one one (fun _ _ _ => false) far_solution.
  Proof. apply solves_check; by vm_compute. Qed.
  Lemma far_optimal : optimal one one (fun _ _ _ => false) far_solution.
  Proof.
    split; [apply far_solves|]. intros a Ha.
    destruct far_instance as (H1 & H2 & H3 & H4 & D & H5 & H6 & H7).
    pose proof (solves_binary 0%nat [] one _ a H3 H4 Ha) as B.
    destruct (Qlt_le_dec (objective_value one one a) (inject_Z (10000 * (1000 * eb)))) as [Hm|Hm].
    { exfalso. destruct (c51_sound one one (fun _ _ _ => false) a H1 H2 H3 H4) as (tours & Hp & _); try done.
      - apply elem_lone; vm_compute; by split.
      - eapply c53_modest; [done..|]. unfold modest. eapply Qlt_le_trans; [exact Hm|]. rewrite <- Zle_Qle.
        assert (0 <= toll (pos one one 0) (pos one one (2 * length one + 1))) by (by vm_compute). nia.
      - apply far_no_plan. by exists tours. }
    apply (solves_system 0%nat [] one _ H3 H4) in Ha.
    assert (S : forall i, (i < 3)%nat -> length (ones (fun j => as_x a 0%nat i j) (seq 0 4)) = 1%nat).
    { assert (S1 : length (ones (fun j => as_x a 0%nat 1%nat j) (seq 0 4)) = 1%nat).
      { pose proof (sy_once _ _ _ _ Ha 1%nat ltac:(cbn; lia)) as H. change (product2 (seq 0 (2 * length one + 2)) (seq 0 (length one))) with (map (fun j => (j, 0%nat)) (seq 0 4)) in H.
        rewrite ones_map in H. by rewrite map_length in H. }
      intros [|[|[|i]]] Hi; [apply (sy_first _ _ _ _ Ha 0%nat); cbn; lia|done| |lia].
      pose proof (sy_pair _ _ _ _ Ha 0%nat 1%nat ltac:(cbn; lia) ltac:(cbn; lia)) as S2. exact (eq_trans (eq_sym S2) S1). }
    assert (S' : forall i, (i < 3)%nat -> (as_x a 0 i 0 + as_x a 0 i 1 + as_x a 0 i 2 + as_x a 0 i 3 == 1)%Q).
    { intros i Hi. specialize (S i Hi). apply sum_one in S; [apply Qeq_bool_iff in S; cbn in S; rewrite <- S; ring|].
      intros j Hj. apply elem_of_seq in Hj. apply B; cbn; lia. }
    assert (P : forall i j, (i < 4)%nat -> (j < 4)%nat -> (0 <= as_x a 0 i j <= 1)%Q).
    { intros i j Hi Hj. destruct (B 0%nat i j ltac:(cbn; lia) ltac:(cbn; lia) ltac:(cbn; lia)) as [-> | ->]; lra. }
    pose proof (B 0 0 0 ltac:(cbn; lia) ltac:(cbn; lia) ltac:(cbn; lia))%nat as B00. pose proof (B 0 0 3 ltac:(cbn; lia) ltac:(cbn; lia) ltac:(cbn; lia))%nat as B03.
    pose proof (B 0 1 1 ltac:(cbn; lia) ltac:(cbn; lia) ltac:(cbn; lia))%nat as B11. pose proof (B 0 2 2 ltac:(cbn; lia) ltac:(cbn; lia) ltac:(cbn; lia))%nat as B22.
    pose proof (B 0 3 0 ltac:(cbn; lia) ltac:(cbn; lia) ltac:(cbn; lia))%nat as B30. pose proof (B 0 3 3 ltac:(cbn; lia) ltac:(cbn; lia) ltac:(cbn; lia))%nat as B33.
    pose proof (S' 0%nat ltac:(lia)) as S0. pose proof (S' 1%nat ltac:(lia)) as S1. pose proof (S' 2%nat ltac:(lia)) as S2.
    setoid_replace (objective_value one one far_solution) with (10002000 # 1)%Q by (by vm_compute).
    change (inject_Z (10000 * (1000 * eb))) with (10000000 # 1)%Q in Hm.
    unfold objective_value in *. change (product2 (routes_indexer one) (product2 (positions_indexer one) (positions_indexer one))) with
        (map (fun p => (0%nat, p)) (product2 (seq 0 4) (seq 0 4))) in *.
    cbn [map product2 seq flat_map app qsum foldr] in *.
    repeat match type of Hm with context [cost one one ?i ?j] => let c := eval vm_compute in (cost one one i j) in change (cost one one i j) with c in Hm |- * end.
    pose proof (P 0 0)%nat. pose proof (P 0 1)%nat. pose proof (P 0 2)%nat. pose proof (P 0 3)%nat.
    pose proof (P 1 0)%nat. pose proof (P 1 1)%nat. pose proof (P 1 2)%nat. pose proof (P 1 3)%nat.
    pose proof (P 2 0)%nat. pose proof (P 2 1)%nat. pose proof (P 2 2)%nat. pose proof (P 2 3)%nat.
    pose proof (P 3 0)%nat. pose proof (P 3 1)%nat. pose proof (P 3 2)%nat. pose proof (P 3 3)%nat.
    clear P B S S'.
    repeat match goal with H : (_ < _)%nat -> _ |- _ => specialize (H ltac:(lia)) end.
    unfold inject_Z in *.
    destruct B00 as [B00|B00]; [|lra]. destruct B03 as [B03|B03]; [|lra]. destruct B11 as [B11|B11]; [|lra].
    destruct B22 as [B22|B22]; [|lra]. destruct B30 as [B30|B30]; [|lra]. destruct B33 as [B33|B33]; [|lra]. exfalso. lra.
  Qed.
End far.
Lemma c54_refuted : exists (W : World) vs ts odd a, NoDup ts /\ one_depot vs /\ finite vs ts /\ moving ts /\ direct vs ts /\ roomy vs ts /\ one_space vs ts /\
  (forall t, t ∈ ts -> origin_duration (w_trip t) = destination_duration (w_trip t) /\ 0 <= origin_duration (w_trip t)) /\
  (forall v, v ∈ vs -> v_origin_earliest v <= 0 /\ below day (v_destination_latest v)) /\
  optimal vs ts odd a /\ ~ exists tours, plan vs ts tours.
Proof.
  exists far_world, [0%nat], [0%nat], (fun _ _ _ => false), far_solution.
  destruct far_instance as (H1 & H2 & H3 & H4 & D & H5 & H6 & H7). do 7 (split; [done|]).
  split; [apply elem_lone; vm_compute; by split|]. split; [done|]. split; [apply far_optimal|apply far_no_plan].
Qed.

(** ** An optimum that is not the shortest plan

    Both vehicles are at (0,0).  One of them could serve both trips, from (1,0)
    to (2,0) and from (3,0) to (4,0), in 8 units; but leaving the other one where
    it is costs 10000. *)
Definition street_world : World := world_of 1 Manhattan
  [Vehicle "a" (Service [0; 0] 0 (Lim 1440000) 0) None (Lim 3000) (Lim 60000);
   Vehicle "b" (Service [0; 0] 0 (Lim 1440000) 0) None (Lim 3000) (Lim 60000)]
  [Trip "1" (Service [1000; 0] 0 (Lim 9000) 0) (Service [2000; 0] 0 (Lim 9000) 0) 1000 0 (Lim 4000);
   Trip "2" (Service [3000; 0] 0 (Lim 9000) 0) (Service [4000; 0] 0 (Lim 9000) 0) 1000 0 (Lim 4000)].
Definition street_solution : assignment := Assignment
  (fun k => match k with 0%nat => arcs [(0, 1); (1, 3); (3, 5)]%nat 0%nat | _ => arcs [(0, 2); (2, 4); (4, 5)]%nat 0%nat end)
  (fun _ => listed [0; 1000; 3000; 2000; 4000; 9000] 0%nat)
  (fun _ => listed [0; 1000; 1000; 0; 0; 0] 0%nat).

Lemma way_le `{W : World} f g l : (forall p q, f p q <= g p q) -> way f l <= way g l.
Proof. intros H. induction l as [|p [|q l] IH]; [done|done|]. cbn [way] in *. pose proof (H p q). lia. Qed.
Lemma way_nonneg `{W : World} l : 0 <= way dist l.
Proof. induction l as [|p [|q l] IH]; [done|done|]. cbn [way] in *. pose proof (dist_nonneg p q). lia. Qed.
(** the way through a place is no shorter than going there and on to the end *)
Lemma way_straight `{W : World} (ok : position -> Prop) l :
  (forall a b c, ok a -> ok b -> ok c -> dist a c <= dist a b + dist b c) ->
  forall p q, Forall ok (p :: l) -> last (p :: l) = Some q -> dist p q <= way dist (p :: l).
Proof.
  intros Tr. induction l as [|r l IH]; intros p q F E.
  - injection E as ->. rewrite dist_refl. done.
  - change (way dist (p :: r :: l)) with (dist p r + way dist (r :: l)).
    inversion F as [|? ? Hp F']; subst. rewrite last_cons_cons in E. pose proof (IH r q F' E) as H1.
    assert (Hq : ok q) by (eapply Forall_forall; [exact F'|by apply last_Some_elem_of]).
    assert (Hr : ok r) by (by inversion F'). pose proof (Tr p r q Hp Hr Hq). lia.
Qed.
Lemma way_through `{W : World} (ok : position -> Prop) l :
  (forall a b c, ok a -> ok b -> ok c -> dist a c <= dist a b + dist b c) ->
  forall p q x, Forall ok (p :: l) -> last (p :: l) = Some q -> x ∈ p :: l -> dist p x + dist x q <= way dist (p :: l).
Proof.
  intros Tr. induction l as [|r l IH]; intros p q x F E Hx.
  - apply elem_of_list_singleton in Hx as ->. injection E as ->. by rewrite !dist_refl.
  - apply elem_of_cons in Hx as [->|Hx].
    { rewrite dist_refl. by apply (way_straight ok). }
    change (way dist (p :: r :: l)) with (dist p r + way dist (r :: l)).
    inversion F as [|? ? Hp F']; subst. rewrite last_cons_cons in E. pose proof (IH r q x F' E Hx) as H1.
    rewrite Forall_forall in F'. pose proof (Tr p r x Hp (F' r ltac:(by left)) (F' x Hx)). lia.
Qed.
Lemma dist_toll `{W : World} p q : dist p q <= toll p q.
Proof. unfold toll. destruct (decide (p = q)) as [->|]; [|done]. rewrite dist_refl. unfold eb. lia. Qed.
Lemma idle_visits `{W : World} v xs : tour v xs -> simple xs -> boards xs = [] ->
  map vi_place xs = [v_origin_position v; v_destination_position v].
Proof.
  intros T (x0 & mid & xn & -> & F) Hb.
  assert (Ha : alights (x0 :: mid ++ [xn]) = []).
  { apply Permutation_nil. symmetry. rewrite <- Hb. apply (rides_all _ (tour_rides _ _ T)). }
  assert (mid = []) as ->.
  { destruct mid as [|x mid]; [done|]. inversion F as [|? ? Hx]; subst. unfold events in Hx. exfalso.
    unfold boards, alights in *. cbn in Hb, Ha. apply app_eq_nil in Hb as [_ Hb], Ha as [_ Ha].
    apply app_eq_nil in Hb as [Hb _], Ha as [Ha _]. rewrite Hb, Ha in Hx. done. }
  destruct T as [(y0 & r & E & _ & P0 & _) (f & yn & E' & Pn & _) _]. cbn in *. injection E as <- _.
  rewrite P0. destruct f as [|f0 [|f1 f]]; [done| |by destruct f]. injection E' as _ <-. by rewrite Pn.
Qed.

Section street.
  #[local] Existing Instance street_world.
  Notation two := [0; 1]%nat.
  Lemma street_instance : NoDup two /\ one_depot two /\ finite two two /\ moving two /\ direct two two /\ roomy two two /\ one_space two two /\
    (forall t, t ∈ two -> origin_duration (w_trip t) = destination_duration (w_trip t) /\ 0 <= origin_duration (w_trip t)) /\
    (forall v, v ∈ two -> v_origin_earliest v <= 0 /\ below day (v_destination_latest v)).
  Proof.
    split; [apply NoDup_cons_2; [by rewrite elem_of_list_singleton|apply NoDup_singleton]|]. split; [|split; [split|split; [|split; [|split; [|split; [|split]]]]]].
    - intros v v' Hv Hv'. revert v Hv. apply elem_pair; revert v' Hv'; by apply elem_pair.
    - by refine (elem_pair _ _ _).
    - by refine (elem_pair _ _ _).
    - by refine (elem_pair _ _ _).
    - apply direct_check. by vm_compute.
    - intros v t Hv Ht. revert v Hv. apply elem_pair; revert t Ht; apply elem_pair; vm_compute; by split.
    - apply (one_space_check _ _ 2). by vm_compute.
    - apply elem_pair; vm_compute; by split.
    - apply elem_pair; vm_compute; by split.
  Qed.
  Lemma street_solves : solves two two (fun _ _ _ => false) street_solution.
  Proof. apply solves_check; by vm_compute. Qed.
  Lemma street_modest : modest two two street_solution.
  Proof. unfold modest. by vm_compute. Qed.

  Lemma street_tour v xs : v ∈ two -> (forall t, t ∈ boards xs -> t ∈ two) -> tour v xs -> simple xs ->
    (boards xs = [] -> 10000000 <= way toll (map vi_place xs)) /\
    (forall t, t ∈ boards xs -> 4000 <= way toll (map vi_place xs)) /\ (1%nat ∈ boards xs -> 8000 <= way toll (map vi_place xs)).
  Proof.
    intros Hv Ht T S. assert (Hv2 : v = 0%nat \/ v = 1%nat) by (rewrite !elem_of_cons, elem_of_nil in Hv; tauto). split.
    { intros Hb. rewrite (idle_visits v xs T S Hb). destruct Hv2 as [-> | ->]; vm_compute; discriminate. }
    assert (D : forall t, t ∈ boards xs -> dist [0; 0] (destination_position (w_trip t)) + dist (destination_position (w_trip t)) [0; 0] <= way toll (map vi_place xs)).
    { intros t Hin.
      assert (Hok : Forall (fun p => length p = 2%nat) (map vi_place xs)).
      { apply Forall_map, Forall_forall. intros x Hx. destruct (rides_places _ (tour_rides _ _ T) x Hx) as [Po Pd].
        destruct S as (x0 & mid & xn & E & F). pose proof T as [(y0 & r & E0 & _ & P0 & _) (f & yn & En & Pn & _) _].
        assert (Hvp : length (v_origin_position v) = 2%nat /\ length (v_destination_position v) = 2%nat) by (destruct Hv2 as [-> | ->]; done).
        rewrite E in Hx. apply elem_of_cons in Hx as [->|Hx]; [|apply elem_of_app in Hx as [Hx|Hx]].
        - rewrite E in E0. injection E0 as <- _. rewrite P0. apply Hvp.
        - rewrite Forall_forall in F. specialize (F x Hx). unfold events in F.
          assert (Hxs : x ∈ xs) by (rewrite E; right; apply elem_of_app; by left).
          destruct (vi_board x) as [|b bs] eqn:Eb; [destruct (vi_alight x) as [|b bs] eqn:Ea; [done|]|].
          + rewrite (Pd b ltac:(left)). assert (Hb2 : b ∈ two).
            { apply Ht. rewrite <- (rides_all _ (tour_rides _ _ T)). apply elem_of_list_In, in_flat_map. exists x. rewrite Ea.
              split; [by apply elem_of_list_In|by left]. }
            clear - Hb2. revert b Hb2. apply elem_pair; done.
          + rewrite (Po b ltac:(left)). assert (Hb2 : b ∈ two).
            { apply Ht. apply elem_of_list_In, in_flat_map. exists x. rewrite Eb. split; [by apply elem_of_list_In|by left]. }
            clear - Hb2. revert b Hb2. apply elem_pair; done.
        - apply elem_of_list_singleton in Hx as ->. rewrite E in En. change (x0 :: mid ++ [xn]) with ((x0 :: mid) ++ [xn]) in En.
          apply app_inj_tail in En as [_ <-]. rewrite Pn. apply Hvp. }
      assert (Hp : destination_position (w_trip t) ∈ map vi_place xs).
      { rewrite <- (rides_all _ (tour_rides _ _ T)) in Hin. apply elem_of_list_In, in_flat_map in Hin as (x & Hx & Hin).
        apply elem_of_list_In in Hx, Hin. destruct (rides_places _ (tour_rides _ _ T) x Hx) as [_ Pd]. rewrite <- (Pd t Hin).
        by apply elem_of_list_fmap_1. }
      etransitivity; [|apply (way_le dist); apply dist_toll].
      pose proof T as [(y0 & r & E0 & _ & P0 & _) (f & yn & En & Pn & _) _].
      assert (P0' : vi_place y0 = [0; 0]) by (rewrite P0; destruct Hv2 as [-> | ->]; done).
      assert (Pn' : vi_place yn = [0; 0]) by (rewrite Pn; destruct Hv2 as [-> | ->]; done).
      rewrite E0 in *. cbn [map] in *. rewrite P0' in *.
      apply (way_through (fun p => length p = 2%nat)); [|done| |done].
      - intros a b c Ha Hb Hc. unfold dist. cbn. apply manhattan_triangle; congruence.
      - transitivity (last (map vi_place (y0 :: r))); [cbn [map]; by rewrite P0'|]. rewrite En, map_app. cbn [map]. by rewrite last_snoc, Pn'. }
    split.
    - intros t Hin. pose proof (D t Hin). pose proof (Ht t Hin) as H2. rewrite !elem_of_cons, elem_of_nil in H2. destruct H2 as [->|[->|[]]]; (etransitivity; [|exact H]); done.
    - intros Hin. specialize (D _ Hin). done.
  Qed.
  Lemma street_cost tours : plan two two tours -> 12000 <= fleet_way toll tours.
  Proof.
    intros [F Hb]. inversion F as [|? xs0 ? l0 (T0 & S0 & _) F1]; subst. inversion F1 as [|? xs1 ? l1 (T1 & S1 & _) F2]; subst. inversion F2; subst.
    cbn in Hb. rewrite app_nil_r in Hb.
    assert (I : forall t, t ∈ boards xs0 ++ boards xs1 <-> t ∈ two) by (intros t; by rewrite Hb).
    destruct (street_tour 0 xs0) as (A0 & B0 & C0); [by left|intros t Ht; apply I, elem_of_app; by left|done|done|].
    destruct (street_tour 1 xs1) as (A1 & B1 & C1); [by right; left|intros t Ht; apply I, elem_of_app; by right|done|done|].
    unfold fleet_way. cbn [map sum_of foldr].
    destruct (way_tolls (map vi_place xs0)) as [N0 _]. destruct (way_tolls (map vi_place xs1)) as [N1 _].
    destruct (boards xs0) as [|t0 b0]; [specialize (A0 eq_refl); lia|]. destruct (boards xs1) as [|t1 b1]; [specialize (A1 eq_refl); lia|].
    specialize (B0 t0 ltac:(left)). specialize (B1 t1 ltac:(left)).
    assert (H1 : 1%nat ∈ (t0 :: b0) ++ t1 :: b1) by (apply I; by right; left).
    apply elem_of_app in H1 as [H1|H1]; [specialize (C0 H1)|specialize (C1 H1)]; lia.
  Qed.
  Lemma street_optimal : optimal two two (fun _ _ _ => false) street_solution.
  Proof.
    split; [apply street_solves|]. intros a Ha. destruct street_instance as (H1 & H2 & H3 & H4 & D & H5 & H6 & H7 & H8).
    setoid_replace (objective_value two two street_solution) with (inject_Z 12000)%Q by (by vm_compute).
    destruct (Qlt_le_dec (objective_value two two a) (inject_Z 12000)) as [Hm|Hm]; [exfalso|done].
    destruct (c51_sound two two (fun _ _ _ => false) a H1 H2 H3 H4) as (tours & Hp & _ & Hf); try done.
    - apply elem_pair; vm_compute; by split.
    - eapply c53_modest; [done..|]. unfold modest. eapply Qlt_le_trans; [exact Hm|]. rewrite <- Zle_Qle.
      assert (0 <= toll (pos two two 0) (pos two two (2 * length two + 1))) by (by vm_compute).
      change (10000 * (1000 * eb)) with 10000000. nia.
    - rewrite (c53_total two two _ a tours H2 H3 H4 Ha Hp Hf) in Hm. rewrite <- Zlt_Qlt in Hm. pose proof (street_cost tours Hp). lia.
  Qed.
  Definition street_alone : list visit := [Visit [0; 0] [] [] None; pick_up 0; drop_off 0; pick_up 1; drop_off 1; Visit [0; 0] [] [] None].
  Lemma street_plan : plan two two [street_alone; idle 1].
  Proof.
    split; [|done]. constructor; [|constructor; [|constructor]].
    - split; [|split].
      + constructor.
        * eexists _, _. split; [done|]. done.
        * exists (take 5 street_alone), (Visit [0; 0] [] [] None). done.
        * constructor.
          -- change (NoDup two). apply NoDup_cons_2; [by rewrite elem_of_list_singleton|apply NoDup_singleton].
          -- done.
          -- change (boards street_alone) with two. apply elem_pair.
             ++ exists (pick_up 0), (drop_off 0). split; [|split; by left]. apply sublist_cons, sublist_skip, sublist_skip, sublist_nil_l.
             ++ exists (pick_up 1), (drop_off 1). split; [|split; by left]. do 3 apply sublist_cons. apply sublist_skip, sublist_skip, sublist_nil_l.
          -- intros x Hx. unfold street_alone in Hx. rewrite !elem_of_cons, elem_of_nil in Hx.
             destruct Hx as [->|[->|[->|[->|[->|[->|[]]]]]]]; split; intros t' Ht; cbn in Ht; try (by inversion Ht); by apply elem_of_list_singleton in Ht as ->.
      + exists (Visit [0; 0] [] [] None), [pick_up 0; drop_off 0; pick_up 1; drop_off 1], (Visit [0; 0] [] [] None). split; [done|]. repeat constructor.
      + apply exactb_exact. by vm_compute.
    - destruct (idle_tour 1). split; [done|]. split; [done|]. apply exactb_exact. by vm_compute.
  Qed.
  Lemma street_day : within_day two [street_alone; idle 1].
  Proof. intros [|[|k]] v xs T Hk Hxs HT; [| |done]; injection Hk as <-; injection Hxs as <-; vm_compute in HT; injection HT as <-; by vm_compute. Qed.
End street.
(** all conditions of [c54_optimal] hold, and still there is a shorter plan *)
Lemma c54_idle : exists (W : World) vs ts odd a tours, NoDup ts /\ one_depot vs /\ finite vs ts /\ moving ts /\ direct vs ts /\ roomy vs ts /\ one_space vs ts /\
  (forall t, t ∈ ts -> origin_duration (w_trip t) = destination_duration (w_trip t) /\ 0 <= origin_duration (w_trip t)) /\
  (forall v, v ∈ vs -> v_origin_earliest v <= 0 /\ below day (v_destination_latest v)) /\
  optimal vs ts odd a /\ modest vs ts a /\ plan vs ts tours /\ within_day vs tours /\
  (inject_Z (fleet_way dist tours) < objective_value vs ts a)%Q /\
  forall tours', plan vs ts tours' -> (forall k v xs, vs !! k = Some v -> tours' !! k = Some xs -> follows vs ts a k v xs) ->
    fleet_way dist tours < fleet_way dist tours'.
Proof.
  exists street_world, [0; 1]%nat, [0; 1]%nat, (fun _ _ _ => false), street_solution, [street_alone; idle (W := street_world) 1].
  destruct street_instance as (H1 & H2 & H3 & H4 & D & H5 & H6 & H7 & H8). do 9 (split; [done|]).
  split; [apply street_optimal|]. split; [apply street_modest|]. split; [apply street_plan|]. split; [apply street_day|].
  split; [by vm_compute|]. intros tours' Hp Hf.
  pose proof (c53_distance _ _ _ _ _ H2 H3 H4 street_solves Hp Hf ltac:(by vm_compute)) as E.
  assert (E' : (inject_Z (fleet_way (dist (W := street_world)) [street_alone; idle (W := street_world) 1]) < inject_Z (fleet_way (dist (W := street_world)) tours'))%Q).
  { rewrite <- E. by vm_compute. }
  by rewrite <- Zlt_Qlt in E'.
Qed.
