(** Tours of vehicles that take one passenger at a time. *)
From Verif Require Import SpecSubmission SpecFair Loaders Choices TimeTheorems OneShiftTheorems SchedProofs TourProofs ValueProofs.

Section taxi.
  Context {W : World}.

  (** pickup and delivery of one trip after the other *)
  Inductive in_turns : list nat -> list visit -> Prop :=
  | turns_none : in_turns [] []
  | turns_more t ts x y mid : vi_board x = [t] -> vi_alight x = [] -> vi_board y = [] -> vi_alight y = [t] ->
      in_turns ts mid -> in_turns (t :: ts) (x :: y :: mid).

  Lemma one_event x : events x = 1%nat ->
    (exists t, vi_board x = [t] /\ vi_alight x = []) \/ (exists t, vi_board x = [] /\ vi_alight x = [t]).
  Proof.
    unfold events. destruct (vi_board x) as [|t [|t' l]], (vi_alight x) as [|u [|u' l']]; cbn; try discriminate; eauto.
  Qed.

  Lemma on_board_app xs ys : on_board (xs ++ ys) =
    filter (fun t => t ∉ alights xs ++ alights ys) (boards xs ++ boards ys).
  Proof. unfold on_board, boards, alights. by rewrite !flat_map_app. Qed.

  (** whoever alights next is on board *)
  Lemma alights_next xs pre y post t : rides xs -> xs = pre ++ y :: post -> t ∈ vi_alight y -> t ∉ vi_board y -> t ∈ on_board pre.
  Proof.
    intros R E Ha Hb. assert (Ht : t ∈ boards (take (S (length pre)) xs)).
    { apply rides_prefix; [done|]. subst xs. apply elem_of_alights. exists y. split; [|done].
      rewrite cons_middle, app_assoc. rewrite take_app_alt by (rewrite app_length; cbn; lia). set_solver. }
    pose proof (rides_alights_nodup _ R) as Hn. subst xs.
    rewrite cons_middle, app_assoc, take_app_alt in Ht by (rewrite app_length; cbn; lia).
    unfold boards in Ht. rewrite flat_map_app, elem_of_app in Ht. cbn in Ht. rewrite app_nil_r in Ht.
    destruct Ht as [Ht|Ht]; [|done]. unfold on_board. apply elem_of_list_filter. split; [|done].
    intros H. unfold alights in Hn. rewrite flat_map_app in Hn. cbn in Hn.
    apply NoDup_app in Hn as (_ & Hn & _). apply (Hn t); [done|]. set_solver.
  Qed.

  Lemma taxi_turns xs : rides xs ->
    (forall pre x post t, xs = pre ++ x :: post -> vi_board x = [t] -> (length (on_board (pre ++ [x])) <= 1)%nat) ->
    forall n mid pre post, (length mid <= n)%nat -> xs = pre ++ mid ++ post -> Forall (fun x => events x = 1%nat) mid ->
    on_board pre = [] -> alights post = [] -> in_turns (boards mid) mid.
  Proof.
    intros R One. induction n as [|n IH]; intros mid pre post Hlen E F Hpre Hpost.
    { destruct mid; [constructor|cbn in Hlen; lia]. }
    destruct mid as [|x mid]; [constructor|]. inversion F as [|? ? Hx F']; subst x0 l.
    destruct (one_event x Hx) as [(t & Hb & Ha)|(t & Hb & Ha)].
    2: { exfalso. assert (H : t ∈ on_board pre).
         { eapply (alights_next xs pre x (mid ++ post)); [done|by rewrite E| |]; rewrite ?Ha, ?Hb; set_solver. }
         rewrite Hpre in H. set_solver. }
    assert (Hin : t ∈ boards xs).
    { subst xs. unfold boards. rewrite !flat_map_app. cbn. rewrite Hb. set_solver. }
    assert (Hnot : t ∉ boards pre).
    { pose proof (rides_once _ R) as Hn. subst xs. unfold boards in Hn. rewrite !flat_map_app in Hn. cbn in Hn. rewrite Hb in Hn.
      intros Hi. apply NoDup_app in Hn as (_ & Hn & _). apply (Hn t Hi). set_solver. }
    assert (Hnota : t ∉ alights pre).
    { intros H. apply Hnot. assert (G : t ∈ boards (take (length pre) xs)).
      { apply rides_prefix; [done|]. subst xs. by rewrite take_app. }
      subst xs. by rewrite take_app in G. }
    assert (Hon : on_board (pre ++ [x]) = [t]).
    { rewrite on_board_app. cbn. rewrite Ha, Hb. cbn. rewrite app_nil_r, filter_app.
      unfold on_board in Hpre. rewrite Hpre. rewrite (filter_cons_True _ t []) by done. done. }
    destruct mid as [|y mid].
    { exfalso. assert (H : t ∈ alights xs) by (by rewrite (rides_all _ R)).
      subst xs. unfold alights in *. rewrite !flat_map_app in H. cbn in H. rewrite Ha, Hpost in H. set_solver. }
    inversion F' as [|? ? Hy F'']; subst x0 l.
    destruct (one_event y Hy) as [(u & Hyb & Hya)|(u & Hyb & Hya)].
    { exfalso. pose proof (One (pre ++ [x]) y (mid ++ post) u) as G. rewrite <- !app_assoc in G. cbn in G.
      specialize (G E Hyb).
      assert (Hu : u ∉ alights (pre ++ [x])).
      { intros H. assert (G' : u ∈ boards (take (length (pre ++ [x])) xs)).
        { apply rides_prefix; [done|]. subst xs. change (pre ++ (x :: y :: mid) ++ post) with (pre ++ [x] ++ (y :: mid) ++ post).
          by rewrite app_assoc, take_app. }
        pose proof (rides_once _ R) as Hn. subst xs. change (pre ++ (x :: y :: mid) ++ post) with (pre ++ [x] ++ (y :: mid) ++ post) in *.
        rewrite app_assoc in *. rewrite take_app in G'. unfold boards in Hn, G'. rewrite flat_map_app in Hn.
        apply NoDup_app in Hn as (_ & Hn & _). apply (Hn u G'). cbn. rewrite Hyb. set_solver. }
      assert (Hu' : u ∈ on_board (pre ++ [x; y])).
      { apply elem_of_list_filter. unfold alights, boards in *. rewrite !flat_map_app in *. cbn in *. rewrite Hya, Hyb. cbn. set_solver. }
      assert (Ht' : t ∈ on_board (pre ++ [x; y])).
      { assert (H : t ∈ on_board (pre ++ [x])) by (rewrite Hon; set_solver).
        apply elem_of_list_filter in H as [H1 H2].
        apply elem_of_list_filter. unfold alights, boards in *. rewrite !flat_map_app in *. cbn in *. rewrite Hya, Hyb. cbn. set_solver. }
      assert (Htu : t <> u).
      { intros ->. pose proof (rides_once _ R) as Hn. subst xs. unfold boards in Hn. rewrite !flat_map_app in Hn. cbn in Hn.
        rewrite Hb, Hyb in Hn. apply NoDup_app in Hn as (_ & _ & Hn). cbn in Hn. apply NoDup_cons in Hn as [Hn _]. set_solver. }
      destruct (on_board (pre ++ [x; y])) as [|a [|a' l]]; cbn in G; [set_solver| |lia].
      apply elem_of_list_singleton in Hu', Ht'. congruence. }
    assert (u = t) as ->.
    { assert (H : u ∈ on_board (pre ++ [x])).
      { eapply (alights_next xs (pre ++ [x]) y (mid ++ post)); [done|by rewrite E, <- app_assoc| |]; rewrite ?Hya, ?Hyb; set_solver. }
      rewrite Hon in H. set_solver. }
    unfold boards. cbn. rewrite Hb, Hyb. cbn. constructor; [done..|].
    apply (IH mid (pre ++ [x; y]) post); [cbn in Hlen; lia|by rewrite E, <- app_assoc|done| |done].
    destruct (on_board (pre ++ [x; y])) as [|a l] eqn:Ea; [done|]. exfalso.
    assert (Hin' : a ∈ on_board (pre ++ [x; y])) by (rewrite Ea; set_solver).
    apply elem_of_list_filter in Hin' as [H1 H2]. unfold alights, boards in H1, H2. rewrite !flat_map_app in H1, H2. cbn in H1, H2.
    rewrite Ha, Hya in H1. rewrite Hb, Hyb in H2. cbn in H1, H2.
    destruct (decide (a = t)) as [->|Hat]; [set_solver|].
    assert (H3 : a ∈ on_board pre); [|rewrite Hpre in H3; set_solver].
    apply elem_of_list_filter. unfold alights, boards. set_solver.
  Qed.
End taxi.

(** ** Slack does not matter when all numbers are multiples of a larger unit *)
Section units.
  Lemma multiple_le u a b s : (u | a) -> (u | b) -> 0 <= s < u -> a <= b + s -> a <= b.
  Proof. intros [x ->] [y ->] Hs H. apply Z.mul_le_mono_nonneg_r; [lia|]. apply Z.lt_succ_r, Z.mul_lt_mono_pos_r with (p := u); lia. Qed.
  Lemma blocks_multiple u a b : (u | a.1) -> (u | a.2) -> (u | b.1) -> (u | b.2) -> (u | blocks_from a b).
  Proof.
    intros A B C D. unfold blocks_from. apply Z.divide_add_r; apply Z.divide_abs_r; by apply Z.divide_sub_r.
  Qed.
  Lemma max_multiple u a b : (u | a) -> (u | b) -> (u | Z.max a b).
  Proof. intros. destruct (Z.max_spec a b) as [[_ ->]|[_ ->]]; done. Qed.
  Lemma drivable_exact u s steps rs : 0 <= s < u -> (u | steps) ->
    Forall (fun r => Forall (multiple u) [rd_from_x r; rd_from_y r; rd_to_x r; rd_to_y r; rd_earliest r; rd_latest r]) rs ->
    forall c, (u | c.1) -> (u | c.2.1) -> (u | c.2.2) -> drivable s steps c rs -> drivable 0 steps c rs.
  Proof.
    intros Hs Hst. induction 1 as [|r rs Hr F IH]; intros c H1 H2 H3; cbn.
    - intros H. rewrite Z.add_0_r. apply (multiple_le u _ _ s); try done.
      apply Z.divide_add_r; [done|]. apply blocks_multiple; try done; apply Z.divide_0_r.
    - intros [H H']. unfold multiple in Hr.
      repeat (let X := fresh "X" in apply Forall_cons in Hr as [X Hr]).
      assert (Hb : (u | begins_at c r)).
      { apply max_multiple; [|done]. apply Z.divide_add_r; [done|]. by apply blocks_multiple. }
      split; [rewrite Z.add_0_r; by apply (multiple_le u _ _ s)|].
      apply IH; cbn; try done. apply Z.divide_add_r; [done|]. by apply blocks_multiple.
  Qed.
  Lemma workable_exact u s i kss : 0 <= s < u -> in_units u i -> workable s i kss -> workable 0 i kss.
  Proof.
    intros Hs [Ub Us Ur] [W1 W2 W3 W4]. split; [done..|]. intros ks Hk. destruct (W4 ks Hk) as (rs & Hr & Hd).
    exists rs. split; [done|]. eapply drivable_exact; [exact Hs|done| |..|exact Hd]; try apply Z.divide_0_r.
    apply Forall_forall. intros r Hin. apply Ur. apply elem_of_list_lookup in Hin as [n Hn].
    destruct (Forall2_lookup_r _ _ _ _ _ Hr Hn) as (k & _ & Hk'). by eapply elem_of_list_lookup_2.
  Qed.
End units.

(** ** Worlds loaded from HashCode files *)
Definition pt (a : spot) : position := [a.1; a.2].
Record taxi_world `{W : World} (i : hash_code) : Prop := {
  tw_metric : w_metric = Manhattan;
  tw_ride : forall k r, hc_rides i !! k = Some r ->
    tr_identifier (w_trip k) = pretty k /\
    tr_origin (w_trip k) = Service (pt (start_of r)) (rd_earliest r) (Lim (rd_latest r)) 0 /\
    tr_destination (w_trip k) = Service (pt (finish_of r)) 0 Inf 0 /\
    tr_capacity (w_trip k) = unit_of w_eb /\ tr_bonus (w_trip k) = hc_bonus i /\ tr_timeout (w_trip k) = Inf;
  tw_none : forall k, hc_rides i !! k = None -> w_trip k = Trip "" (Service [] 0 Inf 0) (Service [] 0 Inf 0) 0 0 Inf;
  tw_vehicle : forall k, (k < hc_vehicles i)%nat ->
    v_origin_position k = [0; 0] /\ v_destination_position k = [0; 0] /\ v_origin_earliest k = 0 /\
    v_destination_latest k = Lim (hc_steps i) /\ v_capacity k = Lim (unit_of w_eb);
  tw_timeout : forall k, v_timeout k = Inf
}.

Section drive.
  Context {W : World} (i : hash_code) (TW : taxi_world i).

  Lemma dist_pt a b : dist (pt a) (pt b) = blocks_from a b.
  Proof. unfold dist. rewrite (tw_metric i TW). cbn. unfold manhattan, blocks_from, pt. cbn. lia. Qed.

  Lemma taxi_limitless : limitless.
  Proof.
    intros k. destruct (hc_rides i !! k) as [r|] eqn:E; [by apply (tw_ride i TW) in E as (_ & _ & _ & _ & _ & ?)|].
    by rewrite (tw_none i TW k E).
  Qed.
  Lemma taxi_sane : sane.
  Proof.
    split; intros k; (destruct (hc_rides i !! k) as [r|] eqn:E;
      [apply (tw_ride i TW) in E as (_ & E1 & E2 & E3 & _ & _)|rewrite (tw_none i TW k E); cbn; lia]).
    - unfold origin_duration, destination_duration. rewrite E1, E2. cbn. lia.
    - rewrite E3. unfold unit_of. lia.
  Qed.

  Lemma advance_pickup now here load x k r : vi_board x = [k] -> vi_alight x = [] -> hc_rides i !! k = Some r ->
    vi_place x = pt (start_of r) ->
    let T := advance (now, here, load) x in
    now + dist here (pt (start_of r)) <= tm_start T /\ rd_earliest r <= tm_start T /\ tm_departure T = tm_start T.
  Proof.
    intros Hb Ha Hr Hp. cbn.
    unfold visit_earliest, visit_duration. rewrite Hb, Ha, Hp. cbn.
    destruct (tw_ride i TW k r Hr) as (_ & E1 & _ & _ & _ & E6).
    unfold origin_earliest, origin_duration. rewrite E6, E1. cbn. lia.
  Qed.
  Lemma advance_delivery now here load x k r : vi_board x = [] -> vi_alight x = [k] -> hc_rides i !! k = Some r ->
    vi_place x = pt (finish_of r) ->
    let T := advance (now, here, load) x in
    now + dist here (pt (finish_of r)) <= tm_departure T.
  Proof.
    intros Hb Ha Hr Hp. cbn.
    unfold visit_earliest, visit_duration. rewrite Hb, Ha, Hp. cbn.
    destruct (tw_ride i TW k r Hr) as (_ & _ & E1 & _ & _ & E6).
    unfold destination_duration. rewrite E1. cbn. lia.
  Qed.
  Lemma advance_depot now here load x : vi_board x = [] -> vi_alight x = [] ->
    now + dist here (vi_place x) <= tm_departure (advance (now, here, load) x).
  Proof. intros Hb Ha. cbn. unfold visit_earliest, visit_duration. rewrite Hb, Ha. cbn. lia. Qed.

  (** the vehicle could drive its rides at least as early as planned *)
  Lemma legs_drivable slack xn ks mid : in_turns ks mid -> vi_board xn = [] -> vi_alight xn = [] -> vi_place xn = pt (0, 0) ->
    forall rs, rides_of i ks rs ->
    (forall x, x ∈ mid -> (forall t r, t ∈ vi_board x -> hc_rides i !! t = Some r -> vi_place x = pt (start_of r)) /\
                          (forall t r, t ∈ vi_alight x -> hc_rides i !! t = Some r -> vi_place x = pt (finish_of r))) ->
    forall now here load c, here = pt c.2 -> c.1 <= now ->
    (forall n x T t r, mid !! n = Some x -> schedule (now, here, load) (mid ++ [xn]) !! n = Some T -> t ∈ vi_board x ->
       hc_rides i !! t = Some r -> tm_start T <= rd_latest r + slack) ->
    (forall T, last (schedule (now, here, load) (mid ++ [xn])) = Some T -> tm_departure T <= hc_steps i + slack) ->
    drivable slack (hc_steps i) c rs.
  Proof.
    intros I Nb Na Np. induction I as [|t ts x y mid Hxb Hxa Hyb Hya I IH]; intros rs F Hplace now here load c -> Hle Hlate Hback.
    - inversion F; subst rs. cbn [drivable]. specialize (Hback _ eq_refl).
      pose proof (advance_depot now (pt c.2) load xn Nb Na) as G. rewrite Np, dist_pt in G. etransitivity; [|exact Hback]. lia.
    - inversion F as [|? r ? rs' Hr F']; subst. cbn [app schedule] in *.
      destruct (Hplace x ltac:(set_solver)) as [Hx _]. destruct (Hplace y ltac:(set_solver)) as [_ Hy].
      specialize (Hx t r ltac:(rewrite Hxb; set_solver) Hr). specialize (Hy t r ltac:(rewrite Hya; set_solver) Hr).
      destruct (advance_pickup now (pt c.2) load x t r Hxb Hxa Hr Hx) as (P1 & P2 & P3). rewrite dist_pt in P1.
      set (T := advance (now, pt c.2, load) x) in *.
      pose proof (advance_delivery (tm_departure T) (vi_place x) (tm_load T) y t r Hyb Hya Hr Hy) as D. cbv zeta in D.
      rewrite Hx, dist_pt in D. unfold leave in *. rewrite Hx in Hlate, Hback.
      set (T' := advance (tm_departure T, pt (start_of r), tm_load T) y) in *.
      cbn [drivable]. split.
      + etransitivity; [|apply (Hlate 0%nat x T t r eq_refl eq_refl ltac:(rewrite Hxb; set_solver) Hr)]. unfold begins_at. lia.
      + eapply (IH rs' F' _ (tm_departure T') (pt (finish_of r)) (tm_load T')).
        * done.
        * unfold cab_after, begins_at. cbn [fst snd]. lia.
        * intros n z Tz t' r' Hz HT. rewrite <- Hy in HT. by eapply (Hlate (S (S n)) z Tz).
        * intros Tz HTz. rewrite <- Hy in HTz. apply Hback.
          destruct (schedule (tm_departure T', vi_place y, tm_load T') (mid ++ [xn])) eqn:E; [done|]. done.
        Unshelve. intros z Hz. apply Hplace. set_solver.
  Qed.

  (** and would then get at least as many points *)
  Lemma legs_points xn ks mid : in_turns ks mid -> 0 <= hc_bonus i ->
    forall rs, rides_of i ks rs ->
    (forall x, x ∈ mid -> (forall t r, t ∈ vi_board x -> hc_rides i !! t = Some r -> vi_place x = pt (start_of r)) /\
                          (forall t r, t ∈ vi_alight x -> hc_rides i !! t = Some r -> vi_place x = pt (finish_of r))) ->
    forall (at_ : nat -> Z) now here load c, here = pt c.2 -> c.1 <= now ->
    (forall n x T t, mid !! n = Some x -> schedule (now, here, load) (mid ++ [xn]) !! n = Some T -> t ∈ vi_board x ->
       at_ t = tm_departure T) ->
    sum_of (map (fun t => trip_distance (w_trip t) +
      (if decide (at_ t = origin_earliest (w_trip t)) then tr_bonus (w_trip t) else 0)) ks) <= ride_points (hc_bonus i) c rs.
  Proof.
    intros I Hbonus. induction I as [|t ts x y mid Hxb Hxa Hyb Hya I IH]; intros rs F Hplace at_ now here load c -> Hle Hat.
    - inversion F; subst rs. done.
    - inversion F as [|? r ? rs' Hr F']; subst. cbn [app schedule map sum_of foldr ride_points] in *.
      destruct (Hplace x ltac:(set_solver)) as [Hx _]. destruct (Hplace y ltac:(set_solver)) as [_ Hy].
      specialize (Hx t r ltac:(rewrite Hxb; set_solver) Hr). specialize (Hy t r ltac:(rewrite Hya; set_solver) Hr).
      destruct (advance_pickup now (pt c.2) load x t r Hxb Hxa Hr Hx) as (P1 & P2 & P3). rewrite dist_pt in P1.
      set (T := advance (now, pt c.2, load) x) in *.
      pose proof (advance_delivery (tm_departure T) (vi_place x) (tm_load T) y t r Hyb Hya Hr Hy) as D. cbv zeta in D.
      rewrite Hx, dist_pt in D. unfold leave in *. rewrite Hx in Hat.
      set (T' := advance (tm_departure T, pt (start_of r), tm_load T) y) in *.
      assert (IH' : sum_of (map (fun t => trip_distance (w_trip t) +
        (if decide (at_ t = origin_earliest (w_trip t)) then tr_bonus (w_trip t) else 0)) ts) <= ride_points (hc_bonus i) (cab_after c r) rs').
      { eapply (IH rs' F' _ at_ (tm_departure T') (pt (finish_of r)) (tm_load T')).
        * done.
        * unfold cab_after, begins_at. cbn [fst snd]. lia.
        * intros n z Tz t' Hz HT. rewrite <- Hy in HT. by eapply (Hat (S (S n)) z Tz).
        Unshelve. intros z Hz. apply Hplace. set_solver. }
      specialize (Hat 0%nat x T t eq_refl eq_refl ltac:(rewrite Hxb; set_solver)).
      destruct (tw_ride i TW t r Hr) as (_ & E1 & E2 & _ & E5 & E6).
      assert (Ed : trip_distance (w_trip t) = blocks_from (start_of r) (finish_of r)).
      { unfold trip_distance. rewrite E1, E2. apply dist_pt. }
      assert (Ee : origin_earliest (w_trip t) = rd_earliest r).
      { unfold origin_earliest. by rewrite E6, E1. }
      rewrite Ed, Ee, Hat, E5. unfold sum_of in IH'. apply Z.add_le_mono; [|done].
      apply Z.add_le_mono_l. case_decide as H1; case_decide as H2; try lia. exfalso. apply H2. unfold begins_at. lia.
  Qed.

  (** exactly as many, if the first ride begins as early as possible *)
  Lemma legs_points_exact xn ks mid : in_turns ks mid -> Forall (fun x => vi_request x = None) mid ->
    forall rs, rides_of i ks rs ->
    (forall x, x ∈ mid -> (forall t r, t ∈ vi_board x -> hc_rides i !! t = Some r -> vi_place x = pt (start_of r)) /\
                          (forall t r, t ∈ vi_alight x -> hc_rides i !! t = Some r -> vi_place x = pt (finish_of r))) ->
    forall (at_ : nat -> Z) now here load c, here = pt c.2 -> 0 <= now ->
    (forall n x T t, mid !! n = Some x -> schedule (now, here, load) (mid ++ [xn]) !! n = Some T -> t ∈ vi_board x ->
       at_ t = tm_departure T) ->
    (forall t ts r rs', ks = t :: ts -> rs = r :: rs' -> at_ t = begins_at c r) ->
    sum_of (map (fun t => trip_distance (w_trip t) +
      (if decide (at_ t = origin_earliest (w_trip t)) then tr_bonus (w_trip t) else 0)) ks) = ride_points (hc_bonus i) c rs.
  Proof.
    intros I. induction I as [|t ts x y mid Hxb Hxa Hyb Hya I IH]; intros Hreq rs F Hplace at_ now here load c -> H0 Hat Hfirst.
    - inversion F; subst rs. done.
    - inversion F as [|? r ? rs' Hr F']; subst. cbn [app schedule map sum_of foldr ride_points] in *.
      apply Forall_cons in Hreq as [Qx Hreq]. apply Forall_cons in Hreq as [Qy Hreq].
      destruct (Hplace x ltac:(set_solver)) as [Hx _]. destruct (Hplace y ltac:(set_solver)) as [_ Hy].
      specialize (Hx t r ltac:(rewrite Hxb; set_solver) Hr). specialize (Hy t r ltac:(rewrite Hya; set_solver) Hr).
      destruct (advance_pickup now (pt c.2) load x t r Hxb Hxa Hr Hx) as (P1 & P2 & P3). rewrite dist_pt in P1.
      set (T := advance (now, pt c.2, load) x) in *.
      unfold leave in *. rewrite Hx in Hat.
      set (T' := advance (tm_departure T, pt (start_of r), tm_load T) y) in *.
      clearbody T. pose proof (Hat 0%nat x T t eq_refl eq_refl ltac:(rewrite Hxb; set_solver)) as Ht.
      pose proof (Hfirst t ts r rs' eq_refl eq_refl) as Hb. rewrite Hb in Ht.
      destruct (tw_ride i TW t r Hr) as (_ & E1 & E2 & _ & E5 & E6).
      assert (Ed : trip_distance (w_trip t) = blocks_from (start_of r) (finish_of r)).
      { unfold trip_distance. rewrite E1, E2. apply dist_pt. }
      assert (Ee : origin_earliest (w_trip t) = rd_earliest r).
      { unfold origin_earliest. by rewrite E6, E1. }
      assert (Hpos : forall a b, 0 <= blocks_from a b) by (intros; unfold blocks_from; lia).
      assert (D : tm_departure T' = tm_departure T + blocks_from (start_of r) (finish_of r)).
      { unfold T', advance. cbn [tm_departure]. unfold visit_earliest, visit_duration. rewrite Hyb, Hya, Hy, Qy. cbn [map app max_or foldr default].
        rewrite dist_pt. unfold destination_earliest, destination_duration, svc_dist. rewrite E1, E2. cbn [sv_earliest sv_duration sv_position].
        rewrite dist_pt. pose proof (Hpos (start_of r) (finish_of r)). pose proof (Hpos c.2 (start_of r)). cbn. lia. }
      rewrite Ed, Ee, Hb, E5. f_equal.
      refine (IH Hreq rs' F' _ at_ (tm_departure T') (pt (finish_of r)) (tm_load T') (cab_after c r) eq_refl _ _ _).
      + intros z Hz. apply Hplace. set_solver.
      + pose proof (Hpos (start_of r) (finish_of r)). pose proof (Hpos c.2 (start_of r)). lia.
      + intros n z Tz t' Hz HT. rewrite <- Hy in HT. by eapply (Hat (S (S n)) z Tz).
      + intros t' ts' r' rs'' -> ->. inversion I as [|? ? x' y' mid' Hxb' Hxa' Hyb' Hya' I']; subst.
        inversion F' as [|? ? ? ? Hr' _]; subst. apply Forall_cons in Hreq as [Qx' _].
        rewrite (Hat 2%nat x' _ t' eq_refl eq_refl) by (rewrite Hxb'; set_solver).
        destruct (Hplace x' ltac:(set_solver)) as [Hx' _]. specialize (Hx' t' r' ltac:(rewrite Hxb'; set_solver) Hr').
        destruct (tw_ride i TW t' r' Hr') as (_ & E1' & E2' & _ & E5' & E6').
        unfold advance. cbn [tm_departure]. unfold visit_earliest, visit_duration. rewrite Hxb', Hxa', Hx', Qx', Hy. cbn [map app max_or foldr default].
        rewrite dist_pt. unfold origin_earliest, origin_duration. rewrite E1', E6'. cbn [max_sub_lim sv_earliest sv_duration].
        unfold begins_at, cab_after. cbn [fst snd]. rewrite D. unfold begins_at in Ht. cbn [default]. unfold begins_at. cbn. lia.
  Qed.
End drive.

Section fleet.
  Context {W : World} (i : hash_code) (TW : taxi_world i).

  Lemma find_rides ks : (forall k, k ∈ ks -> (k < length (hc_rides i))%nat) -> exists rs, rides_of i ks rs.
  Proof.
    induction ks as [|k ks IH]; intros H; [exists []; constructor|]. destruct IH as [rs F]; [intros k' Hk; apply H; by right|].
    destruct (lookup_lt_is_Some_2 (hc_rides i) k (H k ltac:(left))) as [r Hr].
    exists (r :: rs). by constructor.
  Qed.
  Lemma taxi_weight l : (forall k, k ∈ l -> (k < length (hc_rides i))%nat) -> weight l = Z.of_nat (length l) * unit_of w_eb.
  Proof.
    unfold weight. induction l as [|k l IH]; intros H; [done|]. cbn [map sum_of foldr length].
    unfold sum_of in IH. rewrite IH by (intros k' Hk; apply H; by right).
    destruct (lookup_lt_is_Some_2 (hc_rides i) k (H k ltac:(left))) as [r Hr].
    destruct (tw_ride i TW k r Hr) as (_ & _ & _ & -> & _). lia.
  Qed.

  Lemma tour_points v xs : (v < hc_vehicles i)%nat -> tour v xs -> simple xs -> admissible v xs ->
    (forall t, t ∈ boards xs -> (t < length (hc_rides i))%nat) ->
    exists rs, rides_of i (boards xs) rs /\ drivable eb (hc_steps i) garage rs /\
      (0 <= hc_bonus i -> exists z, value_of HashCode v xs = [z] /\ z <= ride_points (hc_bonus i) garage rs) /\
      (calm xs (length xs) ->
       (forall t ts r, boards xs = t :: ts -> hc_rides i !! t = Some r -> picked_up_at v xs t = begins_at garage r) ->
       value_of HashCode v xs = [ride_points (hc_bonus i) garage rs]).
  Proof.
    intros Hv T S A Hin. pose proof (tour_rides _ _ T) as R.
    destruct (tw_vehicle i TW v Hv) as (V1 & V2 & V3 & V4 & V5).
    destruct S as (x0 & mid & xn & Exs & F).
    destruct (tour_first _ _ T) as (x0' & rest & E1 & _ & P0 & B0 & A0). rewrite Exs in E1. injection E1 as <- <-.
    destruct (tour_last _ _ T) as (front & xn' & E2 & Pn & Bn & An). rewrite Exs in E2.
    change (x0 :: mid ++ [xn]) with ((x0 :: mid) ++ [xn]) in E2. apply app_inj_tail in E2 as [_ <-].
    assert (Eb : boards xs = boards mid).
    { rewrite Exs. unfold boards. cbn. rewrite flat_map_app. cbn. by rewrite B0, Bn, !app_nil_r. }
    assert (Hride : forall n x t, xs !! n = Some x -> t ∈ vi_board x -> exists j, ride xs t n j).
    { intros n x t Hx Ht. assert (Hb : t ∈ boards xs) by (apply elem_of_boards; exists x; split; [by eapply elem_of_list_lookup_2|done]).
      destruct (rides_order _ R t Hb) as (a & b & Hs & Hab & Hbb). apply sublist2 in Hs as (i' & j' & _ & Hi & Hj).
      assert (i' = n) as -> by (eapply (flat_map_NoDup_lookup vi_board xs); [apply R|exact Hi|exact Hx|exact Hab|exact Ht]).
      rewrite Hx in Hi. injection Hi as <-. exists j', x, b. done. }
    assert (Htime : forall n x Tn t, xs !! n = Some x -> timetable v xs !! n = Some Tn -> t ∈ vi_board x ->
      on_time v x Tn /\ picked_up_at v xs t = tm_departure Tn).
    { intros n x Tn t Hx HT Ht. destruct (Hride n x t Hx Ht) as (j & Hr). pose proof Hr as (x' & y & Hx' & Hy & _).
      destruct (timetable_some v xs j y Hy) as [Tj HTj].
      destruct (ad_rides _ _ A t n j x y Tn Tj Hr Hx Hy HT HTj) as (H & _). split; [done|].
      by destruct (ride_at v xs t n j Tn Tj R Hr HT HTj). }
    assert (I : in_turns (boards xs) mid).
    { rewrite Eb. apply (taxi_turns xs R) with (n := length mid) (pre := [x0]) (post := [xn]); try done.
      - intros pre x post t E Hb. assert (Hx : xs !! length pre = Some x) by (rewrite E; by apply list_lookup_middle).
        destruct (timetable_some v xs _ x Hx) as [Tx HTx].
        destruct (Htime _ x Tx t Hx HTx ltac:(rewrite Hb; set_solver)) as [(_ & _ & Hl) _].
        rewrite (timetable_lookup v xs _ x Hx) in HTx. injection HTx as <-. rewrite (rides_load v xs _ x R Hx) in Hl.
        assert (Et : take (S (length pre)) xs = pre ++ [x]).
        { rewrite E, cons_middle, app_assoc. apply take_app_alt. rewrite app_length. cbn. lia. }
        rewrite Et, V5 in Hl. cbn in Hl. rewrite taxi_weight in Hl.
        + unfold unit_of, eb in Hl. nia.
        + intros k Hk. apply Hin. apply elem_of_list_filter in Hk as [_ Hk]. rewrite <- Et in Hk.
          unfold boards in *. apply elem_of_flat_map in Hk as (z & Hz & Hk). apply elem_of_flat_map. exists z. split; [|done].
          by eapply elem_of_take in Hz as (? & ? & ?); eapply elem_of_list_lookup_2.
      - unfold on_board. cbn. by rewrite B0.
      - cbn. by rewrite An. }
    destruct (find_rides (boards xs) Hin) as [rs Hrs]. exists rs. split; [done|].
    set (T0 := advance (ready v) x0).
    assert (Hmid : forall n x, mid !! n = Some x -> xs !! (Datatypes.S n) = Some x).
    { intros n x Hx. rewrite Exs. cbn. by apply lookup_app_l_Some. }
    assert (Hsch : forall n Tn, schedule (tm_departure T0, pt (0, 0), tm_load T0) (mid ++ [xn]) !! n = Some Tn ->
      timetable v xs !! (Datatypes.S n) = Some Tn).
    { intros n Tn HT. unfold timetable. rewrite Exs. cbn [schedule lookup list_lookup]. unfold leave. rewrite P0, V1. exact HT. }
    assert (Hplace : forall x, x ∈ mid -> (forall t r, t ∈ vi_board x -> hc_rides i !! t = Some r -> vi_place x = pt (start_of r)) /\
                          (forall t r, t ∈ vi_alight x -> hc_rides i !! t = Some r -> vi_place x = pt (finish_of r))).
    { intros x Hx. destruct (rides_places _ R x) as [H1 H2]. { rewrite Exs. set_solver. }
      split; intros t r Ht Hr; destruct (tw_ride i TW t r Hr) as (_ & G1 & G2 & _).
      - rewrite (H1 t Ht). unfold origin_position. by rewrite G1.
      - rewrite (H2 t Ht). unfold destination_position. by rewrite G2. }
    assert (H0 : 0 <= tm_departure T0).
    { unfold T0, ready. rewrite V3, V1. pose proof (advance_depot (v_origin_earliest v) (v_origin_position v) 0 x0 B0 A0) as G.
      rewrite V3, P0, V1 in G. etransitivity; [|exact G]. cbn. unfold dist. rewrite (tw_metric i TW). cbn. lia. }
    assert (Em : map (fun t => unless_empty t (ride_score v xs t)) (boards xs) =
      map (fun t => trip_distance (w_trip t) + (if decide (picked_up_at v xs t = origin_earliest (w_trip t)) then tr_bonus (w_trip t) else 0)) (boards xs)).
    { apply map_ext_in. intros t Ht%elem_of_list_In. unfold unless_empty. rewrite decide_False; [done|].
      destruct (lookup_lt_is_Some_2 (hc_rides i) t (Hin t Ht)) as [r Hr].
      destruct (tw_ride i TW t r Hr) as (_ & _ & _ & -> & _). unfold unit_of. lia. }
    split; [|split].
    - eapply (legs_drivable i TW eb xn _ mid I Bn An); [by rewrite Pn|done|done|reflexivity|exact H0| |].
      + intros n x Tn t r Hx HT Ht Hr. destruct (Htime _ x Tn t (Hmid _ _ Hx) (Hsch _ _ HT) Ht) as [(Ho & _) _].
        destruct (Ho t Ht) as [_ Hl]. unfold origin_latest in Hl. destruct (tw_ride i TW t r Hr) as (_ & G1 & G2 & _).
        rewrite G1, G2 in Hl. exact Hl.
      + intros Tn HT. pose proof (ad_return _ _ A Tn) as G. rewrite V4 in G. apply G.
        unfold timetable. rewrite Exs. cbn [schedule]. unfold leave. rewrite P0, V1.
        change (pt garage.2) with [0; 0] in HT. fold T0.
        cbv zeta. rewrite last_cons. fold T0. by rewrite HT.
    - intros Hbonus. eexists. split; [reflexivity|].
      rewrite Em. eapply (legs_points i TW xn _ mid I Hbonus rs Hrs Hplace (picked_up_at v xs)); [reflexivity|exact H0|].
      intros n x Tn t Hx HT Ht. by destruct (Htime _ x Tn t (Hmid _ _ Hx) (Hsch _ _ HT) Ht).
    - intros C Hfirst. unfold value_of. f_equal. rewrite Em.
      refine (legs_points_exact i TW xn _ mid I _ rs Hrs Hplace (picked_up_at v xs) (tm_departure T0) _ (tm_load T0) garage eq_refl H0 _ _).
      + apply Forall_lookup. intros n x Hx. apply (C (Datatypes.S n)); [|by apply Hmid].
        apply lookup_lt_Some in Hx. rewrite Exs. cbn. rewrite app_length. cbn. lia.
      + intros n x Tn t Hx HT Ht. by destruct (Htime _ x Tn t (Hmid _ _ Hx) (Hsch _ _ HT) Ht).
      + intros t ts r rs' E1 E2. apply (Hfirst t ts r E1). rewrite E1, E2 in Hrs. by inversion Hrs.
  Qed.
End fleet.
