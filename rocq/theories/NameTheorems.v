(** Proofs about the names of routes (C84). *)
From Verif Require Import SpecNames FeasibleProofs CloneProofs ComputeProofs TimeTheorems StoreTheorems ReportTheorems SchedProofs Loaders SpecLoad LoadTheorems WitnessNames.

(** ** Strings *)
Lemma cut_at c a : forall b s t, free_of c a -> free_of c b ->
  (a +:+ String c s) = (b +:+ String c t) -> a = b /\ s = t.
Proof.
  induction a as [|x a IH]; intros [|y b] s t Ha Hb E; cbn in *.
  - by injection E.
  - injection E as -> _. by destruct Hb.
  - injection E as -> _. by destruct Ha.
  - injection E as -> E. destruct (IH b s t) as [-> ->]; [apply Ha|apply Hb|done|done].
Qed.
Lemma free_app c s t : free_of c s -> free_of c t -> free_of c (s +:+ t).
Proof. induction s as [|a s IH]; cbn; [done|]. intros [H1 H2] H3. by split; [|apply IH]. Qed.
Lemma free_concat c sep l : free_of c sep -> Forall (free_of c) l -> free_of c (String.concat sep l).
Proof. intros Hs HF. apply free_lacks, lacks_concat; [by apply free_lacks|]. eapply Forall_impl; [exact HF|]. intros s. apply free_lacks. Qed.

Definition bracketed (inner : string) : string := "[" +:+ inner +:+ "]".
Lemma app_assoc_str (a b c : string) : (a +:+ b) +:+ c = a +:+ (b +:+ c).
Proof. induction a as [|x a IH]; [done|].
  change (String x ((a +:+ b) +:+ c) = String x (a +:+ (b +:+ c))). by rewrite IH.
Qed.
Lemma concat_brackets l1 : forall l2, Forall (free_of "]") l1 -> Forall (free_of "]") l2 ->
  String.concat "|" (map bracketed l1) = String.concat "|" (map bracketed l2) -> l1 = l2.
Proof.
  induction l1 as [|a l1 IH]; intros [|b l2] H1 H2 E; [done| | |].
  - destruct l2; cbn in E; discriminate E.
  - destruct l1; cbn in E; discriminate E.
  - inversion H1; subst. inversion H2; subst.
    assert (Hs : forall x l, exists s, String.concat "|" (map bracketed (x :: l)) = String "[" (x +:+ String "]" s) /\
              (l = [] /\ s = EmptyString \/ l <> [] /\ s = String "|" (String.concat "|" (map bracketed l)))).
    { intros x [|y l].
      - exists EmptyString. split; [done|by left].
      - exists (String "|" (String.concat "|" (map bracketed (y :: l)))). split; [|right; by split].
        change (bracketed x +:+ ("|" +:+ String.concat "|" (map bracketed (y :: l))) =
          String "[" (x +:+ String "]" (String "|" (String.concat "|" (map bracketed (y :: l)))))).
        unfold bracketed at 1. rewrite !app_assoc_str. done. }
    destruct (Hs a l1) as (s & E1 & C1). destruct (Hs b l2) as (t & E2 & C2). rewrite E1, E2 in E. injection E as E.
    apply cut_at in E as [-> ->]; [|done|done]. f_equal.
    destruct C1 as [[-> E3]|[N1 E3]], C2 as [[-> E4]|[N2 E4]].
    + done.
    + by rewrite E3 in E4.
    + by rewrite E3 in E4.
    + rewrite E3 in E4. injection E4 as E4. by apply IH.
Qed.
Lemma concat_bars l1 l2 : Forall (fun s => s <> EmptyString /\ free_of bar s) l1 ->
  Forall (fun s => s <> EmptyString /\ free_of bar s) l2 ->
  String.concat "|" l1 = String.concat "|" l2 -> l1 = l2.
Proof.
  intros H1 H2 E.
  assert (Hn : forall l, Forall (fun s => s <> EmptyString /\ free_of bar s) l -> String.concat "|" l = EmptyString -> l = []).
  { intros [|a [|b l]] HF El; [done| |]; inversion HF as [|? ? [Ha _] _]; subst; cbn in El; [by subst|].
    destruct a; [done|discriminate El]. }
  assert (Hf : forall l, Forall (fun s => s <> EmptyString /\ free_of bar s) l -> Forall (lacks bar) l).
  { intros l HF. eapply Forall_impl; [exact HF|]. intros s [_ Hs]. by apply free_lacks. }
  destruct (decide (l1 = [])) as [->|N1]; [symmetry; by apply Hn|].
  destruct (decide (l2 = [])) as [->|N2]; [by apply Hn|].
  rewrite <- (split_on_concat bar l1), <- (split_on_concat bar l2); [by f_equal|done|by apply Hf|done|by apply Hf].
Qed.

Section names.
  Context {W : World}.
  Definition called (bs als : list nat) : list string :=
    map (fun t => "P" +:+ tr_identifier (w_trip t)) bs ++ map (fun t => "D" +:+ tr_identifier (w_trip t)) als.
  Lemma called_inj bs als bs' als' : called bs als = called bs' als' ->
    map trip_name bs = map trip_name bs' /\ map trip_name als = map trip_name als'.
  Proof.
    unfold called. revert bs'. induction bs as [|b bs IH]; intros [|b' bs'] E; cbn in *.
    - split; [done|]. revert als' E. induction als as [|a als IH]; intros [|a' als'] E; cbn in *; try discriminate; [done|].
      injection E as E1 E2. f_equal; [done|by apply IH].
    - destruct als; cbn in E; discriminate E.
    - destruct als'; cbn in E; discriminate E.
    - injection E as E1 E2. apply IH in E2 as [E2 E3]. split; [|done]. by f_equal.
  Qed.

  (** the name of a visit, in some order of its events *)
  Definition named (x : visit) (name : string) : Prop :=
    exists bs als, bs ≡ₚ vi_board x /\ als ≡ₚ vi_alight x /\ name = bracketed (String.concat "|" (called bs als)).

  Lemma named_runs h r v ids L i s x : RouteW h r v ids L -> ids !! i = Some s -> L !! i = Some x ->
    runs (stop_identifier s) h (fun name h' => quiet h h' /\ named x name).
  Proof.
    intros R Hs Hx. destruct (RouteW_lookup _ _ _ _ _ _ _ R Hs) as (c & x' & Hc & Hx' & Ex & K & _).
    rewrite Hx in Hx'. injection Hx' as <-.
    unfold stop_identifier. step. eapply runs_stop_get; [exact Hc|].
    step. apply runs_set_order. intros ps Hps. step. apply runs_trips_of.
    { intros p Hp. rewrite Hps in Hp. cbn. apply K. apply elem_of_app. by left. }
    step. apply runs_set_order. intros ds Hds. step. apply runs_trips_of.
    { intros p Hp. rewrite Hds in Hp. cbn. apply K. apply elem_of_app. by right. }
    apply runs_ret. split; [eapply (quiet_trans _ (MkHeap _ _ _ _)); (split; [apply soft_tick|done])|].
    rewrite Ex. eexists _, _. split; [|split; [|reflexivity]]; cbn; [by rewrite Hps|by rewrite Hds].
  Qed.
  Lemma all_named_runs h h0 r v ids L : RouteW h0 r v ids L -> quiet h0 h ->
    runs (mapM stop_identifier ids) h (fun names h' => quiet h0 h' /\ Forall2 named L names).
  Proof.
    intros R Q. assert (Rq : forall h', quiet h0 h' -> RouteW h' r v ids L) by (intros; by eapply RouteW_quiet).
    eapply runs_mono; [apply (runs_mapM _ (fun h' => quiet h0 h') (fun s w => forall i x, ids !! i = Some s -> L !! i = Some x -> named x w)); [exact Q|]|].
    { intros s h2 Hs Q2. apply elem_of_list_lookup in Hs as [i Hi].
      destruct (RouteW_lookup _ _ _ _ _ _ _ R Hi) as (c & x & _ & Hx & _).
      eapply runs_mono; [apply (named_runs h2 r v ids L i s x); [by apply Rq|done|done]|].
      cbn. intros w h3 [Q3 H]. split; [by eapply quiet_trans|]. intros i' x' Hi' Hx'.
      assert (i' = i) as ->; [eapply NoDup_lookup; [by eapply RouteW_NoDup|done|done]|].
      rewrite Hx in Hx'. by injection Hx' as <-. }
    cbn. intros names h2 [Q2 F2]. split; [done|]. pose proof (RouteW_length _ _ _ _ _ R) as Hlen.
    apply Forall2_same_length_lookup_2; [rewrite <- Hlen; by eapply Forall2_length|].
    intros i x w Hx Hw. destruct (Forall2_lookup_r _ _ _ _ _ F2 Hw) as (s & Hs & H). by apply (H i).
  Qed.
  Lemma route_identifier_runs h r v ids L : RouteW h r v ids L ->
    runs (route_identifier r) h (fun name h' => quiet h h' /\ exists names, name = String.concat "|" names /\ Forall2 named L names).
  Proof.
    intros R. unfold route_identifier. step. eapply runs_route_stops; [exact R|].
    step. eapply runs_mono; [eapply all_named_runs; [exact R|apply quiet_refl]|]. cbn. intros names h1 [Q F].
    apply runs_ret. split; [done|]. by exists names.
  Qed.

  (** ** What equal names tell *)
  Lemma plain_called bs als : (forall t, t ∈ bs ++ als -> plain (trip_name t)) ->
    Forall (fun s => s <> EmptyString /\ free_of bar s) (called bs als) /\ free_of "]" (String.concat "|" (called bs als)).
  Proof.
    intros H. split.
    - apply Forall_app. split; apply Forall_fmap, Forall_forall; intros t Ht; (split; [done|]);
        (split; [done|]); apply H, elem_of_app; auto.
    - apply free_concat; [done|]. apply Forall_app. split; apply Forall_fmap, Forall_forall; intros t Ht;
        (split; [done|]); apply H, elem_of_app; auto.
  Qed.
  Lemma named_same x y nx ny : (forall t, t ∈ vi_board x ++ vi_alight x -> plain (trip_name t)) ->
    (forall t, t ∈ vi_board y ++ vi_alight y -> plain (trip_name t)) -> named x nx -> named y ny -> nx = ny -> same_calls x y.
  Proof.
    intros Px Py (bs & als & Hb & Ha & ->) (bs' & als' & Hb' & Ha' & ->) E. unfold bracketed in E. injection E as E.
    destruct (plain_called bs als) as [F1 G1]; [intros t; rewrite Hb, Ha; apply Px|].
    destruct (plain_called bs' als') as [F2 G2]; [intros t; rewrite Hb', Ha'; apply Py|].
    apply (cut_at "]" _ _ EmptyString EmptyString) in E as [E _]; [|done|done].
    apply concat_bars in E; [|done|done]. apply called_inj in E as [E1 E2].
    split; [by rewrite <- Hb, <- Hb', E1|by rewrite <- Ha, <- Ha', E2].
  Qed.
  Lemma plain_at xs x : rides xs -> plain_names xs -> x ∈ xs -> forall t, t ∈ vi_board x ++ vi_alight x -> plain (trip_name t).
  Proof.
    intros Hr P Hx t Ht. apply P. apply elem_of_app in Ht as [Ht|Ht].
    - apply elem_of_list_In, in_flat_map. exists x. by rewrite <- !elem_of_list_In.
    - rewrite <- (rides_all _ Hr). apply elem_of_list_In, in_flat_map. exists x. by rewrite <- !elem_of_list_In.
  Qed.
  Lemma all_named_same xs ys ns : rides xs -> rides ys -> plain_names xs -> plain_names ys ->
    Forall2 named xs ns -> Forall2 named ys ns -> Forall2 same_calls xs ys.
  Proof.
    intros Rx Ry Px Py F1 F2. apply Forall2_same_length_lookup_2.
    { rewrite (Forall2_length _ _ _ F1). symmetry. by eapply Forall2_length. }
    intros i x y Hx Hy. destruct (Forall2_lookup_l _ _ _ _ _ F1 Hx) as (n & Hn & Nx).
    pose proof (Forall2_lookup_lr _ _ _ _ _ _ F2 Hy Hn) as Ny.
    eapply named_same; [..|reflexivity]; [| |exact Nx|exact Ny]; apply plain_at with (xs := xs) + apply plain_at with (xs := ys); try done; by eapply elem_of_list_lookup_2.
  Qed.
  Lemma named_split xs ns : rides xs -> plain_names xs -> Forall2 named xs ns ->
    exists inners, ns = map bracketed inners /\ Forall (free_of "]") inners.
  Proof.
    intros Hr P F. assert (HP : Forall (fun x => forall t, t ∈ vi_board x ++ vi_alight x -> plain (trip_name t)) xs)
      by (apply Forall_forall; intros; by eapply plain_at).
    clear Hr P. induction F as [|x n xs ns (bs & als & Hb & Ha & ->) F IH]; [by exists []|].
    inversion HP as [|? ? Hx HP']; subst. destruct (IH HP') as (inners & -> & Fi).
    eexists (_ :: inners). split; [reflexivity|]. constructor; [|done].
    apply plain_called. intros t. rewrite Hb, Ha. apply Hx.
  Qed.
End names.

(** ** C84 *)
Lemma c84_gives `{W : World} : forall h r v ids xs, well_formed h r v ids xs ->
  exists name h', route_identifier r h = (Ok name, h') /\ routes_kept h h'.
Proof.
  intros h r v ids xs R. apply well_formed_RouteW in R.
  destruct (proj1 (runs_eq _ _ _) (route_identifier_runs _ _ _ _ _ R)) as (name & h' & E & Q & _).
  exists name, h'. split; [done|apply soft_kept, Q].
Qed.
Lemma route_name_of `{W : World} h r v ids xs name h' : well_formed h r v ids xs -> route_identifier r h = (Ok name, h') ->
  exists names, name = String.concat "|" names /\ Forall2 named xs names.
Proof.
  intros R E. apply well_formed_RouteW in R.
  destruct (proj1 (runs_eq _ _ _) (route_identifier_runs _ _ _ _ _ R)) as (name' & h'' & E' & _ & H).
  rewrite E in E'. by injection E' as -> _.
Qed.
Lemma c84_tells `{W : World} : forall h r v ids xs h1 k s is ys name h' h1',
  well_formed h r v ids xs -> well_formed h1 k s is ys -> plain_names xs -> plain_names ys ->
  route_identifier r h = (Ok name, h') -> route_identifier k h1 = (Ok name, h1') -> Forall2 same_calls xs ys.
Proof.
  intros h r v ids xs h1 k s is ys name h' h1' R1 R2 P1 P2 E1 E2.
  destruct (route_name_of _ _ _ _ _ _ _ R1 E1) as (ns & -> & F1). destruct (route_name_of _ _ _ _ _ _ _ R2 E2) as (ns' & E & F2).
  pose proof (wf_rides _ _ _ _ _ R1) as D1. pose proof (wf_rides _ _ _ _ _ R2) as D2.
  destruct (named_split _ _ D1 P1 F1) as (l1 & -> & G1). destruct (named_split _ _ D2 P2 F2) as (l2 & -> & G2).
  apply concat_brackets in E as ->; [|done|done]. by eapply all_named_same.
Qed.
Lemma short_perm {A} (l k : list A) : (length k <= 1)%nat -> l ≡ₚ k -> l = k.
Proof.
  destruct k as [|a [|b k]]; cbn; intros Hk H; [by apply Permutation_nil_r in H|by apply Permutation_singleton_r in H|lia].
Qed.
Lemma c84_same `{W : World} : forall h r v ids xs h1 k s is ys name h' name1 h1',
  well_formed h r v ids xs -> well_formed h1 k s is ys -> Forall uncrowded xs -> Forall2 same_calls xs ys ->
  route_identifier r h = (Ok name, h') -> route_identifier k h1 = (Ok name1, h1') -> name = name1.
Proof.
  intros h r v ids xs h1 k s is ys name h' name1 h1' R1 R2 U S E1 E2.
  destruct (route_name_of _ _ _ _ _ _ _ R1 E1) as (ns & -> & F1). destruct (route_name_of _ _ _ _ _ _ _ R2 E2) as (ns' & -> & F2).
  f_equal. clear R1 R2 E1 E2. revert ns ns' F1 F2.
  induction S as [|x y xs ys [S1 S2] S IH]; intros ns ns' F1 F2; inversion F1; inversion F2; subst; [done|].
  inversion U as [|? ? [U1 U2] U']; subst. f_equal; [|by apply IH].
  match goal with H : named x _ |- _ => destruct H as (bs & als & Hb & Ha & ->) end.
  match goal with H : named y _ |- _ => destruct H as (bs' & als' & Hb' & Ha' & ->) end.
  apply short_perm in Hb as ->; [|done]. apply short_perm in Ha as ->; [|done].
  pose proof (Permutation_length S1) as L1. pose proof (Permutation_length S2) as L2. rewrite !map_length in L1, L2.
  apply short_perm in Hb' as ->; [|lia]. apply short_perm in Ha' as ->; [|lia].
  apply short_perm in S1; [|rewrite map_length; lia]. apply short_perm in S2; [|rewrite map_length; lia].
  assert (Hc : forall c l l', map trip_name l = map trip_name l' ->
    map (fun t => c +:+ tr_identifier (w_trip t)) l = map (fun t => c +:+ tr_identifier (w_trip t)) l').
  { intros c z z' E. change (map (fun t => c +:+ trip_name t) z = map (fun t => c +:+ trip_name t) z').
    rewrite <- (map_map trip_name (String.append c) z), <- (map_map trip_name (String.append c) z'). by rewrite E. }
  unfold called. by rewrite (Hc _ _ _ S1), (Hc _ _ _ S2).
Qed.

(** ** Tours with the same names *)
Section same.
  Context {W : World}.
  Lemma max_or_perm d l k : l ≡ₚ k -> max_or d l = max_or d k.
  Proof.
    intros H. destruct (decide (l = [])) as [->|Nl]; [by apply Permutation_nil in H as ->|].
    assert (Nk : k <> []) by (intros ->; by apply Permutation_nil_r in H).
    pose proof (max_or_in d l Nl) as Hl. pose proof (max_or_in d k Nk) as Hk.
    assert (max_or d l <= max_or d k) by (apply max_or_ge; by rewrite <- H).
    assert (max_or d k <= max_or d l) by (apply max_or_ge; by rewrite H). lia.
  Qed.
  Lemma weight_perm l k : l ≡ₚ k -> weight l = weight k.
  Proof. unfold weight, sum_of. intros H. induction H; cbn in *; lia. Qed.
  Lemma same_schedule l xs ys : Forall2 same_visit xs ys -> Forall (fun x => vi_request x = None) xs ->
    Forall (fun x => vi_request x = None) ys -> schedule l xs = schedule l ys.
  Proof.
    intros S. revert l. induction S as [|x y xs ys (Sp & Sb & Sa) S IH]; intros l U1 U2; [done|].
    inversion U1; inversion U2; subst. cbn.
    assert (advance l x = advance l y) as ->.
    { unfold advance, visit_earliest, visit_duration. destruct l as [[now here] load].
      match goal with H : vi_request x = None |- _ => rewrite H end. match goal with H : vi_request y = None |- _ => rewrite H end.
      rewrite Sp, (weight_perm _ _ Sb), (weight_perm _ _ Sa).
      rewrite (max_or_perm 0 (map _ (vi_board x) ++ _) (map _ (vi_board y) ++ map _ (vi_alight y))) by (by rewrite Sb, Sa).
      f_equal. f_equal. apply max_or_perm. by rewrite Sb, Sa. }
    f_equal. unfold leave. rewrite Sp. by apply IH.
  Qed.
  Lemma map_inj_perm {A B} (f : A -> B) l : forall k, (forall x y, x ∈ l -> y ∈ k -> f x = f y -> x = y) -> map f l ≡ₚ map f k -> l ≡ₚ k.
  Proof.
    induction l as [|a l IH]; intros k Hf H.
    - symmetry in H. apply Permutation_nil_r in H. by destruct k.
    - assert (Ha : f a ∈ map f k) by (rewrite <- H; left).
      apply elem_of_list_fmap in Ha as (b & Eb & Hb). assert (a = b) as <- by (apply Hf; [left|done|done]).
      apply elem_of_Permutation in Hb as [k' Hk]. rewrite Hk in H |- *. constructor. cbn in H. apply Permutation_cons_inv in H.
      apply IH; [|done]. intros x y Hx Hy. apply Hf; [by right|rewrite Hk; by right].
  Qed.
  Lemma boards_at xs x t : x ∈ xs -> t ∈ vi_board x -> t ∈ boards xs.
  Proof. intros Hx Ht. apply elem_of_list_In, in_flat_map. exists x. by rewrite <- !elem_of_list_In. Qed.
  Lemma alights_at xs x t : rides xs -> x ∈ xs -> t ∈ vi_alight x -> t ∈ boards xs.
  Proof. intros Hr Hx Ht. rewrite <- (rides_all _ Hr). apply elem_of_list_In, in_flat_map. exists x. by rewrite <- !elem_of_list_In. Qed.
  Lemma calls_visits v xs ys : tour v xs -> tour v ys -> needed xs -> distinct_names xs ys ->
    Forall2 same_calls xs ys -> Forall2 same_visit xs ys.
  Proof.
    intros T1 T2 N D F. pose proof (Forall2_length _ _ _ F) as Hlen.
    apply Forall2_same_length_lookup_2; [done|]. intros i x y Hx Hy.
    pose proof (Forall2_lookup_lr _ _ _ _ _ _ F Hx Hy) as [Sb Sa].
    pose proof (elem_of_list_lookup_2 _ _ _ Hx) as Ex. pose proof (elem_of_list_lookup_2 _ _ _ Hy) as Ey.
    pose proof (tour_rides _ _ T1) as R1. pose proof (tour_rides _ _ T2) as R2.
    assert (Pb : vi_board x ≡ₚ vi_board y).
    { eapply map_inj_perm; [|exact Sb]. intros t u Ht Hu. apply D; by eapply boards_at. }
    assert (Pa : vi_alight x ≡ₚ vi_alight y).
    { eapply map_inj_perm; [|exact Sa]. intros t u Ht Hu. apply D; by eapply alights_at. }
    split; [|by split].
    destruct (rides_places _ R1 x Ex) as [B1 A1]. destruct (rides_places _ R2 y Ey) as [B2 A2].
    destruct (vi_board x) as [|t ts] eqn:Eb.
    - destruct (vi_alight x) as [|t ts] eqn:Ea.
      + destruct (decide (i = 0%nat)) as [->|Hi].
        { destruct (tour_first _ _ T1) as (x0 & rest & E1 & _ & P1 & _). destruct (tour_first _ _ T2) as (y0 & rest' & E2 & _ & P2 & _).
          rewrite E1 in Hx. rewrite E2 in Hy. injection Hx as <-. injection Hy as <-. congruence. }
        destruct (decide (S i = length xs)) as [Hi'|Hi'].
        { destruct (tour_last _ _ T1) as (fr & xn & E1 & P1 & _). destruct (tour_last _ _ T2) as (fr' & yn & E2 & P2 & _).
          subst xs ys. rewrite !app_length in *. cbn in *.
          rewrite lookup_app_r in Hx by lia. rewrite lookup_app_r in Hy by lia.
          replace (i - length fr)%nat with 0%nat in Hx by lia. replace (i - length fr')%nat with 0%nat in Hy by lia.
          injection Hx as <-. injection Hy as <-. congruence. }
        exfalso. apply (N i x Hx Hi Hi'). unfold events. by rewrite Eb, Ea.
      + rewrite (A1 t); [|left]. rewrite (A2 t); [done|]. rewrite <- Pa. left.
    - rewrite (B1 t); [|left]. rewrite (B2 t); [done|]. rewrite <- Pb. left.
  Qed.
End same.
Lemma c84_times `{W : World} : forall h r v ids xs h1 k is ys name h' h1',
  on_tour h r v ids xs -> on_tour h1 k v is ys -> plain_names xs -> plain_names ys -> distinct_names xs ys ->
  needed xs -> unhurried xs -> unhurried ys ->
  route_identifier r h = (Ok name, h') -> route_identifier k h1 = (Ok name, h1') ->
  Forall2 same_visit xs ys /\ timetable v xs = timetable v ys.
Proof.
  intros h r v ids xs h1 k is ys name h' h1' [R1 T1] [R2 T2] P1 P2 D N U1 U2 E1 E2.
  pose proof (c84_tells _ _ _ _ _ _ _ _ _ _ _ _ _ R1 R2 P1 P2 E1 E2) as F.
  assert (F' : Forall2 same_visit xs ys) by (by eapply calls_visits). split; [done|]. by apply same_schedule.
Qed.
Lemma c84_printed `{W : World} : forall h r v ids xs h1 k s is ys a ns b h' h1',
  well_formed h r v ids xs -> well_formed h1 k s is ys -> plain_names xs -> plain_names ys ->
  route_iter r h = (Ok (a, ns), h') -> route_iter k h1 = (Ok (b, ns), h1') ->
  a = vh_identifier (w_vehicle v) /\ b = vh_identifier (w_vehicle s) /\ Forall2 same_calls xs ys.
Proof.
  assert (Hr : forall h r v ids xs a ns h', well_formed h r v ids xs -> route_iter r h = (Ok (a, ns), h') ->
    a = vh_identifier (w_vehicle v) /\ Forall2 named xs ns).
  { intros h r v ids xs a ns h' R E. apply well_formed_RouteW in R.
    assert (G : runs (route_iter r) h (fun x _ => x.1 = vh_identifier (w_vehicle v) /\ Forall2 named xs x.2)).
    { destruct (rw_cell _ _ _ _ _ R) as (c & Hc & Ev & Ei). unfold route_iter, vehicle_identifier.
      step. step. eapply runs_route_get; [exact Hc|]. apply runs_ret. step. eapply runs_route_stops; [exact R|].
      step. eapply runs_mono; [eapply all_named_runs; [exact R|apply quiet_refl]|]. cbn. intros names h1 [Q F].
      apply runs_ret. cbn. by rewrite Ev. }
    apply runs_eq in G as (x & h'' & E' & G). rewrite E in E'. by injection E' as <- _. }
  intros h r v ids xs h1 k s is ys a ns b h' h1' R1 R2 P1 P2 E1 E2.
  destruct (Hr _ _ _ _ _ _ _ _ R1 E1) as [-> F1]. destruct (Hr _ _ _ _ _ _ _ _ R2 E2) as [-> F2].
  split; [done|]. split; [done|]. eapply all_named_same; [by eapply wf_rides|by eapply wf_rides|done|done|exact F1|exact F2].
Qed.

(** ** Names in files *)
Lemma plain_number (k : nat) : plain (pretty k).
Proof.
  split; [|split]; apply free_lacks, pretty_lacks; intros n; unfold pretty_N_char; repeat case_match; discriminate.
Qed.
Lemma numbered_names `{W : World} (f : nat -> nat) (n : nat) : Inj eq eq f -> (forall t, (t < n)%nat -> trip_name t = pretty (f t)) ->
  forall xs ys, (forall t, t ∈ boards xs ++ boards ys -> (t < n)%nat) -> plain_names xs /\ distinct_names xs ys.
Proof.
  intros Hf Hn xs ys Hb. split.
  - intros t Ht. rewrite Hn; [apply plain_number|]. apply Hb, elem_of_app. by left.
  - intros t u Ht Hu E. rewrite !Hn in E by (apply Hb, elem_of_app; auto). by apply (inj pretty), (inj f) in E.
Qed.
Lemma c84_cordeau : forall e i s ts s', paired i -> cordeau_job e (dial_a_ride_file (unit_of e) i) s = (Ok ts, s') ->
  forall (W : World) vs xs ys, holds vs ts -> (forall t, t ∈ boards xs ++ boards ys -> (t < length ts)%nat) ->
    plain_names xs /\ distinct_names xs ys.
Proof.
  intros e i s ts s' Hp E W vs xs ys [_ Hh] Hb. destruct (c37_job e i s Hp) as (ts' & s'' & E' & Hlen & H).
  rewrite E in E'. injection E' as <- _. apply (numbered_names (fun t => (t + 1)%nat) (length ts)); [intros ??; lia| |done].
  intros t Ht. destruct (lookup_lt_is_Some_2 _ _ Ht) as [x Hx]. unfold trip_name. rewrite (Hh _ _ Hx).
  rewrite Hlen in Ht. destruct (lookup_lt_is_Some_2 _ _ Ht) as [p Hpk].
  assert (Hd : (t < length (dr_deliveries i))%nat) by (rewrite <- (Forall2_length _ _ _ Hp); done).
  destruct (lookup_lt_is_Some_2 _ _ Hd) as [q Hq]. by destruct (H t x p q Hx Hpk Hq) as (-> & _).
Qed.
Lemma c84_hashcode : forall e i s ts s', hashcode_job e (hash_code_file (unit_of e) i) s = (Ok ts, s') ->
  forall (W : World) vs xs ys, holds vs ts -> (forall t, t ∈ boards xs ++ boards ys -> (t < length ts)%nat) ->
    plain_names xs /\ distinct_names xs ys.
Proof.
  intros e i s ts s' E W vs xs ys [_ Hh] Hb. destruct (c39_job e i s) as (ts' & s'' & E' & Hlen & H).
  rewrite E in E'. injection E' as <- _. apply (numbered_names (fun t => t) (length ts)); [by intros ??| |done].
  intros t Ht. destruct (lookup_lt_is_Some_2 _ _ Ht) as [x Hx]. unfold trip_name. rewrite (Hh _ _ Hx).
  rewrite Hlen in Ht. destruct (lookup_lt_is_Some_2 _ _ Ht) as [p Hpk]. by destruct (H t x p Hx Hpk) as (-> & _).
Qed.

(** without plain names *)
Lemma c84_unlike_names : ~ forall (W : World) h r v ids xs h1 k s is ys name h' h1',
  on_tour h r v ids xs -> on_tour h1 k s is ys ->
  route_identifier r h = (Ok name, h') -> route_identifier k h1 = (Ok name, h1') -> Forall2 same_calls xs ys.
Proof.
  intros H. pose proof (H odd_world odd_heap 1%nat 0%nat (stops_in odd_heap 1) (visits_of odd_heap 1)
    odd_heap 2%nat 0%nat (stops_in odd_heap 2) (visits_of odd_heap 2) "[]|[P1]|[]|[D1]|[]|[]"%string
    (snd (route_identifier (W := odd_world) 1 odd_heap)) (snd (route_identifier (W := odd_world) 2 odd_heap))) as G.
  refine ((_ : length (visits_of odd_heap 1) <> length (visits_of odd_heap 2)) (Forall2_length _ _ _ (G _ _ _ _))); [vm_compute; discriminate| | | |].
  - apply on_tourb_sound; reflexivity.
  - apply on_tourb_sound; reflexivity.
  - vm_compute; reflexivity.
  - vm_compute; reflexivity.
Qed.
