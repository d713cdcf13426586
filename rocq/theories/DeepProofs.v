(** Copying object by object (C90): a depth-first search with a memo. *)
From Verif Require Export CopyProofs RepresentsProofs SpecCopies.

#[global] Instance object_dec : EqDecision object.
Proof. solve_decision. Defined.
Lemma object_eqb_refl x : object_eqb x x = true.
Proof. destruct x; cbn; apply Nat.eqb_refl. Qed.
Lemma object_eqb_eq x y : object_eqb x y = true -> x = y.
Proof. destruct x, y; cbn; try done; intros ->%Nat.eqb_eq; done. Qed.
Lemma memo_get_here x y m : memo_get x ((x, y) :: m) = Some y.
Proof. cbn. by rewrite object_eqb_refl. Qed.
Lemma memo_get_other x z y m : x <> z -> memo_get x ((z, y) :: m) = memo_get x m.
Proof. intros N. cbn. destruct (object_eqb x z) eqn:E; [|done]. by apply object_eqb_eq in E. Qed.

Definition met (m : memo) (x : object) : Prop := is_Some (memo_get x m).
Definition wider (m m' : memo) : Prop := forall x y, memo_get x m = Some y -> memo_get x m' = Some y.
Lemma wider_refl m : wider m m.
Proof. by intros x y. Qed.
#[local] Hint Resolve wider_refl : core.
Lemma wider_trans m1 m2 m3 : wider m1 m2 -> wider m2 m3 -> wider m1 m3.
Proof. intros A B x y H. by apply B, A. Qed.
Lemma wider_met m m' x : wider m m' -> met m x -> met m' x.
Proof. intros H [y Hy]. exists y. by apply H. Qed.
Lemma wider_cons x y m : memo_get x m = None -> wider m ((x, y) :: m).
Proof. intros H z w Hz. rewrite memo_get_other; [done|]. intros ->. congruence. Qed.
Lemma image_wider m m' x : wider m m' -> met m x -> image m' x = image m x.
Proof. intros H [y Hy]. unfold image. by rewrite Hy, (H _ _ Hy). Qed.
Lemma image_get m x y : memo_get x m = Some y -> image m x = y.
Proof. unfold image. by intros ->. Qed.

Lemma renamed_stop_wider m m' c : wider m m' -> (forall z, z ∈ stop_refs c -> met m z) -> renamed_stop m' c = renamed_stop m c.
Proof.
  intros Hw Hr. unfold renamed_stop. f_equal.
  - apply map_ext_in. intros p Hp%elem_of_list_In. apply image_wider; [done|]. apply Hr. unfold stop_refs.
    apply elem_of_app. left. by apply elem_of_list_fmap_1.
  - apply map_ext_in. intros p Hp%elem_of_list_In. apply image_wider; [done|]. apply Hr. unfold stop_refs.
    apply elem_of_app. right. apply elem_of_app. left. by apply elem_of_list_fmap_1.
  - destruct (st_previous c) as [q|] eqn:E; [|done]. cbn. f_equal. apply image_wider; [done|]. apply Hr. unfold stop_refs. rewrite E.
    apply elem_of_app. right. apply elem_of_app. right. left.
Qed.
Lemma renamed_pt_wider m m' c : wider m m' -> (forall z, z ∈ pt_refs c -> met m z) -> renamed_pt m' c = renamed_pt m c.
Proof.
  intros Hw Hr. unfold renamed_pt. unfold pt_refs in Hr. f_equal.
  - destruct (pt_pickup c) as [q|] eqn:E; [|done]. cbn. f_equal. apply image_wider; [done|]. apply Hr. left.
  - destruct (pt_delivery c) as [q|] eqn:E; [|done]. cbn. f_equal. apply image_wider; [done|]. apply Hr. apply elem_of_app. right. left.
Qed.

(** only new stops and planned trips *)
Definition Ext (h h' : heap) : Prop :=
  (forall y c, h_stops h !! y = Some c -> h_stops h' !! y = Some c) /\
  (forall y c, h_pts h !! y = Some c -> h_pts h' !! y = Some c) /\
  h_routes h' = h_routes h /\ h_tick h' = h_tick h.
Lemma Ext_refl h : Ext h h.
Proof. done. Qed.
Lemma Ext_trans h1 h2 h3 : Ext h1 h2 -> Ext h2 h3 -> Ext h1 h3.
Proof. intros (A1 & A2 & A3 & A4) (B1 & B2 & B3 & B4). split; [|split; [|split]]; [eauto|eauto|congruence|congruence]. Qed.
Lemma lookup_len {A} (l k : list A) : (forall y c, l !! y = Some c -> k !! y = Some c) -> (length l <= length k)%nat.
Proof.
  intros H. destruct (decide (length l = 0)%nat) as [->|N]; [lia|].
  destruct (lookup_lt_is_Some_2 l (length l - 1)) as [c Hc]; [lia|]. apply H, lookup_lt_Some in Hc. lia.
Qed.
Definition size (h : heap) (x : object) : nat :=
  match x with AtStop _ => length (h_stops h) | AtPlanned _ => length (h_pts h) end.
Lemma Ext_size h h' x : Ext h h' -> (size h x <= size h' x)%nat.
Proof. intros (A1 & A2 & _). destruct x; by apply lookup_len. Qed.
Definition same_kind (x y : object) : Prop :=
  match x, y with AtStop _, AtStop _ | AtPlanned _, AtPlanned _ => True | _, _ => False end.

Section search.
  Context (h0 : heap) (U : list object).
  Definition refs_in (x : object) (P : object -> Prop) : Prop :=
    match x with
    | AtStop s => exists c, h_stops h0 !! s = Some c /\ forall z, z ∈ stop_refs c -> P z
    | AtPlanned p => exists c, h_pts h0 !! p = Some c /\ forall z, z ∈ pt_refs c -> P z
    end.
  Definition closed : Prop := forall x, x ∈ U -> refs_in x (fun z => z ∈ U).

  Record Inv (h : heap) (m : memo) : Prop := {
    iv_stops : forall y c, h_stops h0 !! y = Some c -> h_stops h !! y = Some c;
    iv_pts : forall y c, h_pts h0 !! y = Some c -> h_pts h !! y = Some c;
    iv_in : forall x, met m x -> x ∈ U;
    iv_new : forall x y, memo_get x m = Some y -> (size h0 x <= y < size h x)%nat;
    iv_inj : forall x x' y, same_kind x x' -> memo_get x m = Some y -> memo_get x' m = Some y -> x = x'
  }.
  Definition Done (h : heap) (m : memo) (x : object) : Prop :=
    exists y, memo_get x m = Some y /\
    match x with
    | AtStop s => exists c, h_stops h0 !! s = Some c /\ h_stops h !! y = Some (renamed_stop m c) /\ forall z, z ∈ stop_refs c -> met m z
    | AtPlanned p => exists c, h_pts h0 !! p = Some c /\ h_pts h !! y = Some (renamed_pt m c) /\ forall z, z ∈ pt_refs c -> met m z
    end.
  Lemma Done_later h h' m m' x : Ext h h' -> wider m m' -> Done h m x -> Done h' m' x.
  Proof.
    intros (E1 & E2 & _) Hw (y & Hy & H). exists y. split; [by apply Hw|]. destruct x as [s|p]; destruct H as (c & Hc & Hh & Hr); exists c; (split; [done|]).
    - rewrite (renamed_stop_wider m m') by done. split; [by apply E1|]. intros z Hz. eapply wider_met; eauto.
    - rewrite (renamed_pt_wider m m') by done. split; [by apply E2|]. intros z Hz. eapply wider_met; eauto.
  Qed.

  Fixpoint left_in (l : list object) (m : memo) : nat :=
    match l with [] => 0 | x :: l => (match memo_get x m with None => 1 | Some _ => 0 end + left_in l m)%nat end.
  Lemma left_wider l m m' : wider m m' -> (left_in l m' <= left_in l m)%nat.
  Proof.
    intros Hw. induction l as [|x l IH]; cbn; [done|]. destruct (memo_get x m) as [y|] eqn:E; [rewrite (Hw _ _ E); done|].
    destruct (memo_get x m'); lia.
  Qed.
  Lemma left_new l m x y : memo_get x m = None -> x ∈ l -> (S (left_in l ((x, y) :: m)) <= left_in l m)%nat.
  Proof.
    intros Hn. induction l as [|z l IH]; intros Hx; [by apply elem_of_nil in Hx|]. cbn [left_in].
    pose proof (left_wider l _ _ (wider_cons x y m Hn)) as Hl.
    destruct (decide (z = x)) as [->|N]; [rewrite memo_get_here, Hn; lia|].
    rewrite memo_get_other by done. apply elem_of_cons in Hx as [->|Hx]; [done|]. specialize (IH Hx). destruct (memo_get z m); lia.
  Qed.
  Lemma left_nil : left_in U [] = length U.
  Proof. induction U; cbn; congruence. Qed.
  Lemma left_zero l m x : left_in l m = 0%nat -> x ∈ l -> met m x.
  Proof.
    induction l as [|z l IH]; cbn; intros H Hx; [by apply elem_of_nil in Hx|]. apply elem_of_cons in Hx as [->|Hx].
    - unfold met. destruct (memo_get z m) eqn:E; [eauto|lia].
    - apply IH; [|done]. destruct (memo_get z m); lia.
  Qed.

  Definition Post (h : heap) (m : memo) (l : list object) (m' : memo) (h' : heap) : Prop :=
    Inv h' m' /\ Ext h h' /\ wider m m' /\ (forall z, z ∈ l -> met m' z) /\ (forall z, met m' z -> met m z \/ Done h' m' z).
  Lemma Post_refl h m : Inv h m -> Post h m [] m h.
  Proof. intros I. split; [done|]. split; [done|]. split; [done|]. split; [by intros z Hz%elem_of_nil|by left]. Qed.
  Lemma Post_trans h m x m1 h1 l m2 h2 : Post h m [x] m1 h1 -> Post h1 m1 l m2 h2 -> Post h m (x :: l) m2 h2.
  Proof.
    intros (I1 & E1 & W1 & M1 & D1) (I2 & E2 & W2 & M2 & D2). split; [done|]. split; [by eapply Ext_trans|]. split; [by eapply wider_trans|].
    split.
    - intros z [->|Hz]%elem_of_cons; [|by apply M2]. eapply wider_met; [exact W2|]. apply M1. left.
    - intros z Hz. destruct (D2 z Hz) as [H|H]; [|by right]. destruct (D1 z H) as [H'|H']; [by left|right]. by eapply Done_later.
  Qed.
  Lemma copy_list_runs n : (forall x m h, Inv h m -> x ∈ U -> (left_in U m <= n)%nat -> runs (copy_object n m x) h (Post h m [x])) ->
    forall l m h, Inv h m -> (forall z, z ∈ l -> z ∈ U) -> (left_in U m <= n)%nat -> runs (foldM (copy_object n) m l) h (Post h m l).
  Proof.
    intros IH. induction l as [|x l IHl]; intros m h I Hl Hn; cbn.
    { apply runs_ret. by apply Post_refl. }
    step. eapply runs_mono; [apply IH; [done|apply Hl; left|done]|]. cbn. intros m1 h1 P1.
    pose proof P1 as (I1 & E1 & W1 & _). pose proof (left_wider U _ _ W1).
    eapply runs_mono; [apply IHl; [done|intros z Hz; apply Hl; by right|lia]|]. cbn. intros m2 h2 P2. by eapply Post_trans.
  Qed.

  Lemma Inv_new h h1 m x y : Inv h m -> Ext h h1 -> memo_get x m = None -> x ∈ U -> y = size h x -> size h1 x = S (size h x) ->
    Inv h1 ((x, y) :: m).
  Proof.
    intros I E Hx HU -> Hs. pose proof E as (E1 & E2 & _).
    assert (O : (size h0 x <= size h x)%nat) by (destruct x; cbn; apply lookup_len; apply I).
    split; [intros z c Hz; by apply E1, I|intros z c Hz; by apply E2, I|..].
    - intros z [w Hw]. destruct (decide (z = x)) as [->|N]; [done|]. rewrite memo_get_other in Hw by done. apply (iv_in _ _ I). by exists w.
    - intros z w Hw. destruct (decide (z = x)) as [->|N].
      + rewrite memo_get_here in Hw. injection Hw as <-. lia.
      + rewrite memo_get_other in Hw by done. pose proof (iv_new _ _ I _ _ Hw). pose proof (Ext_size _ _ z E). lia.
    - intros z z' w K Hz Hz'.
      assert (B : forall u, same_kind x u -> u <> x -> memo_get u ((x, size h x) :: m) = Some (size h x) -> False).
      { intros u Ku N Hu. rewrite memo_get_other in Hu by done. pose proof (iv_new _ _ I _ _ Hu) as Hb. destruct x, u; cbn in *; try done; lia. }
      destruct (decide (z = x)) as [->|N], (decide (z' = x)) as [->|N']; [done| | |].
      + rewrite memo_get_here in Hz. injection Hz as <-. by destruct (B z').
      + rewrite memo_get_here in Hz'. injection Hz' as <-. destruct (B z); [|done|done]. destruct z, x; done.
      + rewrite memo_get_other in Hz, Hz' by done. by eapply (iv_inj _ _ I).
  Qed.

  Lemma copy_object_runs (HU : closed) : forall n x m h, Inv h m -> x ∈ U -> (left_in U m <= n)%nat -> runs (copy_object n m x) h (Post h m [x]).
  Proof.
    induction n as [|n IH]; intros x m h I Hx Hn.
    - destruct (left_zero U m x) as [y Hy]; [lia|done|]. cbn. rewrite Hy. apply runs_ret.
      split; [done|]. split; [done|]. split; [done|]. split; [|by left]. intros z ->%elem_of_list_singleton. by exists y.
    - cbn [copy_object]. destruct (memo_get x m) as [y|] eqn:Hm.
      { apply runs_ret. split; [done|]. split; [done|]. split; [done|]. split; [|by left]. intros z ->%elem_of_list_singleton. by exists y. }
      assert (Hl : (left_in U ((x, size h x) :: m) <= n)%nat) by (pose proof (left_new U m x (size h x) Hm Hx); lia).
      destruct x as [s|p]; destruct (HU _ Hx) as (c & Hc & Hrefs).
      + step. eapply runs_stop_get; [by apply (iv_stops _ _ I)|]. step. unfold alloc_stop, runs at 1. cbn [size] in *.
        set (h1 := with_stops _ h). set (y := length (h_stops h)) in *. set (m1 := (AtStop s, y) :: m) in *.
        assert (E1 : Ext h h1) by (split; [intros z d Hz; cbn; by apply lookup_app_l_Some|done]).
        assert (I1 : Inv h1 m1) by (eapply (Inv_new h); [done|done|done|done|done|cbn; rewrite app_length; cbn; lia]).
        step. eapply runs_mono; [apply (copy_list_runs n IH (stop_refs c) m1 h1); [done|done|done]|]. cbn beta.
        intros m2 h2 (I2 & E2 & W2 & M2 & D2). set (h3 := with_stops (alter (fun _ => renamed_stop m2 c) y) h2).
        assert (Hy : memo_get (AtStop s) m2 = Some y) by (apply W2, memo_get_here).
        assert (Lt : (y < length (h_stops h2))%nat) by (apply (iv_new _ _ I2 _ _ Hy)).
        assert (E3 : Ext h h3).
        { split; [|split; [|split]].
          - intros z d Hz. cbn. assert (z < y)%nat by (by eapply lookup_lt_Some). rewrite list_lookup_alter_ne by lia. by apply E2, E1.
          - intros z d Hz. by apply E2, E1.
          - destruct E2 as (_ & _ & E & _). exact E.
          - destruct E2 as (_ & _ & _ & E). exact E. }
        assert (W3 : wider m m2) by (eapply wider_trans; [by apply wider_cons|exact W2]).
        unfold stop_upd, bind, ret, runs. split.
        { split; [intros z d Hz; by apply E3, I|intros z d Hz; by apply E3, I|apply I2| |apply I2].
          intros z w Hw. pose proof (iv_new _ _ I2 _ _ Hw) as Hb. destruct z; cbn in *; [by rewrite alter_length|done]. }
        split; [done|]. split; [done|]. split; [intros z ->%elem_of_list_singleton; by exists y|].
        intros z Hz. destruct (decide (z = AtStop s)) as [->|N].
        { right. exists y. split; [done|]. exists c. split; [done|]. split; [|done]. cbn.
          rewrite list_lookup_alter. destruct (lookup_lt_is_Some_2 _ _ Lt) as [d ->]. done. }
        destruct (D2 z Hz) as [[w Hw]|(w & Hw & D)].
        { left. unfold m1 in Hw. rewrite memo_get_other in Hw by done. by exists w. }
        right. exists w. split; [done|]. destruct z as [s'|p']; [|done]. destruct D as (d & Hd & Hh & Hr). exists d. split; [done|]. split; [|done].
        cbn. rewrite list_lookup_alter_ne; [done|]. intros ->. apply N. by eapply (iv_inj _ _ I2 (AtStop s') (AtStop s)).
      + step. eapply runs_pt_get; [by apply (iv_pts _ _ I)|]. step. unfold alloc_pt, runs at 1. cbn [size] in *.
        set (h1 := with_pts _ h). set (y := length (h_pts h)) in *. set (m1 := (AtPlanned p, y) :: m) in *.
        assert (E1 : Ext h h1) by (split; [done|split; [intros z d Hz; cbn; by apply lookup_app_l_Some|done]]).
        assert (I1 : Inv h1 m1) by (eapply (Inv_new h); [done|done|done|done|done|cbn; rewrite app_length; cbn; lia]).
        step. eapply runs_mono; [apply (copy_list_runs n IH (pt_refs c) m1 h1); [done|done|done]|]. cbn beta.
        intros m2 h2 (I2 & E2 & W2 & M2 & D2). set (h3 := with_pts (alter (fun _ => renamed_pt m2 c) y) h2).
        assert (Hy : memo_get (AtPlanned p) m2 = Some y) by (apply W2, memo_get_here).
        assert (Lt : (y < length (h_pts h2))%nat) by (apply (iv_new _ _ I2 _ _ Hy)).
        assert (E3 : Ext h h3).
        { split; [|split; [|split]].
          - intros z d Hz. by apply E2, E1.
          - intros z d Hz. cbn. assert (z < y)%nat by (by eapply lookup_lt_Some). rewrite list_lookup_alter_ne by lia. by apply E2, E1.
          - destruct E2 as (_ & _ & E & _). exact E.
          - destruct E2 as (_ & _ & _ & E). exact E. }
        assert (W3 : wider m m2) by (eapply wider_trans; [by apply wider_cons|exact W2]).
        unfold pt_upd, bind, ret, runs. split.
        { split; [intros z d Hz; by apply E3, I|intros z d Hz; by apply E3, I|apply I2| |apply I2].
          intros z w Hw. pose proof (iv_new _ _ I2 _ _ Hw) as Hb. destruct z; cbn in *; [done|by rewrite alter_length]. }
        split; [done|]. split; [done|]. split; [intros z ->%elem_of_list_singleton; by exists y|].
        intros z Hz. destruct (decide (z = AtPlanned p)) as [->|N].
        { right. exists y. split; [done|]. exists c. split; [done|]. split; [|done]. cbn.
          rewrite list_lookup_alter. destruct (lookup_lt_is_Some_2 _ _ Lt) as [d ->]. done. }
        destruct (D2 z Hz) as [[w Hw]|(w & Hw & D)].
        { left. unfold m1 in Hw. rewrite memo_get_other in Hw by done. by exists w. }
        right. exists w. split; [done|]. destruct z as [s'|p']; [done|]. destruct D as (d & Hd & Hh & Hr). exists d. split; [done|]. split; [|done].
        cbn. rewrite list_lookup_alter_ne; [done|]. intros ->. apply N. by eapply (iv_inj _ _ I2 (AtPlanned p') (AtPlanned p)).
  Qed.
End search.

Lemma there_refl h : all_there h h.
Proof. done. Qed.
Lemma there_trans h1 h2 h3 : all_there h1 h2 -> all_there h2 h3 -> all_there h1 h3.
Proof. intros (A1 & A2 & A3) (B1 & B2 & B3). split; [|split]; eauto. Qed.
Lemma Ext_there h h' : Ext h h' -> all_there h h'.
Proof. intros (E1 & E2 & E3 & _). split; [done|]. split; [done|]. by rewrite E3. Qed.

Section routes.
  Context {W : World} (h0 : heap) (U : list object) (HU : closed h0 U).
  Definition AllDone (h : heap) (m : memo) : Prop := forall z, met m z -> Done h0 h m z.
  Lemma Done_there h h' m x : all_there h h' -> Done h0 h m x -> Done h0 h' m x.
  Proof.
    intros (E1 & E2 & _) (y & Hy & H). exists y. split; [done|].
    destruct x; destruct H as (c & Hc & Hh & Hr); exists c; (split; [done|]); (split; [|done]); eauto.
  Qed.
  Lemma Inv_there h h' m : all_there h h' -> Inv h0 U h m -> Inv h0 U h' m.
  Proof.
    intros (E1 & E2 & _) I. split; [intros; by apply E1, I|intros; by apply E2, I|apply I| |apply I].
    intros x y Hy. pose proof (iv_new _ _ _ _ I _ _ Hy) as Hb.
    assert (size h x <= size h' x)%nat by (destruct x; cbn; by apply lookup_len). lia.
  Qed.

  Definition copied (m : memo) (ids : list nat) : list nat := map (fun s => image m (AtStop s)) ids.
  Lemma copy_route_runs n r c m h : Inv h0 U h m -> AllDone h m -> h_routes h !! r = Some c ->
    (forall s, s ∈ rt_stops c -> AtStop s ∈ U) -> (left_in U m <= n)%nat ->
    runs (copy_route n m r) h (fun p h' => Inv h0 U h' p.2 /\ AllDone h' p.2 /\ wider m p.2 /\ all_there h h' /\
      p.1 = length (h_routes h) /\ (length (h_routes h) < length (h_routes h'))%nat /\ (forall s, s ∈ rt_stops c -> met p.2 (AtStop s)) /\
      h_routes h' !! p.1 = Some (MkRoute (rt_vehicle c) (copied p.2 (rt_stops c)) None)).
  Proof.
    intros I D Hc Hs Hn. unfold copy_route. step. eapply runs_route_get; [exact Hc|]. step.
    eapply runs_mono; [apply new_route_runs|]. cbn beta. intros r' h1 (-> & _ & E1 & _).
    assert (U1 : all_there h h1).
    { rewrite E1. split; [|split]; cbn; [|done|]; intros z d Hz; by apply lookup_app_l_Some. }
    step. eapply runs_mono; [apply (copy_list_runs h0 U n (copy_object_runs h0 U HU n) (map AtStop (rt_stops c)) m h1)|].
    { by eapply Inv_there. }
    { intros z (s & -> & Hin)%elem_of_list_fmap. by apply Hs. }
    { done. }
    cbn beta. intros m2 h2 (I2 & E2 & W2 & M2 & D2). unfold route_upd, bind, ret, runs. cbn [fst snd].
    set (h3 := with_routes _ h2). pose proof E2 as (E2s & E2p & E2r & _).
    assert (L2 : h_routes h2 = h_routes h ++ [MkRoute (rt_vehicle c) [length (h_stops h); S (length (h_stops h))] None]) by (rewrite E2r, E1; done).
    assert (U3 : all_there h h3).
    { split; [|split]; cbn.
      - intros z d Hz. by apply E2s, U1.
      - intros z d Hz. by apply E2p, U1.
      - intros z d Hz. assert (z < length (h_routes h))%nat by (by eapply lookup_lt_Some). rewrite list_lookup_alter_ne by lia.
        rewrite L2. by apply lookup_app_l_Some. }
    split; [split; [apply I2|apply I2|apply I2|intros x y Hy; exact (iv_new _ _ _ _ I2 _ _ Hy)|apply I2]|]. split.
    { intros z Hz. assert (Dz : Done h0 h2 m2 z).
      { destruct (D2 z Hz) as [H|H]; [|done]. eapply Done_later; [exact E2|exact W2|]. eapply Done_there; [exact U1|]. by apply D. }
      exact Dz. }
    split; [done|]. split; [done|]. split; [done|]. split; [cbn; rewrite alter_length, L2, app_length; cbn; lia|].
    split; [intros s Hin; apply M2; by apply elem_of_list_fmap_1|]. cbn. rewrite list_lookup_alter, L2, lookup_app_r, Nat.sub_diag by lia. done.
  Qed.

  Lemma copy_all_runs n rs : forall m h, Inv h0 U h m -> AllDone h m ->
    (forall r c, h_routes h0 !! r = Some c -> h_routes h !! r = Some c) ->
    (forall r, r ∈ rs -> exists c, h_routes h0 !! r = Some c /\ forall s, s ∈ rt_stops c -> AtStop s ∈ U) -> (left_in U m <= n)%nat ->
    runs (copy_all n m rs) h (fun rs' h' => exists m', Inv h0 U h' m' /\ AllDone h' m' /\ wider m m' /\ all_there h h' /\ NoDup rs' /\
      (forall r', r' ∈ rs' -> (length (h_routes h) <= r')%nat) /\
      Forall2 (fun r r' => exists c, h_routes h0 !! r = Some c /\ (forall s, s ∈ rt_stops c -> met m' (AtStop s)) /\
        h_routes h' !! r' = Some (MkRoute (rt_vehicle c) (copied m' (rt_stops c)) None)) rs rs').
  Proof.
    induction rs as [|r rs IH]; intros m h I D HR Hr Hn; cbn [copy_all].
    { apply runs_ret. exists m. split; [done|]. split; [done|]. split; [by intros ? ?|]. split; [done|]. split; [constructor|]. split; [by intros r' ?%elem_of_nil|constructor]. }
    destruct (Hr r) as (c & Hc & Hs); [left|]. step. eapply runs_mono; [apply (copy_route_runs n r c); [done|done|by apply HR|done|done]|]. cbn beta.
    intros [r' m1] h1. cbn [fst snd]. intros (I1 & D1 & W1 & U1 & -> & Lt & M1 & C1). pose proof (left_wider U _ _ W1).
    step. eapply runs_mono; [apply (IH m1 h1); [done|done|intros q d Hd; by apply U1, HR|intros q Hq; apply Hr; by right|lia]|].
    cbn beta. intros rs' h2 (m2 & I2 & D2 & W2 & U2 & N2 & G2 & F2). apply runs_ret. exists m2.
    split; [done|]. split; [done|]. split; [by eapply wider_trans|]. split; [by eapply there_trans|].
    split; [constructor; [|done]; intros Hin; specialize (G2 _ Hin); lia|].
    split; [intros r' [->|Hin]%elem_of_cons; [done|]; specialize (G2 _ Hin); lia|]. constructor.
    - exists c. split; [done|]. split; [intros s Hin; eapply wider_met; [exact W2|by apply M1]|].
      assert (E : copied m2 (rt_stops c) = copied m1 (rt_stops c)) by (apply map_ext_in; intros s Hin%elem_of_list_In; apply image_wider; [done|by apply M1]).
      rewrite E. by apply U2.
    - done.
  Qed.

  (** ** The copies are routes *)
  Context (h : heap) (m : memo) (I : Inv h0 U h m) (D : AllDone h m).
  Lemma done_stop s c : met m (AtStop s) -> h_stops h0 !! s = Some c ->
    h_stops h !! image m (AtStop s) = Some (renamed_stop m c) /\ forall z, z ∈ stop_refs c -> met m z.
  Proof.
    intros M Hc. destruct (D _ M) as (y & Hy & c' & Hc' & H). rewrite Hc in Hc'. injection Hc' as <-. by rewrite (image_get _ _ _ Hy).
  Qed.
  Lemma done_pt p c : met m (AtPlanned p) -> h_pts h0 !! p = Some c ->
    h_pts h !! image m (AtPlanned p) = Some (renamed_pt m c) /\ forall z, z ∈ pt_refs c -> met m z.
  Proof.
    intros M Hc. destruct (D _ M) as (y & Hy & c' & Hc' & H). rewrite Hc in Hc'. injection Hc' as <-. by rewrite (image_get _ _ _ Hy).
  Qed.
  Lemma refs_listed c p : p ∈ st_pickups c ++ st_deliveries c -> AtPlanned p ∈ stop_refs c.
  Proof. intros Hp. unfold stop_refs. rewrite app_assoc, <- map_app. apply elem_of_app. left. by apply elem_of_list_fmap_1. Qed.
  Lemma copied_known c : known h0 c -> (forall z, z ∈ stop_refs c -> met m z) -> known h (renamed_stop m c) /\ abs h (renamed_stop m c) = abs h0 c.
  Proof.
    intros K R. assert (T : forall p, p ∈ st_pickups c ++ st_deliveries c -> exists pc, h_pts h0 !! p = Some pc /\ h_pts h !! image m (AtPlanned p) = Some (renamed_pt m pc)).
    { intros p Hp. destruct (K p Hp) as [pc Hpc]. exists pc. split; [done|]. apply done_pt; [|done]. by apply R, refs_listed. }
    split.
    - intros q Hq. cbn [renamed_stop st_pickups st_deliveries] in Hq. rewrite <- map_app in Hq. apply elem_of_list_fmap in Hq as (p & -> & Hp).
      destruct (T p Hp) as (pc & _ & ->). done.
    - unfold abs. cbn. rewrite !map_map. f_equal; apply map_ext_in; intros p Hp%elem_of_list_In;
        (destruct (T p) as (pc & E1 & E2); [apply elem_of_app; auto|]); unfold trip_of; by rewrite E1, E2.
  Qed.
  Lemma copied_path v ids A : Path h0 v ids A -> (forall s, s ∈ ids -> met m (AtStop s)) -> Path h v (copied m ids) A.
  Proof.
    induction 1 as [|s c ids A Hs Hv Hp Hk Hc HP IH]; intros M; [constructor|].
    destruct (done_stop s c) as [Hd Hr]; [apply M; left|done|]. destruct (copied_known c Hk Hr) as [Hk' Ha]. rewrite <- Ha. cbn [copied map].
    apply Path_cons; [done|done| |done| |].
    - cbn. rewrite Hp. by destruct ids.
    - rewrite Ha. exact Hc.
    - apply IH. intros q Hq. apply M. by right.
  Qed.
  Lemma copied_links v ids : Links h0 v ids -> (forall s, s ∈ ids -> is_Some (h_stops h0 !! s)) -> (forall s, s ∈ ids -> met m (AtStop s)) ->
    Links h v (copied m ids).
  Proof.
    intros HL Ha M s' c' Hs' Hc'. apply elem_of_list_fmap in Hs' as (s & -> & Hs). destruct (Ha s Hs) as [c Hc].
    destruct (done_stop s c) as [Hd Hr]; [by apply M|done|]. rewrite Hd in Hc'. injection Hc' as <-. destruct (HL s c Hs Hc) as [H1 H2]. cbn [renamed_stop st_pickups st_deliveries].
    assert (In2 : forall a b, [a; b] `sublist_of` ids -> a ∈ ids /\ b ∈ ids).
    { intros a b Hsub. split; (eapply elem_of_submseteq; [|by apply sublist_submseteq]); set_solver. }
    split.
    - intros q Hq. apply elem_of_list_fmap in Hq as (p & -> & Hp). destruct (H1 p Hp) as (d & dc & pc & Hsub & Hdc & Hdel & Hpc & Hv & Hpk & Hdl).
      destruct (In2 _ _ Hsub) as [_ Hd2]. destruct (done_stop d dc (M d Hd2) Hdc) as [Hdd _].
      destruct (done_pt p pc) as [Hpp _]; [apply Hr, refs_listed, elem_of_app; by left|done|].
      exists (image m (AtStop d)), (renamed_stop m dc), (renamed_pt m pc). cbn. rewrite Hpk, Hdl.
      split; [exact (map_sublist (fun s => image m (AtStop s)) _ _ Hsub)|]. split; [done|]. split; [by apply (elem_of_list_fmap_1 (fun p => image m (AtPlanned p)))|]. done.
    - intros q Hq. apply elem_of_list_fmap in Hq as (p & -> & Hp). destruct (H2 p Hp) as (d & dc & pc & Hsub & Hdc & Hdel & Hpc & Hv & Hpk & Hdl).
      destruct (In2 _ _ Hsub) as [Hd2 _]. destruct (done_stop d dc (M d Hd2) Hdc) as [Hdd _].
      destruct (done_pt p pc) as [Hpp _]; [apply Hr, refs_listed, elem_of_app; by right|done|].
      exists (image m (AtStop d)), (renamed_stop m dc), (renamed_pt m pc). cbn. rewrite Hpk, Hdl.
      split; [exact (map_sublist (fun s => image m (AtStop s)) _ _ Hsub)|]. split; [done|]. split; [by apply (elem_of_list_fmap_1 (fun p => image m (AtPlanned p)))|]. done.
  Qed.
  Lemma copied_route r v ids L r' : RouteW h0 r v ids L -> (forall s, s ∈ ids -> met m (AtStop s)) ->
    h_routes h !! r' = Some (MkRoute v (copied m ids) None) -> RouteW h r' v (copied m ids) L.
  Proof.
    intros R M Hr'. split.
    - by eexists.
    - unfold copied. rewrite <- fmap_reverse. apply copied_path; [apply R|]. intros s Hs. apply M. by apply elem_of_reverse.
    - apply R.
    - apply copied_links; [apply R| |done]. intros s Hs. by eapply RouteW_ids_alloc.
  Qed.
  Lemma copied_own r r' c : h_routes h0 !! r = Some c -> (forall s, s ∈ rt_stops c -> met m (AtStop s)) ->
    h_routes h !! r' = Some (MkRoute (rt_vehicle c) (copied m (rt_stops c)) None) -> (length (h_routes h0) <= r')%nat -> own_copy h0 h r r'.
  Proof.
    intros Hc M Hr' Hl. split; [by apply lookup_ge_None|]. split; [intros c' Hc'; rewrite Hr' in Hc'; by injection Hc' as <-|].
    intros v ids xs R. apply well_formed_RouteW in R. destruct (rw_cell _ _ _ _ _ R) as (c' & Hc' & Ev & Ei).
    rewrite Hc in Hc'. injection Hc' as <-. rewrite Ev, Ei in *. exists (copied m ids).
    split; [apply well_formed_RouteW; by eapply copied_route|].
    assert (New : forall x, met m x -> (size h0 x <= image m x)%nat).
    { intros x [y Hy]. rewrite (image_get _ _ _ Hy). apply (iv_new _ _ _ _ I _ _ Hy). }
    split; [|split].
    - apply Forall2_same_length_lookup_2; [unfold copied; by rewrite map_length|]. intros i s s' Hs Hs'. unfold copied in Hs'. rewrite list_lookup_fmap, Hs in Hs'. injection Hs' as <-.
      apply elem_of_list_lookup_2 in Hs. destruct (RouteW_ids_alloc _ _ _ _ _ s R Hs) as [cs Hcs]. destruct (done_stop s cs (M s Hs) Hcs) as [Hd Hr].
      exists cs, (renamed_stop m cs). do 7 (split; [done|]). apply Forall2_same_length_lookup_2; [cbn; by rewrite map_length|].
      intros k p p' Hp Hp'. cbn [renamed_stop st_pickups] in Hp'. rewrite list_lookup_fmap, Hp in Hp'. injection Hp' as <-. apply elem_of_list_lookup_2 in Hp.
      destruct (rw_links _ _ _ _ _ R s cs Hs Hcs) as [HL _]. destruct (HL p Hp) as (_ & _ & pc & _ & _ & _ & Hpc & _).
      destruct (done_pt p pc) as [Hpp _]; [apply Hr, refs_listed, elem_of_app; by left|done|]. exists pc, (renamed_pt m pc). done.
    - intros s' Hs'. apply elem_of_list_fmap in Hs' as (s & -> & Hs). apply lookup_ge_None. apply (New (AtStop s)). by apply M.
    - intros s' c' p Hs' Hc' Hp. apply elem_of_list_fmap in Hs' as (s & -> & Hs). destruct (RouteW_ids_alloc _ _ _ _ _ s R Hs) as [cs Hcs].
      destruct (done_stop s cs (M s Hs) Hcs) as [Hd Hr]. rewrite Hd in Hc'. injection Hc' as <-. cbn [renamed_stop st_pickups st_deliveries] in Hp.
      rewrite <- map_app in Hp. apply elem_of_list_fmap in Hp as (q & -> & Hq). apply lookup_ge_None. apply (New (AtPlanned q)). by apply Hr, refs_listed.
  Qed.
End routes.

(** ** The objects of routes *)
Section universe.
  Context {W : World}.
  Definition route_objects (h : heap) (ids : list nat) : list object := map AtStop ids ++ map AtPlanned (pts_of h ids).
  Lemma route_objects_length h r v ids L : RouteW h r v ids L -> length (route_objects h ids) = (length ids + length (boards L))%nat.
  Proof. intros R. unfold route_objects. rewrite app_length, !map_length. f_equal. by rewrite <- (trips_pts_of _ _ _ _ _ R), map_length. Qed.
  Lemma Path_previous h v ids A s c : Path h v ids A -> s ∈ ids -> h_stops h !! s = Some c -> forall q, st_previous c = Some q -> q ∈ ids.
  Proof.
    induction 1 as [|s0 c0 ids A Hs0 Hv Hp Hk Hc HP IH]; intros Hs Hcs q Hq; [by apply elem_of_nil in Hs|].
    apply elem_of_cons in Hs as [->|Hs]; [|right; by apply IH]. rewrite Hs0 in Hcs. injection Hcs as <-. rewrite Hp in Hq.
    destruct ids; [done|]. injection Hq as <-. right. left.
  Qed.
  Lemma route_closed h r v ids L x : RouteW h r v ids L -> x ∈ route_objects h ids -> refs_in h x (fun z => z ∈ route_objects h ids).
  Proof.
    intros R Hx. unfold route_objects in Hx. apply elem_of_app in Hx as [(s & -> & Hs)%elem_of_list_fmap|(p & -> & Hp)%elem_of_list_fmap].
    - destruct (RouteW_ids_alloc _ _ _ _ _ s R Hs) as [c Hc]. exists c. split; [done|]. intros z Hz. unfold stop_refs in Hz.
      rewrite app_assoc, <- map_app in Hz. apply elem_of_app in Hz as [(p & -> & Hp)%elem_of_list_fmap|Hz].
      + apply elem_of_app. right. apply elem_of_list_fmap_1, elem_of_pts_of.
        destruct (rw_links _ _ _ _ _ R s c Hs Hc) as [_ H2]. apply elem_of_app in Hp as [Hp|Hp]; [by exists s, c|].
        destruct (H2 p Hp) as (q & qc & pc & Hsub & Hq & Hpq & _). exists q, qc. split; [|done].
        eapply elem_of_submseteq; [|by apply sublist_submseteq]. left.
      + destruct (st_previous c) as [q|] eqn:Eq; [|by apply elem_of_nil in Hz]. apply elem_of_list_singleton in Hz as ->.
        apply elem_of_app. left. apply elem_of_list_fmap_1. apply elem_of_reverse. eapply Path_previous; [apply R|by apply elem_of_reverse|exact Hc|done].
    - destruct (pts_of_known _ _ _ _ _ _ R Hp) as (s & c & d & dc & pc & Hs & _ & _ & Hsub & _ & _ & Hpt & _ & P1 & P2).
      assert (Hd : d ∈ ids) by (eapply elem_of_submseteq; [|by apply sublist_submseteq]; set_solver).
      exists pc. split; [done|]. intros z Hz. unfold pt_refs in Hz. rewrite P1, P2 in Hz. apply elem_of_app. left.
      apply elem_of_app in Hz as [->%elem_of_list_singleton| ->%elem_of_list_singleton]; by apply elem_of_list_fmap_1.
  Qed.
  Lemma refs_in_mono h x (P Q : object -> Prop) : (forall z, P z -> Q z) -> refs_in h x P -> refs_in h x Q.
  Proof. intros H. destruct x; intros (c & Hc & Hz); exists c; eauto. Qed.
  Lemma objects_closed h rs k : objects_of h rs k -> exists U, closed h U /\ length U = k /\
    forall r, r ∈ rs -> exists c, h_routes h !! r = Some c /\ forall s, s ∈ rt_stops c -> AtStop s ∈ U.
  Proof.
    induction 1 as [|r v ids xs rs k R H (U & C & L & HU)].
    - exists []. split; [by intros x ?%elem_of_nil|]. split; [done|by intros r ?%elem_of_nil].
    - apply well_formed_RouteW in R. exists (route_objects h ids ++ U). split; [|split].
      + intros x [Hx|Hx]%elem_of_app.
        * eapply refs_in_mono; [|by eapply route_closed]. cbn. intros z Hz. apply elem_of_app. by left.
        * eapply refs_in_mono; [|by apply C]. cbn. intros z Hz. apply elem_of_app. by right.
      + rewrite app_length, (route_objects_length _ _ _ _ _ R), L. lia.
      + intros q [->|Hq]%elem_of_cons.
        * destruct (rw_cell _ _ _ _ _ R) as (c & Hc & _ & Ei). exists c. split; [done|]. rewrite Ei. intros s Hs.
          apply elem_of_app. left. apply elem_of_app. left. by apply elem_of_list_fmap_1.
        * destruct (HU q Hq) as (c & Hc & Hs). exists c. split; [done|]. intros s Hin. apply elem_of_app. right. by apply Hs.
  Qed.
End universe.
