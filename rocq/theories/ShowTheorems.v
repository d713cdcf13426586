(** Printing (C89). *)
From Verif Require Import SpecShow NameTheorems FeasibleProofs TimeTheorems ValueTheorems Values Reads Checker Witness Choices.

Lemma same_objects_refl h : same_objects h h.
Proof. done. Qed.
Lemma same_objects_trans h1 h2 h3 : same_objects h1 h2 -> same_objects h2 h3 -> same_objects h1 h3.
Proof. intros (A1 & A2 & A3) (B1 & B2 & B3). split; [|split]; congruence. Qed.

Section quietly.
  Context {W : World}.
  Definition mute {A} (m : M A) : Prop := forall h, same_objects h (snd (m h)) /\ cannot_fail (fst (m h)).
  Lemma mute_ret {A} (a : A) : mute (ret a).
  Proof. by intros h. Qed.
  Lemma mute_bind {A B} (m : M A) (k : A -> M B) : mute m -> (forall a, mute (k a)) -> mute (bind m k).
  Proof.
    intros Hm Hk h. unfold bind. specialize (Hm h). destruct (m h) as [[a|e] h1]; cbn in *; [|done].
    destruct (Hk a h1) as [S C]. split; [|done]. eapply same_objects_trans; [apply Hm|exact S].
  Qed.
  Lemma mute_stop_get s : mute (stop_get s).
  Proof. intros h. unfold stop_get. by destruct (h_stops h !! s). Qed.
  Lemma mute_pt_get s : mute (pt_get s).
  Proof. intros h. unfold pt_get. by destruct (h_pts h !! s). Qed.
  Lemma mute_route_get s : mute (route_get s).
  Proof. intros h. unfold route_get. by destruct (h_routes h !! s). Qed.
  Lemma mute_set_order l : mute (set_order l).
  Proof. by intros h. Qed.
  Lemma mute_mapM {A B} (g : A -> M B) l : (forall x, mute (g x)) -> mute (mapM g l).
  Proof.
    intros H. induction l; cbn; [apply mute_ret|]. apply mute_bind; [done|]. intros. apply mute_bind; [done|]. intros. apply mute_ret.
  Qed.
  Lemma mute_trips_of l : mute (trips_of l).
  Proof. unfold trips_of. apply mute_mapM. intros p. apply mute_bind; [apply mute_pt_get|]. intros. apply mute_ret. Qed.
  Lemma mute_stop_identifier s : mute (stop_identifier s).
  Proof.
    unfold stop_identifier. repeat first [apply mute_stop_get|apply mute_set_order|apply mute_trips_of|apply mute_ret|apply mute_bind; [|intros]].
  Qed.
  Lemma mute_route_stops r : mute (route_stops r).
  Proof. unfold route_stops. apply mute_bind; [apply mute_route_get|]. intros. apply mute_ret. Qed.
  Lemma mute_route_identifier r : mute (route_identifier r).
  Proof.
    unfold route_identifier. apply mute_bind; [apply mute_route_stops|]. intros. apply mute_bind; [|intros; apply mute_ret].
    apply mute_mapM, mute_stop_identifier.
  Qed.
  Lemma mute_route_iter r : mute (route_iter r).
  Proof.
    unfold route_iter, vehicle_identifier. apply mute_bind; [apply mute_bind; [apply mute_route_get|intros; apply mute_ret]|]. intros.
    apply mute_bind; [apply mute_route_stops|]. intros. apply mute_bind; [|intros; apply mute_ret]. apply mute_mapM, mute_stop_identifier.
  Qed.
  Lemma mute_fleet_iter l : mute (fleet_iter l).
  Proof. by intros h. Qed.
  Lemma mute_job_iter l : mute (job_iter l).
  Proof. by intros h. Qed.
  Lemma mute_text f x : not_planned x -> mute (text f x).
  Proof.
    destruct x; cbn [text]; intros H; try destruct H; unfold result_text, planning_text, route_text, stop_text;
      repeat first [apply mute_fleet_iter|apply mute_job_iter|apply mute_stop_get|apply mute_set_order|apply mute_stop_identifier
        |apply mute_route_iter|apply mute_mapM; intros; apply mute_route_identifier|apply mute_ret|apply mute_bind; [|intros]].
  Qed.

  Lemma same_objects_quiet h h' : same_objects h h' -> quiet h h'.
  Proof. destruct h, h'. intros (E1 & E2 & E3). cbn in *. subst. split; [apply (soft_tick (MkHeap _ _ _ _))|done]. Qed.

  (** ** On routes, there is nothing missing *)
  Lemma stop_text_runs f h r v ids L s : RouteW h r v ids L -> s ∈ ids -> runs (stop_text f s) h (fun _ h' => quiet h h').
  Proof.
    intros R [i Hi]%elem_of_list_lookup. destruct (RouteW_lookup _ _ _ _ _ _ _ R Hi) as (c & x & Hc & Hx & _).
    unfold stop_text. step. eapply runs_stop_get; [exact Hc|]. step. eapply runs_mono; [by eapply named_runs|].
    intros name h' [Q _]. by apply runs_ret.
  Qed.
  Lemma route_text_runs f h r v ids L : RouteW h r v ids L -> runs (route_text f r) h (fun _ h' => quiet h h').
  Proof.
    intros R. unfold route_text, route_iter, vehicle_identifier. destruct (rw_cell _ _ _ _ _ R) as (c & Hc & _).
    step. step. step. eapply runs_route_get; [exact Hc|]. apply runs_ret. step. eapply runs_route_stops; [exact R|].
    step. eapply runs_mono; [eapply all_named_runs; [exact R|apply quiet_refl]|]. cbn. intros names h1 [Q _].
    apply runs_ret. by apply runs_ret.
  Qed.
  Lemma planning_text_runs f h pl : well_planned h pl -> runs (planning_text f pl) h (fun _ h' => quiet h h').
  Proof.
    intros H. unfold planning_text. step. apply runs_set_order. intros l Hl. set (h0 := MkHeap _ _ _ _).
    assert (Q0 : quiet h h0) by (split; [apply soft_tick|done]). step.
    eapply runs_mono; [apply (runs_mapM _ (fun h' => quiet h h') (fun _ _ => True)); [exact Q0|]|].
    - intros r h1 Hr Q1. rewrite Hl in Hr. destruct (H r Hr) as (v & ids & xs & R). apply well_formed_RouteW in R.
      eapply runs_mono; [eapply route_identifier_runs, RouteW_quiet; [exact Q1|exact R]|]. cbn. intros n h2 [Q2 _]. split; [by eapply quiet_trans|done].
    - cbn. intros names h1 [Q1 _]. by apply runs_ret.
  Qed.
  Lemma text_runs f h x : made_of_routes h x -> runs (text f x) h (fun _ h' => quiet h h').
  Proof.
    destruct x as [fleet job pl|pl|r|s|p|l]; cbn [text made_of_routes]; intros H.
    - unfold result_text, fleet_iter, job_iter. step. step. apply runs_set_order. intros vs _. apply runs_ret. step. step. apply runs_set_order.
      intros ts _. apply runs_ret. apply runs_ret. apply same_objects_quiet. done.
    - by apply planning_text_runs.
    - destruct H as (v & ids & xs & R). apply well_formed_RouteW in R. by eapply route_text_runs.
    - destruct H as (r & v & ids & xs & R & Hs). apply well_formed_RouteW in R. by eapply stop_text_runs.
    - done.
    - apply runs_ret, quiet_refl.
  Qed.

  (** ** Planned trips *)
  Lemma planned_text_runs f h r v ids L p : sane -> RouteW h r v ids L -> p ∈ pts_of h ids ->
    runs (planned_text f p) h (fun _ h' => soft h h' /\ h_routes h' = h_routes h /\
      (FlagsOK v ids L h -> FlagsOK v ids L h')).
  Proof.
    intros [SD SC] R Hp. destruct (pts_of_Ride _ _ _ _ _ _ R Hp) as (t & i & j & s & d & Rd & _).
    pose proof Hp as Hk. apply (pts_of_known _ _ _ _ _ _ R) in Hk as (s' & c & d' & dc & pc & Hs & Hc & Hpc & _ & Hd & _ & Hpt & _ & P1 & P2).
    pose proof Rd as (pc' & Hpt' & _ & _ & P1' & P2' & Hi & Hj & _). rewrite Hpt in Hpt'. injection Hpt' as <-.
    rewrite P1 in P1'. injection P1' as ->. rewrite P2 in P2'. injection P2' as ->.
    destruct (pt_is_feasible_runs h r v ids L p t i j s d SD SC R Rd ltac:(by exists c)) as (x & y & Ti & Tj & _ & _ & _ & _ & G).
    apply runs_eq in G as (b & h1 & E & S1 & F1 & _).
    assert (Er : h_routes h1 = h_routes h).
    { pose proof (sp_pt_feasible (fun _ => True) (fun _ => True) p h ltac:(done)) as (_ & _ & _ & O). by rewrite E in O. }
    unfold planned_text. step. eapply runs_pt_get; [exact Hpt|]. rewrite P1, P2.
    eapply runs_seq with (P := fun b' h' => b' = b /\ h' = h1); [unfold runs; by rewrite E|]. intros ? ? [-> ->].
    assert (R1 : RouteW h1 r v ids L) by (by eapply RouteW_soft).
    assert (T : forall h2 q, q ∈ ids -> same_objects h1 h2 -> runs (stop_text f q) h2 (fun _ h3 => same_objects h1 h3)).
    { intros h2 q Hq Q2. pose proof (stop_text_runs f h2 r v ids L q ltac:(by eapply RouteW_quiet; [by apply same_objects_quiet|]) Hq) as G.
      apply runs_eq in G as (n & h3 & E3 & _). unfold runs. rewrite E3.
      pose proof (mute_text f (AStop q) I h2) as [M _]. cbn [text] in M. rewrite E3 in M. by eapply same_objects_trans. }
    step. eapply runs_mono; [apply T; [by eapply elem_of_list_lookup_2|apply same_objects_refl]|]. cbn. intros n1 h2 Q2.
    step. eapply runs_mono; [apply T; [by eapply elem_of_list_lookup_2|exact Q2]|]. cbn. intros n2 h3 Q3.
    apply runs_ret. split; [eapply soft_trans; [exact S1|apply same_objects_quiet, Q3]|]. split; [destruct Q3 as (_ & _ & E3); congruence|].
    intros F. eapply FlagsOK_quiet; [by apply same_objects_quiet|]. by apply F1.
  Qed.
End quietly.

(** C89, nothing changes *)
Lemma c89_quiet `{W : World} : forall f x h, not_planned x ->
  same_objects h (snd (text f x h)) /\ cannot_fail (fst (text f x h)).
Proof. intros f x h H. by apply mute_text. Qed.

Lemma c89_inputs `{W : World} : forall f fleet job h,
  (exists s h', fleet_text f fleet h = (Ok s, h') /\ same_objects h h') /\
  (exists s h', job_text f job h = (Ok s, h') /\ same_objects h h').
Proof. intros f fleet job h. split; (eexists _, _; split; [reflexivity|done]). Qed.

Lemma c89_gives `{W : World} : forall f x h, made_of_routes h x -> exists s h', text f x h = (Ok s, h') /\ same_objects h h'.
Proof.
  intros f x h H. pose proof (text_runs f h x H) as G. apply runs_eq in G as (s & h' & E & _). exists s, h'. split; [done|].
  pose proof (c89_quiet f x h) as M. rewrite E in M. apply M. by destruct x.
Qed.

Lemma c89_value `{W : World} : forall f o x h z h1, not_planned x ->
  value_of_optimizable o x h = (Ok z, h1) -> cannot_fail (fst (optimization_function f o x h)) /\
  same_objects h1 (snd (optimization_function f o x h)) /\
  (forall z', fst (optimization_function f o x h) = Ok z' -> z' = z).
Proof.
  intros f o x h z h1 N E. unfold optimization_function, bind. rewrite E. destruct (c89_quiet f x h1 N) as [S C].
  destruct (text f x h1) as [[s|e] h2]; cbn in *; (split; [done|split; [done|congruence]]).
Qed.

Lemma c89_error `{W : World} : forall f o x h e h1,
  value_of_optimizable o x h = (Raise e, h1) -> optimization_function f o x h = (Raise e, h1).
Proof. intros f o x h e h1 E. unfold optimization_function, bind. by rewrite E. Qed.

Lemma c89_total `{W : World} : forall f o pl h, well_planned h pl ->
  exists x h', optimization_function f o (APlanning pl) h = (Ok x, h') /\ total_worth o h pl x /\ only_memoised h h'.
Proof.
  intros f o pl h H. destruct (well_planned_worth o h pl H) as [x Hx].
  pose proof (planning_value_gives o h pl x Hx) as G. apply gives_eq in G as (h1 & E1 & Q1).
  assert (H1 : well_planned h1 pl).
  { intros r Hr. destruct (H r Hr) as (v & ids & xs & R). exists v, ids, xs. apply well_formed_RouteW. apply well_formed_RouteW in R. by eapply RouteW_quiet. }
  pose proof (planning_text_runs f h1 pl H1) as G. apply runs_eq in G as (s & h2 & E2 & Q2).
  exists x, h2. split; [|split; [done|apply quiet_memoised; by eapply quiet_trans]].
  unfold optimization_function, bind. cbn [value_of_optimizable text]. by rewrite E1, E2.
Qed.

(** C89, planned trips *)
Lemma c89_unplaced `{W : World} : forall f v t h p h1, new_planned_trip v t None None h = (Ok p, h1) ->
  text f (APlanned p) h1 = (Raise AttributeError, h1).
Proof.
  intros f v t h p h1 E. unfold new_planned_trip, alloc_pt, bind, ret in E. injection E as <- <-.
  cbn [text]. unfold planned_text, pt_is_feasible, pt_get, bind.
  assert (E : forall (l : list ptrip) x, (l ++ [x]) !! length l = Some x) by (intros; by apply list_lookup_middle).
  cbn. rewrite !E. cbn. rewrite !E. reflexivity.
Qed.

Lemma c89_planned_partial `{W : World} : forall f h r v ids xs s c p, sane ->
  well_formed h r v ids xs -> unasked h r ids -> s ∈ ids -> h_stops h !! s = Some c -> p ∈ st_pickups c ->
  exists w h1 b h2, text f (APlanned p) h = (Ok w, h1) /\ routes_kept h h1 /\
    route_feasible r h1 = (Ok b, h2) /\ (b = true <-> admissible v xs).
Proof.
  intros f h r v ids xs s c p Sn R U Hs Hc Hp. apply well_formed_RouteW in R.
  pose proof (unasked_Flags _ _ _ _ _ R U) as [F Fr].
  assert (Hin : p ∈ pts_of h ids) by (apply elem_of_pts_of; by exists s, c).
  pose proof (planned_text_runs f h r v ids xs p Sn R Hin) as G. apply runs_eq in G as (w & h1 & E1 & S1 & Er & F1).
  assert (R1 : RouteW h1 r v ids xs) by (by eapply RouteW_soft). assert (Hne : ids <> []) by (intros ->; by apply elem_of_nil in Hs).
  destruct Sn as [SD SC]. pose proof (route_feasible_runs h1 r v ids xs SD SC R1 Hne) as G.
  apply runs_eq in G as (b & h2 & E2 & _ & G & _). destruct (G (F1 F)) as [_ Hb]; [intros c' Hc'; rewrite Er in Hc'; by apply Fr|].
  exists w, h1, b, h2. split; [done|]. split; [by apply soft_kept|]. split; [done|].
  rewrite Hb. apply route_okb_admissible. intros ->. pose proof (RouteW_length _ _ _ _ _ R). by destruct ids.
Qed.

Lemma c89_refuted : exists (W : World) h r v ids xs p s c q z, sane /\ well_formed h r v ids xs /\ unasked h r ids /\
  s ∈ ids /\ h_stops h !! s = Some c /\ p ∈ st_pickups c /\ q ∈ ids /\
  fst ((set_starting_time q z ;;; route_flush r ;;; route_feasible r) h) = Ok false /\
  forall f, fst ((text f (APlanned p) ;;; set_starting_time q z ;;; route_flush r ;;; route_feasible r) h) = Ok true.
Proof.
  exists town, unread_town, 3%nat, 0%nat, unread_stops, busy_visits, 3%nat, 14%nat, (default (MkStop 0 [] [] [] None None None None None None) (h_stops unread_town !! 14%nat)), 13%nat, 50000.
  split; [apply town_sane|]. split; [apply well_formedb_sound; vm_compute; reflexivity|]. split; [apply unaskedb_sound; vm_compute; reflexivity|].
  split; [apply elem_of_list_lookup_2 with 2%nat; reflexivity|]. split; [reflexivity|]. split; [left|].
  split; [apply elem_of_list_lookup_2 with 1%nat; reflexivity|]. split; [vm_compute; reflexivity|]. intros f. vm_compute. reflexivity.
Qed.
