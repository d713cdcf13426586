(** Proofs about storers (C40, C41, C42). *)
From Verif Require Import Storers SpecStore Values Reads TimeTheorems ValueTheorems WitnessStore.

(** ** Strings *)
Lemma ltb_asym x y : String.ltb x y = true -> String.ltb y x = false.
Proof. unfold String.ltb. rewrite (String.compare_antisym y x). by destruct (String.compare x y). Qed.
Lemma ascii_compare_N a b : Ascii.compare a b = (N_of_ascii a ?= N_of_ascii b)%N.
Proof. done. Qed.
Lemma string_le_trans x : forall y z, String.compare y x <> Lt -> String.compare z y <> Lt -> String.compare z x <> Lt.
Proof.
  induction x as [|a x IH]; intros [|b y] [|c z]; cbn; try done.
  rewrite !ascii_compare_N.
  destruct (N.compare_spec (N_of_ascii b) (N_of_ascii a)) as [E1|E1|E1]; try done;
  destruct (N.compare_spec (N_of_ascii c) (N_of_ascii b)) as [E2|E2|E2]; try done;
  destruct (N.compare_spec (N_of_ascii c) (N_of_ascii a)) as [E3|E3|E3]; try done; try lia.
  apply IH.
Qed.
Lemma ltb_nlt x y : String.ltb x y = false <-> String.compare x y <> Lt.
Proof. unfold String.ltb. by destruct (String.compare x y). Qed.
Lemma ltb_trans x y z : String.ltb y x = false -> String.ltb z y = false -> String.ltb z x = false.
Proof. rewrite !ltb_nlt. apply string_le_trans. Qed.

Lemma sort_strings_perm l : sort_strings l ≡ₚ l.
Proof.
  unfold sort_strings. change (map snd) with (fmap (M := list) (@snd string string)). rewrite sort_keyed_perm.
  rewrite <- list_fmap_compose. unfold compose. cbn. by rewrite list_fmap_id.
Qed.
Lemma sort_strings_sorted l : StronglySorted (fun a b => String.compare b a <> Lt) (sort_strings l).
Proof.
  unfold sort_strings.
  pose proof (sort_keyed_sorted String.ltb ltb_trans ltb_asym false (map (fun s => (s, s)) l)) as H.
  assert (F : Forall (fun p => p.1 = p.2) (sort_keyed String.ltb false (map (fun s : string => (s, s)) l))).
  { apply Forall_forall. intros p Hp. rewrite sort_keyed_perm in Hp. by apply elem_of_list_fmap in Hp as (s & -> & _). }
  revert F. induction H as [|x m Hm IH Hx]; intros F; [constructor|].
  inversion F as [|? ? F1 F2]; subst. cbn. constructor; [by apply IH|].
  apply Forall_fmap. apply Forall_forall. intros y Hy. rewrite Forall_forall in Hx, F2.
  specialize (Hx y Hy). specialize (F2 y Hy). unfold inorder, before in Hx. apply ltb_nlt in Hx.
  cbn. by rewrite F1, F2 in Hx.
Qed.

Fixpoint lacks (c : ascii) (s : string) : Prop :=
  match s with EmptyString => True | String a s => a <> c /\ lacks c s end.
Lemma split_on_app c w : forall s, lacks c w -> split_on c (w +:+ String c s) = w :: split_on c s.
Proof.
  induction w as [|a w IH]; intros s H.
  - change (EmptyString +:+ String c s) with (String c s). cbn [split_on]. by destruct (Ascii.eqb_spec c c).
  - change (String a w +:+ String c s) with (String a (w +:+ String c s)). cbn [split_on].
    destruct H as [H1 H2]. destruct (Ascii.eqb_spec a c); [done|]. by rewrite IH.
Qed.
Lemma split_on_word c w : lacks c w -> split_on c w = [w].
Proof.
  induction w as [|a w IH]; intros H; cbn [split_on]; [done|]. destruct H as [H1 H2].
  destruct (Ascii.eqb_spec a c); [done|]. by rewrite IH.
Qed.
Lemma split_on_concat c l : l <> [] -> Forall (lacks c) l ->
  split_on c (String.concat (String c EmptyString) l) = l.
Proof.
  induction l as [|w [|w' l] IH]; intros Hne H; [done| |].
  - cbn. inversion H; subst. by apply split_on_word.
  - inversion H; subst. change (String.concat (String c EmptyString) (w :: w' :: l)) with
      (w +:+ String c (String.concat (String c EmptyString) (w' :: l))).
    rewrite split_on_app by done. by rewrite IH.
Qed.
Lemma lacks_app c s t : lacks c s -> lacks c t -> lacks c (s +:+ t).
Proof.
  induction s as [|a s IH]; [done|]. intros [??] ?. change (String a s +:+ t) with (String a (s +:+ t)).
  split; [done|]. by apply IH.
Qed.
Lemma lacks_concat c sep l : lacks c sep -> Forall (lacks c) l -> lacks c (String.concat sep l).
Proof.
  intros Hs. induction l as [|w [|w' l] IH]; intros H; [done| |].
  - by inversion H.
  - inversion H; subst. change (String.concat sep (w :: w' :: l)) with (w +:+ sep +:+ String.concat sep (w' :: l)).
    apply lacks_app; [done|]. apply lacks_app; [done|]. by apply IH.
Qed.
Lemma one_word_lacks s : one_word s -> lacks blank s /\ lacks line_break s.
Proof. induction s as [|a s IH]; cbn; [done|]. intros (?&?&?). destruct IH; done. Qed.

(** decimal numerals *)
Lemma pretty_go_lacks c : (forall k, pretty_N_char k <> c) ->
  forall x s, lacks c s -> lacks c (pretty_N_go x s).
Proof.
  intros Hc x. induction (N.lt_wf_0 x) as [x _ IH]. intros s Hs.
  destruct (decide (x = 0%N)) as [->|Hx]; [by rewrite pretty_N_go_0|].
  rewrite pretty_N_go_step by lia. apply IH; [apply N.div_lt; lia|]. by split.
Qed.
Lemma pretty_lacks c (n : nat) : (forall k, pretty_N_char k <> c) -> lacks c (pretty n).
Proof.
  intros Hc. change (pretty n) with (pretty (N.of_nat n)). unfold pretty, pretty_N.
  case_decide; [|by apply pretty_go_lacks].
  split; [exact (Hc 0%N)|done].
Qed.
Lemma digit_char k : pretty_N_char k <> blank /\ pretty_N_char k <> line_break.
Proof. unfold pretty_N_char. repeat case_match; split; discriminate. Qed.

(** ** C40 *)
Lemma NoDup_sub {A} (l k : list A) : l `sublist_of` k -> NoDup k -> NoDup l.
Proof.
  induction 1 as [|x l k S IH|x l k S IH]; [done| |]; rewrite !NoDup_cons; intros [Hx Hk]; [|by apply IH].
  split; [|by apply IH]. intros Hin. apply Hx. eapply elem_of_submseteq; [exact Hin|by apply sublist_submseteq].
Qed.
Section format.
  Context {W : World}.

  (** the text of one route *)
  Definition names_of (ts : list nat) : list string :=
    map (fun t => tr_identifier (w_trip t)) ts.
  Definition counted (xs : list visit) : list nat :=
    filter (fun t => tr_capacity (w_trip t) <> 0) (boards xs).
  Definition line_of (names : list string) : string :=
    pretty (length names) +:+ " " +:+ String.concat " " names.

  Lemma filter_counted xs :
    List.filter (fun t => negb (trip_empty (w_trip t))) (boards xs) = counted xs.
  Proof.
    unfold counted. induction (boards xs) as [|t l IH]; [done|]. cbn [List.filter]. rewrite filter_cons. unfold trip_empty at 1.
    destruct (Z.eqb_spec (tr_capacity (w_trip t)) 0); cbn; [rewrite decide_False by (intros H; by apply H)|rewrite decide_True by done]; by rewrite IH.
  Qed.
  Lemma runs_loaded_trips h r v ids xs (Q : list nat -> heap -> Prop) :
    well_formed h r v ids xs -> Q (counted xs) h -> runs (route_loaded_trips r) h Q.
  Proof.
    intros R HQ. apply well_formed_RouteW in R. unfold route_loaded_trips. step. eapply runs_route_trips; [exact R|].
    apply runs_ret. by rewrite filter_counted.
  Qed.
  Lemma runs_route_str h r v ids xs (Q : string -> heap -> Prop) :
    well_formed h r v ids xs -> Q (line_of (names_of (counted xs))) h -> runs (hashcode_route_str r) h Q.
  Proof.
    intros R HQ. unfold hashcode_route_str. step. eapply runs_loaded_trips; [exact R|]. cbv zeta. step.
    eapply runs_loaded_trips; [exact R|]. apply runs_ret. unfold line_of, names_of in HQ. by rewrite map_length in HQ.
  Qed.

  Lemma words_of_line names : Forall one_word names ->
    split_on blank (line_of names) = words_for names.
  Proof.
    intros H. unfold line_of, words_for.
    change (" " +:+ String.concat " " names) with (String blank (String.concat (String blank EmptyString) names)).
    rewrite split_on_app by (apply pretty_lacks; apply digit_char). f_equal.
    destruct names as [|w names]; [done|]. apply split_on_concat; [done|].
    eapply Forall_impl; [exact H|]. intros s Hs. by apply one_word_lacks.
  Qed.
  Lemma line_lacks names : Forall one_word names -> lacks line_break (line_of names).
  Proof.
    intros H. unfold line_of. apply lacks_app; [apply pretty_lacks; apply digit_char|].
    apply lacks_app; [by split|]. apply lacks_concat; [by split|].
    eapply Forall_impl; [exact H|]. intros s Hs. by apply one_word_lacks.
  Qed.

  Lemma well_planned_kept h h' pl : quiet h h' -> well_planned h pl -> well_planned h' pl.
  Proof.
    intros Q H r Hr. destruct (H r Hr) as (v & ids & xs & R). exists v, ids, xs.
    apply well_formed_RouteW. apply well_formed_RouteW in R. by eapply RouteW_quiet.
  Qed.
End format.

(** the routes which a formatter writes *)
Lemma formatter_routes_runs `{W : World} h pl remove : well_planned h pl -> NoDup pl ->
  runs (formatter_routes remove pl) h (fun rs h' => quiet h h' /\ NoDup rs /\
    forall r, r ∈ rs <-> r ∈ pl /\ (remove = true -> has_passengers h r)).
Proof.
  intros H Hn. unfold formatter_routes. destruct remove.
  2:{ apply runs_ret. split; [apply quiet_refl|]. split; [done|]. intros r. naive_solver. }
  unfold loaded_routes. step. apply runs_set_order. intros l Hl.
  set (h0 := MkHeap _ _ _ _). assert (Q0 : quiet h h0) by (split; [apply soft_tick|done]). clearbody h0.
  eapply runs_mono; [apply (runs_filterM _ (fun h' => quiet h h')
    (fun r b => b = true <-> has_passengers h r)); [exact Q0|]|].
  - intros r h1 Hr Q1. rewrite Hl in Hr. destruct (H r Hr) as (v & ids & xs & R).
    pose proof (proj1 (well_formed_RouteW _ _ _ _ _) R) as RW.
    eapply runs_route_loaded; [by eapply RouteW_quiet|]. split; [done|].
    rewrite negb_true_iff, bool_decide_eq_false. split.
    + intros Hb. by exists v, ids, xs.
    + intros (v' & ids' & xs' & R' & Hb). apply well_formed_RouteW in R'.
      by destruct (RouteW_det _ _ _ _ _ _ _ _ RW R') as (<- & <- & <-).
  - cbn. intros rs h1 (Q1 & Hin & Hsub & Hout). split; [done|]. split.
    + eapply NoDup_sub; [exact Hsub|]. by rewrite Hl.
    + intros r. split.
      * intros Hr. destruct (Hin r Hr) as [Hr' Hp]. rewrite <- Hl. split; [done|]. intros _. by apply Hp.
      * intros [Hr Hp]. destruct (decide (r ∈ rs)) as [|Hnr]; [done|].
        rewrite <- Hl in Hr. specialize (Hout r Hr Hnr). specialize (Hp eq_refl). apply Hout in Hp. discriminate.
Qed.

Lemma c40_format `{W : World} : forall h pl remove,
  well_planned h pl -> NoDup pl -> word_identifiers h pl ->
  exists text h' rs, hashcode_format remove pl h = (Ok text, h') /\ only_memoised h h' /\
    NoDup rs /\ (forall r, r ∈ rs <-> r ∈ pl /\ (remove = true -> has_passengers h r)) /\
    (rs = [] -> text = EmptyString) /\
    (rs <> [] -> StronglySorted (fun a b => String.compare b a <> Lt) (split_on line_break text) /\
       exists order, order ≡ₚ rs /\
         Forall2 (fun r line => reports h r (split_on blank line)) order (split_on line_break text)).
Proof.
  intros h pl remove H Hn Hw.
  (* the routes to be written *)
  pose proof (formatter_routes_runs h pl remove H Hn) as G1.
  apply runs_eq in G1 as (rs & h1 & E1 & Q1 & Hnd & Hrs).
  (* their lines *)
  assert (G2 : runs (let! rs := set_order rs in let! lines := mapM hashcode_route_str rs in
      ret (String.concat newline (sort_strings lines))) h1
    (fun text h' => quiet h h' /\ exists l lines, l ≡ₚ rs /\
       Forall2 (fun r line => exists v ids xs, well_formed h r v ids xs /\ line = line_of (names_of (counted xs))) l lines /\
       text = String.concat newline (sort_strings lines))).
  { step. apply runs_set_order. intros l Hl.
    set (h0 := MkHeap _ _ _ _). assert (Q0 : quiet h h0).
    { eapply quiet_trans; [exact Q1|]. split; [apply soft_tick|done]. }
    clearbody h0. step.
    eapply runs_mono; [apply (runs_mapM _ (fun h' => quiet h h')
      (fun r line => exists v ids xs, well_formed h r v ids xs /\ line = line_of (names_of (counted xs)))); [exact Q0|]|].
    - intros r h2 Hr Q2. rewrite Hl in Hr. apply Hrs in Hr as [Hr _]. destruct (H r Hr) as (v & ids & xs & R).
      eapply runs_route_str.
      + apply well_formed_RouteW. eapply RouteW_quiet; [exact Q2|]. by apply well_formed_RouteW.
      + split; [done|]. by exists v, ids, xs.
    - cbn. intros lines h2 (Q2 & F). apply runs_ret. split; [done|]. by exists l, lines. }
  apply runs_eq in G2 as (text & h2 & E2 & Q2 & l & lines & Hl & F & ->).
  exists (String.concat newline (sort_strings lines)), h2, rs.
  split. { unfold hashcode_format. by rewrite (bind_ok _ _ _ _ _ E1). }
  split; [by apply quiet_memoised|]. split; [done|]. split; [done|].
  assert (Hwords : forall r v ids xs, r ∈ l -> well_formed h r v ids xs -> Forall one_word (names_of (counted xs))).
  { intros r v ids xs Hr R. apply Forall_fmap. apply Forall_forall. intros t Ht. unfold counted in Ht.
    apply elem_of_list_filter in Ht as [_ Ht]. apply Hw. rewrite Hl in Hr. apply Hrs in Hr as [Hr _].
    by exists r, v, ids, xs. }
  split.
  { intros ->. apply Permutation_nil_r in Hl. subst l. inversion F; subst. done. }
  intros Hne.
  assert (Hlines : split_on line_break (String.concat newline (sort_strings lines)) = sort_strings lines).
  { apply split_on_concat.
    - intros E. pose proof (sort_strings_perm lines) as P. rewrite E in P.
      apply Permutation_nil in P. subst lines. inversion F; subst. by apply Permutation_nil in Hl.
    - apply Forall_forall. intros s Hs. rewrite sort_strings_perm in Hs. apply elem_of_list_lookup in Hs as (k & Hk).
      destruct (Forall2_lookup_r _ _ _ _ _ F Hk) as (r & Hr & v & ids & xs & R & ->).
      apply line_lacks. eapply Hwords; [|exact R]. by eapply elem_of_list_lookup_2. }
  rewrite Hlines. split; [apply sort_strings_sorted|].
  assert (F' : Forall2 (fun r line => reports h r (split_on blank line)) l lines).
  { apply Forall2_same_length_lookup_2; [by eapply Forall2_length|]. intros k r line Hr Hk.
    destruct (Forall2_lookup_lr _ _ _ _ _ _ F Hr Hk) as (v & ids & xs & R & ->).
    exists v, ids, xs. split; [done|]. apply words_of_line. eapply Hwords; [|exact R]. by eapply elem_of_list_lookup_2. }
  apply Forall2_flip in F'.
  destruct (Permutation_Forall2 (l1' := sort_strings lines) ltac:(by rewrite sort_strings_perm) F') as (l' & Hl' & F'').
  exists l'. split; [by rewrite <- Hl', Hl|]. by apply Forall2_flip.
Qed.

Lemma filter_everything {A} (P : A -> Prop) `{forall x, Decision (P x)} (l : list A) :
  (forall x, x ∈ l -> P x) -> filter P l = l.
Proof.
  induction l as [|x l IH]; intros Hl; [done|]. rewrite filter_cons_True by (apply Hl; left).
  f_equal. apply IH. intros y Hy. apply Hl. by right.
Qed.
(** every loaded route is named in full when nobody travels without capacity *)
Lemma c40_everyone `{W : World} : forall h pl,
  well_planned h pl -> NoDup pl -> word_identifiers h pl ->
  (forall t, carried h pl t -> tr_capacity (w_trip t) <> 0) ->
  exists text h' rs, hashcode_format true pl h = (Ok text, h') /\
    NoDup rs /\ (forall r, r ∈ rs <-> r ∈ pl /\ has_passengers h r) /\
    (rs = [] -> text = EmptyString) /\
    (rs <> [] -> StronglySorted (fun a b => String.compare b a <> Lt) (split_on line_break text) /\
       exists order, order ≡ₚ rs /\
         Forall2 (fun r line => names_everyone h r (split_on blank line)) order (split_on line_break text)).
Proof.
  intros h pl H Hn Hw Hc. destruct (c40_format h pl true H Hn Hw) as (text & h' & rs & E & _ & Hnd & Hrs & He & Hne).
  exists text, h', rs. split; [done|]. split; [done|].
  assert (Hrs' : forall r, r ∈ rs <-> r ∈ pl /\ has_passengers h r) by (intros r; rewrite Hrs; naive_solver).
  split; [done|]. split; [done|]. intros Hx. destruct (Hne Hx) as (Hs & order & Hp & F). split; [done|].
  exists order. split; [done|]. apply Forall2_same_length_lookup_2; [by eapply Forall2_length|].
  intros k r line Hr Hk. destruct (Forall2_lookup_lr _ _ _ _ _ _ F Hr Hk) as (v & ids & xs & R & ->).
  assert (Hin : r ∈ rs) by (rewrite <- Hp; by eapply elem_of_list_lookup_2).
  apply Hrs' in Hin as (Hin & v' & ids' & xs' & R' & Hb).
  pose proof R as RW. apply well_formed_RouteW in RW. apply well_formed_RouteW in R'.
  destruct (RouteW_det _ _ _ _ _ _ _ _ RW R') as (<- & <- & <-).
  exists v, ids, xs. split; [done|].
  rewrite filter_everything.
  2:{ intros t Ht. apply Hc. by exists r, v, ids, xs. }
  unfold words_for. rewrite map_length. by destruct (boards xs).
Qed.

Lemma same_visits `{W : World} h r v ids xs v' ids' xs' :
  well_formed h r v ids xs -> well_formed h r v' ids' xs' -> xs' = xs.
Proof.
  intros R R'. apply well_formed_RouteW in R. apply well_formed_RouteW in R'.
  by destruct (RouteW_det _ _ _ _ _ _ _ _ R R') as (_ & _ & <-).
Qed.
(** a route that carries a parcel without capacity is reported as empty *)
Lemma c40_naive :
  exists (W : World) h pl r text h', pl = [r] /\ well_planned h pl /\ word_identifiers h pl /\
    has_passengers h r /\ hashcode_format true pl h = (Ok text, h') /\
    split_on line_break text = [text] /\
    reports h r (split_on blank text) /\ ~ names_everyone h r (split_on blank text).
Proof.
  exists post, post_town, [2%nat], 2%nat. do 2 eexists.
  assert (R : well_formed (W := post) post_town 2 0 (post_stops 2) (post_visits 2)) by (apply well_formedb_sound; reflexivity).
  assert (Hdet : forall v ids xs, well_formed (W := post) post_town 2 v ids xs -> xs = post_visits 2).
  { intros v ids xs R'. pose proof R as RW. apply well_formed_RouteW in RW. apply well_formed_RouteW in R'.
    by destruct (RouteW_det (W := post) _ _ _ _ _ _ _ _ RW R') as (_ & _ & <-). }
  split; [done|]. split.
  { intros r Hr. apply elem_of_list_singleton in Hr as ->. by exists 0%nat, (post_stops 2), (post_visits 2). }
  split.
  { intros t (r & v & ids & xs & Hr & R' & Ht). apply elem_of_list_singleton in Hr as ->. rewrite (Hdet _ _ _ R') in Ht.
    change (boards (post_visits 2)) with [0%nat] in Ht. apply elem_of_list_singleton in Ht as ->. repeat split; discriminate. }
  split. { exists 0%nat, (post_stops 2), (post_visits 2). done. }
  split; [vm_compute; reflexivity|]. split; [vm_compute; reflexivity|]. split.
  - exists 0%nat, (post_stops 2), (post_visits 2). split; [done|]. vm_compute. reflexivity.
  - intros (v & ids & xs & R' & E). rewrite (Hdet _ _ _ R') in E. vm_compute in E. discriminate.
Qed.

(** ** C41 *)
Lemma c41_stores : forall S (format : ST S string) f text s,
  fs_writable f = true -> fs_formatted f = None -> format (fs_rest f) = (Ok text, s) ->
  file_store format f = (Ok tt, FileState (Some text) true (Some text) s).
Proof.
  intros S format [c w cache s0] text s Hw Hc E. cbn in *. subst w cache.
  unfold file_store, open_for_writing, formatted, write, bind. cbn. by rewrite E.
Qed.
(** storing a second time writes the text formatted the first time *)
Lemma c41_again : forall S (format : ST S string) f text,
  fs_writable f = true -> fs_formatted f = Some text ->
  file_store format f = (Ok tt, FileState (Some text) true (Some text) (fs_rest f)).
Proof.
  intros S format [c w cache s0] text Hw Hc. cbn in *. subst w cache. done.
Qed.
(** a file that cannot be opened is left alone *)
Lemma c41_unopened : forall S (format : ST S string) f,
  fs_writable f = false -> file_store format f = (Raise OSError, f).
Proof. intros S format [c w cache s0] Hw. cbn in *. by subst w. Qed.
(** a formatter that raises leaves an empty file, whatever was there before *)
Lemma c41_emptied : forall S (format : ST S string) f e s,
  fs_writable f = true -> fs_formatted f = None -> format (fs_rest f) = (Raise e, s) ->
  file_store format f = (Raise e, FileState (Some EmptyString) true None s).
Proof.
  intros S format [c w cache s0] e s Hw Hc E. cbn in *. subst w cache.
  unfold file_store, open_for_writing, formatted, write, bind. cbn. by rewrite E.
Qed.
Lemma c41_naive : exists (format : ST unit string) f e s,
  fs_writable f = true /\ file_store format f = (Raise e, s) /\ fs_content s <> fs_content f.
Proof.
  exists (fun s => (Raise KeyError, s)), (FileState (Some "3 0 1 2") true None tt), KeyError.
  eexists. split; [done|]. split; [reflexivity|]. done.
Qed.

(** ** C42 *)
Lemma happened_app {E S} (act : E -> ST S unit) s l s1 m s2 :
  happened act s l s1 -> happened act s1 m s2 -> happened act s (l ++ m) s2.
Proof. induction 1; [done|]. intros H'. cbn. eapply happened_next; [done|]. by apply IHhappened. Qed.

Lemma c42_log : forall S (act : storer_event -> ST S unit) x order s r log s',
  storer_set_store act order x ([], s) = (r, (log, s')) ->
  match r with
  | Ok _ => log = in_turn x order /\ happened act s log s'
  | Raise e => exists before ev s1, log = before ++ [ev] /\ log `prefix_of` in_turn x order /\
      happened act s before s1 /\ act ev s1 = (Raise e, s')
  end.
Proof.
  intros S act x order s r log s' E.
  assert (G : forall order pre s r log s', storer_set_store act order x (pre, s) = (r, (log, s')) ->
    exists l, log = pre ++ l /\
    match r with
    | Ok _ => l = in_turn x order /\ happened act s l s'
    | Raise e => exists before ev s1, l = before ++ [ev] /\ l `prefix_of` in_turn x order /\
        happened act s before s1 /\ act ev s1 = (Raise e, s')
    end).
  { clear. unfold storer_set_store. induction order as [|c order IH]; intros pre s r log s' E.
    - cbn in E. injection E as <- <- <-. exists []. split; [by rewrite app_nil_r|]. split; [done|constructor].
    - cbn [iterM] in E. unfold bind at 1 2, observed at 1 2 in E.
      destruct (act (Constructed c x) s) as [[[]|e] s1] eqn:E1.
      2:{ injection E as <- <- <-. exists [Constructed c x]. split; [done|]. exists [], (Constructed c x), s.
          split; [done|]. split; [by eexists|]. split; [constructor|done]. }
      destruct (act (Stored c x) s1) as [[[]|e] s2] eqn:E2.
      2:{ injection E as <- <- <-. exists [Constructed c x; Stored c x]. split; [by rewrite <- app_assoc|].
          exists [Constructed c x], (Stored c x), s1. split; [done|]. split; [by eexists|].
          split; [by econstructor; [|constructor]|done]. }
      apply IH in E as (l & -> & H). exists (Constructed c x :: Stored c x :: l).
      split; [by rewrite <- !app_assoc|]. destruct r as [?|e].
      + destruct H as [-> H]. split; [done|]. econstructor; [done|]. by econstructor.
      + destruct H as (before & ev & s3 & -> & (k & Hk) & H & Ea).
        exists (Constructed c x :: Stored c x :: before), ev, s3. split; [done|]. split.
        { exists k. change (in_turn x (c :: order)) with (Constructed c x :: Stored c x :: in_turn x order). by rewrite Hk. }
        split; [|done]. econstructor; [done|]. by econstructor. }
  by destruct (G _ _ _ _ _ _ E) as (l & -> & H).
Qed.
(** no class runs twice, and all run on success *)
Lemma c42_once : forall S (act : storer_event -> ST S unit) x classes order s r log s',
  NoDup classes -> order ≡ₚ classes ->
  storer_set_store act order x ([], s) = (r, (log, s')) ->
  NoDup log /\ (forall ev, ev ∈ log -> exists c, c ∈ classes /\ (ev = Constructed c x \/ ev = Stored c x)) /\
  (r = Ok tt -> forall c, c ∈ classes -> Constructed c x ∈ log /\ Stored c x ∈ log).
Proof.
  intros S act x classes order s r log s' Hn Hp E. apply c42_log in E.
  assert (Hn' : NoDup (in_turn x order)).
  { rewrite <- Hp in Hn. clear -Hn. induction Hn as [|c l Hc Hl IH]; [constructor|]. cbn.
    assert (Hi : forall ev, ev ∈ in_turn x l -> match ev with Constructed c _ | Stored c _ => c ∈ l end).
    { intros ev He. unfold in_turn in He. rewrite elem_of_list_In, in_flat_map in He. destruct He as (d & Hd & He).
      rewrite <- elem_of_list_In in Hd. destruct He as [<-|[<-|[]]]; done. }
    rewrite !NoDup_cons. split; [|split; [|done]].
    - intros H. apply elem_of_cons in H as [H|H]; [done|]. by apply Hi in H.
    - intros H. by apply Hi in H. }
  assert (Hi : forall ev, ev ∈ in_turn x order -> exists c, c ∈ classes /\ (ev = Constructed c x \/ ev = Stored c x)).
  { intros ev He. unfold in_turn in He. rewrite elem_of_list_In, in_flat_map in He. destruct He as (d & Hd & He).
    rewrite <- elem_of_list_In, Hp in Hd. exists d. split; [done|]. destruct He as [<-|[<-|[]]]; auto. }
  assert (Hpre : log `prefix_of` in_turn x order).
  { destruct r; [destruct E as [-> _]; done|]. by destruct E as (?&?&?&_&?&_). }
  split; [|split].
  - destruct Hpre as [k Hk]. rewrite Hk in Hn'. by apply NoDup_app in Hn' as [? _].
  - intros ev He. apply Hi. destruct Hpre as [k Hk]. rewrite Hk. apply elem_of_app. by left.
  - intros -> c Hc. destruct E as [-> _]. rewrite <- Hp in Hc. unfold in_turn.
    rewrite !elem_of_list_In, !in_flat_map. rewrite elem_of_list_In in Hc. split; exists c; (split; [done|]); [by left|by right; left].
Qed.
