(** C40-C42: storers. *)
From Verif Require Import StoreTheorems WitnessStore.

(** ** C40.  HashCode output can be read back

    Passengers without capacity are left out, so a route that carries only such
    passengers is reported as "0" (hashcode.py:27-30, routes.py:154-160). *)
Theorem C40_refuted :
  exists (W : World) h pl r text h', pl = [r] /\ well_planned h pl /\ word_identifiers h pl /\
    has_passengers h r /\ hashcode_format true pl h = (Ok text, h') /\
    split_on line_break text = [text] /\
    reports h r (split_on blank text) /\ ~ names_everyone h r (split_on blank text).
Proof. exact c40_naive. Qed.
Print Assumptions C40_refuted.
(** what can be read back in general *)
Theorem C40_format_partial `{W : World} : forall h pl remove,
  well_planned h pl -> NoDup pl -> word_identifiers h pl ->
  exists text h' rs, hashcode_format remove pl h = (Ok text, h') /\ only_memoised h h' /\
    NoDup rs /\ (forall r, r ∈ rs <-> r ∈ pl /\ (remove = true -> has_passengers h r)) /\
    (rs = [] -> text = EmptyString) /\
    (rs <> [] -> StronglySorted (fun a b => String.compare b a <> Lt) (split_on line_break text) /\
       exists order, order ≡ₚ rs /\
         Forall2 (fun r line => reports h r (split_on blank line)) order (split_on line_break text)).
Proof. exact c40_format. Qed.
Print Assumptions C40_format_partial.
(** the whole claim, when everybody on board takes up capacity *)
Theorem C40_everyone_partial `{W : World} : forall h pl,
  well_planned h pl -> NoDup pl -> word_identifiers h pl ->
  (forall t, carried h pl t -> tr_capacity (w_trip t) <> 0) ->
  exists text h' rs, hashcode_format true pl h = (Ok text, h') /\
    NoDup rs /\ (forall r, r ∈ rs <-> r ∈ pl /\ has_passengers h r) /\
    (rs = [] -> text = EmptyString) /\
    (rs <> [] -> StronglySorted (fun a b => String.compare b a <> Lt) (split_on line_break text) /\
       exists order, order ≡ₚ rs /\
         Forall2 (fun r line => names_everyone h r (split_on blank line)) order (split_on line_break text)).
Proof. exact c40_everyone. Qed.
Print Assumptions C40_everyone_partial.

Section C40_example.
  #[local] Existing Instance post.
  Example C40_case : well_planned post_town [6; 0]%nat /\ word_identifiers post_town [6; 0]%nat /\
    (forall t, carried post_town [6; 0]%nat t -> tr_capacity (w_trip t) <> 0) /\
    result (hashcode_format true [6; 0]%nat) post_town = Ok "2 12 5"%string.
  Proof.
    assert (R6 : well_formed post_town 6 1 (post_stops 6) (post_visits 6)) by (apply well_formedb_sound; reflexivity).
    assert (R0 : well_formed post_town 0 0 (post_stops 0) (post_visits 0)) by (apply well_formedb_sound; reflexivity).
    assert (C : forall t, carried post_town [6; 0]%nat t -> t = 1%nat \/ t = 2%nat).
    { intros t (r & v & ids & xs & Hr & R & Ht). 
      apply elem_of_cons in Hr as [->|Hr]; [|apply elem_of_list_singleton in Hr as ->].
      - rewrite (same_visits _ _ _ _ _ _ _ _ R6 R) in Ht.
        change (boards (post_visits 6)) with [1; 2]%nat in Ht. set_solver.
      - rewrite (same_visits _ _ _ _ _ _ _ _ R0 R) in Ht.
        change (boards (post_visits 0)) with (@nil nat) in Ht. set_solver. }
    split; [|split; [|split; [|vm_compute; reflexivity]]].
    - intros r Hr. apply elem_of_cons in Hr as [->|Hr]; [|apply elem_of_list_singleton in Hr as ->]; by do 3 eexists.
    - intros t [-> | ->]%C; repeat split; discriminate.
    - intros t [-> | ->]%C; discriminate.
  Qed.
End C40_example.

(** ** C41.  A failing FileStorer leaves the previous file content

    It does not: the file is opened for writing, which empties it, before the
    text is formatted (file.py:25-29). *)
Theorem C41_refuted : exists (format : ST unit string) f e s,
  fs_writable f = true /\ file_store format f = (Raise e, s) /\ fs_content s <> fs_content f.
Proof. exact c41_naive. Qed.
Print Assumptions C41_refuted.
(** for every previous content and every exception *)
Theorem C41_emptied : forall S (format : ST S string) f e s,
  fs_writable f = true -> fs_formatted f = None -> format (fs_rest f) = (Raise e, s) ->
  file_store format f = (Raise e, FileState (Some EmptyString) true None s).
Proof. exact c41_emptied. Qed.
Print Assumptions C41_emptied.
(** what holds *)
Theorem C41_unopened_partial : forall S (format : ST S string) f,
  fs_writable f = false -> file_store format f = (Raise OSError, f).
Proof. exact c41_unopened. Qed.
Print Assumptions C41_unopened_partial.
Theorem C41_stores : forall S (format : ST S string) f text s,
  fs_writable f = true -> fs_formatted f = None -> format (fs_rest f) = (Ok text, s) ->
  file_store format f = (Ok tt, FileState (Some text) true (Some text) s).
Proof. exact c41_stores. Qed.
Print Assumptions C41_stores.
Theorem C41_again : forall S (format : ST S string) f text,
  fs_writable f = true -> fs_formatted f = Some text ->
  file_store format f = (Ok tt, FileState (Some text) true (Some text) (fs_rest f)).
Proof. exact c41_again. Qed.
Print Assumptions C41_again.

Section C41_example.
  Example C41_case :
    let format : ST nat string := fun s => if Nat.even s then (Ok "1 0"%string, S s) else (Raise KeyError, s) in
    file_store format (FileState None true None 4%nat) = (Ok tt, FileState (Some "1 0") true (Some "1 0") 5)%string%nat /\
    file_store format (FileState (Some "old") true None 5%nat) = (Raise KeyError, FileState (Some "") true None 5)%string%nat /\
    file_store format (FileState (Some "old") false None 5%nat) = (Raise OSError, FileState (Some "old") false None 5)%string%nat.
  Proof. repeat split. Qed.
End C41_example.

(** ** C42.  StorerSet runs each storer once *)
Theorem C42_log : forall S (act : storer_event -> ST S unit) x order s r log s',
  storer_set_store act order x ([], s) = (r, (log, s')) ->
  match r with
  | Ok _ => log = in_turn x order /\ happened act s log s'
  | Raise e => exists before ev s1, log = before ++ [ev] /\ log `prefix_of` in_turn x order /\
      happened act s before s1 /\ act ev s1 = (Raise e, s')
  end.
Proof. exact c42_log. Qed.
Print Assumptions C42_log.
Theorem C42_once : forall S (act : storer_event -> ST S unit) x classes order s r log s',
  NoDup classes -> order ≡ₚ classes ->
  storer_set_store act order x ([], s) = (r, (log, s')) ->
  NoDup log /\ (forall ev, ev ∈ log -> exists c, c ∈ classes /\ (ev = Constructed c x \/ ev = Stored c x)) /\
  (r = Ok tt -> forall c, c ∈ classes -> Constructed c x ∈ log /\ Stored c x ∈ log).
Proof. exact c42_once. Qed.
Print Assumptions C42_once.

Section C42_example.
  (** the second storer fails *)
  Definition act (e : storer_event) : ST (list nat) unit := fun s =>
    match e with
    | Constructed c _ => (Ok tt, c :: s)
    | Stored c _ => if Nat.eqb c 8 then (Raise OSError, s) else (Ok tt, s)
    end.
  Example C42_case : NoDup [5; 8; 9]%nat /\
    storer_set_store act [9; 8; 5]%nat 77 ([], []) =
      (Raise OSError, ([Constructed 9 77; Stored 9 77; Constructed 8 77; Stored 8 77], [8; 9])%nat) /\
    storer_set_store act [9; 5]%nat 77 ([], []) =
      (Ok tt, ([Constructed 9 77; Stored 9 77; Constructed 5 77; Stored 5 77], [5; 9])%nat).
  Proof. split; [apply (bool_decide_unpack _); reflexivity|]. split; reflexivity. Qed.
End C42_example.
