(** C40-C42: storers. *)
From Verif Require Import StoreTheorems WitnessStore.

(** ** C40.  HashCode output can be read back

    Passengers without capacity are left out, so a route that carries only such
    passengers is reported as "0" (hashcode.py:27-30, routes.py:154-160). *)
@C40_refuted c40_naive
(** what can be read back in general *)
@C40_format_partial c40_format
(** the whole claim, when everybody on board takes up capacity *)
@C40_everyone_partial c40_everyone

Section C40_example.
  #[local] Existing Instance post.
  Example C40_case : well_planned post_town [6; 0]%nat /\ word_identifiers post_town [6; 0]%nat /\
    (forall t, carried post_town [6; 0]%nat t -> tr_capacity (w_trip t) <> 0) /\
    result (hashcode_format true [6; 0]%nat) post_town = Ok "2 12 5"%string.
  Proof.
    assert (R6 : well_formed post_town 6 1 (post_stops 6) (post_visits 6)) by (apply well_formedb_sound; reflexivity).
    assert (R0 : well_formed post_town 0 0 (post_stops 0) (post_visits 0)) by (apply well_formedb_sound; reflexivity).
    assert (C : forall t, carried post_town [6; 0]%nat t -> t = 1%nat \/ t = 2%nat).
    { intros t (r & v & ids & xs & Hr & R & Ht). 
      apply elem_of_cons in Hr as [->|Hr]; [|apply elem_of_list_singleton in Hr as ->].
      - rewrite (same_visits _ _ _ _ _ _ _ _ R6 R) in Ht.
        change (boards (post_visits 6)) with [1; 2]%nat in Ht. set_solver.
      - rewrite (same_visits _ _ _ _ _ _ _ _ R0 R) in Ht.
        change (boards (post_visits 0)) with (@nil nat) in Ht. set_solver. }
    split; [|split; [|split; [|vm_compute; reflexivity]]].
    - intros r Hr. apply elem_of_cons in Hr as [->|Hr]; [|apply elem_of_list_singleton in Hr as ->]; by do 3 eexists.
    - intros t [-> | ->]%C; repeat split; discriminate.
    - intros t [-> | ->]%C; discriminate.
  Qed.
End C40_example.

(** ** C41.  A failing FileStorer leaves the previous file content

    It does not: the file is opened for writing, which empties it, before the
    text is formatted (file.py:25-29). *)
@C41_refuted c41_naive
(** for every previous content and every exception *)
@C41_emptied c41_emptied
(** what holds *)
@C41_unopened_partial c41_unopened
@C41_stores c41_stores
@C41_again c41_again

Section C41_example.
  Example C41_case :
    let format : ST nat string := fun s => if Nat.even s then (Ok "1 0"%string, S s) else (Raise KeyError, s) in
    file_store format (FileState None true None 4%nat) = (Ok tt, FileState (Some "1 0") true (Some "1 0") 5)%string%nat /\
    file_store format (FileState (Some "old") true None 5%nat) = (Raise KeyError, FileState (Some "") true None 5)%string%nat /\
    file_store format (FileState (Some "old") false None 5%nat) = (Raise OSError, FileState (Some "old") false None 5)%string%nat.
  Proof. repeat split. Qed.
End C41_example.

(** ** C42.  StorerSet runs each storer once *)
@C42_log c42_log
@C42_once c42_once

Section C42_example.
  (** the second storer fails *)
  Definition act (e : storer_event) : ST (list nat) unit := fun s =>
    match e with
    | Constructed c _ => (Ok tt, c :: s)
    | Stored c _ => if Nat.eqb c 8 then (Raise OSError, s) else (Ok tt, s)
    end.
  Example C42_case : NoDup [5; 8; 9]%nat /\
    storer_set_store act [9; 8; 5]%nat 77 ([], []) =
      (Raise OSError, ([Constructed 9 77; Stored 9 77; Constructed 8 77; Stored 8 77], [8; 9])%nat) /\
    storer_set_store act [9; 5]%nat 77 ([], []) =
      (Ok tt, ([Constructed 9 77; Stored 9 77; Constructed 5 77; Stored 5 77], [5; 9])%nat).
  Proof. split; [apply (bool_decide_unpack _); reflexivity|]. split; reflexivity. Qed.
End C42_example.
