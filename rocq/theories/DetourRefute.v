(** A passenger who cannot be taken off. *)
From Verif Require Export SpecDetour WitnessDetour DetourTheorems AdmissibleCheck.

Lemma c73_refuted : exists (W : World) h r v ids xs t r' h',
  sane /\ tidy h /\ on_tour h r v ids xs /\ t ∈ boards xs /\ dedicated t xs /\
  no_shortcuts (v_origin_position v :: map vi_place xs) /\ admissible v xs /\
  (let! r' := route_clone r 0 in remove_trip r' t ;;; route_flush r' ;;; let! b := route_feasible r' in ret (r', b)) h = (Ok (r', false), h').
Proof.
  exists hold, full_hold, 3%nat, 0%nat, (@stops_in full_hold 3), (@visits_of full_hold 3), 1%nat. do 2 eexists.
  split; [apply hold_sane|]. split; [apply tidyb_sound; reflexivity|]. split; [apply on_tourb_sound; reflexivity|].
  split; [apply (bool_decide_unpack _); reflexivity|].
  split. { assert (F : Forall (fun x => 1%nat ∈ vi_board x \/ 1%nat ∈ vi_alight x -> events x = 1%nat) (@visits_of full_hold 3))
      by (apply (bool_decide_unpack _); vm_compute; exact I).
    rewrite Forall_forall in F. exact F. }
  split. { apply (@c73_manhattan hold 1); [reflexivity|].
    assert (F : Forall (fun p => length p = 1%nat) (@v_origin_position hold 0 :: map vi_place (@visits_of full_hold 3)))
      by (vm_compute; repeat constructor).
    rewrite Forall_forall in F. exact F. }
  split; [apply admissibleb_sound; vm_compute; reflexivity|]. vm_compute. reflexivity.
Qed.
