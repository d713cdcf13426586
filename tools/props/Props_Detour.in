(** * Taking a passenger off

    [without], [serve], [dedicated], [tour] and [admissible] are in Spec.v,
    [no_shortcuts] and [sooner] in SpecDetour.v, [tidy] and [on_tour] in
    Represents.v.  The reallocation search takes trip [t] off route [r] with
    [route_clone r 0], [remove_trip], [route_flush] and asks [route_feasible]
    (reallocation.py:31-36). *)
From Verif Require Import SpecDetour DetourTheorems DetourRefute WitnessSearch ShiftTheorems.

(** ** C73.  A passenger can be taken off without breaking any limit *)
(** Full statement: if a tour keeps all limits, so does the tour without the
    visits of one passenger, and the reallocation search finds it feasible.  It
    is false: someone else is picked up earlier but cannot be dropped off
    earlier, and then rides for too long. *)
@C73_refuted c73_refuted

(** Nothing happens later without the passenger, and no more is on board.  The
    answer of the search is always right, and it is positive if no other
    passenger limits the riding time.  A trip that finds no place then still
    finds none after more trips were accepted.  Missing: the riding times of
    the others. *)
@C73_schedule_partial c73_schedule
@C73_decides c73_decides
@C73_keeps_partial c73_keeps
@C73_smaller_partial c73_smaller

(** city-block distances have no shortcuts *)
@C73_manhattan c73_manhattan

Section C73_example.
  #[local] Existing Instance loop.
  Definition shared : list visit := Eval vm_compute in @visits_of joined_loop 11.
  (** route 11 serves trips 1 and 0, trip 2 fits between the two pickups *)
  Example C73_case : sane /\ on_tour joined_loop 11 0 (@stops_in joined_loop 11) shared /\
    boards shared = [1; 0]%nat /\ dedicated 1 shared /\ no_shortcuts (v_origin_position 0 :: map vi_place (serve 2 1 3 shared)) /\
    no_shortcuts (v_origin_position 0 :: map vi_place shared) /\
    (forall t, tr_timeout (w_trip t) = Inf) /\ admissible 0 shared /\ admissible 0 (serve 2 1 3 shared) /\
    boards (without 1 shared) = [0]%nat /\
    exists h', (let! r' := route_clone 11 0 in remove_trip r' 1 ;;; route_flush r' ;;; let! b := route_feasible r' in ret (r', b)) joined_loop = (Ok (26%nat, true), h').
  Proof.
    assert (H : forall xs, Forall (fun p => length p = 1%nat) (v_origin_position 0 :: map vi_place xs) -> no_shortcuts (v_origin_position 0 :: map vi_place xs)).
    { intros xs F. rewrite Forall_forall in F. by apply (C73_manhattan 1). }
    split; [apply loop_sane|]. split; [apply on_tourb_sound; reflexivity|]. split; [reflexivity|].
    split.
    { assert (F : Forall (fun x => 1%nat ∈ vi_board x \/ 1%nat ∈ vi_alight x -> events x = 1%nat) shared)
        by (apply (bool_decide_unpack _); vm_compute; exact I). rewrite Forall_forall in F. exact F. }
    split; [apply H; vm_compute; repeat constructor|]. split; [apply H; vm_compute; repeat constructor|].
    split; [intros [|[|[|[|t]]]]; reflexivity|]. split; [apply admissibleb_sound; vm_compute; reflexivity|].
    split; [apply admissibleb_sound; vm_compute; reflexivity|]. split; [reflexivity|]. eexists. vm_compute. reflexivity.
  Qed.
End C73_example.
