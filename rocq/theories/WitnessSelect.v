(** States for the examples about the other iterators and the choice among
    candidates. *)
From Verif Require Export WitnessValues Iterators.

Section loner.
  #[local] Existing Instance town.

  (** one vehicle, trips 0 and 3, stateless iterator: after one turn the vehicle
      serves trip 0, after two turns trip 3 only *)
  Definition loner_config : insertion_config := MkInsertionConfig Tail true EarliestLastDeparture None 1.
  Definition got {A B} (d : B) (o : res A * heap) (f : A -> B) : B := match o.1 with Ok a => f a | Raise _ => d end.
  Definition no_iterator : stateless := MkStateless (MkIterator [] [] Tail true EarliestLastDeparture [] None []) None.
  Definition turn (k : stateless) : M stateless :=
    let! (o, k) := stateless_next k in
    let! r := py_some o in
    let! _ := route_feasible r in
    stateless_set_route k r.
  Definition loner0 : stateless := Eval vm_compute in
    got no_iterator (begin loner_config [0%nat] [0; 3]%nat None empty_heap) id.
  Definition loner_town0 : heap := Eval vm_compute in after (begin loner_config [0%nat] [0; 3]%nat None) empty_heap.
  Definition loner1 : stateless := Eval vm_compute in got no_iterator (turn loner0 loner_town0) id.
  Definition loner_town1 : heap := Eval vm_compute in after (turn loner0) loner_town0.
  Definition loner2 : stateless := Eval vm_compute in got no_iterator (turn loner1 loner_town1) id.
  Definition loner_town2 : heap := Eval vm_compute in after (turn loner1) loner_town1.
  (** the end of that run *)
  Definition loner_end : heap := Eval vm_compute in
    after (stateless_optimize loner_config [0%nat] [0; 3]%nat None) empty_heap.
End loner.

(** As [meter], with draws that take the last element. *)
Definition drawn : World.
Proof.
  refine (mk_world 1 Manhattan meter_trip town_vehicle (fun _ l => reverse l) _ (fun _ n => (n - 1)%nat) _ (fun _ _ _ => []) _ _).
  - intros; apply reverse_Permutation.
  - intros; lia.
  - intros ????? H; inversion H.
  - intros; constructor.
Defined.

Section drawn.
  #[local] Existing Instance drawn.
  Lemma drawn_sane : sane.
  Proof. split; intros [|[|[|t]]]; vm_compute; try split; congruence. Qed.

  (** routes 1 and 2 take vehicle 0 to trips 0 and 1, routes 4 and 5 take
      vehicle 1 to trips 3 and 2; all have been scored *)
  Definition drawn_town : heap := Eval vm_compute in after
    (let! r0 := new_route 0 in
     let! r1 := compute_one r0 0 0 1 in
     let! r2 := compute_one r0 1 0 1 in
     let! r3 := new_route 1 in
     let! r4 := compute_one r3 3 0 1 in
     let! r5 := compute_one r3 2 0 1 in
     mapM (scoring EarliestLastDeparture) [r1; r2; r4; r5]) empty_heap.
  Definition drawn_stops (r : nat) : list nat := stops_in drawn_town r.
  Definition drawn_visits (r : nat) : list visit := visits_of drawn_town r.
  Definition drawn_ranking (n : nat) : ranking :=
    MkRanking (MkIterator [0; 1]%nat [0; 1; 2; 3]%nat Tail true EarliestLastDeparture [(0, 0); (1, 3)]%nat (Some [0; 3]%nat) [0; 1; 2; 3]%nat)
      4 n [(1, [4; 5]); (0, [1; 2])]%nat.
  Definition drawn_score (r : nat) : Q :=
    match r with 1%nat => 10500 # 1 | 2%nat => 14500 # 1 | 4%nat => 24000 # 1 | _ => 28000 # 1 end.
End drawn.
