(** The planning whose routes are those of vehicles [v] with visits [xs], for the
    pairs of [l], written with doubles. *)
From Verif Require Export Values.
From Verif Require Export SpecBridge SpecTotals.

Section worth.
  Context {W : World}.
  (** the distances of its stops; the durations of the rides that begin at its stops *)
  Definition real_legs (p : nat * list visit) : list R := map ds_travel (real_stops (v_origin_position p.1) p.2).
  Definition real_durations (p : nat * list visit) : list (list R) :=
    map (fun x => map (fun t => real (unless_empty t (ride_time p.1 p.2 t))) (vi_board x)) p.2.
  (** route [r] of the heap has these visits *)
  Definition described (h : heap) (r : nat) (p : nat * list visit) : Prop := exists ids, well_formed h r p.1 ids p.2.
End worth.
