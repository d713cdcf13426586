(** Concrete plannings for the theorems about whole plannings and reports. *)
From Verif Require Export SpecReport Witness ShiftTheorems.

Section fleet_day.
  #[local] Existing Instance town.
  (** copies of the routes of [planned_town], about which nothing was asked:
      vehicle 0 serves trips 3 and 0 (route 10), vehicle 1 nothing (route 11).
      Route 14: vehicle 1 serves trip 1, too late. *)
  Definition day_town : heap := Eval vm_compute in
    after (route_clone 5 0 ;;; route_clone 1 0 ;;;
           let! r := new_route 1 in let! r' := compute_one r 1 0 1 in
           route_clone r' 0) planned_town.
  Definition route_10 : list visit := Eval vm_compute in visits_of day_town 10.
  (** the same after route 10 was asked *)
  Definition asked_day : heap := Eval vm_compute in after (route_feasible 10) day_town.
End fleet_day.
