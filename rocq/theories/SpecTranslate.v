(** What the translation of a solution into routes should achieve. *)
From Verif Require Export SpecDarp Plannings Translate.

Section spec.
  Context {W : World}.
  (** no two pickups or deliveries, nor the origin of a vehicle, share a place *)
  Definition apart (vs ts : list nat) : Prop := forall v, v ∈ vs ->
    NoDup (v_origin_position v :: map (fun t => origin_position (w_trip t)) ts ++ map (fun t => destination_position (w_trip t)) ts).
  (** the routes [rs] stand for the tours, in the order of the vehicles, and
      have not been asked whether they are feasible *)
  Definition drives (h : heap) (vs rs : list nat) (tours : list (list visit)) : Prop :=
    length rs = length vs /\
    forall k r v xs, rs !! k = Some r -> vs !! k = Some v -> tours !! k = Some xs ->
      exists ids, on_tour h r v ids xs /\ unasked h r ids.
  (** every trip is served *)
  Definition serves_all (h : heap) (rs ts : list nat) : Prop := forall t, t ∈ ts ->
    exists r v B, r ∈ rs /\ route_serves h r v B /\ t ∈ B.
End spec.
