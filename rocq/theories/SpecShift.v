(** Vocabulary of the theorems about one-shift. *)
From Verif Require Export Searches.

Section shift.
  Context {W : World}.

  (** route [r] of vehicle [v] has stops linked one after the other, which stand
      for the visits [xs]; nothing is said about memoised values *)
  Definition visits_in_order (h : heap) (r v : nat) (xs : list visit) : Prop :=
    exists ids, (exists c, h_routes h !! r = Some c /\ rt_vehicle c = v /\ rt_stops c = ids) /\
      length ids = length xs /\
      forall i s x, ids !! i = Some s -> xs !! i = Some x -> exists c, h_stops h !! s = Some c /\
        st_vehicle c = v /\ st_previous c = before_at ids i /\ st_position c = vi_place x /\
        st_starting c = vi_request x /\ plans h (st_pickups c) (vi_board x) /\ plans h (st_deliveries c) (vi_alight x).
  (** two neighbouring visits after the first one change places; nobody boards
      at the one and alights at the other *)
  Definition passes (xs ys : list visit) : Prop :=
    exists X x y Y, X <> [] /\ xs = X ++ x :: y :: Y /\ ys = X ++ y :: x :: Y /\
      forall t, t ∈ vi_board x -> t ∉ vi_alight y.
  Inductive many_passes : list visit -> list visit -> Prop :=
  | no_pass xs : many_passes xs xs
  | one_pass_more xs ys zs : many_passes xs ys -> passes ys zs -> many_passes xs zs.
End shift.
