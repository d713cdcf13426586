(** Local search: jinete/algorithms/heuristics/local_search/. *)
From Verif Require Export Insertion.

Section local_search.
  Context {W : World}.

  (** strategies/abc.py:42-45, 49-53: both assertions for every route *)
  Definition check_routes (rs : planning) : M unit :=
    let! l := set_order rs in
    iterM (fun r => assert_linked r ;;; assert_monotone r) l.

  (** strategies/abc.py:61-66 *)
  Definition update_routes (rs overwritten : planning) : M planning :=
    match overwritten with
    | [] => ret rs
    | _ =>
        let! vs := mapM (fun r => let! c := route_get r in ret (rt_vehicle c)) overwritten in
        let! keep := filterM (fun r => let! c := route_get r in
                                       ret (negb (memb (rt_vehicle c) vs))) rs in
        ret (set_union keep overwritten)
    end.

  (** last component of an objective tuple, [x[-1]] *)
  Definition last_component (l : list Z) : M Z :=
    match last l with Some x => ret x | None => raise IndexError end.

  (** ** Reallocation (strategies/plannings/reallocation.py:16-54) *)
  Record realloc_state : Type := MkRealloc { ra_best : Z; ra_routes : list nat }.

  (** lines 40-52, for one index pair *)
  Definition realloc_insert (o : objective) (new_origin destination t : nat) (cost : Z)
      (st : realloc_state) (p : nat * nat) : M realloc_state :=
    let! ds := compute true destination [t] p.1 p.2 in
    match ds with
    | [] => ret st
    | d :: _ =>
        let! v := route_value o d in
        let! x := last_component v in
        let new_cost := cost + x in
        if negb (ra_best st <? new_cost) then ret st
        else ret (MkRealloc new_cost [new_origin; d])
    end.
  (** lines 30-52, for one trip *)
  Definition realloc_trip (o : objective) (origin destination : nat) (partial : Z)
      (st : realloc_state) (t : nat) : M realloc_state :=
    let! new_origin := route_clone origin 0 in
    remove_trip new_origin t ;;;
    route_flush new_origin ;;;
    let! b := route_feasible new_origin in
    if negb b then ret st else
      let! v := route_value o new_origin in
      let! x := last_component v in
      let! dss := route_stops destination in
      let! pairs := sample_pairs (length dss) 128 in
      foldM (realloc_insert o new_origin destination t (partial + x)) st pairs.
  (** lines 24-52, for one ordered pair of routes *)
  Definition realloc_pair (o : objective) (base : Z) (st : realloc_state) (p : nat * nat)
      : M realloc_state :=
    let! v1 := route_value o p.1 in
    let! x1 := last_component v1 in
    let! v2 := route_value o p.2 in
    let! x2 := last_component v2 in
    let! ts := route_trips p.1 in
    foldM (realloc_trip o p.1 p.2 (base - x1 - x2)) st ts.
  (** lines 19-54 *)
  Definition reallocation_improve (o : objective) (rs : planning) : M planning :=
    let! v := planning_value o rs in
    let! base := last_component v in
    let! order := set_order rs in
    let! st := foldM (realloc_pair o base) (MkRealloc base []) (permutations2 order) in
    update_routes rs (ra_routes st).

  (** ** One-shift (strategies/routes/one_shift.py) *)

  Definition list_swap {A} (i j : nat) (l : list A) : list A :=
    match l !! i, l !! j with
    | Some a, Some b => <[i := b]> (<[j := a]> l)
    | _, _ => l
    end.
  (** lines 38-52 *)
  Definition flip (r previous other : nat) (following : option nat) : M unit :=
    match following with
    | None => ret tt
    | Some f => let! c := stop_get f in py_assert (bool_decide (st_previous c = Some other))
    end ;;;
    let! oc := stop_get other in
    py_assert (bool_decide (st_previous oc = Some previous)) ;;;
    let! ss := route_stops r in
    match index_of other ss, index_of previous ss with
    | Some si, Some oi =>
        route_upd r (set_route_stops (list_swap si oi ss)) ;;;
        match following with
        | None => ret tt
        | Some f => stop_upd f (set_previous (Some previous))
        end ;;;
        let! pc := stop_get previous in
        stop_upd other (set_previous (st_previous pc)) ;;;
        stop_upd previous (set_previous (Some other)) ;;;
        let! ss' := route_stops r in
        iterM stop_flush (drop si ss')
    | _, _ => raise ValueError
    end.
  (** lines 20-36: one index; the cost is the tuple computed before *)
  Definition one_shift_step (o : objective) (r : nat) (cost : list Z) (i : nat) : M (list Z) :=
    let! ss := route_stops r in
    let! first := py_nth ss i in
    let! second := py_nth ss (S i) in
    let third := ss !! S (S i) in
    let! fc := stop_get first in
    let! sc := stop_get second in
    if negb (bool_decide (set_diff (st_pickups fc) (st_deliveries sc) = st_pickups fc)) then ret cost
    else
      flip r first second third ;;;
      let! b := route_feasible r in
      let! undo := if negb b then ret true else
                     let! v := route_value o r in
                     (* [cost == best(cost, route)]: max keeps the first on ties *)
                     ret (negb (tuple_ltb cost v)) in
      if undo : bool then flip r second first third ;;; ret cost
      else route_value o r.
  (** lines 17-36 *)
  Definition one_shift_route (o : objective) (r : nat) : M unit :=
    let! cost := route_value o r in
    let! ss := route_stops r in
    foldM (one_shift_step o r) cost (seq 1 (length ss - 2)) ;;; ret tt.
  Definition one_shift_improve (o : objective) (rs : planning) : M planning :=
    let! order := set_order rs in
    iterM (one_shift_route o) order ;;; ret rs.

  (** ** 2-opt (strategies/routes/two_opt.py:15-59) *)

  (** lines 25-31: a delivery of the segment whose pickup is in the segment *)
  Definition segment_conflict (seg : list nat) : M bool :=
    let! ds := mapM (fun s => let! c := stop_get s in ret (st_deliveries c)) seg in
    let! ps := mapM (fun s => let! c := stop_get s in ret (st_pickups c)) seg in
    ret (existsb (fun d => memb d (concat ps)) (concat ds)).
  (** lines 40-46: re-insert a stop at the end of the route *)
  Definition reinsert (r s : nat) : M unit :=
    let! cur := current_stop r in
    stop_upd s (set_previous (Some cur)) ;;;
    insert_stop r s ;;; ret tt.
  (** lines 23-57, for one pair (i, k); the state is (cost, overwritten) *)
  Definition two_opt_step (o : objective) (r : nat) (st : list Z * list nat) (ik : nat * nat)
      : M (list Z * list nat) :=
    let i := ik.1 in
    let j := S ik.2 in
    let! ss := route_stops r in
    let! conflict := segment_conflict (take (S j - i) (drop i ss)) in
    if conflict : bool then ret st else
      let! r' := route_clone r (i - 1) in
      let! ss' := route_stops r' in
      let! old := mapM (fun _ => remove_stop_at r' i) (seq i (length ss' - 1 - i)) in
      let threshold := (S j - i)%nat in
      iterM (reinsert r') (reverse (take threshold old)) ;;;
      iterM (reinsert r') (drop threshold old) ;;;
      let! b := route_feasible r' in
      if negb b then ret st else
        let! v := route_value o r' in
        if negb (tuple_ltb st.1 v) then ret st else ret (v, set_add r' st.2).
  (** lines 19-57, for one route *)
  Definition two_opt_route (o : objective) (overwritten : list nat) (r : nat) : M (list nat) :=
    let! cost := route_value o r in
    let! ss := route_stops r in
    let! st := foldM (two_opt_step o r) (cost, overwritten)
                 (combinations2 (seq 1 (length ss - 2))) in
    ret st.2.
  Definition two_opt_improve (o : objective) (rs : planning) : M planning :=
    let! order := set_order rs in
    let! overwritten := foldM (two_opt_route o) [] order in
    update_routes rs overwritten.

  Inductive ls_strategy : Type := Reallocation | OneShift | TwoOpt.
  Definition ls_improve_raw (s : ls_strategy) : objective -> planning -> M planning :=
    match s with
    | Reallocation => reallocation_improve
    | OneShift => one_shift_improve
    | TwoOpt => two_opt_improve
    end.
  (** strategies/abc.py:22-26 (with_copy=True) and 40-55 *)
  Definition ls_improve (s : ls_strategy) (o : objective) (rs : planning) : M planning :=
    let! rs := deepcopy_routes rs in
    check_routes rs ;;;
    let! rs' := ls_improve_raw s o rs in
    check_routes rs' ;;;
    ret rs'.

  (** local_search/algorithm.py:58-73; [fuel] bounds the rounds *)
  Fixpoint ls_loop (fuel : nat) (s : ls_strategy) (o : objective) (threshold count : nat)
      (best : planning) : M planning :=
    if (count <? threshold)%nat then
      match fuel with
      | O => raise Diverge
      | S fuel =>
          let! current := ls_improve s o best in
          let! b := objective_best o [best; current] in
          match b with
          | Some 1%nat => ls_loop fuel s o threshold 0 current
          | _ => ls_loop fuel s o threshold (S count) best
          end
      end
    else ret best.
  Definition local_search_optimize (fuel : nat) (s : ls_strategy) (o : objective)
      (threshold : nat) (initial : planning) : M planning :=
    ls_loop fuel s o threshold 0 initial.
End local_search.
