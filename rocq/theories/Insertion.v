(** Insertion strategies, iterators and algorithm:
    jinete/algorithms/heuristics/insertion/. *)
From Verif Require Export Objectives.

Section strategies.
  Context {W : World}.

  (** strategies/abc.py:94-98 *)
  Definition build_pickup (r t pi : nat) : M nat :=
    let! rc := route_get r in
    let! prev := py_nth (rt_stops rc) pi in
    new_stop (rt_vehicle rc) (origin_position (w_trip t)) (Some prev) None.
  (** strategies/abc.py:100-104 *)
  Definition build_delivery (r t pi fi pickup : nat) : M nat :=
    let! rc := route_get r in
    let! prev := if (pi + 1 =? fi)%nat then ret pickup else py_nth (rt_stops rc) (fi - 1) in
    new_stop (rt_vehicle rc) (destination_position (w_trip t)) (Some prev) None.

  (** [max(planned_trips, default=None, key=attrgetter("duration"))]
      (strategies/abc.py:80) *)
  Definition longest_ride (ps : list nat) : M (option nat) :=
    let! ps := set_order ps in
    let! ks := mapM pt_duration ps in
    ret (max_keyed Z.ltb (zip ks ps)).

  (** strategies/abc.py:78-87, the body of the loop for index [i] *)
  Definition delay_stop (r i : nat) : M unit :=
    let! ss := route_stops r in
    let! s := py_nth ss i in
    let! c := stop_get s in
    let! o := longest_ride (st_pickups c) in
    match o with
    | None => ret tt
    | Some p =>
        let! st := starting_time s in
        let! d := pt_duration p in
        let! pc := pt_get p in
        set_starting_time s (st + max_sub_lim d (tr_timeout (w_trip (pt_trip pc))) 0) ;;;
        let! ss' := route_stops r in
        iterM stop_flush (drop i ss')
    end.
  (** [for i in reversed(range(lo, n))] *)
  Fixpoint delay_loop (r lo n : nat) : M unit :=
    match n with
    | O => ret tt
    | S i => if (i <? lo)%nat then ret tt else delay_stop r i ;;; delay_loop r lo i
    end.
  (** strategies/abc.py:70-76 *)
  Definition shift_departure (r : nat) : M unit :=
    let! ss := route_stops r in
    let! s1 := py_nth ss 1 in
    let! w := waiting_time s1 in
    if w =? 0 then ret tt else
      let! s0 := py_nth ss 0 in
      let! w' := waiting_time s1 in
      set_starting_time s0 w' ;;;
      stop_flush s0 ;;; stop_flush s1.
  (** strategies/abc.py:70-92 *)
  Definition improve_ride_times (r idx : nat) : M unit :=
    shift_departure r ;;;
    let! b := route_feasible r in
    if b then ret tt else
      let! ss := route_stops r in
      delay_loop r (Nat.max idx 1) (length ss) ;;;
      route_flush r ;;;
      route_feasible r ;;;
      ret tt.

  (** strategies/abc.py:57-68 *)
  Definition compute_one (r t pi fi : nat) : M nat :=
    let! (r', threshold) := cloner_clone r (pi + 1) in
    let! pickup := build_pickup r' t pi in
    let! delivery := build_delivery r' t pi fi pickup in
    let! rc := route_get r' in
    let! p := new_planned_trip (rt_vehicle rc) t (Some pickup) (Some delivery) in
    append_planned_trip r' p ;;;
    improve_ride_times r' threshold ;;;
    ret r'.

  (** strategies/abc.py:35-55 for a sequence of trips *)
  Definition compute (only_feasible : bool) (r : nat) (ts : list nat) (pi fi : nat) : M (list nat) :=
    py_assert (pi <? fi)%nat ;;;
    let! l := mapM (fun t =>
        let! r' := compute_one r t pi fi in
        let! keep := if only_feasible then route_feasible r' else ret true in
        ret (if keep : bool then [r'] else [])) ts in
    ret (concat l).

  (** strategies/tail.py, intensive.py, sampling.py *)
  Inductive strategy : Type := Tail | Intensive | Sampling (count : nat).

  (** utils/random.py:28-44 with the random branch drawn from the world *)
  Definition sample_pairs (n count : nat) : M (list (nat * nat)) :=
    let! k := tick in
    ret (sample_index_pairs n count (w_sample k n count)).

  (** the index pairs explored by each strategy: tail.py:29-32,
      intensive.py:30-36, sampling.py:39-48 *)
  Definition strategy_pairs (st : strategy) (r : nat) : M (list (nat * nat)) :=
    let! ss := route_stops r in
    let n := length ss in
    match st with
    | Tail => ret [((n - 2)%nat, (n - 1)%nat)]
    | Intensive => ret (combinations2 (seq 0 n))
    | Sampling count => sample_pairs n count
    end.
  Definition strategy_compute (st : strategy) (only_feasible : bool) (r : nat) (ts : list nat)
      : M (list nat) :=
    let! ps := strategy_pairs st r in
    let! l := mapM (fun p : nat * nat => compute only_feasible r ts p.1 p.2) ps in
    ret (concat l).
End strategies.

(** ** Iterators (iterators/abc.py) *)
Record iterator : Type := MkIterator {
  it_fleet : list nat;                    (* fleet.vehicles *)
  it_job : list nat;                      (* job.trips *)
  it_strategy : strategy;
  it_only_feasible : bool;
  it_criterion : criterion;
  it_routes : list (nat * nat);           (* routes_container: vehicle -> route *)
  it_attractive : option (list nat);      (* __attractive_routes *)
  it_pending : list nat                   (* pending_trips *)
}.
Definition set_routes x i := MkIterator (it_fleet i) (it_job i) (it_strategy i)
  (it_only_feasible i) (it_criterion i) x (it_attractive i) (it_pending i).
Definition set_attractive x i := MkIterator (it_fleet i) (it_job i) (it_strategy i)
  (it_only_feasible i) (it_criterion i) (it_routes i) x (it_pending i).
Definition set_pending x i := MkIterator (it_fleet i) (it_job i) (it_strategy i)
  (it_only_feasible i) (it_criterion i) (it_routes i) (it_attractive i) x.

Section iterators.
  Context {W : World}.

  Definition routes_dict (rs : list nat) : M (list (nat * nat)) :=
    foldM (fun d r => let! c := route_get r in ret (dict_set (rt_vehicle c) r d)) [] rs.

  (** iterators/abc.py:50-87; [initial] is the [routes] argument *)
  Definition iterator_init (st : strategy) (of : bool) (k : criterion)
      (fleet job : list nat) (initial : option (list nat)) : M iterator :=
    match initial with
    | None =>
        let! vs := set_order fleet in
        let! rs := mapM new_route vs in
        let! rs' := set_order rs in
        let! d := routes_dict rs' in
        ret (MkIterator fleet job st of k d None job)
    | Some rs0 =>
        let! rs := deepcopy_routes rs0 in
        let! rs' := set_order rs in
        let! pend := foldM (fun acc r => let! ts := route_trips r in ret (set_diff acc ts)) job rs' in
        let! rs'' := set_order rs in
        let! d := routes_dict rs'' in
        ret (MkIterator fleet job st of k d None pend)
    end.

  (** iterators/abc.py:89-91 *)
  Definition it_route_set (i : iterator) : list nat := map snd (it_routes i).

  Fixpoint find_empty (rs : list nat) : M (option nat) :=
    match rs with
    | [] => ret None
    | r :: rs => let! b := route_loaded r in
                 if b then find_empty rs else ret (Some r)
    end.
  (** iterators/abc.py:93-102; returns the set and the updated iterator *)
  Definition attractive_routes (i : iterator) : M (list nat * iterator) :=
    let! base := match it_attractive i with
                 | Some l => ret l
                 | None => let! rs := set_order (it_route_set i) in filterM route_loaded rs
                 end in
    let! l := set_order base in
    let! some_loaded := anyM route_loaded l in
    if some_loaded then ret (base, set_attractive (Some base) i) else
      let! rs := set_order (it_route_set i) in
      let! e := find_empty rs in
      let base' := match e with Some r => set_add r base | None => base end in
      ret (base', set_attractive (Some base') i).

  (** iterators/abc.py:144-146: [set.remove] raises KeyError *)
  Definition mark_trip_as_done (i : iterator) (t : nat) : M iterator :=
    if memb t (it_pending i)
    then ret (set_pending (List.filter (fun x => negb (x =? t)%nat) (it_pending i)) i)
    else raise KeyError.
End iterators.

(** ** Ranking iterator (iterators/ranking.py) *)
Record ranking : Type := MkRanking {
  rk_it : iterator;
  rk_size : nat;                           (* neighborhood_max_size *)
  rk_random : nat;                         (* randomized_size *)
  rk_table : list (nat * list nat)         (* ranking: vehicle -> routes *)
}.
Definition set_rk_it x k := MkRanking x (rk_size k) (rk_random k) (rk_table k).
Definition set_rk_table x k := MkRanking (rk_it k) (rk_size k) (rk_random k) x.

Section ranking.
  Context {W : World}.

  (** ranking.py:67-75 *)
  Definition create_sub_ranking (k : ranking) (r : nat) : M (list nat) :=
    let i := rk_it k in
    let! pend := set_order (it_pending i) in
    let! raw := strategy_compute (it_strategy i) (it_only_feasible i) r (take (rk_size k) pend) in
    criterion_sorted (it_criterion i) raw.

  (** ranking.py:45-49 *)
  Definition initialize_ranking (k : ranking) : M ranking :=
    let! (attr, i') := attractive_routes (rk_it k) in
    let k := set_rk_it i' k in
    let! l := set_order attr in
    let! table := foldM (fun tb r =>
        let! c := route_get r in
        let! sub := create_sub_ranking k r in
        ret (dict_set (rt_vehicle c) sub tb)) (rk_table k) l in
    ret (set_rk_table table k).
  (** ranking.py:31-43; [None] as neighbourhood size means all trips *)
  Definition ranking_init (st : strategy) (of : bool) (crit : criterion) (fleet job : list nat)
      (initial : option (list nat)) (size : option nat) (random : nat) : M ranking :=
    let! i := iterator_init st of crit fleet job initial in
    let n := length job in
    let size := match size with None => n | Some s => Nat.min s n end in
    initialize_ranking (MkRanking i size random []).

  (** ranking.py:60-65 *)
  Definition update_vehicle_ranking (k : ranking) (p v : nat) : M ranking :=
    let! pc := pt_get p in
    match dict_get v (rk_table k) with
    | Some sub =>
        if (v =? pt_vehicle pc)%nat then
          match dict_get v (it_routes (rk_it k)) with
          | None => raise KeyError
          | Some r => let! sub' := create_sub_ranking k r in
                      ret (set_rk_table (dict_set v sub' (rk_table k)) k)
          end
        else
          let! sub' := filterM (fun r => let! ts := route_trips r in
                                         ret (negb (memb (pt_trip pc) ts))) sub in
          ret (set_rk_table (dict_set v sub' (rk_table k)) k)
    | None =>
        match dict_get v (it_routes (rk_it k)) with
        | None => raise KeyError
        | Some r => let! sub' := create_sub_ranking k r in
                    ret (set_rk_table (dict_set v sub' (rk_table k)) k)
        end
    end.
  (** ranking.py:55-58 *)
  Definition update_ranking (k : ranking) (p : nat) : M ranking :=
    let! (attr, i') := attractive_routes (rk_it k) in
    let! l := set_order attr in
    foldM (fun k r => let! c := route_get r in update_vehicle_ranking k p (rt_vehicle c))
          (set_rk_it i' k) l.
  (** ranking.py:51-53, iterators/abc.py:137-146 *)
  Definition ranking_mark (k : ranking) (p : nat) : M ranking :=
    let! pc := pt_get p in
    let! i' := mark_trip_as_done (rk_it k) (pt_trip pc) in
    update_ranking (set_rk_it i' k) p.
  (** iterators/abc.py:104-112 *)
  Definition ranking_set_route (k : ranking) (r : nat) : M ranking :=
    let! rc := route_get r in
    let i := rk_it k in
    match dict_get (rt_vehicle rc) (it_routes i) with
    | None => raise KeyError
    | Some old =>
        let! old_trips := route_trips old in
        let k := set_rk_it (set_routes (dict_set (rt_vehicle rc) r (it_routes i)) i) k in
        let! ps := planned_trips r in
        foldM (fun k p =>
            let! pc := pt_get p in
            if memb (pt_trip pc) old_trips then ret k else ranking_mark k p) k ps
    end.

  (** ranking.py:86-96: the inner loop over one sub-ranking *)
  Fixpoint candidates_loop (crit : criterion) (rs : nat) (cands sub : list nat) : M (list nat) :=
    match sub with
    | [] => ret cands
    | cur :: sub =>
        let! stop_here :=
          if (length cands =? rs)%nat then
            match last cands with
            | None => raise IndexError
            | Some c => let! b := criterion_best crit [c; cur] in
                        ret (bool_decide (b = Some c))
            end
          else ret false in
        if stop_here : bool then ret cands else
          let cands' := if (rs <=? length cands)%nat then removelast cands else cands in
          candidates_loop crit rs (cands' ++ [cur]) sub
    end.
  (** ranking.py:77-104; [None] is StopIteration *)
  Definition ranking_next (k : ranking) : M (option nat) :=
    match rk_table k with
    | [] => ret None
    | _ =>
        let! cands := foldM (fun cands sub =>
            match sub with
            | [] => ret cands
            | _ => let! cs := candidates_loop (it_criterion (rk_it k)) (rk_random k) cands sub in
                   criterion_sorted (it_criterion (rk_it k)) cs
            end) [] (map snd (rk_table k)) in
        match cands with
        | [] => ret None
        | _ => let! n := tick in
               let! b := py_nth cands (w_choice n (length cands)) in ret (Some b)
        end
    end.

  (** algorithm.py:46-49 *)
  Fixpoint ranking_loop (fuel : nat) (k : ranking) : M ranking :=
    match fuel with
    | O => raise Diverge
    | S fuel =>
        let! o := ranking_next k in
        match o with
        | None => ret k
        | Some r =>
            let! b := route_feasible r in
            if negb b then ret k else
              let! k' := ranking_set_route k r in ranking_loop fuel k'
        end
    end.

  (** constructor arguments of the insertion algorithm *)
  Record insertion_config : Type := MkInsertionConfig {
    ic_strategy : strategy;
    ic_only_feasible : bool;
    ic_criterion : criterion;
    ic_size : option nat;
    ic_random : nat
  }.
  (** algorithm.py:37-52 with [RankingInsertionIterator]; the fuel is shown to
      be sufficient in the proofs (never [Diverge]) *)
  Definition insertion_optimize (cfg : insertion_config) (fleet job : list nat)
      (initial : option planning) : M planning :=
    let! k := ranking_init (ic_strategy cfg) (ic_only_feasible cfg) (ic_criterion cfg) fleet job
                initial (ic_size cfg) (ic_random cfg) in
    let! k' := ranking_loop (S (length job)) k in
    ret (it_route_set (rk_it k')).
End ranking.

(** ** Stateless iterators (iterators/stateless.py) *)
Record stateless : Type := MkStateless {
  sl_it : iterator;
  (* the generator [iterator]: [None] before it is created or after flush();
     otherwise the pairs not yet visited and the routes not yet yielded *)
  sl_gen : option (list (nat * nat) * list nat)
}.

Section stateless.
  Context {W : World}.

  (** stateless.py:33-37, advanced until the next yield *)
  Definition gen_next (st : strategy) (of : bool) (pairs : list (nat * nat)) (buf : list nat)
      : M (option (nat * (list (nat * nat) * list nat))) :=
    match buf with
    | r :: buf => ret (Some (r, (pairs, buf)))
    | [] =>
        (fix go pairs :=
           match pairs with
           | [] => ret None
           | (r, t) :: pairs =>
               let! l := strategy_compute st of r [t] in
               match l with
               | x :: buf => ret (Some (x, (pairs, buf)))
               | [] => go pairs
               end
           end) pairs
    end.
  (** creation of the generator and [next(self.iterator)] (stateless.py:39-40);
      the pools of [itertools.product] are read when the generator starts *)
  Definition stateless_next (k : stateless) : M (option nat * stateless) :=
    let! (k, pairs, buf) :=
      match sl_gen k with
      | Some (pairs, buf) => ret (k, pairs, buf)
      | None =>
          let! (attr, i') := attractive_routes (sl_it k) in
          let! rs := set_order attr in
          let! ts := set_order (it_pending i') in
          ret (MkStateless i' None, product2 rs ts, [])
      end in
    let i := sl_it k in
    let! o := gen_next (it_strategy i) (it_only_feasible i) pairs buf in
    match o with
    | None => ret (None, MkStateless i (Some ([], [])))
    | Some (r, g) => ret (Some r, MkStateless i (Some g))
    end.
  (** stateless.py:42-48 and iterators/abc.py:104-112 *)
  Definition stateless_set_route (k : stateless) (r : nat) : M stateless :=
    let! rc := route_get r in
    let i := sl_it k in
    match dict_get (rt_vehicle rc) (it_routes i) with
    | None => raise KeyError
    | Some old =>
        let! old_trips := route_trips old in
        let k := MkStateless (set_routes (dict_set (rt_vehicle rc) r (it_routes i)) i) (sl_gen k) in
        let! ps := planned_trips r in
        foldM (fun k p =>
            let! pc := pt_get p in
            if memb (pt_trip pc) old_trips then ret k else
              let! i' := mark_trip_as_done (sl_it k) (pt_trip pc) in
              ret (MkStateless i' None)) k ps
    end.
  (** algorithm.py:43-52 *)
  Fixpoint stateless_loop (fuel : nat) (k : stateless) : M stateless :=
    match fuel with
    | O => raise Diverge
    | S fuel =>
        let! (o, k) := stateless_next k in
        match o with
        | None => ret k
        | Some r =>
            let! b := route_feasible r in
            if negb b then ret k else
              let! k' := stateless_set_route k r in stateless_loop fuel k'
        end
    end.
  Definition stateless_optimize (cfg : insertion_config) (fleet job : list nat)
      (initial : option planning) : M planning :=
    let! i := iterator_init (ic_strategy cfg) (ic_only_feasible cfg) (ic_criterion cfg)
                fleet job initial in
    let! k := stateless_loop (S (length job)) (MkStateless i None) in
    ret (it_route_set (sl_it k)).

  (** all that is left of the generator: [*self.iterator] (stateless.py:58) *)
  Definition gen_all (st : strategy) (of : bool) (pairs : list (nat * nat)) (buf : list nat)
      : M (list nat) :=
    let! ls := mapM (fun '(r, t) => strategy_compute st of r [t]) pairs in
    ret (buf ++ concat ls).
  (** the call [nbest(n, *args)] of stateless.py:58, where every candidate is a
      separate positional argument of [nbest(self, n, routes, inplace=False)]
      (criterions.py:49-50): [routes] is the first candidate, [inplace] the
      second, and any other number of candidates does not fit the signature *)
  Definition nbest_routes (args : list nat) : M nat :=
    match args with
    | [r] | [r; _] => ret r
    | _ => raise TypeError
    end.
  (** [heapq.nsmallest]/[heapq.nlargest] over that single [Route] (criterions.py:50,
      constants.py:73-77): iterating over it yields (name, value) tuples
      (routes.py:228-232), and the key function reads [tuple.feasible]; only
      with [n = 0] is no key ever computed *)
  Definition nbest_of_route (n r : nat) : M (list nat) :=
    let! _ := route_get r in
    if decide (n = 0%nat) then ret [] else raise AttributeError.
  (** stateless.py:57-64 *)
  Definition best_stateless_next (randomized : nat) (k : stateless) : M (option nat * stateless) :=
    let! (k, pairs, buf) :=
      match sl_gen k with
      | Some (pairs, buf) => ret (k, pairs, buf)
      | None =>
          let! (attr, i') := attractive_routes (sl_it k) in
          let! rs := set_order attr in
          let! ts := set_order (it_pending i') in
          ret (MkStateless i' None, product2 rs ts, [])
      end in
    let i := sl_it k in
    let! args := gen_all (it_strategy i) (it_only_feasible i) pairs buf in
    let! r := nbest_routes args in
    let! candidates := nbest_of_route randomized r in
    let k := MkStateless i (Some ([], [])) in
    match candidates with
    | [] => ret (None, k)
    | _ =>
        let! n := tick in
        let! best := py_nth candidates (w_choice n (length candidates)) in
        ret (Some best, k)
    end.
  (** algorithm.py:43-52 with [BestStatelessInsertionIterator] *)
  Fixpoint best_stateless_loop (fuel randomized : nat) (k : stateless) : M stateless :=
    match fuel with
    | O => raise Diverge
    | S fuel =>
        let! (o, k) := best_stateless_next randomized k in
        match o with
        | None => ret k
        | Some r =>
            let! b := route_feasible r in
            if negb b then ret k else
              let! k' := stateless_set_route k r in best_stateless_loop fuel randomized k'
        end
    end.
  Definition best_stateless_optimize (cfg : insertion_config) (fleet job : list nat)
      (initial : option planning) : M planning :=
    let! i := iterator_init (ic_strategy cfg) (ic_only_feasible cfg) (ic_criterion cfg)
                fleet job initial in
    let! k := best_stateless_loop (S (length job)) (ic_random cfg) (MkStateless i None) in
    ret (it_route_set (sl_it k)).
End stateless.
