"""Wrong programs to try the theorems on: realistic bugs as edits of the model.

definition: the definition edited; edit: what is changed; claims: the
properties whose English claim the edit breaks (at least), with the reason.
"""
MUTATIONS = {}
def m(name, file, definition, old, new, edit, claims, why, count=1):
    MUTATIONS[name] = dict(file=file, definition=definition, old=old, new=new, edit=edit,
                           claims=claims, why=why, count=count)

# --- stops
m('stop_earliest_ignores_deliveries', 'Heap', 'stop_earliest',
  'ret (py_max 0 (map (fun t => origin_earliest (w_trip t)) ps ++\n                   map (fun t => destination_earliest (w_trip t)) ds)).',
  'ret (py_max 0 (map (fun t => origin_earliest (w_trip t)) ps)).',
  'the earliest time of a stop ignores the deliveries', ['C01'], 'services would start before the delivery window')
m('load_time_sum_of_first', 'Heap', 'stop_load_time',
  'ret (py_max 0 (map (fun t => origin_duration (w_trip t)) ps ++\n                   map (fun t => destination_duration (w_trip t)) ds)).',
  'ret (py_max 0 (map (fun t => origin_duration (w_trip t)) ps ++\n                   map (fun t => origin_duration (w_trip t)) ds)).',
  'deliveries take the duration of the pickup', ['C01'], 'departure times differ from the recurrence')
m('starting_ignores_request', 'Heap', 'starting_with',
  'ret (Z.max (Z.max value e) a).', 'ret (Z.max e a).',
  'the requested starting time is ignored', ['C01', 'C04'], 'a delayed start would not be reflected')
m('starting_not_after_arrival', 'Heap', 'starting_with',
  'ret (Z.max (Z.max value e) a).', 'ret (Z.max value e).',
  'a service may start before the arrival', ['C01', 'C02'], 'time runs backwards')
m('arrival_not_cached_right', 'Heap', 'arrival_with',
  'stop_upd s (cache_arrival (Some a)) ;;; ret a', 'stop_upd s (cache_arrival (Some pd)) ;;; ret a',
  'the arrival memoised leaves out the travel time', ['C01'], 'the second read differs from the first')
m('flush_keeps_departure', 'Heap', 'clear_caches (Stop.flush)',
  '(st_previous c) (st_starting c) None None None (st_feasible c)', '(st_previous c) (st_starting c) None (st_departure c) None (st_feasible c)',
  'flush keeps the memoised departure time', ['C04', 'C11'], 'stale departure times after an insertion')
m('capacity_ignores_deliveries', 'Heap', 'capacity_fuel',
  '\n                          - zsum (map (fun t => tr_capacity (w_trip t)) ds) in', ' in',
  'deliveries do not free capacity', ['C01', 'C03'], 'load is not that of the trips on board')
m('stop_feasible_ignores_capacity', 'Heap', 'stop_feasible',
  'if negb (lim_ge cap (lim_add (v_capacity (st_vehicle c)) eb)) then ret false else\n          ret true in', 'ret true in',
  'the capacity of the vehicle is not checked', ['C05'], 'overloaded routes are feasible')
m('stop_feasible_no_latest', 'Heap', 'stop_feasible',
  'if negb (lim_ge st2 (lim_add l eb)) then ret false else\n', '',
  'the latest start of a service is not checked', ['C05'], 'late routes are feasible')
m('pt_feasible_no_timeout', 'Heap', 'pt_is_feasible',
  'if negb (lim_ge du (lim_add (tr_timeout (w_trip (pt_trip c))) eb)) then ret false else\n', '',
  'the ride time of a passenger is not limited', ['C05'], 'long rides are feasible')
m('pt_feasible_ignores_delivery', 'Heap', 'pt_is_feasible',
  'if negb fd then ret false else\n', '',
  'the delivery stop of a ride is not checked', ['C05'], 'late deliveries are feasible')
# --- routes
m('route_feasible_no_timeout', 'Routes', 'route_feasible',
  'if negb (lim_ge du (lim_add (v_timeout v) eb)) then ret false else\n', '',
  'the timeout of the vehicle is not checked', ['C05', 'C50'], 'overlong routes are feasible')
m('route_feasible_no_latest', 'Routes', 'route_feasible',
  'if negb (lim_ge ld (lim_add (v_destination_latest v) eb)) then ret false else\n', '',
  'the return time of the vehicle is not checked', ['C05', 'C50'], 'late returns are feasible')
m('route_feasible_strict_timeout', 'Routes', 'route_feasible',
  'if negb (lim_ge du (lim_add (v_timeout v) eb)) then', 'if negb (lim_ge du (lim_add (v_timeout v) (- eb))) then',
  'the timeout of the vehicle is checked with the tolerance subtracted', ['C05'], 'feasible routes are refused')
m('insert_stop_at_end', 'Routes', 'insert_stop',
  '| Some i => insert_stop_at r (S i) s', '| Some i => insert_stop_at r i s',
  'the stop is inserted before its predecessor', ['C07', 'C11'], 'wrong place')
m('insert_no_flush', 'Routes', 'insert_stop_at',
  '    iterM stop_flush (drop i ss\') ;;;\n    ret (default s (last ss\')).', '    ret (default s (last ss\')).',
  'the memoised values of the later stops are kept', ['C07', 'C11'], 'stale times and loads')
m('insert_no_relink', 'Routes', 'insert_stop_at',
  '    stop_upd following (set_previous (Some s)) ;;;\n', '',
  'the following stop is not relinked', ['C07', 'C11'], 'broken chain')
m('remove_relinks_to_removed', 'Routes', 'remove_stop_at',
  '    stop_upd following (set_previous (Some previous)) ;;;\n', '',
  'the following stop keeps pointing to the removed one', ['C09', 'C12'], 'broken chain')
m('remove_trip_only_pickup', 'Routes', 'stop_has_trip',
  'let! ts := trips_of (st_pickups c ++ st_deliveries c) in\n    ret (memb t ts).', 'let! ts := trips_of (st_pickups c) in\n    ret (memb t ts).',
  'only the pickup stop of the trip is removed', ['C12'], 'the delivery stays behind')
m('clone_shares_planned_trips', 'Routes', 'clone_stop',
  'let! ps := mapM (map_planned mapper (set_pickup (Some n))) (st_pickups c) in\n    stop_upd n (set_pickups ps) ;;;',
  'let! ps := mapM (map_planned mapper (set_pickup (Some s))) (st_pickups c) in\n    stop_upd n (set_pickups ps) ;;;',
  'the copied ride points to the pickup stop of the original', ['C13'], 'the clone is not a well-formed route')
m('clone_drops_start', 'Routes', 'clone_stop',
  'let! n := new_stop (st_vehicle c) (st_position c) (last cloned) (st_starting c) in', 'let! n := new_stop (st_vehicle c) (st_position c) (last cloned) None in',
  'the requested start time is not copied', ['C13'], 'the clone has another schedule')
m('clone_first_link', 'Routes', 'clone_stop',
  'let! n := new_stop (st_vehicle c) (st_position c) (last cloned) (st_starting c) in', 'let! n := new_stop (st_vehicle c) (st_position c) (st_previous c) (st_starting c) in',
  'the copies are linked to the stops of the original', ['C13'], 'edits of the clone would not propagate')
m('cloner_idx_one', 'Routes', 'cloner_init',
  'let idx := (if decide (idx = 1%nat) then 0 else idx)%nat in\n', '',
  'the first stop may be shared when the clone starts at 1', ['C13', 'C15'], 'insertion would write to the shared first stop')
m('deepcopy_keeps_flag', 'Routes', 'deepcopy_routes',
  '(map (fun s => a + s)%nat (rt_stops c)) None)) rs.', '(rt_stops c) None)) rs.',
  'the copy of a route shares its stops', ['C27', 'C19'], 'local search would change the initial result')
# --- utilities
m('remove_duplicates_last', 'Utils', 'remove_duplicates_from',
  'if existsb (eqb x) seen then remove_duplicates_from seen l', 'if existsb (eqb x) l then remove_duplicates_from seen l',
  'the last occurrence is kept instead of the first', ['C44'], 'order')
m('ncr_off', 'Utils', 'sample_index_pairs',
  'if ncr (Z.of_nat n) 2 <=? Z.of_nat count', 'if ncr (Z.of_nat n) 2 <? Z.of_nat count',
  'sampling although exactly all pairs were asked for', [], 'harmless: the random branch then draws all pairs; checks that the proofs do not rely on more than the claim')
m('combinations_all', 'Prelude', 'combinations2',
  '| x :: l => map (fun y => (x, y)) l ++ combinations2 l', '| x :: l => map (fun y => (x, y)) (x :: l) ++ combinations2 l',
  'combinations_with_replacement', ['C16'], 'pairs with equal indices')
m('max_last', 'Prelude', 'max_from',
  '| x :: l => max_from (if lt best.1 x.1 then x else best) l', '| x :: l => max_from (if lt x.1 best.1 then best else x) l',
  'max keeps the last of equal elements', ['C24', 'C27'], 'ties')
# --- objectives
m('dial_counts_twice', 'Objectives', 'route_value',
  'ret [Z.of_nat (length ts); - d]', 'ret [Z.of_nat (length ts); d]',
  'distance is rewarded', ['C25'], 'wrong sign')
m('hashcode_bonus_always', 'Objectives', 'planned_trip_value',
  'ret [trip_distance t + (if origin_earliest t =? s then tr_bonus t else 0)]', 'ret [trip_distance t + (if origin_earliest t <=? s then tr_bonus t else 0)]',
  'late rides get the bonus', ['C26'], 'score')
m('scoring_min_infeasible', 'Objectives', 'scoring',
  'match criterion_direction k with Minimization => SPInf | Maximization => SNInf end', 'SPInf',
  'infeasible routes score best for maximizing criteria', ['C24'], 'order')
m('dir_best_swapped', 'Objectives', 'dir_best',
  'match d with Maximization => max_keyed lt l | Minimization => min_keyed lt l end', 'match d with Maximization => min_keyed lt l | Minimization => max_keyed lt l end',
  'directions exchanged', ['C24', 'C22'], 'worst instead of best')
m('coverage_counts_empty', 'Objectives', 'completed_trips',
  'let! ts := route_loaded_trips r in\n                        ret (set_union acc (remove_duplicates Nat.eqb ts))', 'let! ts := route_loaded_trips r in\n                        ret (acc ++ ts)',
  'a trip served twice counts twice', ['C46'], 'coverage above 1')
# --- insertion
m('build_delivery_off', 'Insertion', 'build_delivery',
  'else py_nth (rt_stops rc) (fi - 1) in', 'else py_nth (rt_stops rc) fi in',
  'the delivery is placed one stop too late', ['C14'], 'wrong place')
m('compute_ignores_flag', 'Insertion', 'compute',
  'let! keep := if only_feasible then route_feasible r\' else ret true in', 'let! keep := ret true in',
  'infeasible candidates are reported', ['C06'], 'candidates')
m('delay_loop_all', 'Insertion', 'improve_ride_times',
  'delay_loop r (Nat.max idx 1) (length ss) ;;;', 'delay_loop r 0 (length ss) ;;;',
  'shared stops are delayed as well', ['C15'], 'the base route changes')
m('tail_first', 'Insertion', 'strategy_pairs',
  'ret [((n - 2)%nat, (n - 1)%nat)]', 'ret [(0%nat, (n - 1)%nat)]',
  'the tail strategy picks up at the start', ['C16', 'C14'], 'wrong place')
m('mark_keeps_pending', 'Insertion', 'mark_trip_as_done',
  'then ret (set_pending (List.filter (fun x => negb (x =? t)%nat) (it_pending i)) i)', 'then ret i',
  'served trips stay pending', ['C17', 'C18'], 'trips served twice')
m('pending_not_initialised', 'Insertion', 'iterator_init',
  'ret (MkIterator fleet job st of k d None pend)', 'ret (MkIterator fleet job st of k d None job)',
  'a warm start forgets the trips already planned', ['C19'], 'served twice')
m('ranking_ignores_feasible', 'Insertion', 'ranking_loop',
  'if negb b then ret k else\n              let! k\' := ranking_set_route k r in ranking_loop fuel k\'', 'let! k\' := ranking_set_route k r in ranking_loop fuel k\'',
  'infeasible routes are accepted', ['C33'], 'an infeasible planning is returned')
m('candidates_no_sort', 'Insertion', 'ranking_next',
  'criterion_sorted (it_criterion (rk_it k)) cs', 'ret cs',
  'the candidates of several vehicles are not sorted', ['C23'], 'not the k best')
m('update_keeps_other_vehicles', 'Insertion', 'update_vehicle_ranking',
  'ret (negb (memb (pt_trip pc) ts))) sub in', 'ret true) sub in',
  'candidates of other vehicles with the accepted trip stay', ['C17'], 'trips served twice')
# --- local search
m('realloc_accepts_worse', 'LocalSearch', 'realloc_insert',
  'if negb (ra_best st <? new_cost) then ret st', 'if negb (new_cost <? ra_best st) then ret st',
  'worse reallocations are accepted', ['C27'], 'hidden by the comparison of the algorithm; the theorem is about the algorithm')
m('update_routes_keeps_old', 'LocalSearch', 'update_routes',
  'ret (set_union keep overwritten)', 'ret (set_union rs overwritten)',
  'replaced routes stay in the planning', ['C28'], 'two routes per vehicle')
m('flip_no_following', 'LocalSearch', 'flip',
  '        | Some f => stop_upd f (set_previous (Some previous))\n', '        | Some f => ret tt\n',
  'the stop after the swapped ones is not relinked', ['C30', 'C29'], 'broken chain')
m('ls_loop_takes_worse', 'LocalSearch', 'ls_loop',
  '| _ => ls_loop fuel s o threshold (S count) best', '| _ => ls_loop fuel s o threshold (S count) current',
  'the search continues from a worse planning', ['C27'], 'worse result')
m('ls_loop_never_counts', 'LocalSearch', 'ls_loop',
  '| _ => ls_loop fuel s o threshold (S count) best', '| _ => ls_loop fuel s o threshold count best',
  'rounds without improvement are not counted', ['C33'], 'never ends')
# --- meta
m('iterative_last', 'Meta', 'iterative_loop',
  'ret (Some (match w with Some 1%nat => current | _ => b end))', 'ret (Some current)',
  'the last episode is returned', ['C31'], 'not the best')
m('sequential_no_chain', 'Meta', 'sequential_loop',
  'let! pl := optimize o (a current) in\n        sequential_loop o algs (Some pl)', 'let! pl := optimize o (a current) in\n        sequential_loop o algs current',
  'every stage starts from the initial result', ['C32'], 'not chained')
m('iterative_restart_inverted', 'Meta', 'iterative_loop',
  'if restart then init else Some b', 'if restart then Some b else init',
  'restart mode inverted', ['C31'], 'start of the episodes')
# --- data
m('cache_key_swapped', 'Surface', 'surface_distance',
  'store_row (po_coords a) (cd_set (po_coords b) d row) ;;;', 'store_row (po_coords a) (cd_set (po_coords a) d row) ;;;',
  'distances are stored under the wrong key', ['C34'], 'later answers are wrong')
m('positions_duplicated', 'Surface', 'get_or_create_position',
  '(if has_position (po_coords p) s then ret tt\n   else fun s =>', '(if false then ret tt\n   else fun s =>',
  'positions are added again', ['C35'], 'duplicates')
m('cordeau_delivery_row', 'Loaders', 'cordeau_trip',
  'let! destination_row := py_nth d (origin_idx + n) in', 'let! destination_row := py_nth d (origin_idx + n - 1) in',
  'off by one in the delivery row', ['C37'], 'wrong delivery')
m('cordeau_no_assert', 'Loaders', 'cordeau_trip',
  '  py_assert (Z.eqb q (- q\')) ;;;\n', '',
  'mismatched loads are accepted', ['C37'], 'no AssertionError')
m('hashcode_latest_dropped', 'Loaders', 'hashcode_fleet',
  'let origin := Service (po_coords p) 0 (Lim latest) 0 in\n  ret (map (fun idx => Vehicle', 'let origin := Service (po_coords p) 0 Inf 0 in\n  ret (map (fun idx => Vehicle',
  'vehicles need not be back by step T', ['C39'], 'fleet')
m('hashcode_large_vehicles', 'Loaders', 'hashcode_fleet',
  'Vehicle (pretty idx) origin None (Lim (unit_of e)) Inf)', 'Vehicle (pretty idx) origin None (Lim (3 * unit_of e)) Inf)',
  'vehicles of HashCode files hold three rides at a time', ['C39', 'C75'], 'rides overlap and cannot be driven one after the other')
m('hashcode_light_trips', 'Loaders', 'hashcode_trip',
  'ret (Trip identifier origin destination (unit_of e) bonus Inf)', 'ret (Trip identifier origin destination 1 bonus Inf)',
  'rides of HashCode files weigh one tick', ['C39', 'C75'], 'rides overlap and cannot be driven one after the other')
m('hashcode_euclidean', 'Loaders', 'hashcode_surface',
  'new_surface Manhattan', 'new_surface Euclidean',
  'HashCode files are planned with straight-line distances', ['C75'], 'the rides cannot be reached along the blocks in time')
m('trip_origin_latest', 'World', 'origin_latest',
  '(- sv_duration (tr_destination t) - svc_dist (tr_origin t) (tr_destination t)))', '(- sv_duration (tr_origin t) - svc_dist (tr_origin t) (tr_destination t)))',
  'the latest pickup subtracts the duration of the pickup', ['C36'], 'the tightened window would then be exact up to the pickup; the refutation and the partial claims change')
m('destination_earliest_no_travel', 'World', 'destination_earliest',
  '(sv_earliest (tr_origin t) + sv_duration (tr_origin t)\n             + svc_dist (tr_origin t) (tr_destination t))', '(sv_earliest (tr_origin t) + sv_duration (tr_origin t)\n             + sv_duration (tr_destination t) + svc_dist (tr_origin t) (tr_destination t))',
  'the earliest delivery adds its own duration', ['C36'], 'valid services are excluded')
# --- storers
m('hashcode_unsorted', 'Storers', 'hashcode_format',
  'ret (String.concat newline (sort_strings lines)).', 'ret (String.concat newline lines).',
  'lines are not sorted', ['C40'], 'order')
m('hashcode_count_planned', 'Storers', 'hashcode_route_str',
  'ret (pretty (length ts) +:+ " " +:+ trips_str).', 'ret (pretty (S (length ts)) +:+ " " +:+ trips_str).',
  'the number of trips is off by one', ['C40'], 'count')
m('file_appends', 'Storers', 'open_for_writing',
  'then (Ok tt, FileState (Some EmptyString) true (fs_formatted f) (fs_rest f))', 'then (Ok tt, FileState (fs_content f) true (fs_formatted f) (fs_rest f))',
  'the file is opened for appending', ['C41'], 'the refutation and the success claim')
m('storer_set_builds_all_first', 'Storers', 'storer_set_store',
  'iterM (fun c => observed (Constructed c x) ;;; observed (Stored c x)) order.', 'iterM (fun c => observed (Constructed c x)) order ;;; iterM (fun c => observed (Stored c x) ;;; observed (Stored c x)) order.',
  'every storer is run twice', ['C42'], 'once')
# --- solver
m('solver_stores_before', 'Solver', 'dispatch',
  '    perform_call (Ask TheStorer storer "store") ;;;\n    ret result.', '    perform_call (Ask TheStorer storer "store").',
  'the value of store is returned instead of the result', ['C43'], 'result')
m('solver_optimizes_twice', 'Solver', 'dispatch',
  'let! result := perform_call (Ask TheAlgorithm algorithm "optimize") in\n', 'let! _ := perform_call (Ask TheAlgorithm algorithm "optimize") in\n    let! result := perform_call (Ask TheAlgorithm algorithm "optimize") in\n',
  'the algorithm runs twice', ['C43'], 'once')
m('solver_merges_keywords', 'Solver', 'build',
  'if clash given mine then raise TypeError else perform_call', 'if false then raise TypeError else perform_call',
  'keywords given twice are merged', ['C43'], 'no TypeError')
# --- equality
m('service_hash_no_duration', 'Equality', 'hash_service',
  ';\n       hs_tuple H [hs_string H "duration"; hash_number (Lim (sv_duration s))]].', '].',
  'the duration is not part of the hash', ['C45'], 'services with different durations are equal')
# --- milp
m('milp_index_plain', 'Milp', 'trip_by_position_idx',
  '(Z.of_nat idx mod Z.of_nat trip_count - 1)', '(Z.of_nat idx mod Z.of_nat trip_count)',
  'index not shifted', ['C48'], 'wrong trip')
m('milp_capacity_sign', 'Milp', 'capacity_by_position_idx',
  'if (2 * idx <? node_count)%nat then', 'if (2 * idx <=? node_count)%nat then',
  'the first delivery counts as a pickup', ['C48'], 'sign at node n+1')
m('milp_round', 'Milp', 'py_trunc',
  'Definition py_trunc (x : Q) : Z := Z.quot (Qnum x) (Zpos (Qden x)).', 'Definition py_trunc (x : Q) : Z := Z.quot (2 * Qnum x + Zpos (Qden x)) (2 * Zpos (Qden x)).',
  'the fixed program: rounds to the nearest integer', ['C49'], 'the refutation must fail')

# --- 2-opt and one-shift
m('two_opt_no_conflict_check', 'LocalSearch', 'two_opt_step',
  'if conflict : bool then ret st else\n', 'if false && conflict : bool then ret st else\n',
  'segments with a trip inside are reversed, too', ['C28'], 'passengers would alight before boarding')
m('two_opt_not_reversed', 'LocalSearch', 'two_opt_step',
  "iterM (reinsert r') (reverse (take threshold old)) ;;;", "iterM (reinsert r') (take threshold old) ;;;",
  'the segment is put back in its old order', ['C28'], 'no stretch is driven in reverse')
m('two_opt_accepts_equal', 'LocalSearch', 'two_opt_step',
  "if negb (tuple_ltb st.1 v) then ret st else ret (v, set_add r' st.2).", "if tuple_ltb v st.1 then ret st else ret (v, set_add r' st.2).",
  'reversals that gain nothing are adopted', ['C28', 'C62'], 'routes that are not better; the search could go on for ever')
m('two_opt_skips_feasible', 'LocalSearch', 'two_opt_step',
  "let! b := route_feasible r' in\n      if negb b then ret st else\n        let! v", "let! b := route_feasible r' in\n        let! v",
  'reversals are adopted whether feasible or not', ['C28'], 'routes that break the constraints')
m('two_opt_drops_tail', 'LocalSearch', 'two_opt_step',
  "      iterM (reinsert r') (drop threshold old) ;;;\n", '',
  'the visits after the segment are lost', ['C28'], 'passengers are lost')
m('one_shift_no_conflict_check', 'LocalSearch', 'one_shift_step',
  'if negb (bool_decide (set_diff (st_pickups fc) (st_deliveries sc) = st_pickups fc)) then ret cost\n    else', 'if false then ret cost\n    else',
  'neighbours are exchanged although a passenger boards at one and alights at the other', ['C29'], 'alighting before boarding')
m('one_shift_no_undo', 'LocalSearch', 'one_shift_step',
  'if undo : bool then flip r second first third ;;; ret cost', 'if undo : bool then ret cost',
  'a rejected exchange is not undone', ['C29'], 'none of the proved claims: the order is still reached by exchanging neighbours')
m('flip_keeps_own_link', 'LocalSearch', 'flip',
  '        stop_upd previous (set_previous (Some other)) ;;;\n', '',
  'the stop moved back is not linked to its new predecessor', ['C29', 'C30'], 'the chain is broken')
m('one_shift_from_first', 'LocalSearch', 'one_shift_route',
  'foldM (one_shift_step o r) cost (seq 1 (length ss - 2)) ;;; ret tt.', 'foldM (one_shift_step o r) cost (seq 0 (length ss - 1)) ;;; ret tt.',
  'the first stop takes part in the exchanges', ['C29'], 'the route does not begin at the depot')
# --- totals
m('transit_counts_stops', 'Accounts', 'route_waiting_time',
  'let! ss := route_stops r in\n    let! l := mapM waiting_time ss', 'let! ss := route_stops r in\n    let! l := mapM waiting_time (tail ss)',
  'the first stop is left out of the waiting time', ['C56'], 'total waiting')
m('transit_time_of_stops', 'Accounts', 'route_transit_time',
  'mapM pt_duration ps', 'mapM pt_transit_time ps',
  'loading is left out of the transit time', ['C56'], 'total')
# --- the mixed integer model
m('model_unserved_allowed', 'MilpModel', 'uniqueness_constraints',
  'Qeq_bool (qsum (map (fun \'(j, k) => x k i j) (product2 positions_indexer routes_indexer))) 1 ::', 'Qle_bool (qsum (map (fun \'(j, k) => x k i j) (product2 positions_indexer routes_indexer))) 1 ::',
  'pickups may be left out', ['C51'], 'solutions that do not serve every trip')
m('model_no_flow', 'MilpModel', 'connectivity_constraints',
  'qsum (map (fun j => x k i j) positions_indexer)) 0) nodes_indexer ++', 'qsum (map (fun j => x k i j) positions_indexer)) 0) pickups_indexer ++',
  'vehicles may vanish at deliveries', ['C51'], 'solutions that are no tours')
m('model_no_service_time', 'MilpModel', 'arc_constraints',
  'let time := conditional (odd k i j) (u k j) (u k i + load_time_i + travel_time)', 'let time := conditional (odd k i j) (u k j) (u k i + travel_time)',
  'services take no time', ['C51'], 'too early arrivals')
m('model_no_ride_limit', 'MilpModel', 'ride_constraints',
  'Ok [travel_time <=? ride; lim_ge ride timeout])).', 'Ok [travel_time <=? ride])).',
  'the longest ride is not limited', ['C51'], 'rides longer than the limit')
m('model_load_without_trip', 'MilpModel', 'load_constraints',
  'lim_ge (w k i) (lim_add (v_capacity (nth k vs 0%nat)) (Z.min 0 capacity))]).', 'lim_ge (w k i) (v_capacity (nth k vs 0%nat))]).',
  'the bound on the load ignores the passengers alighting', ['C51'], 'none expected: the bound is implied by the flow')
m('model_cost_forgets_vehicle', 'MilpModel', 'cost',
  'if bool_decide (pos vs ts i = pos vs ts j) then big else', 'if bool_decide (i = j) then big else',
  'equal places cost nothing', ['C53'], 'the refutation about different nodes at the same place')
# --- from solutions to routes
m('translate_keeps_repeats', 'Translate', 'stops_loop',
  'if bool_decide (p = st_position c) then stops_loop v last ps\n        else', 'if false then stops_loop v last ps\n        else',
  'equal consecutive positions get a stop each', ['C55'], 'stops')
m('translate_trip_by_destination', 'Translate', 'positions_to_trips',
  'bool_decide (origin_position (w_trip t) = p)) ts with', 'bool_decide (destination_position (w_trip t) = p)) ts with',
  'trips are looked up by their destination', ['C55'], 'order of the trips')
m('translate_pickup_not_popped', 'Translate', 'planned_loop',
  'py_pop (pop_stop (destination_position (w_trip t)) m1) in', 'py_pop (pop_stop (destination_position (w_trip t)) m) in',
  'the pickup can be used again as delivery', ['C55'], 'the same stop twice')
m('translate_times_of_first_vehicle', 'Translate', 'adjust_waiting_times',
  'set_starting_time s (as_u a k i)) ss.', 'set_starting_time s (as_u a 0%nat i)) ss.',
  'all routes get the times of the first vehicle', ['C55'], 'times')
# --- files
m('split_keeps_tabs', 'FileLoader', 'whitespace',
  '((9 <=? n) && (n <=? 13))', '((10 <=? n) && (n <=? 13))',
  'tabulators do not separate', ['C57'], 'tables with tabulators')
m('loader_reads_again', 'FileLoader', 'loader_formatter',
  '(fun x => (Ok d, Loader (Some d) (ld_surface x)', '(fun x => (Ok d, Loader None (ld_surface x)',
  'the file is read for each question', ['C57'], 'fleet and job could come from different contents')
m('loader_new_surface', 'FileLoader', 'loader_job',
  'let! _ := loader_surface in\n        let! ts', '(fun x => (Ok tt, Loader (ld_formatter x) None (ld_fleet x) (ld_job x) (ld_opened x) (ld_next x))) ;;; let! _ := loader_surface in\n        let! ts',
  'the job gets a surface of its own', ['C57'], 'positions of trips and vehicles differ')
# --- report
m('report_pickup_delivery_swapped', 'Report', 'planned_trip_to_str',
  'wt nt lt total pk dl (tr_capacity t)', 'wt nt lt total dl pk (tr_capacity t)',
  'pickup and delivery times are exchanged', ['C60'], 'rows')
m('report_counts_all', 'Report', 'columnar_format',
  'let! rs\' := formatter_routes remove_empty_routes pl in', 'let! rs\' := formatter_routes false pl in',
  'empty routes are counted', ['C60'], 'number of routes')
m('report_names_only_pickups', 'Report', 'stop_identifier',
  ' ++\n                                    map (fun t => "D" +:+ tr_identifier (w_trip t)) ds)', ')',
  'deliveries are not named', ['C60'], 'names of stops')
m('report_arrival', 'Report', 'stop_to_str',
  'let! dt := departure_time s in', 'let! dt := arrival_time s in',
  'the arrival is shown as departure', ['C60'], 'rows')
# --- drawing
m('plot_last_leg_missing', 'Plots', 'generate_edges',
  'edges (combine (removelast stops) (tail stops)))', 'edges (combine (removelast (removelast stops)) (tail stops)))',
  'the leg back is not drawn', ['C61'], 'edges')
m('plot_places_only_of_trips', 'Plots', 'generate_nodes',
  'missing (snd (fst e)) (missing (fst (fst e)) nodes)) nodes edges).', 'missing (fst (fst e)) nodes) nodes edges).',
  'places that are only reached are not drawn', ['C61'], 'nodes')
m('plot_one_colour', 'Plots', 'generate_edges',
  '(snd rc) edges))', '0%nat edges))',
  'all routes have the same colour', ['C61'], 'colours')

# --- double precision
m('double_start_before_arrival', 'Doubles', 'd_visit',
  'let b := Rmax (Rmax value (d_earliest s)) a in', 'let b := Rmax value (d_earliest s) in',
  'a service may start before the arrival', ['C63', 'C64'], 'order')
m('double_no_waiting', 'Doubles', 'd_visit',
  'DTimes a b (fadd b (d_load_time s)).', 'DTimes a b (fadd a (d_load_time s)).',
  'the departure forgets the waiting', ['C63', 'C64'], 'departure before the start')
m('double_load_unrounded', 'Doubles', 'd_visit',
  'DTimes a b (fadd b (d_load_time s)).', 'DTimes a b (b + d_load_time s).',
  'the departure is not rounded, hence not a double', ['C63'], 'the next arrival may be rounded to an earlier time')
m('double_request_wins', 'Doubles', 'd_visit',
  'match ds_request s with None => a | Some v => v end in', 'match ds_request s with None => a | Some v => a end in',
  'the requested start is ignored', ['C64'], 'times')
m('double_no_tolerance', 'Doubles', 'within',
  'Some l => fle x (fadd l ERROR_BOUND) end.', 'Some l => fle x l end.',
  'limits are checked without tolerance', ['C64'], 'rounding makes good routes infeasible')
m('double_two_tolerances', 'Doubles', 'within',
  'Some l => fle x (fadd l ERROR_BOUND) end.', 'Some l => fle x (fadd (fadd l ERROR_BOUND) ERROR_BOUND) end.',
  'the tolerance is added twice', ['C64'], 'routes too late by two tolerances are accepted')
m('double_tiny_tolerance', 'Doubles', 'ERROR_BOUND',
  'rnd (1 / 1000).', 'rnd (1 / 1000000000000).',
  'a tolerance of 10^-12', ['C64'], 'not enough for a thousand stops')
m('double_latest_no_duration', 'Doubles', 'd_destination_latest',
  'Some (fadd (fadd l (dt_origin_duration t)) m)', 'Some (fadd l m)',
  'the latest delivery forgets the loading time', ['C64'], 'good routes are refused')
m('double_latest_no_travel', 'Doubles', 'd_origin_latest',
  'Some (fsub (fsub l (dt_destination_duration t)) (dt_time t))', 'Some (fsub l (dt_destination_duration t))',
  'the latest pickup forgets the way', ['C64'], 'routes that cannot deliver in time are accepted')
m('double_earliest_first', 'Doubles', 'd_earliest',
  'max_of (map d_origin_earliest (ds_pickups s) ++ map d_destination_earliest (ds_deliveries s)).',
  'match map d_origin_earliest (ds_pickups s) ++ map d_destination_earliest (ds_deliveries s) with [] => 0 | x :: _ => x end.',
  'the first window instead of the latest opening one', ['C64'], 'times')
m('double_ride_from_start', 'Doubles', 'd_ride_feasible',
  'let pickup_time := dm_departure (dr_at r i) in', 'let pickup_time := dm_start (dr_at r i) in',
  'the ride is counted from the start of the loading', ['C64'], 'good routes are refused')
m('double_delivery_unchecked', 'Doubles', 'd_ride_feasible',
  'd_stop_feasible r i && d_stop_feasible r j &&', 'd_stop_feasible r i && d_stop_feasible r i &&',
  'the stop of the delivery is not checked', ['C64'], 'late deliveries are accepted')
m('double_duration_from_shift', 'Doubles', 'd_feasible',
  '(dm_departure (dr_at r 0))) (dr_timeout r)', '(dr_earliest r)) (dr_timeout r)',
  'the duration is counted from the start of the shift', ['C64'], 'good routes are refused')
m('double_truncation', 'Doubles', 'rnd',
  'round radix2 binary64 ZnearestE x.', 'round radix2 binary64 Ztrunc x.',
  'rounding towards zero', ['C64', 'C65'], 'errors are twice as large')
m('double_manhattan_signed', 'Doubles', 'd_manhattan',
  'Rabs (fsub x y)', 'fsub x y',
  'differences keep their sign', ['C65'], 'symmetry')
m('double_manhattan_first_only', 'Doubles', 'd_manhattan',
  '(fun \'(x, y) => Rabs (fsub x y)) (combine a b)', '(fun \'(x, y) => Rabs (fsub x y)) (firstn 1 (combine a b))',
  'only the first coordinate counts', ['C65'], 'accuracy')

# --- runs, idle vehicles, missed insertions and limits
m('attractive_always_idle', 'Insertion', 'attractive_routes',
  'if some_loaded then ret', 'if false then ret',
  'an idle vehicle is tried in every round', ['C66'], 'warm starts use idle vehicles')
m('sub_ranking_unsorted', 'Insertion', 'create_sub_ranking',
  'criterion_sorted (it_criterion i) raw.', 'ret raw.',
  'candidates are kept in the order of their computation', ['C22', 'C68'], 'the first candidate is not the best')
m('own_ranking_not_rebuilt', 'Insertion', 'update_vehicle_ranking',
  'if (v =? pt_vehicle pc)%nat then', 'if false then',
  'the vehicle that took a trip keeps its other candidates', ['C17', 'C67', 'C68'], 'candidates of the old route lose the accepted trip')
m('other_rankings_emptied', 'Insertion', 'update_vehicle_ranking',
  'ret (negb (memb (pt_trip pc) ts))) sub in', 'ret (negb (memb (pt_trip pc) ts) && false)) sub in',
  'all candidates of the other vehicles are dropped', ['C67'], 'trips that fit are left over')
m('intensive_short', 'Insertion', 'strategy_pairs',
  'ret (combinations2 (seq 0 n))', 'ret (combinations2 (seq 0 (n - 1)))',
  'the exhaustive strategy never delivers right before the depot', ['C16', 'C70', 'C67'], 'insertions are missed')
m('delay_always', 'Insertion', 'delay_stop',
  'set_starting_time s (st + max_sub_lim d (tr_timeout (w_trip (pt_trip pc))) 0) ;;;', 'set_starting_time s (st + eb) ;;;',
  'pickups are delayed although no ride is too long', ['C72'], 'recorded answers go out of date')
m('compute_shares_more', 'Insertion', 'compute_one',
  'cloner_clone r (pi + 1) in', 'cloner_clone r (pi + 2) in',
  'a candidate shares one stop more with its base route', ['C15', 'C69', 'C14'], 'the base route is changed')
m('realloc_origin_unchecked', 'LocalSearch', 'realloc_trip',
  'if negb b then ret st else\n      let! v := route_value o new_origin in', 'if negb b && false then ret st else\n      let! v := route_value o new_origin in',
  'the route a trip is taken from is not checked', ['C71', 'C72'], 'routes that break limits are returned')
m('insertion_no_shift', 'Insertion', 'shift_departure',
  "set_starting_time s0 w' ;;;", "set_starting_time s1 w' ;;;",
  'the first service instead of the departure is delayed', ['C72', 'C15'], 'a start time is requested behind the depot')

m('clone_keeps_verdict', 'Routes', 'clone_stop',
  'stop_upd n (set_deliveries ds) ;;;\n    ret (cloned ++ [n]).', 'stop_upd n (set_deliveries ds) ;;;\n    stop_upd n (cache_feasible (st_feasible c)) ;;;\n    ret (cloned ++ [n]).',
  'the copy of a stop keeps its recorded answer', ['C73', 'C13', 'C71'], 'the answer was given for other times')

# --- schedules of files, moved time and higher limits
m('cordeau_no_window', 'Loaders', 'cordeau_service',
  'ret (Service (po_coords p) earliest (Lim latest) duration).', 'ret (Service (po_coords p) earliest Inf duration).',
  'the end of a time window is not read', ['C77', 'C39'], 'services start after their windows')
m('cordeau_no_ride_limit', 'Loaders', 'cordeau_trip',
  'capacity 0 (Lim timeout)).', 'capacity 0 Inf).',
  'the longest ride is not read', ['C77', 'C39'], 'rides last too long')
m('cordeau_all_seats', 'Loaders', 'cordeau_fleet',
  'None (Lim capacity) (Lim timeout)', 'None Inf (Lim timeout)',
  'the capacity of the vehicles is not read', ['C77', 'C39'], 'vehicles carry too many passengers')
m('cordeau_no_service_time', 'Loaders', 'cordeau_service',
  'ret (Service (po_coords p) earliest (Lim latest) duration).', 'ret (Service (po_coords p) earliest (Lim latest) 0).',
  'the service times are not read', ['C77', 'C39'], 'vehicles leave before their service is over')
m('hashcode_no_opening', 'Loaders', 'hashcode_trip',
  'Service (po_coords p) earliest (Lim latest) 0 in', 'Service (po_coords p) 0 (Lim latest) 0 in',
  'the earliest start of a ride is not read', ['C75', 'C76', 'C40'], 'rides start too early')
m('shift_whole_wait', 'Insertion', 'shift_departure',
  "set_starting_time s0 w' ;;;", "let! d := departure_time s0 in set_starting_time s0 (d + w') ;;;",
  'the departure is postponed by the waiting time (a repair)', ['C78', 'C15'], 'C78_refuted has to fail; the positive theorems of C15 speak of the code that exists')
m('ride_limit_as_deadline', 'Heap', 'pt_is_feasible',
  'let! du := pt_duration p in\n          if negb', 'let! du := delivery_time p in\n          if negb',
  'the longest ride is taken for a deadline', ['C78', 'C07'], 'whether a limit is kept depends on where time starts')
m('tour_limit_as_deadline', 'Routes', 'route_feasible',
  'let! du := route_duration r in\n          if negb', 'let! du := last_departure_time r in\n          if negb',
  'the longest tour is taken for a deadline', ['C78', 'C08'], 'whether a limit is kept depends on where time starts')
m('ride_limit_minimal', 'Heap', 'pt_is_feasible',
  'if negb (lim_ge du (lim_add (tr_timeout (w_trip (pt_trip c))) eb)) then ret false else', 'if lim_ge du (tr_timeout (w_trip (pt_trip c))) then ret false else',
  'rides have to be as long as their limit', ['C79', 'C07'], 'raising a limit makes a plan infeasible')

# --- 2-opt, depots, warm starts and nested calls
m('two_opt_short', 'LocalSearch', 'two_opt_route',
  '(combinations2 (seq 1 (length ss - 2))) in', '(combinations2 (seq 1 (length ss - 3))) in',
  'stretches that end right before the depot are not tried', ['C80'], 'improving reversals are left undone')
m('ls_loop_no_reset', 'LocalSearch', 'ls_loop',
  'ls_loop fuel s o threshold 0 current', 'ls_loop fuel s o threshold (S count) current',
  'a round that improves counts as one that does not', ['C80', 'C74'], 'the search ends although it could go on')
m('two_opt_compares_twice', 'LocalSearch', 'two_opt_step',
  'if negb (tuple_ltb st.1 v) then ret st else', 'if negb (tuple_ltb (map (Z.add 1) st.1) v) then ret st else',
  'improvements by one unit are not taken', ['C80'], 'improving reversals are left undone')
m('leave_at_zero', 'Heap', 'previous_departure_with',
  'None => ret (v_origin_earliest (st_vehicle c))', 'None => ret 0',
  'vehicles set out at time 0', ['C81', 'C01'], 'vehicles leave before their depots open')
m('warm_drops_route', 'Insertion', 'iterator_init',
  "let! d := routes_dict rs'' in", "let! d := routes_dict (drop 1 rs'') in",
  'a warm start forgets one of the routes', ['C82', 'C19'], 'the planning gets worse')
m('warm_forgets_start', 'Routes', 'shift_stop',
  '(st_starting c) (st_arrival c) (st_departure c) (st_capacity c) (st_feasible c).\n  Definition shift_pt', 'None (st_arrival c) (st_departure c) (st_capacity c) (st_feasible c).\n  Definition shift_pt',
  'copies forget the start times asked for', ['C82', 'C19'], 'copies have other values than their originals')
m('previous_not_nested', 'Depth', 'all_previous_within',
  'Definition all_previous_within (s : nat) : M (list nat) := all_previous_fuel n s.', 'Definition all_previous_within (s : nat) : M (list nat) := match n with O => all_previous s | S _ => all_previous s end.',
  'the stops before a stop are collected in a loop (a repair)', ['C83'], 'C83_trip has to fail')
m('departure_not_memoised', 'Heap', 'departure_fuel',
  'stop_upd s (cache_departure (Some d)) ;;; ret d', 'ret d',
  'departures are computed anew on every reading', ['C83'], 'reading in order nests as deeply as the route is long')

# --- names of routes, the stages of GRASP
m('name_no_marks', 'Report', 'stop_identifier',
  '"P" +:+ tr_identifier', 'tr_identifier',
  'pickups are not marked', ['C84'], 'routes that do different things get the same identifier')
m('name_no_brackets', 'Report', 'stop_identifier',
  'ret ("[" +:+ String.concat', 'ret ("" +:+ String.concat',
  'stops are not opened by a bracket', ['C84'], 'identifiers have another form')
m('name_plain_join', 'Names', 'route_identifier',
  'ret (String.concat "|" names).', 'ret (String.concat "" (map (fun n => String.substring 1 (String.length n - 2) n) names)).',
  'the stops of a route are not kept apart', ['C84'], 'routes with other stops get the same identifier')
m('name_no_depots', 'Names', 'route_identifier',
  'let! ss := route_stops r in\n    let! names := mapM stop_identifier ss in\n    ret (String.concat', 'let! ss := route_stops r in\n    let! names := mapM stop_identifier (take 3 ss) in\n    ret (String.concat',
  'only the first three stops are named', ['C84'], 'routes with other stops get the same identifier')
m('stage_from_scratch', 'Meta', 'default_sequential',
  '[local_search_algorithm fuel Reallocation o 1; insertion_algorithm cfg fleet job] init.', '[local_search_algorithm fuel Reallocation o 1; fun _ => insertion_algorithm cfg fleet job None] init.',
  'the insertion after the local search starts anew', ['C85'], 'what the local search found is lost')
m('stage_restarts', 'Meta', 'grasp_optimize',
  '(default_sequential fuel o cfg fleet job) false 3 init)', '(default_sequential fuel o cfg fleet job) true 3 init)',
  'the improving stage always goes back to its first planning', ['C85'], 'nothing of C85: the stage still leads what it is given; C32 speaks of what it is told')
m('stage_keeps_last', 'Meta', 'iterative_loop',
  'ret (Some (match w with Some 1%nat => current | _ => b end))', 'ret (Some current)',
  'the last planning is kept instead of the best', ['C31', 'C33'], 'a better planning is thrown away; by objectives that gain the improving stage still climbs')

# --- what runs depend on
m('transit_manhattan', 'Heap', 'transit_with',
  'ret (dist pp (st_position c)).', 'ret (manhattan pp (st_position c)).',
  'the time on the way does not use the metric of the surface', ['C87', 'C01'], 'instances with the same distances by different metrics run differently')
m('origin_latest_checked', 'Routes', 'route_feasible',
  'let! l := last_stop r in\n          let! lc := stop_get l in', 'if negb (lim_ge a (lim_add (sv_latest (vh_origin (w_vehicle v))) eb)) then ret false else\n          let! l := last_stop r in\n          let! lc := stop_get l in',
  'the closing time of the depot is checked on leaving', ['C87', 'C81'], 'the hours of the depot now matter; C81_refuted has to fail')
m('depot_takes_time', 'Heap', 'previous_departure_with',
  '| None => ret (v_origin_earliest (st_vehicle c))', '| None => ret (v_origin_earliest (st_vehicle c) + sv_duration (vh_origin (w_vehicle (st_vehicle c))))',
  'the work at the depot takes time', ['C87', 'C01'], 'the duration of the origin now matters')
m('load_time_of_first', 'Heap', 'stop_load_time',
  'ret (py_max 0 (map (fun t => origin_duration (w_trip t)) ps ++\n                   map (fun t => destination_duration (w_trip t)) ds)).',
  'ret (default 0 (head (map (fun t => origin_duration (w_trip t)) ps ++\n                   map (fun t => destination_duration (w_trip t)) ds))).',
  'a stop takes as long as the first of its passengers', ['C86', 'C01'], 'the order of a set decides how long a stop takes')
m('value_of_first_route', 'Objectives', 'planning_value',
  'let! rs := set_order pl in\n    foldM (fun acc r => let! x := route_value o r in ret (tuple_add acc x)) (tuple_zero o) rs.', 'let! rs := set_order pl in\n    foldM (fun acc r => let! x := route_value o r in ret (tuple_add acc x)) (tuple_zero o) (take 1 rs).',
  'only the first route of the set counts', ['C86', 'C25'], 'the order of a set decides what a planning is worth')

# --- units, printing
m('shift_small_waits', 'Insertion', 'shift_departure',
  'if w =? 0 then ret tt else', 'if w <=? 5 then ret tt else',
  'short waits at the first stop are ignored, by an absolute threshold', ['C88'], 'the unit decides whether the departure is moved')
m('score_whole_units', 'Objectives', 'score_feasible',
  'let! x := route_duration r in ret (sfin x)', 'let! x := route_duration r in ret (sfin (x / 60))',
  'durations are compared in whole minutes', ['C88', 'C24'], 'the unit decides which routes tie')
m('print_stop_arrival', 'Shows', 'stop_text',
  'let! name := stop_identifier s in\n    ret (print_model "Stop"', 'let! name := stop_identifier s in\n    let! _ := arrival_time s in\n    ret (print_model "Stop"',
  'the arrival time is printed with a stop', ['C89'], 'printing memoises a time')
m('print_route_feasible', 'Shows', 'route_text',
  'let! x := route_iter r in', 'let! _ := route_feasible r in\n    let! x := route_iter r in',
  'the feasibility is printed with a route', ['C89'], 'printing memoises answers')
m('print_planned_bare', 'Shows', 'planned_text',
  'let! b := pt_is_feasible p in', 'let b := true in',
  'the feasibility is not printed with a planned trip (a repair)', ['C89'], 'C89_refuted and C89_unplaced have to fail')
m('print_planning_total', 'Shows', 'planning_text',
  'let! names := mapM route_identifier rs in', 'let! _ := mapM (route_value DialARide) rs in\n    let! names := mapM route_identifier rs in',
  'the value is printed with a planning', ['C89'], 'printing may raise and memoises times')
m('value_of_result_counts', 'Shows', 'value_of_optimizable',
  '| AResult _ _ pl | APlanning pl => planning_value o pl', '| AResult _ _ pl => planning_value o pl | APlanning pl => stop_value o (length pl)',
  'plannings are valued as if they were stops', ['C89'], 'C89_total has to fail')

# --- copying object by object
m('copy_memo_late', 'Copies', 'copy_object',
  'let! m := foldM (copy_object n) ((x, y) :: m) (stop_refs c) in\n              stop_upd y (fun _ => renamed_stop m c) ;;; ret m', 'let! m := foldM (copy_object n) m (stop_refs c) in\n              stop_upd y (fun _ => renamed_stop ((x, y) :: m) c) ;;; ret ((x, y) :: m)',
  'a stop is put into the memo after its attributes', ['C90'], 'passengers refer back to their stops, so that nothing can be copied')
m('copy_memo_per_route', 'Copies', 'copy_all',
  'let! rs\' := copy_all m rs in ret', 'let! rs\' := copy_all [] rs in ret',
  'each route is copied with a memo of its own', ['C90'], 'copies no longer share the stops that the originals share')
m('copy_times_lost', 'Copies', 'renamed_stop',
  '(st_starting c) (st_arrival c) (st_departure c)', '(st_starting c) None None',
  'memoised times are not copied', ['C90'], 'the copy reads its times anew')
m('copy_start_lost', 'Copies', 'renamed_stop',
  '(st_starting c) (st_arrival c) (st_departure c)', 'None (st_arrival c) (st_departure c)',
  'the start time asked for is not copied', ['C90'], 'the copy makes other visits')
m('copy_planned_shared', 'Copies', 'renamed_stop',
  '(map (fun p => image m (AtPlanned p)) (st_pickups c))\n    (map (fun p => image m (AtPlanned p)) (st_deliveries c))', '(st_pickups c)\n    (st_deliveries c)',
  'the sets of planned trips are copied, the planned trips are not', ['C90'], 'changing a planned trip of the copy changes the original')
m('copy_previous_shared', 'Copies', 'renamed_stop',
  '((fun s => image m (AtStop s)) <$> st_previous c)', '(st_previous c)',
  'the previous stop is not copied', ['C90'], 'the copy goes on from a stop of the original')
m('copy_keeps_feasible', 'Copies', 'copy_route',
  'route_upd r\' (set_route_stops (map (fun s => image m (AtStop s)) (rt_stops c))) ;;;', 'route_upd r\' (fun d => MkRoute (rt_vehicle d) (map (fun s => image m (AtStop s)) (rt_stops c)) (rt_feasible c)) ;;;',
  'the answer whether the route is feasible is copied', ['C90'], 'the copy is not asked anew')
m('copy_trip_answer_lost', 'Copies', 'renamed_pt',
  '((fun s => image m (AtStop s)) <$> pt_delivery c) (pt_feasible c)', '((fun s => image m (AtStop s)) <$> pt_delivery c) None',
  'the memoised answer of a planned trip is not copied', ['C90'], 'a memoised value is lost')
m('copy_first_stop_late', 'Copies', 'copy_route',
  'let! m := foldM (copy_object n) m (map AtStop (rt_stops c)) in', 'let! m := foldM (copy_object n) m (map AtStop (drop 1 (rt_stops c))) in',
  'the first stop of a route is copied only if somebody refers to it', ['C90'], 'a route of a single stop loses it')
m('copy_at_once_shares', 'Routes', 'shift_pt',
  'MkPtrip (pt_vehicle p) (pt_trip p) ((fun s => a + s)%nat <$> pt_pickup p)\n      ((fun s => a + s)%nat <$> pt_delivery p) (pt_feasible p).', 'MkPtrip (pt_vehicle p) (pt_trip p) (pt_pickup p)\n      (pt_delivery p) (pt_feasible p).',
  'copied planned trips keep their stops', ['C90', 'C12'], 'planned trips of the copy point into the original')

m('double_euclidean_no_root', 'Doubles', 'd_euclidean',
  'rnd (sqrt (fsum (map (fun \'(x, y) => rnd (fsub x y * fsub x y)) (combine a b))))', 'fsum (map (fun \'(x, y) => rnd (fsub x y * fsub x y)) (combine a b))',
  'the root is forgotten', ['C91'], 'accuracy; a detour is shorter')
m('double_euclidean_absolute', 'Doubles', 'd_euclidean',
  'rnd (fsub x y * fsub x y)', 'Rabs (fsub x y)',
  'differences are not squared', ['C91'], 'accuracy')
m('double_euclidean_first_only', 'Doubles', 'd_euclidean',
  '(combine a b))))', '(combine (firstn 1 a) (firstn 1 b)))))',
  'only the first coordinate counts', ['C91'], 'accuracy')
m('double_euclidean_single', 'Doubles', 'd_euclidean',
  'rnd (sqrt (', 'round radix2 (FLT_exp (-149) 24) ZnearestE (sqrt (',
  'the root is computed in single precision', ['C91'], 'accuracy, numbers')

m('store_formats_first', 'Storers', 'file_store',
  'open_for_writing ;;;\n    let! text := formatted format in\n    write text', 'let! text := formatted format in\n    open_for_writing ;;;\n    write text',
  'the text is formatted before the file is opened', ['C41'], 'something has happened when the file cannot be opened; a failing formatter leaves the old file')
m('hashcode_lenient_row', 'Loaders', 'hashcode_trip',
  '| [x1; y1; x2; y2; earliest; latest] =>', '| x1 :: y1 :: x2 :: y2 :: earliest :: latest :: _ =>',
  'further numbers of a row are ignored', ['C39'], 'malformed rows are accepted')
m('cordeau_depot_three', 'Loaders', 'cordeau_fleet',
  '(slice 1 3 depot_row)', '(slice 1 4 depot_row)',
  'the place of the depot has a third coordinate', ['C37', 'C38'], 'the depot is elsewhere; the rest of its row matters')
m('cordeau_no_depot_row', 'Loaders', 'cordeau_fleet',
  'let! depot_row := py_nth d 1 in', 'let depot_row := nth 1 d [] in',
  'a missing row of the depot is an empty row', ['C37'], 'no exception')
m('hashcode_names_repeat', 'Loaders', 'hashcode_job',
  'hashcode_trip e (pretty i) bonus row', 'hashcode_trip e (pretty (i / 2)%nat) bonus row',
  'two trips share a name', ['C84', 'C39'], 'names are not distinct')
m('cordeau_names_bars', 'Loaders', 'cordeau_trip',
  'let identifier := pretty (idx + 1)%nat in', 'let identifier := String.append "|"%string (pretty (idx + 1)%nat) in',
  'names of trips contain bars', ['C84', 'C37'], 'identifiers of routes become ambiguous')
m('solver_dispatcher_keywords', 'Solver', 'solve',
  '| _ :: _ => raise TypeError', '| _ :: _ => dispatch (so_loader x) (so_algorithm x) (Some (so_storer x))',
  'keywords of the dispatcher are ignored', ['C43'], 'no exception')
m('service_eq_less', 'Equality', 'service_eqb',
  'Z.eqb (hash_service s) (hash_service s\')', 'Z.leb (hash_service s) (hash_service s\')',
  'hashes are compared by <=', ['C45'], 'not symmetric')
m('service_eq_fresh', 'Equality', 'service_eqb',
  'Z.eqb (hash_service s) (hash_service s\')', 'Z.eqb (hash_service s) (hash_service s\' + 1)',
  'equal data give different hashes', ['C45'], 'services with the same data are not equal')
m('dedup_keeps_last', 'Utils', 'remove_duplicates_from',
  'if existsb (eqb x) seen then', 'if existsb (eqb x) l then',
  'the last of equal elements is kept', ['C44'], 'not the first one')
m('dedup_adjacent', 'Utils', 'remove_duplicates_from',
  '(seen ++ [x])', '[x]',
  'only the element before is remembered', ['C44'], 'duplicates are left')
m('sample_pairs_threshold', 'Utils', 'sample_index_pairs',
  'if ncr (Z.of_nat n) 2 <=? Z.of_nat count', 'if Z.of_nat n <=? Z.of_nat count',
  'all pairs are taken if there are few stops', ['C16'], 'more than count pairs')
m('sample_repeats', 'Utils', 'set_add_pair',
  'if bool_decide (p ∈ l) then l else l ++ [p].', 'l ++ [p].',
  'pairs drawn twice are kept twice', ['C16'], 'not distinct')
m('iterative_no_episode', 'Meta', 'iterative_optimize',
  '| None => raise AssertionError', '| None => ret []',
  'no episode gives an empty planning', ['C31', 'C33'], 'no exception')
m('flip_unlinked', 'LocalSearch', 'flip',
  'py_assert (bool_decide (st_previous oc = Some previous)) ;;;', '',
  'the two stops need not be neighbours', ['C30'], 'no exception')
m('new_route_unlinked', 'Routes', 'new_route',
  '(v_destination_position v) (Some first) None', '(v_destination_position v) None None',
  'the last stop does not know the first', ['C50'], 'a new route is no tour')
m('insert_no_relink', 'Routes', 'insert_stop_at',
  'stop_upd following (set_previous (Some s)) ;;;\n    let ss\'', 'let ss\'',
  'the stop behind keeps its predecessor', ['C07'], 'times and loads go past the new stop')
m('insert_flush_after', 'Routes', 'insert_stop_at',
  'iterM stop_flush (drop i ss\') ;;;\n    ret (default s (last ss\'))', 'iterM stop_flush (drop (S (S i)) ss\') ;;;\n    ret (default s (last ss\'))',
  'the stop behind keeps its memoised times', ['C07'], 'stale times')
m('remove_keeps_times', 'Routes', 'remove_stop_at',
  'iterM stop_flush (drop i ss\') ;;;\n    ret removed', 'ret removed',
  'memoised times are kept when a stop is removed', ['C09'], 'stale times')
m('insert_unknown_appends', 'Routes', 'insert_stop',
  '| None => raise PreviousStopNotInRouteException', '| None => insert_stop_at r (length ss) s',
  'a stop with an unknown predecessor is appended', ['C07'], 'no exception')
m('insert_returns_stop', 'Routes', 'insert_stop_at',
  'ret (default s (last ss\'))', 'ret s',
  'the stop inserted is returned', ['C08'], 'repairs the code: C08_refuted has to fail')
m('clone_shares_tail', 'Routes', 'cloner_clone',
  'let! cloned := foldM (clone_stop mapper) (take threshold ss) (drop threshold ss) in', 'let cloned := ss in',
  'the clone is made of the stops of the original', ['C12', 'C13'], 'editing the clone changes the original')
m('clone_forgets_start', 'Routes', 'clone_stop',
  '(last cloned) (st_starting c)', '(last cloned) None',
  'the requested start is not copied', ['C12'], 'the clone has other times')
m('copy_limit_skips', 'Copies', 'copy_object',
  '| O => raise RecursionError', '| O => ret m',
  'at the limit objects are silently left out', ['C90'], 'a partial copy')
m('depth_gives_up_quietly', 'Depth', 'pt_duration_within',
  'let! d := delivery_within p in\n    let! s := pickup_within p in ret (d - s)', 'fun h => match (let! d := delivery_within p in let! s := pickup_within p in ret (d - s)) h with (Raise RecursionError, h\') => (Ok 0, h\') | x => x end',
  'a ride too deep to compute counts as 0', ['C83'], 'a wrong answer instead of giving up')
m('milp_trip_order', 'Milp', 'trip_by_position_idx',
  '(Z.of_nat idx mod Z.of_nat trip_count - 1)', '((Z.of_nat idx - 1) mod Z.of_nat trip_count)',
  'the trip is found by (idx - 1) % n', ['C48'], 'the same trips: all theorems should stand')
m('milp_depot_last', 'Milp', 'trip_by_position_idx',
  'if (idx =? 0)%nat || (idx =? node_count - 1)%nat then', 'if (idx =? 0)%nat then',
  'the last node is not the depot', ['C48'], 'the last node is a trip')
m('shows_error_swallowed', 'Shows', 'optimization_function',
  'let! result := value_of_optimizable o x in\n    let! _ := text x in', 'let! _ := text x in\n    let! result := value_of_optimizable o x in',
  'the argument is printed before its value is computed', ['C89'], 'something else happens before an exception')
m('candidate_from_original', 'Insertion', 'compute_one',
  'improve_ride_times r\' threshold ;;;', 'improve_ride_times r threshold ;;;',
  'the ride times of the original are improved instead of those of the candidate', ['C69'], 'the original changes')

m('total_stops_shifted', 'Totals', 'd_route_distance',
  'fsum stops.', 'fsum (tl stops).',
  'the first stop of a route is left out', ['C93'], 'too short')
m('total_positive', 'Totals', 'd_dial_a_ride',
  '- d_route_distance r', 'd_route_distance r',
  'the distance is not negated', ['C93'], 'longer ways are better')
m('total_longest_route', 'Totals', 'd_dial_a_ride',
  'fsum (map (fun r => - d_route_distance r) routes)', 'fold_left Rmin (map (fun r => - d_route_distance r) routes) 0',
  'the longest route counts instead of all', ['C93'], 'not the total')
m('total_whole', 'Totals', 'd_route_distance',
  'fsum stops.', 'IZR (Zfloor (fsum stops)).',
  'route distances are cut to whole numbers', ['C93'], 'errors far beyond rounding')
m('total_mean_ride', 'Totals', 'd_stop_taxi',
  'fsum rides.', 'rnd (fsum rides / INR (length rides)).',
  'the mean of the durations at a stop', ['C93'], 'not the total')
m('total_first_route', 'Totals', 'd_taxi_sharing',
  'fsum (map d_route_taxi routes)', 'hd 0 (map d_route_taxi routes)',
  'only the first route counts', ['C93'], 'not the total')
m('total_sorted', 'Totals', 'd_dial_a_ride',
  'fsum (map (fun r => - d_route_distance r) routes)', 'rnd (fold_right Rplus 0 (map (fun r => - d_route_distance r) routes))',
  'routes are added up exactly and rounded once (as math.fsum does)', ['C93'], 'repairs the code: the order no longer matters, C93_order_matters has to fail')

m('double_bound_one', 'Doubles', 'ERROR_BOUND',
  'rnd (1 / 1000)', 'rnd 1',
  'a tolerance of 1', ['C64', 'C94'], 'routes that exceed a limit by a whole unit are accepted')
m('double_no_lateness', 'Doubles', 'd_feasible',
  'if negb (within (dm_departure (dr_at r (dr_last r))) (dr_latest r)) then Some false else\n  ', '',
  'the end of the shift is not checked', ['C64', 'C94'], 'late routes are accepted')

# --- the two models of time and of objective values
m('double_shift_from_zero', 'Doubles', 'dr_times',
  'd_times (dr_earliest r) (dr_stops r).', 'd_times 0 (dr_stops r).',
  'every vehicle starts at time 0', ['C64', 'C94', 'C95'], 'times are not those of the vehicle\'s shift')
m('double_rides_unchecked', 'Doubles', 'd_feasible',
  '  d_rides_feasible r (dr_rides r).', '  Some true.',
  'planned trips are not asked', ['C64', 'C94', 'C95'], 'late pickups are feasible')
m('double_earliest_no_timeout', 'Doubles', 'd_origin_earliest',
  'Rmax (fsub (fsub (dt_destination_earliest t) (dt_destination_duration t)) m) (dt_origin_earliest t)', 'dt_origin_earliest t',
  'the longest ride does not delay the pickup', ['C64', 'C94', 'C95'], 'services start too early')
m('taxi_counts_empty', 'Objectives', 'planned_trip_value',
  '    | TaxiSharing =>\n        if tr_capacity t =? 0 then ret [0] else\n', '    | TaxiSharing =>\n',
  'rides without passengers count', ['C25', 'C96'], 'the value is not the time passengers ride')
m('dial_longer_better', 'Objectives', 'route_value',
  'ret [Z.of_nat (length ts); - d]', 'ret [Z.of_nat (length ts); d]',
  'the distance counts positively', ['C25', 'C96'], 'longer plannings are preferred')
m('total_stop_twice', 'Totals', 'd_route_taxi',
  'fsum (map d_stop_taxi stops).', 'fsum (map d_stop_taxi (stops ++ firstn 1 stops)).',
  'the first stop counts twice', ['C93', 'C94', 'C96'], 'rides from the first stop are counted twice')

m('score_when_service_starts', 'Scores', 'd_hash_score',
  '(dm_departure (dr_at r i))', '(dm_start (dr_at r i))',
  'the bonus is paid if the service starts on time', ['C97'], 'not what the other model pays')
m('score_bonus_always', 'Scores', 'd_hash_score',
  'fadd (dt_time t) bonus else dt_time t.', 'fadd (dt_time t) bonus else fadd (dt_time t) bonus.',
  'the bonus is paid to everybody', ['C97'], 'late pickups bring the bonus')
m('score_own_window', 'Scores', 'd_hash_score',
  '(d_origin_earliest t)', '(dt_origin_earliest t)',
  'the earliest pickup is compared without regard to the longest ride', ['C97'], 'not what the other model pays')

# theorems that were stated more sharply after an attempt, and why
TIGHTENED = {
    'milp_trip_order': ([], 'an equivalent program: (idx - 1) % n finds the same trips, only the proofs would have to be adapted'),
    'total_stop_twice': ([], 'the claim of C97_sum holds of this program; its proof uses the sum of C94_durations'),
    'total_sorted': ([], 'this edit repairs the code, so C93_order_matters has to fail and does; the bounds hold of both, only their proofs would have to be adapted'),
    'copy_memo_per_route': (['C90_copies', 'C90_at_once'],
        'own_copy speaks of one route at a time; both theorems now say which stops the copies share'),
    'copy_trip_answer_lost': (['C90_copies', 'C90_at_once'],
        'only the memoised values of stops were compared; now also those of planned trips'),
    'starting_ignores_request': (['C04_times', 'C04_feasible_partial'],
        'C04 only spoke of the state after the flush and still went through; it now speaks of the times, loads and the answer read afterwards'),
    'trip_origin_latest': ([], 'this edit repairs the code, so C36_refuted has to fail and does; the positive theorems hold of both'),
}
