{
 "claims": [
  {
   "property": "C01",
   "status": "proved",
   "theorems": [
    "C01_times",
    "C01_reads"
   ],
   "note": ""
  },
  {
   "property": "C02",
   "status": "proved",
   "theorems": [
    "C02_stop",
    "C02_next",
    "C02_route",
    "C02_assertions"
   ],
   "note": ""
  },
  {
   "property": "C03",
   "status": "proved",
   "theorems": [
    "C03_load",
    "C03_end"
   ],
   "note": ""
  },
  {
   "property": "C04",
   "status": "partial",
   "theorems": [
    "C04_times",
    "C04_feasible_partial",
    "C04_refuted"
   ],
   "note": "Times and loads: proved. Feasibility: refuted in general (C04_refuted, Stop.flush keeps Stop.feasible); proved when the stops' feasibility had not been read before (C04_feasible_partial)."
  },
  {
   "property": "C05",
   "status": "proved",
   "theorems": [
    "C05_feasible"
   ],
   "note": ""
  },
  {
   "property": "C06",
   "status": "partial",
   "theorems": [
    "C06_refuted",
    "C06_refuted_algorithm",
    "C06_one_partial",
    "C06_strategy_partial",
    "C06_answer_partial",
    "C06_algorithm_partial",
    "C06_warm_partial"
   ],
   "note": "Refuted: C06_refuted for one insertion and C06_refuted_algorithm for a whole run exhibit a route reported feasible that violates a time window. What holds instead, whenever recorded answers are fair (SpecFair.v), which all of this preserves: C06_one_partial for one insertion (all constraints except latest starts after a moved start time; everything if none was moved), C06_strategy_partial for a strategy and C06_algorithm_partial, C06_warm_partial for whole runs (the same without the duration of the route). The duration limit really is lost in a whole run: C77_tour_refuted."
  },
  {
   "property": "C07",
   "status": "proved",
   "theorems": [
    "C07_insert",
    "C07_unknown_predecessor",
    "C07_after_last"
   ],
   "note": ""
  },
  {
   "property": "C08",
   "status": "partial",
   "theorems": [
    "C08_refuted",
    "C08_returns_last"
   ],
   "note": "Refuted: C08_refuted. C08_returns_last: for every linked route insert_stop returns the last stop of the route instead, never the inserted one."
  },
  {
   "property": "C09",
   "status": "proved",
   "theorems": [
    "C09_remove",
    "C09_last"
   ],
   "note": ""
  },
  {
   "property": "C10",
   "status": "partial",
   "theorems": [
    "C10_refuted"
   ],
   "note": "Refuted for every linked route of at least two stops (C10_refuted): the chain becomes cyclic, first_stop raises AssertionError and departure times raise RecursionError."
  },
  {
   "property": "C11",
   "status": "proved",
   "theorems": [
    "C11_append",
    "C11_serve"
   ],
   "note": ""
  },
  {
   "property": "C12",
   "status": "proved",
   "theorems": [
    "C12_remove",
    "C12_undo"
   ],
   "note": ""
  },
  {
   "property": "C13",
   "status": "proved",
   "theorems": [
    "C13_clone",
    "C13_edit"
   ],
   "note": ""
  },
  {
   "property": "C14",
   "status": "proved",
   "theorems": [
    "C14_one",
    "C14_compute",
    "C14_strategy"
   ],
   "note": ""
  },
  {
   "property": "C15",
   "status": "partial",
   "theorems": [
    "C15_refuted",
    "C15_similar_partial"
   ],
   "note": "Refuted for the departure from the depot (C15_refuted). C15_similar_partial: every existing route keeps its stops, places, trips and all service times and loads from the second stop on."
  },
  {
   "property": "C16",
   "status": "proved",
   "theorems": [
    "C16_all",
    "C16_random",
    "C16_ends",
    "C16_strategies"
   ],
   "note": ""
  },
  {
   "property": "C17",
   "status": "proved",
   "theorems": [
    "C17_start",
    "C17_rounds",
    "C17_kept",
    "C17_result"
   ],
   "note": ""
  },
  {
   "property": "C18",
   "status": "proved",
   "theorems": [
    "C18_bound",
    "C18_warm",
    "C18_ends",
    "C18_fuel"
   ],
   "note": ""
  },
  {
   "property": "C19",
   "status": "proved",
   "theorems": [
    "C19_warm",
    "C19_untouched"
   ],
   "note": ""
  },
  {
   "property": "C20",
   "status": "partial",
   "theorems": [
    "C20_refuted",
    "C20_cold_partial",
    "C20_warm_partial"
   ],
   "note": "Refuted (C20_refuted): a trip accepted in one turn is neither planned nor pending after the next. C20_cold_partial, C20_warm_partial: every run returns a valid planning in which each vehicle serves at most one trip more than at the start."
  },
  {
   "property": "C21",
   "status": "partial",
   "theorems": [
    "C21_refuted",
    "C21_refuted_warm"
   ],
   "note": "Refuted for every instance (C21_refuted, C21_refuted_warm): the algorithm with this iterator always raises TypeError or AttributeError."
  },
  {
   "property": "C22",
   "status": "proved",
   "theorems": [
    "C22_best"
   ],
   "note": ""
  },
  {
   "property": "C23",
   "status": "partial",
   "theorems": [
    "C23_refuted",
    "C23_single_partial",
    "C23_first_partial"
   ],
   "note": "Refuted for k = 2 (C23_refuted): a candidate beaten by two others is picked. C23_single_partial: the claim for a single sub-ranking. C23_first_partial: the overall best candidate is always in the first position drawn from."
  },
  {
   "property": "C24",
   "status": "proved",
   "theorems": [
    "C24_any_best",
    "C24_any_sorted",
    "C24_scoring",
    "C24_best",
    "C24_sorted",
    "C24_nbest"
   ],
   "note": ""
  },
  {
   "property": "C25",
   "status": "proved",
   "theorems": [
    "C25_route",
    "C25_sum",
    "C25_order",
    "C25_best"
   ],
   "note": ""
  },
  {
   "property": "C26",
   "status": "partial",
   "theorems": [
    "C26_refuted",
    "C26_departure_partial",
    "C26_instant_partial"
   ],
   "note": "Refuted (C26_refuted): the earliest start is compared with the departure from the pickup stop. C26_departure_partial: that comparison for every planned trip. C26_instant_partial: the claim itself for pickups that take no time."
  },
  {
   "property": "C27",
   "status": "proved",
   "theorems": [
    "C27_keeps",
    "C27_step",
    "C27_ends",
    "C27_reach_cold",
    "C27_reach_warm"
   ],
   "note": ""
  },
  {
   "property": "C28",
   "status": "partial",
   "theorems": [
    "C28_refuted",
    "C28_step_partial",
    "C28_search_partial",
    "C28_takes_partial"
   ],
   "note": "Refuted (C28_refuted): one 2-opt step on a one-vehicle planning returns two routes of the same vehicle serving the same trips. What holds: every resulting route is an initial route with stretches reversed, strictly better than it and, with fair recorded answers, within all constraints but those C06 loses; no vehicle loses its route and no passenger is lost or added (C28_step_partial, C28_search_partial, C28_takes_partial). Missing: only one route per vehicle, which is false."
  },
  {
   "property": "C29",
   "status": "partial",
   "theorems": [
    "C29_refuted",
    "C29_refuted_times",
    "C29_order_partial"
   ],
   "note": "Refuted (C29_refuted): an admissible planning becomes one whose route does not end at the vehicle's destination and is infeasible once flushed, while reported feasible. C29_refuted_times: arrival times are stale afterwards. Companion C29_order_partial: the initial planning is untouched and each returned route has the same visits, linked, reordered by exchanges of neighbours, first visit first, boarding before alighting."
  },
  {
   "property": "C30",
   "status": "proved",
   "theorems": [
    "C30_swap",
    "C30_back",
    "C30_refuses"
   ],
   "note": ""
  },
  {
   "property": "C31",
   "status": "proved",
   "theorems": [
    "C31_best",
    "C31_fails",
    "C31_none",
    "C31_insertion"
   ],
   "note": ""
  },
  {
   "property": "C32",
   "status": "proved",
   "theorems": [
    "C32_chain",
    "C32_runs",
    "C32_stops"
   ],
   "note": ""
  },
  {
   "property": "C33",
   "status": "proved",
   "theorems": [
    "C33_valid",
    "C33_ends",
    "C33_best",
    "C33_none"
   ],
   "note": ""
  },
  {
   "property": "C34",
   "status": "proved",
   "theorems": [
    "C34_replies",
    "C34_metric",
    "C34_world",
    "C34_symmetric",
    "C34_positive",
    "C34_diagonal",
    "C34_separates",
    "C34_triangle",
    "C34_straight"
   ],
   "note": ""
  },
  {
   "property": "C35",
   "status": "proved",
   "theorems": [
    "C35_unique",
    "C35_returns",
    "C35_fresh"
   ],
   "note": ""
  },
  {
   "property": "C36",
   "status": "partial",
   "theorems": [
    "C36_refuted",
    "C36_delivery_partial",
    "C36_pickup_partial",
    "C36_equal_partial"
   ],
   "note": "Refuted in every world (C36_refuted): origin_earliest and origin_latest subtract the duration of the destination. C36_delivery_partial: the delivery window admits every valid service. C36_pickup_partial: the pickup window does up to the difference of the durations. C36_equal_partial: the claim itself for equal durations."
  },
  {
   "property": "C37",
   "status": "proved",
   "theorems": [
    "C37_fleet",
    "C37_job",
    "C37_names",
    "C37_table",
    "C37_fleet_missing",
    "C37_mismatch",
    "C37_missing"
   ],
   "note": ""
  },
  {
   "property": "C38",
   "status": "partial",
   "theorems": [
    "C38_refuted",
    "C38_ignored",
    "C38_open"
   ],
   "note": "Refuted (C38_refuted): a feasible route leaves before and returns after the depot window. C38_ignored, C38_open: for every table the window has no influence and vehicles may leave at 0 and return at any time."
  },
  {
   "property": "C39",
   "status": "partial",
   "theorems": [
    "C39_fleet",
    "C39_job",
    "C39_malformed",
    "C39_refuted",
    "C39_guarantees_partial"
   ],
   "note": "Loading: proved for every instance. Latest finish: refuted (C39_refuted). C39_guarantees_partial: feasible routes are back by step T and pick up within the window of the ride, up to the tolerance ERROR_BOUND."
  },
  {
   "property": "C40",
   "status": "partial",
   "theorems": [
    "C40_refuted",
    "C40_format_partial",
    "C40_everyone_partial"
   ],
   "note": "Refuted for passengers without capacity (C40_refuted). C40_format_partial: what the text says in general. C40_everyone_partial: the whole claim when every passenger takes up capacity."
  },
  {
   "property": "C41",
   "status": "partial",
   "theorems": [
    "C41_refuted",
    "C41_emptied",
    "C41_unopened_partial",
    "C41_stores",
    "C41_again"
   ],
   "note": "Refuted for every content and exception (C41_refuted, C41_emptied): the file is emptied before formatting. C41_unopened_partial: a file that cannot be opened keeps its content."
  },
  {
   "property": "C42",
   "status": "proved",
   "theorems": [
    "C42_log",
    "C42_once"
   ],
   "note": ""
  },
  {
   "property": "C43",
   "status": "partial",
   "theorems": [
    "C43_success",
    "C43_failure",
    "C43_stored",
    "C43_frame",
    "C43_dictionaries",
    "C43_dispatcher",
    "C43_refuted",
    "C43_algorithm_partial",
    "C43_storer_partial"
   ],
   "note": "Proved except \"before anything runs\", which is refuted (C43_refuted): a keyword given twice to the storer raises TypeError after the optimization. C43_dispatcher: those of the dispatcher stop everything. C43_algorithm_partial, C43_storer_partial: those of algorithm and storer raise TypeError before anything of that class runs, and nothing is stored."
  },
  {
   "property": "C44",
   "status": "proved",
   "theorems": [
    "C44_first",
    "C44_same"
   ],
   "note": ""
  },
  {
   "property": "C45",
   "status": "partial",
   "theorems": [
    "C45_refuted",
    "C45_same_partial",
    "C45_equivalence",
    "C45_iff_partial"
   ],
   "note": "Refuted for every hash function of tuples and strings (C45_refuted). C45_same_partial: equal fields imply equality. C45_iff_partial: the claim where the hash function does not collide on the two services."
  },
  {
   "property": "C46",
   "status": "proved",
   "theorems": [
    "C46_rate",
    "C46_bounds",
    "C46_empty"
   ],
   "note": ""
  },
  {
   "property": "C47",
   "status": "partial",
   "theorems": [
    "C47_refuted",
    "C47_refuted_fleet",
    "C47_nonempty_partial"
   ],
   "note": "Refuted for every objective and state (C47_refuted, C47_refuted_fleet): TypeError. C47_nonempty_partial: optimize returns the planning as it is when it has at least one route."
  },
  {
   "property": "C48",
   "status": "partial",
   "theorems": [
    "C48_nodes",
    "C48_pickup",
    "C48_delivery",
    "C48_depot",
    "C48_delivery_window_partial",
    "C48_refuted",
    "C48_same_place",
    "C48_duration"
   ],
   "note": "Numbering, capacities, depot and pickup windows: proved. Delivery windows: refuted for deliveries at the place of their pickup (C48_refuted), proved for others (C48_delivery_window_partial)."
  },
  {
   "property": "C49",
   "status": "partial",
   "theorems": [
    "C49_refuted",
    "C49_reads",
    "C49_kept_partial"
   ],
   "note": "Refuted (C49_refuted): values in [0.95, 1) pass the validation and are dropped. C49_reads: what is read in general. C49_kept_partial: arcs of value at least 1 are present."
  },
  {
   "property": "C50",
   "status": "proved",
   "theorems": [
    "C50_fresh",
    "C50_feasible"
   ],
   "note": ""
  },
  {
   "property": "C51",
   "status": "partial",
   "theorems": [
    "C51_sound_partial",
    "C51_modest",
    "C51_refuted",
    "C51_reversed_refuted",
    "C51_rushed_refuted"
   ],
   "note": "Refuted: C51_refuted (a delivery served by an arc from the node to itself), C51_reversed_refuted (a route from the end of the shift to its start escapes the shift limit), C51_rushed_refuted (deliveries get the duration of the pickup). C51_sound_partial: it holds for vehicles with a common depot, windows and capacities that are finite, delivery durations at most the pickup durations, shifts that cover the day, and solutions whose arcs take time; C51_modest: these include all solutions whose objective, idle vehicles apart, is below 10000."
  },
  {
   "property": "C52",
   "status": "partial",
   "theorems": [
    "C52_complete_partial",
    "C52_direct",
    "C52_refuted",
    "C52_depots_refuted"
   ],
   "note": "Refuted: C52_refuted (a vehicle too small for one trip makes the model infeasible), C52_depots_refuted (only the depot of the first vehicle is used). C52_complete_partial: it holds for a common depot, vehicles with room for every trip, finite windows, pickup durations at most the delivery durations, distances with the triangle inequality (C52_direct: Manhattan distances), and plans that end within the day (1440)."
  },
  {
   "property": "C53",
   "status": "partial",
   "theorems": [
    "C53_total",
    "C53_distance_partial",
    "C53_refuted"
   ],
   "note": "Refuted (C53_refuted): a vehicle that stays where it is costs 10000. C53_total: what the objective is in general. C53_distance_partial: it is the distance whenever it is below 10000."
  },
  {
   "property": "C54",
   "status": "partial",
   "theorems": [
    "C54_optimal_partial",
    "C54_refuted",
    "C54_idle_refuted"
   ],
   "note": "Refuted: C54_refuted (an instance without any plan has an optimal solution, in which a delivery is served by an arc from the node to itself), C54_idle_refuted (a shorter plan leaves a vehicle at the depot, which costs 10000). C54_optimal_partial: an optimal solution with an objective below 10000, idle vehicles apart, is a plan with the least total under the conditions of C51 and C52, where the total includes 10000 for every leg between equal places."
  },
  {
   "property": "C55",
   "status": "partial",
   "theorems": [
    "C55_routes_partial",
    "C55_valid_partial",
    "C55_feasible_partial",
    "C55_optimal_partial",
    "C55_refuted",
    "C55_home_refuted"
   ],
   "note": "Refuted: C55_refuted (two trips from the same place: the second is lost), C55_home_refuted (a trip that ends where the vehicle starts is delivered before its pickup). The _partial theorems hold when no two pickups or deliveries, nor the vehicles' origin, share a place, under the conditions of C51."
  },
  {
   "property": "C56",
   "status": "proved",
   "theorems": [
    "C56_ride",
    "C56_route",
    "C56_passengers"
   ],
   "note": ""
  },
  {
   "property": "C57",
   "status": "proved",
   "theorems": [
    "C57_text",
    "C57_once",
    "C57_same",
    "C57_answers",
    "C57_retry",
    "C57_instance"
   ],
   "note": ""
  },
  {
   "property": "C58",
   "status": "partial",
   "theorems": [
    "C58_text",
    "C58_cordeau_partial",
    "C58_fleet_partial",
    "C58_refuted"
   ],
   "note": "Refuted for HashCode files: C58_refuted (every blank line after the header makes the loader raise TypeError). The _partial theorems: Cordeau-Laporte files load to the same fleet and job, HashCode files to the same fleet."
  },
  {
   "property": "C59",
   "status": "proved",
   "theorems": [
    "C59_exact",
    "C59_recorded",
    "C59_again",
    "C59_empty"
   ],
   "note": ""
  },
  {
   "property": "C60",
   "status": "proved",
   "theorems": [
    "C60_report",
    "C60_no_trips",
    "C60_no_routes"
   ],
   "note": ""
  },
  {
   "property": "C61",
   "status": "partial",
   "theorems": [
    "C61_refuted",
    "C61_overdrawn_refuted",
    "C61_graph",
    "C61_labels_partial",
    "C61_colours_partial"
   ],
   "note": "Refuted as stated: trips that share a place overwrite each other's label and routes that share a leg are drawn in one colour. Proved: nodes and edges are exactly the places and legs, each label and colour belongs to a trip or route there, and the whole claim holds when no places or legs coincide."
  },
  {
   "property": "C62",
   "status": "proved",
   "theorems": [
    "C62_ends"
   ],
   "note": ""
  },
  {
   "property": "C63",
   "status": "proved",
   "theorems": [
    "C63_order",
    "C63_assert",
    "C63_waiting",
    "C63_later"
   ],
   "note": ""
  },
  {
   "property": "C64",
   "status": "proved",
   "theorems": [
    "C64_times",
    "C64_accepts",
    "C64_accepted",
    "C64_numbers"
   ],
   "note": ""
  },
  {
   "property": "C65",
   "status": "proved",
   "theorems": [
    "C65_symmetric",
    "C65_travel",
    "C65_self",
    "C65_accurate",
    "C65_apart",
    "C65_euclidean_collapse"
   ],
   "note": ""
  },
  {
   "property": "C66",
   "status": "proved",
   "theorems": [
    "C66_idle"
   ],
   "note": ""
  },
  {
   "property": "C67",
   "status": "partial",
   "theorems": [
    "C67_refuted",
    "C67_refuted_warm",
    "C67_refuted_busy",
    "C67_busy_partial",
    "C67_busy_warm_partial"
   ],
   "note": "Refuted as stated, for cold starts (of several idle vehicles only one is tried, even if it cannot take any trip), for warm starts (idle vehicles are never tried, C66) and for a busy vehicle with a duration limit (see C70). The _partial theorems: with the exhaustive strategy no trip left over fits into the route of a busy vehicle behind its first visit, if the extended route keeps the duration limit even with the earliest departure."
  },
  {
   "property": "C68",
   "status": "proved",
   "theorems": [
    "C68_ranked",
    "C68_warm_ranked",
    "C68_best",
    "C68_warm_best"
   ],
   "note": ""
  },
  {
   "property": "C69",
   "status": "proved",
   "theorems": [
    "C69_own",
    "C69_vehicles"
   ],
   "note": ""
  },
  {
   "property": "C70",
   "status": "partial",
   "theorems": [
    "C70_refuted",
    "C70_compute_partial",
    "C70_strategy_partial"
   ],
   "note": "Refuted as stated: C70_refuted, the attempt moves the vehicle's departure to an earlier time and the route then takes too long. The _partial theorems need tours that keep the duration limit even with the earliest departure; for the exhaustive strategy the pickup is not right behind the departure."
  },
  {
   "property": "C71",
   "status": "partial",
   "theorems": [
    "C71_search_partial",
    "C71_iterative_partial",
    "C71_grasp_partial"
   ],
   "note": "Refuted already for insertions (C06_refuted_algorithm). The _partial theorems: every route with passengers keeps what insertions guarantee, and all limits if no start time but the departure was requested and the vehicle is not on the way for too long. Missing: the duration limit of the vehicle, and windows behind a visit with a requested start. Both are false: C06_refuted_algorithm, C77_tour_refuted."
  },
  {
   "property": "C72",
   "status": "proved",
   "theorems": [
    "C72_insertion",
    "C72_insertion_warm",
    "C72_search",
    "C72_grasp"
   ],
   "note": ""
  },
  {
   "property": "C73",
   "status": "partial",
   "theorems": [
    "C73_refuted",
    "C73_schedule_partial",
    "C73_decides",
    "C73_keeps_partial",
    "C73_smaller_partial",
    "C73_manhattan"
   ],
   "note": "Refuted (C73_refuted): another passenger is picked up earlier but dropped off no earlier and rides for too long. C73_schedule_partial: nothing happens later and no more is on board. C73_decides: the answer of the search is right whatever was memoised. C73_keeps_partial, C73_smaller_partial: the claim when no other passenger limits the riding time, and that a trip which fits into a tour also fits without one of its passengers."
  },
  {
   "property": "C74",
   "status": "proved",
   "theorems": [
    "C74_best_move",
    "C74_local_optimum",
    "C74_later"
   ],
   "note": ""
  },
  {
   "property": "C75",
   "status": "proved",
   "theorems": [
    "C75_insertion",
    "C75_grasp"
   ],
   "note": ""
  },
  {
   "property": "C76",
   "status": "partial",
   "theorems": [
    "C76_refuted",
    "C76_contest_refuted",
    "C76_at_most_partial",
    "C76_prompt_partial"
   ],
   "note": "Refuted: C76_refuted, a departure put off for one ride is not taken back when another ride is put before it, so bonuses are missed in the report (2 reported, 6 worth). C76_contest_refuted: when rides must be finished by their latest step, the report can be too high. C76_at_most_partial: by the rules of the code the report is never too high. C76_prompt_partial: it is exact if the first ride of every vehicle begins as early as possible."
  },
  {
   "property": "C77",
   "status": "partial",
   "theorems": [
    "C77_refuted",
    "C77_tour_refuted",
    "C77_insertion_partial",
    "C77_grasp_partial"
   ],
   "note": "Refuted: C77_refuted, a passenger of the file is picked up 83 units after the closing time; C77_tour_refuted, a vehicle is on the way for 76 units where the file allows 50. C77_insertion_partial and C77_grasp_partial: the schedules are orderly (work in order and at possible times, everybody dropped, opening times, capacity and longest ride kept), and punctual on tours without requested starts. Missing because false: closing times behind a requested start, the longest tour, the closing time of the depot (C38)."
  },
  {
   "property": "C78",
   "status": "partial",
   "theorems": [
    "C78_refuted",
    "C78_schedule_partial",
    "C78_limits_partial",
    "C78_feasible_partial",
    "C78_value_partial"
   ],
   "note": "Refuted: C78_refuted, a vehicle that starts at 100 instead of 0 is told to leave at 9 instead of 109 (the waiting time is taken for a point in time), so the insertion algorithm leaves a passenger behind that it takes in the same instance 100 earlier. C78_schedule_partial, C78_limits_partial, C78_feasible_partial and C78_value_partial: schedules of tours move along, limits, answers and objective values stay the same, for vehicles that do not start before 0. Missing because false: the algorithm."
  },
  {
   "property": "C79",
   "status": "partial",
   "theorems": [
    "C79_refuted",
    "C79_limits_partial",
    "C79_feasible_partial"
   ],
   "note": "Refuted: C79_refuted, a longer longest ride of one passenger makes another passenger ride for too long, because the earliest pickup is derived from the longest ride. C79_limits_partial and C79_feasible_partial: higher limits that leave the earliest pickups alone keep the limits and the answer."
  },
  {
   "property": "C80",
   "status": "partial",
   "theorems": [
    "C80_refuted",
    "C80_refuted_twice",
    "C80_round_partial",
    "C80_local_optimum_partial",
    "C80_no_idle_partial"
   ],
   "note": "Refuted twice: C80_refuted, two neighbouring stops had better be visited the other way round, but stretches of two stops are tried right before the last stop only; C80_refuted_twice, the search ends with two routes for one vehicle, one of which can be improved by a reversal that was tried, because replacing it throws out the other one. What holds: one round brings at least as much as any reversal that is tried (C80_round_partial), and when the search ends with one route per vehicle none of these improves a route (C80_local_optimum_partial; routes with inner stops take somebody, as plannings made by insertion do by C80_no_idle_partial, and for HashCode bonuses are not negative)."
  },
  {
   "property": "C81",
   "status": "partial",
   "theorems": [
    "C81_refuted",
    "C81_refuted_back",
    "C81_refuted_work",
    "C81_refuted_work_back",
    "C81_opening_partial",
    "C81_insertion_partial",
    "C81_search_partial",
    "C81_grasp_partial"
   ],
   "note": "Refuted in four ways: the vehicle leaves after the closing time of its origin (C81_refuted), is back before the opening time of its destination (C81_refuted_back), leaves without the time for the work at the origin (C81_refuted_work), and comes back too late for the work at the destination (C81_refuted_work_back), as Route.feasible asks for none of these. What holds: no tour leaves before the opening time of the origin (C81_opening_partial), and tours returned by insertion with only_feasible, search by reallocation and GRASP are back by the closing time of the destination (C81_insertion_partial, C81_search_partial, C81_grasp_partial)."
  },
  {
   "property": "C82",
   "status": "partial",
   "theorems": [
    "C82_refuted",
    "C82_refuted_taxi",
    "C82_warm_partial",
    "C82_plain_partial"
   ],
   "note": "Refuted: by the objective of HashCode a bonus of 50 is lost for an inserted ride of 1 (C82_refuted), and by the one of taxi sharing an inserted passenger makes somebody spend less time in the vehicle (C82_refuted_taxi). What holds: the value stays the same for every objective if no trip is added, and by the objective of dial-a-ride it never drops and rises with every added trip (C82_warm_partial); by the one of HashCode it never drops if there are no bonuses (C82_plain_partial)."
  },
  {
   "property": "C83",
   "status": "proved",
   "theorems": [
    "C83_limit",
    "C83_enough",
    "C83_unread",
    "C83_trip",
    "C83_in_order"
   ],
   "note": ""
  },
  {
   "property": "C84",
   "status": "proved",
   "theorems": [
    "C84_gives",
    "C84_tells",
    "C84_same",
    "C84_times",
    "C84_printed",
    "C84_cordeau",
    "C84_hashcode",
    "C84_unlike_names"
   ],
   "note": ""
  },
  {
   "property": "C85",
   "status": "partial",
   "theorems": [
    "C85_refuted",
    "C85_stage_partial",
    "C85_grasp_partial"
   ],
   "note": "Refuted: by the objective of HashCode the stage gives away a bonus of 50 for an inserted ride of 1 (C85_refuted). What holds: by the objective of dial-a-ride, and by the one of HashCode if there are no bonuses, the stage never loses value (C85_stage_partial), and the result of GRASP leads the plannings of all first stages (C85_grasp_partial). Not covered: objectives with bonuses and taxi sharing for GRASP as a whole."
  },
  {
   "property": "C86",
   "status": "partial",
   "theorems": [
    "C86_refuted",
    "C86_schedule_partial",
    "C86_limits_partial",
    "C86_feasible_partial",
    "C86_value_partial",
    "C86_sorted_partial",
    "C86_total_partial"
   ],
   "note": "Refuted: the insertion algorithm without random choices finds two trips or one, depending on the order of the set of trips (C86_refuted). What holds, each part over the same instance with another order: times and loads (C86_schedule_partial), limits (C86_limits_partial), answers about routes (C86_feasible_partial), values and scores (C86_value_partial), the ranking of routes without equal scores (C86_sorted_partial) and the value of a planning (C86_total_partial). Not covered: when whole runs of the algorithms agree."
  },
  {
   "property": "C87",
   "status": "proved",
   "theorems": [
    "C87_schedule",
    "C87_limits",
    "C87_insertion",
    "C87_stateless",
    "C87_search",
    "C87_grasp",
    "C87_iterative",
    "C87_sequential",
    "C87_answers"
   ],
   "note": ""
  },
  {
   "property": "C88",
   "status": "proved",
   "theorems": [
    "C88_schedule",
    "C88_limits",
    "C88_insertion",
    "C88_stateless",
    "C88_search",
    "C88_grasp",
    "C88_iterative",
    "C88_sequential",
    "C88_answers",
    "C88_manhattan",
    "C88_tolerance",
    "C88_tolerance_insertion"
   ],
   "note": ""
  },
  {
   "property": "C89",
   "status": "partial",
   "theorems": [
    "C89_quiet",
    "C89_inputs",
    "C89_gives",
    "C89_value",
    "C89_error",
    "C89_total",
    "C89_refuted",
    "C89_unplaced",
    "C89_planned_partial"
   ],
   "note": "Everything but planned trips: proved, for every state (C89_quiet, C89_inputs, C89_gives, C89_value, C89_error, C89_total). Planned trips: refuted (C89_refuted: PlannedTrip.__iter__ reads feasible, which is memoised at the stops and not taken back by a flush, so that the route is called feasible after a later change of a start time); C89_unplaced: without stops it raises; C89_planned_partial: if nothing is changed in between, the route's answer is right."
  },
  {
   "property": "C90",
   "status": "proved",
   "theorems": [
    "C90_copies",
    "C90_parts",
    "C90_at_once",
    "C90_limit",
    "C90_deep",
    "C90_no_limit"
   ],
   "note": ""
  },
  {
   "property": "C91",
   "status": "proved",
   "theorems": [
    "C91_euclidean",
    "C91_exact",
    "C91_detour",
    "C91_numbers",
    "C91_shorter",
    "C91_fewer_coordinates"
   ],
   "note": ""
  },
  {
   "property": "C92",
   "status": "proved",
   "theorems": [
    "C92_later",
    "C92_direct",
    "C92_places",
    "C92_rounding"
   ],
   "note": ""
  },
  {
   "property": "C93",
   "status": "proved",
   "theorems": [
    "C93_distance",
    "C93_durations",
    "C93_best",
    "C93_margin",
    "C93_order",
    "C93_order_matters",
    "C93_worse_preferred"
   ],
   "note": ""
  },
  {
   "property": "C94",
   "status": "proved",
   "theorems": [
    "C94_times",
    "C94_feasible",
    "C94_blocks",
    "C94_world",
    "C94_distance",
    "C94_durations",
    "C94_any_order",
    "C94_beyond"
   ],
   "note": ""
  },
  {
   "property": "C95",
   "status": "proved",
   "theorems": [
    "C95_exact",
    "C95_times",
    "C95_admissible",
    "C95_route"
   ],
   "note": ""
  },
  {
   "property": "C96",
   "status": "proved",
   "theorems": [
    "C96_driven",
    "C96_ridden",
    "C96_distance",
    "C96_durations",
    "C96_order"
   ],
   "note": ""
  },
  {
   "property": "C97",
   "status": "proved",
   "theorems": [
    "C97_whole",
    "C97_exact",
    "C97_score",
    "C97_sum",
    "C97_lost"
   ],
   "note": ""
  }
 ]
}