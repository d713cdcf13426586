{
 "C04": [
  "partial",
  "Times and loads: proved. Feasibility: refuted in general (C04_refuted, Stop.flush keeps Stop.feasible); proved when the stops' feasibility had not been read before (C04_feasible_partial)."
 ],
 "C06": [
  "partial",
  "Refuted: C06_refuted for one insertion and C06_refuted_algorithm for a whole run exhibit a route reported feasible that violates a time window. What holds instead, whenever recorded answers are fair (SpecFair.v), which all of this preserves: C06_one_partial for one insertion (all constraints except latest starts after a moved start time; everything if none was moved), C06_strategy_partial for a strategy and C06_algorithm_partial, C06_warm_partial for whole runs (the same without the duration of the route). The duration limit really is lost in a whole run: C77_tour_refuted."
 ],
 "C08": [
  "partial",
  "Refuted: C08_refuted. C08_returns_last: for every linked route insert_stop returns the last stop of the route instead, never the inserted one."
 ],
 "C10": [
  "partial",
  "Refuted for every linked route of at least two stops (C10_refuted): the chain becomes cyclic, first_stop raises AssertionError and departure times raise RecursionError."
 ],
 "C15": [
  "partial",
  "Refuted for the departure from the depot (C15_refuted). C15_similar_partial: every existing route keeps its stops, places, trips and all service times and loads from the second stop on."
 ],
 "C26": [
  "partial",
  "Refuted (C26_refuted): the earliest start is compared with the departure from the pickup stop. C26_departure_partial: that comparison for every planned trip. C26_instant_partial: the claim itself for pickups that take no time."
 ],
 "C47": [
  "partial",
  "Refuted for every objective and state (C47_refuted, C47_refuted_fleet): TypeError. C47_nonempty_partial: optimize returns the planning as it is when it has at least one route."
 ],
 "C20": [
  "partial",
  "Refuted (C20_refuted): a trip accepted in one turn is neither planned nor pending after the next. C20_cold_partial, C20_warm_partial: every run returns a valid planning in which each vehicle serves at most one trip more than at the start."
 ],
 "C21": [
  "partial",
  "Refuted for every instance (C21_refuted, C21_refuted_warm): the algorithm with this iterator always raises TypeError or AttributeError."
 ],
 "C23": [
  "partial",
  "Refuted for k = 2 (C23_refuted): a candidate beaten by two others is picked. C23_single_partial: the claim for a single sub-ranking. C23_first_partial: the overall best candidate is always in the first position drawn from."
 ],
 "C28": [
  "partial",
  "Refuted (C28_refuted): one 2-opt step on a one-vehicle planning returns two routes of the same vehicle serving the same trips. What holds: every resulting route is an initial route with stretches reversed, strictly better than it and, with fair recorded answers, within all constraints but those C06 loses; no vehicle loses its route and no passenger is lost or added (C28_step_partial, C28_search_partial, C28_takes_partial). Missing: only one route per vehicle, which is false."
 ],
 "C29": [
  "partial",
  "Refuted (C29_refuted): an admissible planning becomes one whose route does not end at the vehicle's destination and is infeasible once flushed, while reported feasible. C29_refuted_times: arrival times are stale afterwards. Companion C29_order_partial: the initial planning is untouched and each returned route has the same visits, linked, reordered by exchanges of neighbours, first visit first, boarding before alighting."
 ],
 "C36": [
  "partial",
  "Refuted in every world (C36_refuted): origin_earliest and origin_latest subtract the duration of the destination. C36_delivery_partial: the delivery window admits every valid service. C36_pickup_partial: the pickup window does up to the difference of the durations. C36_equal_partial: the claim itself for equal durations."
 ],
 "C38": [
  "partial",
  "Refuted (C38_refuted): a feasible route leaves before and returns after the depot window. C38_ignored, C38_open: for every table the window has no influence and vehicles may leave at 0 and return at any time."
 ],
 "C39": [
  "partial",
  "Loading: proved for every instance. Latest finish: refuted (C39_refuted). C39_guarantees_partial: feasible routes are back by step T and pick up within the window of the ride, up to the tolerance ERROR_BOUND."
 ],
 "C40": [
  "partial",
  "Refuted for passengers without capacity (C40_refuted). C40_format_partial: what the text says in general. C40_everyone_partial: the whole claim when every passenger takes up capacity."
 ],
 "C41": [
  "partial",
  "Refuted for every content and exception (C41_refuted, C41_emptied): the file is emptied before formatting. C41_unopened_partial: a file that cannot be opened keeps its content."
 ],
 "C43": [
  "partial",
  "Proved except \"before anything runs\", which is refuted (C43_refuted): a keyword given twice to the storer raises TypeError after the optimization. C43_dispatcher: those of the dispatcher stop everything. C43_algorithm_partial, C43_storer_partial: those of algorithm and storer raise TypeError before anything of that class runs, and nothing is stored."
 ],
 "C45": [
  "partial",
  "Refuted for every hash function of tuples and strings (C45_refuted). C45_same_partial: equal fields imply equality. C45_iff_partial: the claim where the hash function does not collide on the two services."
 ],
 "C48": [
  "partial",
  "Numbering, capacities, depot and pickup windows: proved. Delivery windows: refuted for deliveries at the place of their pickup (C48_refuted), proved for others (C48_delivery_window_partial)."
 ],
 "C49": [
  "partial",
  "Refuted (C49_refuted): values in [0.95, 1) pass the validation and are dropped. C49_reads: what is read in general. C49_kept_partial: arcs of value at least 1 are present."
 ],
 "C51": [
  "partial",
  "Refuted: C51_refuted (a delivery served by an arc from the node to itself), C51_reversed_refuted (a route from the end of the shift to its start escapes the shift limit), C51_rushed_refuted (deliveries get the duration of the pickup). C51_sound_partial: it holds for vehicles with a common depot, windows and capacities that are finite, delivery durations at most the pickup durations, shifts that cover the day, and solutions whose arcs take time; C51_modest: these include all solutions whose objective, idle vehicles apart, is below 10000."
 ],
 "C52": [
  "partial",
  "Refuted: C52_refuted (a vehicle too small for one trip makes the model infeasible), C52_depots_refuted (only the depot of the first vehicle is used). C52_complete_partial: it holds for a common depot, vehicles with room for every trip, finite windows, pickup durations at most the delivery durations, distances with the triangle inequality (C52_direct: Manhattan distances), and plans that end within the day (1440)."
 ],
 "C53": [
  "partial",
  "Refuted (C53_refuted): a vehicle that stays where it is costs 10000. C53_total: what the objective is in general. C53_distance_partial: it is the distance whenever it is below 10000."
 ],
 "C54": [
  "partial",
  "Refuted: C54_refuted (an instance without any plan has an optimal solution, in which a delivery is served by an arc from the node to itself), C54_idle_refuted (a shorter plan leaves a vehicle at the depot, which costs 10000). C54_optimal_partial: an optimal solution with an objective below 10000, idle vehicles apart, is a plan with the least total under the conditions of C51 and C52, where the total includes 10000 for every leg between equal places."
 ],
 "C55": [
  "partial",
  "Refuted: C55_refuted (two trips from the same place: the second is lost), C55_home_refuted (a trip that ends where the vehicle starts is delivered before its pickup). The _partial theorems hold when no two pickups or deliveries, nor the vehicles' origin, share a place, under the conditions of C51."
 ],
 "C58": [
  "partial",
  "Refuted for HashCode files: C58_refuted (every blank line after the header makes the loader raise TypeError). The _partial theorems: Cordeau-Laporte files load to the same fleet and job, HashCode files to the same fleet."
 ],
 "C61": [
  "partial",
  "Refuted as stated: trips that share a place overwrite each other's label and routes that share a leg are drawn in one colour. Proved: nodes and edges are exactly the places and legs, each label and colour belongs to a trip or route there, and the whole claim holds when no places or legs coincide."
 ],
 "C67": [
  "partial",
  "Refuted as stated, for cold starts (of several idle vehicles only one is tried, even if it cannot take any trip), for warm starts (idle vehicles are never tried, C66) and for a busy vehicle with a duration limit (see C70). The _partial theorems: with the exhaustive strategy no trip left over fits into the route of a busy vehicle behind its first visit, if the extended route keeps the duration limit even with the earliest departure."
 ],
 "C70": [
  "partial",
  "Refuted as stated: C70_refuted, the attempt moves the vehicle's departure to an earlier time and the route then takes too long. The _partial theorems need tours that keep the duration limit even with the earliest departure; for the exhaustive strategy the pickup is not right behind the departure."
 ],
 "C71": [
  "partial",
  "Refuted already for insertions (C06_refuted_algorithm). The _partial theorems: every route with passengers keeps what insertions guarantee, and all limits if no start time but the departure was requested and the vehicle is not on the way for too long. Missing: the duration limit of the vehicle, and windows behind a visit with a requested start. Both are false: C06_refuted_algorithm, C77_tour_refuted."
 ],
 "C73": [
  "partial",
  "Refuted (C73_refuted): another passenger is picked up earlier but dropped off no earlier and rides for too long. C73_schedule_partial: nothing happens later and no more is on board. C73_decides: the answer of the search is right whatever was memoised. C73_keeps_partial, C73_smaller_partial: the claim when no other passenger limits the riding time, and that a trip which fits into a tour also fits without one of its passengers."
 ],
 "C76": [
  "partial",
  "Refuted: C76_refuted, a departure put off for one ride is not taken back when another ride is put before it, so bonuses are missed in the report (2 reported, 6 worth). C76_contest_refuted: when rides must be finished by their latest step, the report can be too high. C76_at_most_partial: by the rules of the code the report is never too high. C76_prompt_partial: it is exact if the first ride of every vehicle begins as early as possible."
 ],
 "C77": [
  "partial",
  "Refuted: C77_refuted, a passenger of the file is picked up 83 units after the closing time; C77_tour_refuted, a vehicle is on the way for 76 units where the file allows 50. C77_insertion_partial and C77_grasp_partial: the schedules are orderly (work in order and at possible times, everybody dropped, opening times, capacity and longest ride kept), and punctual on tours without requested starts. Missing because false: closing times behind a requested start, the longest tour, the closing time of the depot (C38)."
 ],
 "C78": [
  "partial",
  "Refuted: C78_refuted, a vehicle that starts at 100 instead of 0 is told to leave at 9 instead of 109 (the waiting time is taken for a point in time), so the insertion algorithm leaves a passenger behind that it takes in the same instance 100 earlier. C78_schedule_partial, C78_limits_partial, C78_feasible_partial and C78_value_partial: schedules of tours move along, limits, answers and objective values stay the same, for vehicles that do not start before 0. Missing because false: the algorithm."
 ],
 "C79": [
  "partial",
  "Refuted: C79_refuted, a longer longest ride of one passenger makes another passenger ride for too long, because the earliest pickup is derived from the longest ride. C79_limits_partial and C79_feasible_partial: higher limits that leave the earliest pickups alone keep the limits and the answer."
 ],
 "C80": [
  "partial",
  "Refuted twice: C80_refuted, two neighbouring stops had better be visited the other way round, but stretches of two stops are tried right before the last stop only; C80_refuted_twice, the search ends with two routes for one vehicle, one of which can be improved by a reversal that was tried, because replacing it throws out the other one. What holds: one round brings at least as much as any reversal that is tried (C80_round_partial), and when the search ends with one route per vehicle none of these improves a route (C80_local_optimum_partial; routes with inner stops take somebody, as plannings made by insertion do by C80_no_idle_partial, and for HashCode bonuses are not negative)."
 ],
 "C81": [
  "partial",
  "Refuted in four ways: the vehicle leaves after the closing time of its origin (C81_refuted), is back before the opening time of its destination (C81_refuted_back), leaves without the time for the work at the origin (C81_refuted_work), and comes back too late for the work at the destination (C81_refuted_work_back), as Route.feasible asks for none of these. What holds: no tour leaves before the opening time of the origin (C81_opening_partial), and tours returned by insertion with only_feasible, search by reallocation and GRASP are back by the closing time of the destination (C81_insertion_partial, C81_search_partial, C81_grasp_partial)."
 ],
 "C82": [
  "partial",
  "Refuted: by the objective of HashCode a bonus of 50 is lost for an inserted ride of 1 (C82_refuted), and by the one of taxi sharing an inserted passenger makes somebody spend less time in the vehicle (C82_refuted_taxi). What holds: the value stays the same for every objective if no trip is added, and by the objective of dial-a-ride it never drops and rises with every added trip (C82_warm_partial); by the one of HashCode it never drops if there are no bonuses (C82_plain_partial)."
 ],
 "C85": [
  "partial",
  "Refuted: by the objective of HashCode the stage gives away a bonus of 50 for an inserted ride of 1 (C85_refuted). What holds: by the objective of dial-a-ride, and by the one of HashCode if there are no bonuses, the stage never loses value (C85_stage_partial), and the result of GRASP leads the plannings of all first stages (C85_grasp_partial). Not covered: objectives with bonuses and taxi sharing for GRASP as a whole."
 ],
 "C86": [
  "partial",
  "Refuted: the insertion algorithm without random choices finds two trips or one, depending on the order of the set of trips (C86_refuted). What holds, each part over the same instance with another order: times and loads (C86_schedule_partial), limits (C86_limits_partial), answers about routes (C86_feasible_partial), values and scores (C86_value_partial), the ranking of routes without equal scores (C86_sorted_partial) and the value of a planning (C86_total_partial). Not covered: when whole runs of the algorithms agree."
 ],
 "C89": [
  "partial",
  "Everything but planned trips: proved, for every state (C89_quiet, C89_inputs, C89_gives, C89_value, C89_error, C89_total). Planned trips: refuted (C89_refuted: PlannedTrip.__iter__ reads feasible, which is memoised at the stops and not taken back by a flush, so that the route is called feasible after a later change of a start time); C89_unplaced: without stops it raises; C89_planned_partial: if nothing is changed in between, the route's answer is right."
 ]
}
