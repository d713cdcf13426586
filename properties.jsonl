{"id": "C01", "title": "Reading a stop's times gives the schedule recurrence, whatever was read before", "statement": "On a route whose stops are linked, reading arrival_time, starting_time, departure_time, transit_time, waiting_time or capacity of any stop, any number of times and in any order, always returns the value of the plain recurrence (arrival = departure of the previous stop + travel time; start = latest of the requested start, the earliest window bound and the arrival; departure = start + load time; load = previous load + boarded - alighted) and changes nothing observable.", "quantifier": "every well-linked route of any length, every stop in it, every earlier sequence of reads (i.e. every valid content of the per-object caches)", "why_tests_cant": "the values are memoised per object, so correctness depends on the whole history of reads; tests only sample a few histories", "anchors": ["jinete/models/stops.py:Stop.arrival_time", "jinete/models/stops.py:Stop.departure_time", "jinete/models/stops.py:Stop.starting_time", "jinete/models/stops.py:Stop.capacity"]}
{"id": "C02", "title": "Time never runs backwards along a route", "statement": "If all service durations are non-negative, then along every route arrival <= start <= departure at each stop, the departure of a stop is <= the arrival at the next one, waiting times are >= 0 and the route duration is >= 0; hence the sanity assertions made while editing routes cannot fail because of times.", "quantifier": "every route of any length over any trips/vehicles with non-negative durations and any requested start times", "why_tests_cant": "universal over all instances and route lengths", "anchors": ["jinete/models/stops.py:Stop.starting_time", "jinete/models/stops.py:Stop.waiting_time", "jinete/models/routes.py:Route.append_planned_trip", "jinete/models/routes.py:Route.duration"]}
{"id": "C03", "title": "Vehicle load accounting", "statement": "On a route in which every alighting is preceded by its boarding, the reported load at each stop equals the total capacity of the trips on board after it, is never negative for non-negative trip capacities (the internal assertion cannot fail), and is zero at the end of a route that delivers everything it picks up.", "quantifier": "every well-formed route, every stop, all non-negative capacities", "why_tests_cant": "needs an inductive argument over route length and over arbitrary interleavings of pickups and deliveries", "anchors": ["jinete/models/stops.py:Stop.capacity"]}
{"id": "C04", "title": "Changing a stop's start time is reflected everywhere after a route flush", "statement": "After assigning starting_time of a stop and calling flush() on the route, the times, load and feasibility flags read from any stop of the route are those of the new schedule.", "quantifier": "every route, stop, assigned value and previous read history", "why_tests_cant": "depends on which memoised values survive; histories are unbounded", "anchors": ["jinete/models/stops.py:Stop.starting_time", "jinete/models/stops.py:Stop.flush", "jinete/models/routes.py:Route.flush", "jinete/models/stops.py:Stop.feasible"]}
{"id": "C05", "title": "Route.feasible decides exactly the problem constraints", "statement": "On a route whose feasibility flags were never read before, feasible is True exactly when (up to the tolerance 0.001): it starts at the vehicle's origin and ends at its destination, is back in time, lasts no longer than the vehicle timeout, every trip's pickup and delivery start inside the trip's windows, the vehicle capacity is respected at these stops and no trip rides longer than its timeout.", "quantifier": "every well-formed route over every instance", "why_tests_cant": "universal over instances and routes", "anchors": ["jinete/models/routes.py:Route.feasible", "jinete/models/planned_trips.py:PlannedTrip.feasible", "jinete/models/stops.py:Stop.feasible"]}
{"id": "C06", "title": "Insertion only reports routes that really satisfy the constraints", "statement": "Every route returned by an insertion strategy with only_feasible=True satisfies the problem constraints when they are recomputed from scratch.", "quantifier": "every base route, trip, insertion position", "why_tests_cant": "the strategy re-times stops after having memoised feasibility; needs reasoning about every history", "anchors": ["jinete/algorithms/heuristics/insertion/strategies/abc.py:InsertionStrategy._improve_ride_times", "jinete/algorithms/heuristics/insertion/strategies/abc.py:InsertionStrategy.compute", "jinete/models/stops.py:Stop.flush"]}
{"id": "C07", "title": "insert_stop puts the stop right after its predecessor and keeps everything else", "statement": "Inserting a stop whose previous stop is in the route (and is not the last one) makes it the immediate successor of that stop, keeps all other stops in order, and relinks the chain; if the previous stop is not in the route it raises PreviousStopNotInRouteException and changes nothing; after the last stop it raises IndexError and changes nothing.", "quantifier": "every linked route, every stop to insert", "why_tests_cant": "universal over routes and positions, including the error paths", "anchors": ["jinete/models/routes.py:Route.insert_stop", "jinete/models/routes.py:Route.insert_stop_at"]}
{"id": "C08", "title": "insert_stop returns the inserted stop", "statement": "The stop returned by insert_stop/insert_stop_at is the stop passed in.", "quantifier": "every route and stop for which the call succeeds", "why_tests_cant": "universal claim about the return value; the repository tests never look at it", "anchors": ["jinete/models/routes.py:Route.insert_stop_at"]}
{"id": "C09", "title": "remove_stop_at removes exactly one stop and relinks its neighbours", "statement": "Removing an inner stop returns it, deletes exactly that occurrence, keeps the order of the others and keeps the chain of previous stops consistent; removing the last stop raises IndexError and changes nothing.", "quantifier": "every linked route, every index", "why_tests_cant": "universal over routes and indices", "anchors": ["jinete/models/routes.py:Route.remove_stop_at"]}
{"id": "C10", "title": "Removing the first stop keeps the chain consistent", "statement": "After remove_stop_at(0) the new first stop has no previous stop and its times can be read.", "quantifier": "every linked route of at least two stops", "why_tests_cant": "universal over routes", "anchors": ["jinete/models/routes.py:Route.remove_stop_at", "jinete/models/routes.py:Route.first_stop"]}
{"id": "C11", "title": "Appending a planned trip adds exactly that trip, pickup before delivery", "statement": "append_planned_trip with a pickup and delivery stop whose predecessors are in the route yields a route containing exactly the old stops in the old order plus the pickup and, later, the delivery; no other trip is lost, duplicated or reordered, and no assertion fails.", "quantifier": "every well-formed route, trip and insertion place", "why_tests_cant": "universal over routes, and the checks run in the middle of mutation", "anchors": ["jinete/models/routes.py:Route.append_planned_trip"]}
{"id": "C12", "title": "remove_trip removes exactly that trip", "statement": "remove_trip deletes the pickup and the delivery of the trip and nothing else; the remaining stops keep their order and remain correctly linked; removing the trip just appended gives back the original sequence of visits.", "quantifier": "every well-formed route with one trip event per inner stop, every trip in it", "why_tests_cant": "universal over routes", "anchors": ["jinete/models/routes.py:Route.remove_trip"]}
{"id": "C13", "title": "Cloning gives an equal route and editing the clone never changes the original", "statement": "clone(i) returns a route visiting the same places for the same trips with the same requested start times; every stop from position i-1 on is a new object; the original route and every other existing route are unchanged; and each planned trip of the new part points to stops of the clone.", "quantifier": "every well-formed route, every requested index", "why_tests_cant": "aliasing: the clone shares a prefix with the original, so safety must hold for every later edit", "anchors": ["jinete/models/routes.py:RouteCloner.clone", "jinete/models/routes.py:RouteCloner._initialize", "jinete/models/routes.py:Route.clone"]}
{"id": "C14", "title": "Insertion strategies place pickup and delivery where asked", "statement": "compute(route, trip, i, j) with i < j < number of stops builds a route whose visits are the old ones with the pickup added right after position i and the delivery right before old position j, so that exactly the old trips plus the new one are served, and raises no exception.", "quantifier": "every well-formed route, trip not in it, and index pair", "why_tests_cant": "universal over routes and indices, with cloning and mutation underneath", "anchors": ["jinete/algorithms/heuristics/insertion/strategies/abc.py:InsertionStrategy._compute_one", "jinete/algorithms/heuristics/insertion/strategies/abc.py:InsertionStrategy._build_delivery"]}
{"id": "C15", "title": "Computing insertion candidates does not modify the base route", "statement": "Calling compute on a route leaves the route passed in unchanged: same stops, same trips, same times.", "quantifier": "every base route, trip and positions", "why_tests_cant": "the candidate shares stops with the base route, so an unbounded set of sharing patterns matters", "anchors": ["jinete/algorithms/heuristics/insertion/strategies/abc.py:InsertionStrategy._improve_ride_times", "jinete/models/routes.py:RouteCloner.clone"]}
{"id": "C16", "title": "Index pairs explored by the strategies", "statement": "sample_index_pairs(n, count) returns pairwise distinct pairs (i, j) with 0 <= i < j < n; all n(n-1)/2 of them if there are at most count (for n >= 2), otherwise exactly count of them; intensive insertion explores all of them and tail insertion exactly the last position.", "quantifier": "all n, count and all random streams for which the sampling loop ends", "why_tests_cant": "universal over n, count and random outcomes", "anchors": ["jinete/utils/random.py:sample_index_pairs", "jinete/utils/random.py:ncr", "jinete/algorithms/heuristics/insertion/strategies/intensive.py:IntensiveInsertionStrategy.compute", "jinete/algorithms/heuristics/insertion/strategies/tail.py:TailInsertionStrategy.compute"]}
{"id": "C17", "title": "The insertion algorithm (ranking iterator) accounts for every trip", "statement": "For every fleet and job with non-negative durations and capacities, InsertionAlgorithm with the default ranking iterator and a tail, intensive or sampling strategy ends without exception; the planning has exactly one route per vehicle; every route starts at its vehicle's origin, ends at its destination, serves each of its trips exactly once with pickup before delivery; no trip is served by two routes; only trips of the job are served; accepted trips are never dropped later.", "quantifier": "every instance, every set-iteration order, every random choice, every number of steps", "why_tests_cant": "whole-run property over unbounded executions and all nondeterministic choices", "anchors": ["jinete/algorithms/heuristics/insertion/algorithm.py:InsertionAlgorithm._optimize", "jinete/algorithms/heuristics/insertion/iterators/ranking.py:RankingInsertionIterator", "jinete/algorithms/heuristics/insertion/iterators/abc.py:InsertionIterator._set_route"]}
{"id": "C18", "title": "The insertion algorithm terminates", "statement": "The main loop of InsertionAlgorithm with the ranking iterator accepts at most one route per pending trip and then stops.", "quantifier": "every instance and every run", "why_tests_cant": "liveness over unbounded runs", "anchors": ["jinete/algorithms/heuristics/insertion/algorithm.py:InsertionAlgorithm._optimize", "jinete/algorithms/heuristics/insertion/iterators/ranking.py:RankingInsertionIterator.__next__"]}
{"id": "C19", "title": "Warm start keeps the trips already planned", "statement": "InsertionAlgorithm started from an initial result returns a planning in which every vehicle still serves the trips it served in the initial result, and the routes of the initial result itself are not modified.", "quantifier": "every initial planning with well-formed routes and every run", "why_tests_cant": "universal over initial plannings and runs; relies on deep copies", "anchors": ["jinete/algorithms/heuristics/insertion/algorithm.py:InsertionAlgorithm._build_iterator", "jinete/algorithms/heuristics/insertion/iterators/abc.py:InsertionIterator.__init__"]}
{"id": "C20", "title": "Stateless iteration keeps accepted trips", "statement": "InsertionAlgorithm with StatelessInsertionIterator never drops a trip it has accepted.", "quantifier": "every instance and every run", "why_tests_cant": "whole-run property; depends on stale references kept by the iterator", "anchors": ["jinete/algorithms/heuristics/insertion/iterators/stateless.py:StatelessInsertionIterator", "jinete/algorithms/heuristics/insertion/iterators/abc.py:InsertionIterator._attractive_routes"]}
{"id": "C21", "title": "BestStatelessInsertionIterator yields the best candidate", "statement": "next() on BestStatelessInsertionIterator returns one of the best candidates by the criterion, or ends the iteration when there is none.", "quantifier": "every instance", "why_tests_cant": "universal over candidate lists", "anchors": ["jinete/algorithms/heuristics/insertion/iterators/stateless.py:BestStatelessInsertionIterator.__next__", "jinete/models/criterions.py:RouteCriterion.nbest"]}
{"id": "C22", "title": "Ranking iteration picks the overall best candidate (randomized_size = 1)", "statement": "With randomized_size = 1 the ranking iterator returns a route whose criterion score is at least as good as that of every candidate in every sub-ranking, and it stops only when there is no candidate.", "quantifier": "every collection of sorted sub-rankings", "why_tests_cant": "universal over rankings of any size", "anchors": ["jinete/algorithms/heuristics/insertion/iterators/ranking.py:RankingInsertionIterator.__next__"]}
{"id": "C23", "title": "Ranking iteration picks among the k best candidates", "statement": "With randomized_size = k the ranking iterator picks one of the k best-scored candidates over all sub-rankings.", "quantifier": "every collection of sorted sub-rankings and every k >= 1", "why_tests_cant": "universal over rankings", "anchors": ["jinete/algorithms/heuristics/insertion/iterators/ranking.py:RankingInsertionIterator.__next__"]}
{"id": "C24", "title": "best, sorted and nbest", "statement": "best returns a non-None argument with optimal key, the first one among ties, and None when there is none; sorted returns a permutation of its input ordered by the criterion, stable among ties; nbest returns the first n elements of sorted.", "quantifier": "every list of candidates, every key function, both directions", "why_tests_cant": "universal over lists and keys", "anchors": ["jinete/models/constants.py:OptimizationDirection", "jinete/models/criterions.py:RouteCriterion.best", "jinete/models/objectives.py:Objective.best"]}
{"id": "C25", "title": "Objective of a planning is the sum over its routes and does not depend on iteration order", "statement": "For each objective the value of a planning is the component-wise sum of the values of its routes, and any order of iterating the set of routes gives the same value; comparison between values is lexicographic.", "quantifier": "every planning, every order", "why_tests_cant": "sets iterate in arbitrary order; universal over permutations", "anchors": ["jinete/models/objectives.py:Objective._planning_optimization_function", "jinete/models/objectives.py:DialARideObjective._route_optimization_function"]}
{"id": "C26", "title": "HashCode score of a ride", "statement": "Under the HashCode objective a non-empty ride scores its distance, plus the on-time bonus exactly when its pickup service starts at its earliest start.", "quantifier": "every planned trip", "why_tests_cant": "universal over schedules and durations", "anchors": ["jinete/models/objectives.py:HashCodeObjective._planned_trip_optimization_function", "jinete/models/planned_trips.py:PlannedTrip.pickup_time"]}
{"id": "C27", "title": "Local search never returns a worse planning and leaves the initial result untouched", "statement": "LocalSearchAlgorithm with the reallocation strategy returns a planning whose objective value is >= that of the initial result, serving exactly the same trips with the same vehicles, one route per vehicle; the routes of the initial result keep their stops, trips and times.", "quantifier": "every initial result with well-formed routes, every iteration order and random sample, every number of rounds", "why_tests_cant": "unbounded number of rounds and moves", "anchors": ["jinete/algorithms/heuristics/local_search/algorithm.py:LocalSearchAlgorithm._optimize", "jinete/algorithms/heuristics/local_search/strategies/plannings/reallocation.py:ReallocationLocalSearchStrategy._improve", "jinete/algorithms/heuristics/local_search/strategies/abc.py:LocalSearchStrategy"]}
{"id": "C28", "title": "2-opt keeps one route per vehicle", "statement": "The planning produced by TwoOPTLocalSearchStrategy has at most one route per vehicle and serves no trip twice.", "quantifier": "every initial planning with that property", "why_tests_cant": "universal over plannings and improvement sequences", "anchors": ["jinete/algorithms/heuristics/local_search/strategies/routes/two_opt.py:TwoOPTLocalSearchStrategy._improve", "jinete/algorithms/heuristics/local_search/strategies/abc.py:LocalSearchStrategy._update_routes"]}
{"id": "C29", "title": "One-shift keeps routes feasible and ending at the depot", "statement": "OneShiftLocalSearchStrategy applied to a planning whose routes satisfy all constraints returns a planning whose routes satisfy all constraints; in particular each still ends at the vehicle's destination.", "quantifier": "every feasible planning", "why_tests_cant": "depends on memoised feasibility across an unbounded series of swaps", "anchors": ["jinete/algorithms/heuristics/local_search/strategies/routes/one_shift.py:OneShiftLocalSearchStrategy._improve", "jinete/algorithms/heuristics/local_search/strategies/routes/one_shift.py:OneShiftLocalSearchStrategy._flip", "jinete/models/routes.py:Route.feasible"]}
{"id": "C30", "title": "Swapping two neighbouring stops twice restores the route", "statement": "The one-shift swap exchanges exactly two neighbouring stops, keeps the chain linked, and applying it again with the roles exchanged restores the original order and links.", "quantifier": "every linked route and inner neighbouring pair", "why_tests_cant": "universal over routes", "anchors": ["jinete/algorithms/heuristics/local_search/strategies/routes/one_shift.py:OneShiftLocalSearchStrategy._flip"]}
{"id": "C31", "title": "Iterative algorithm returns the best of its episodes", "statement": "IterativeAlgorithm with n >= 1 episodes returns the planning of the first episode whose objective value is maximal; with 0 episodes it raises AssertionError.", "quantifier": "every number of episodes, every inner algorithm", "why_tests_cant": "universal over inner behaviours and lengths", "anchors": ["jinete/algorithms/metaheuristics/iterative.py:IterativeAlgorithm._optimize"]}
{"id": "C32", "title": "Sequential algorithm chains its stages", "statement": "SequentialAlgorithm feeds the result of each stage as the initial result of the next one, exactly once each and in order, and returns the last one's planning; if a stage raises, later stages do not run.", "quantifier": "every list of stages, every failure point", "why_tests_cant": "universal over stage lists and crash points", "anchors": ["jinete/algorithms/metaheuristics/sequential.py:SequentialAlgorithm._optimize"]}
{"id": "C33", "title": "GRASP returns a valid planning", "statement": "GraspAlgorithm returns a planning with one route per vehicle, in which each trip is served at most once with pickup before delivery, and only trips of the job are served.", "quantifier": "every instance, seed and number of episodes", "why_tests_cant": "composition of unbounded randomised phases", "anchors": ["jinete/algorithms/metaheuristics/grasp.py:GraspAlgorithm._optimize"]}
{"id": "C34", "title": "Distances do not depend on the query history", "statement": "distance_to/time_to on a geometric surface always returns the metric value, whatever was queried before; it is symmetric, non-negative, and zero from a position to itself, and (Manhattan) satisfies the triangle inequality.", "quantifier": "every sequence of queries, all positions", "why_tests_cant": "memoisation over unbounded histories", "anchors": ["jinete/models/surfaces.py:GeometricSurface.distance", "jinete/models/constants.py:DistanceMetric"]}
{"id": "C35", "title": "get_or_create_position keeps positions unique", "statement": "After any sequence of get_or_create_position calls the surface holds exactly one position per distinct coordinate tuple requested, and each call returns a position with the requested coordinates.", "quantifier": "every sequence of calls", "why_tests_cant": "unbounded histories", "anchors": ["jinete/models/surfaces.py:Surface.get_or_create_position"]}
{"id": "C36", "title": "Tightened trip windows admit every valid service", "statement": "Any pair of pickup/delivery start times that respects the windows of both services, the pickup duration, the travel time and the trip timeout also respects the tightened windows reported by the trip (origin_earliest, origin_latest, destination_earliest, destination_latest).", "quantifier": "every trip and every pair of times", "why_tests_cant": "universal over real-valued schedules", "anchors": ["jinete/models/trips.py:Trip.origin_earliest", "jinete/models/trips.py:Trip.origin_latest", "jinete/models/trips.py:Trip.destination_earliest", "jinete/models/trips.py:Trip.destination_latest"]}
{"id": "C37", "title": "Cordeau-Laporte loader builds the instance in the file", "statement": "From well-formed data with header (m, 2n, L, Q, T) the loader builds m vehicles named 0..m-1 with capacity Q and timeout L based at the depot, and n trips named 1..n whose i-th pickup/delivery come from rows i and n+i, with timeout T; mismatched loads raise AssertionError; missing rows raise IndexError.", "quantifier": "every table of numbers", "why_tests_cant": "universal over inputs including malformed ones", "anchors": ["jinete/loaders/formatters/cordeau_laporte.py:CordeauLaporteLoaderFormatter"]}
{"id": "C38", "title": "Cordeau-Laporte loader keeps the depot time window", "statement": "Vehicles loaded from a Cordeau-Laporte file may not leave before nor return after the depot's time window.", "quantifier": "every table of numbers", "why_tests_cant": "universal over inputs", "anchors": ["jinete/loaders/formatters/cordeau_laporte.py:CordeauLaporteLoaderFormatter.fleet"]}
{"id": "C39", "title": "HashCode loader and the latest-finish rule", "statement": "A HashCode instance loads to F vehicles at (0,0) that must be back by step T and one trip per ride row; every route reported feasible delivers each ride no later than the ride's latest finish.", "quantifier": "every table of numbers, every route", "why_tests_cant": "universal over inputs and routes", "anchors": ["jinete/loaders/formatters/hashcode.py:HashCodeLoaderFormatter"]}
{"id": "C40", "title": "HashCode output can be read back", "statement": "The text produced by HashCodeStorerFormatter has one line per non-empty route, in sorted order, and parsing the lines back yields, for each of them, the number and the identifiers of the trips it serves in pickup order.", "quantifier": "every planning whose trip identifiers contain no blank or line break", "why_tests_cant": "round trip over all plannings and identifiers", "anchors": ["jinete/storers/formatters/hashcode.py:HashCodeStorerFormatter"]}
{"id": "C41", "title": "A failing FileStorer leaves the previous file content", "statement": "If formatting the result raises, the target file keeps the content it had before store().", "quantifier": "every result, every previous content, every failure", "why_tests_cant": "crash points", "anchors": ["jinete/storers/file.py:FileStorer.store"]}
{"id": "C42", "title": "StorerSet runs each storer once", "statement": "StorerSet.store runs every storer class exactly once with the same result; if one raises, the exception propagates and the remaining ones are not run.", "quantifier": "every set of storers, every failure point, every set order", "why_tests_cant": "crash points and orders", "anchors": ["jinete/storers/sets.py:StorerSet.store"]}
{"id": "C43", "title": "Solver pipeline", "statement": "Solver.solve loads job and fleet, optimizes once, stores the produced result once and returns that same result; if loading or optimizing raises, nothing is stored; a keyword given both by the solver configuration and by the pipeline raises TypeError before anything runs; the user's keyword dictionaries are not modified.", "quantifier": "every configuration and failure point", "why_tests_cant": "crash points, orderings, keyword collisions", "anchors": ["jinete/solvers.py:Solver", "jinete/dispatchers/static.py:StaticDispatcher.run"]}
{"id": "C44", "title": "remove_duplicates", "statement": "remove_duplicates keeps exactly the first occurrence of each element, in order.", "quantifier": "every list", "why_tests_cant": "universal over lists", "anchors": ["jinete/utils/collections.py:remove_duplicates"]}
{"id": "C45", "title": "Service equality means equal fields", "statement": "Two services compare equal exactly when position, earliest, latest and duration are equal.", "quantifier": "every pair of services", "why_tests_cant": "equality is implemented through hashes; collisions are invisible to sampled tests", "anchors": ["jinete/models/services.py:Service.__eq__", "jinete/models/services.py:Service.__hash__"]}
{"id": "C46", "title": "Coverage rate", "statement": "coverage_rate lies between 0 and 1 for plannings that only serve trips of the job, is 1 exactly when all trips are served (with positive capacities), and raises ZeroDivisionError for a job without trips.", "quantifier": "every result", "why_tests_cant": "universal over plannings", "anchors": ["jinete/models/results.py:Result.coverage_rate", "jinete/models/results.py:Result.completed_trips"]}
{"id": "C47", "title": "optimize() works on an empty planning", "statement": "NaiveAlgorithm.optimize() returns a result with an empty planning; optimize() with an empty fleet returns an empty planning.", "quantifier": "every fleet and job", "why_tests_cant": "universal; no repository test calls it", "anchors": ["jinete/algorithms/naive.py:NaiveAlgorithm._optimize", "jinete/algorithms/abc.py:Algorithm.optimize", "jinete/models/plannings.py:Planning.feasible"]}
{"id": "C48", "title": "MILP node numbering", "statement": "In the three-index model with n trips, node i (1..n) is the pickup of the i-th trip and node n+i its delivery; nodes 0 and 2n+1 are the depot; capacities are +q at pickups, -q at deliveries and 0 at the depot; the time window of a node is the trip's pickup/delivery window.", "quantifier": "every number of trips and every node", "why_tests_cant": "universal over n; uses modular arithmetic and negative indexing", "anchors": ["jinete/algorithms/exacts/models/three_index.py:ThreeIndexLinearModel._trip_by_position_idx", "jinete/algorithms/exacts/models/three_index.py:ThreeIndexLinearModel._capacity_by_position_idx", "jinete/algorithms/exacts/models/three_index.py:ThreeIndexLinearModel._time_window_by_position_idx"]}
{"id": "C49", "title": "MILP solutions accepted by validation are translated completely", "statement": "Every arc of a validated solver solution (value within 0.05 of 1) is present in the extracted visiting order.", "quantifier": "every solver solution passing validation", "why_tests_cant": "numeric tolerance over all solver outputs", "anchors": ["jinete/algorithms/exacts/models/three_index.py:ThreeIndexLinearModel._validate", "jinete/algorithms/exacts/models/three_index.py:ThreeIndexLinearModel._solution_to_positions"]}
{"id": "C50", "title": "A fresh route is correct", "statement": "A new Route(vehicle) has exactly two linked stops, at the vehicle's origin and destination, serves no trip, and is feasible exactly when the vehicle can drive directly from origin to destination within its latest return time and its timeout.", "quantifier": "every vehicle", "why_tests_cant": "universal over vehicles", "anchors": ["jinete/models/routes.py:Route.__init__", "jinete/models/routes.py:Route.feasible"]}
{"id": "C51", "title": "Solutions of the three-index model are plans", "statement": "Every assignment that satisfies the constraints of the three-index model stands for a plan: one tour per vehicle along the arcs of value 1, with the start times of the solution, that serves every trip exactly once and keeps every time window, ride time, capacity, shift length and return time.", "quantifier": "every fleet, every list of trips and every assignment satisfying the constraints", "why_tests_cant": "universal over instances and assignments; a solver returns only one of them", "anchors": ["jinete/algorithms/exacts/models/three_index.py:ThreeIndexLinearModel._uniqueness_constraints", "jinete/algorithms/exacts/models/three_index.py:ThreeIndexLinearModel._connectivity_constraints", "jinete/algorithms/exacts/models/three_index.py:ThreeIndexLinearModel._time_constraints", "jinete/algorithms/exacts/models/three_index.py:ThreeIndexLinearModel._feasibility_constraints"]}
{"id": "C52", "title": "Every plan is a solution of the three-index model", "statement": "Every plan (one tour per vehicle, each trip served once, all limits kept) is represented by an assignment that satisfies the constraints, so the model does not exclude any plan.", "quantifier": "every fleet, every list of trips and every plan", "why_tests_cant": "universal over plans; a test only sees the solver's choice", "anchors": ["jinete/algorithms/exacts/models/three_index.py:ThreeIndexLinearModel._uniqueness_constraints", "jinete/algorithms/exacts/models/three_index.py:ThreeIndexLinearModel._connectivity_constraints", "jinete/algorithms/exacts/models/three_index.py:ThreeIndexLinearModel._time_constraints", "jinete/algorithms/exacts/models/three_index.py:ThreeIndexLinearModel._feasibility_constraints", "jinete/algorithms/exacts/models/three_index.py:ThreeIndexLinearModel._positions"]}
{"id": "C53", "title": "The objective of the three-index model is the distance driven", "statement": "For every solution that stands for a plan, the objective is the sum of the distances driven by the vehicles.", "quantifier": "every solution and the plan it stands for", "why_tests_cant": "universal over solutions", "anchors": ["jinete/algorithms/exacts/models/three_index.py:ThreeIndexLinearModel._objective", "jinete/algorithms/exacts/models/three_index.py:ThreeIndexLinearModel._costs"]}
{"id": "C54", "title": "Optimal solutions of the three-index model are best plans", "statement": "An optimal solution of the three-index model stands for a plan, and no other plan has a smaller total.", "quantifier": "every instance, every optimal solution and every plan", "why_tests_cant": "optimality quantifies over all assignments and all plans", "anchors": ["jinete/algorithms/exacts/models/three_index.py:ThreeIndexLinearModel._objective", "jinete/algorithms/exacts/models/three_index.py:ThreeIndexLinearModel._constraints", "jinete/algorithms/exacts/models/three_index.py:ThreeIndexLinearModel.solve"]}
{"id": "C55", "title": "Solutions of the three-index model become the routes they stand for", "statement": "Translating a solution of the three-index model into routes gives one linked route per vehicle that visits the places of the solution in its order and at its times, together a planning in which every trip of the job is served and every route is feasible.", "quantifier": "every instance and every solution whose arcs take time", "why_tests_cant": "universal over instances and solutions; the translation finds stops by their position", "anchors": ["jinete/algorithms/exacts/models/three_index.py:ThreeIndexLinearModel._solution_to_routes", "jinete/algorithms/exacts/models/three_index.py:ThreeIndexLinearModel._build_planned_trips", "jinete/algorithms/exacts/models/three_index.py:ThreeIndexLinearModel._positions_to_stops", "jinete/algorithms/exacts/models/three_index.py:ThreeIndexLinearModel._positions_to_trips", "jinete/algorithms/exacts/milp.py:MilpAlgorithm._optimize"]}
{"id": "C56", "title": "The durations of rides and routes are fully accounted for", "statement": "On every well-formed route the ride time of each planned trip is its driving time plus its waiting time (both as the object reports them) plus the services of the stops in between; the duration of the route is the distance after the first stop plus the waiting and service after the first stop; Route.transit_time is the sum of the ride times of the trips on board.", "quantifier": "every well-formed route, every trip on it", "why_tests_cant": "universal over routes; the totals are computed by loops over the chain of stops", "anchors": ["jinete/models/planned_trips.py:PlannedTrip.waiting_time", "jinete/models/planned_trips.py:PlannedTrip.transit_time", "jinete/models/planned_trips.py:PlannedTrip.load_time", "jinete/models/planned_trips.py:PlannedTrip.duration", "jinete/models/routes.py:Route.duration", "jinete/models/routes.py:Route.waiting_time", "jinete/models/routes.py:Route.transit_time"]}
{"id": "C57", "title": "FileLoader reads the file once and keeps what it built", "statement": "Whatever sequence of fleet, job and surface is read from a FileLoader: the file is not opened again after it could be read once, the same question always gets the same object, the vehicles and trips are those of the table spelled by the text and do not depend on the order of the questions, all their places lie on the one surface of the loader, and a file that could not be read is tried again at the next question.", "quantifier": "every text, every file that changes between openings, every sequence of questions including after exceptions", "why_tests_cant": "universal over texts and interleavings of cached properties with failures", "anchors": ["jinete/loaders/file.py:FileLoader._data", "jinete/loaders/file.py:FileLoader.fleet", "jinete/loaders/file.py:FileLoader.job", "jinete/loaders/file.py:FileLoader.surface", "jinete/loaders/abc.py:Loader._formatter"]}
{"id": "C58", "title": "Blank lines at the end of a file do not matter", "statement": "A file with additional blank lines at the end loads to the same fleet and job.", "quantifier": "every text and every number of blank lines", "why_tests_cant": "universal over files", "anchors": ["jinete/loaders/file.py:FileLoader._data", "jinete/loaders/formatters/hashcode.py:HashCodeLoaderFormatter.job", "jinete/loaders/formatters/cordeau_laporte.py:CordeauLaporteLoaderFormatter.job"]}
{"id": "C59", "title": "A planning is feasible exactly when all its routes are", "statement": "Asking the feasibility of a planning with one route per vehicle answers true exactly when every route keeps all limits, provided nothing was asked before; answers given earlier are repeated; asking again gives the same answer; a planning without routes raises TypeError.", "quantifier": "every planning with routes, every order of the set of routes, every state of the memoised answers", "why_tests_cant": "universal over plannings; the routes are asked in arbitrary order and each question memoises answers", "anchors": ["jinete/models/plannings.py:Planning.feasible", "jinete/models/routes.py:Route.feasible", "jinete/models/planned_trips.py:PlannedTrip.feasible"]}
{"id": "C60", "title": "The readable report tells what the routes do", "statement": "ColumnarStorerFormatter.format() reports each route (optionally only those with passengers) exactly once, with one row per ride in pickup order and one row per stop; places, time windows, waiting, driving, loading, departure times and loads in the rows are those of the timetable of the route; the names of stops list exactly their pickups and deliveries; coverage rate, value and feasibility are those of the planning.", "quantifier": "every planning with routes, every job with trips, every objective and set order", "why_tests_cant": "universal over plannings; reports are compared with independent arithmetic", "anchors": ["jinete/storers/formatters/columnar.py:ColumnarStorerFormatter", "jinete/storers/formatters/abc.py:StorerFormatter", "jinete/models/stops.py:Stop.identifier", "jinete/models/results.py:Result.coverage_rate", "jinete/models/results.py:Result.optimization_value", "jinete/models/results.py:Result.feasible"]}
{"id": "C61", "title": "The drawing shows all places, trips and legs", "statement": "The graph built by GraphPlotStorer has exactly the places of the job's trips and of the routes as nodes and exactly the legs of the routes as edges; every place of a trip is labelled with it, every leg is drawn in the colour of its route, and different routes have different colours.", "quantifier": "every planning, every job, every order of the sets", "why_tests_cant": "universal over plannings; dictionaries keyed by position overwrite each other", "anchors": ["jinete/storers/plots/graph.py:GraphPlotStorer._generate_nodes", "jinete/storers/plots/graph.py:GraphPlotStorer._generate_edges", "jinete/storers/plots/graph.py:GraphPlotStorer._generate_graph"]}
{"id": "C62", "title": "The 2-opt search comes to an end", "statement": "LocalSearchAlgorithm with TwoOPTLocalSearchStrategy returns after finitely many rounds: although a round may put several routes of the same vehicle into the planning, which also counts for its value, no endless series of better plannings exists.", "quantifier": "every initial planning of tours, every objective, every threshold, every order of the sets", "why_tests_cant": "no number of observed rounds shows that the next one is the last", "anchors": ["jinete/algorithms/heuristics/local_search/algorithm.py:LocalSearchAlgorithm._optimize", "jinete/algorithms/heuristics/local_search/strategies/routes/two_opt.py:TwoOPTLocalSearchStrategy._improve", "jinete/algorithms/heuristics/local_search/strategies/abc.py:LocalSearchStrategy._update_routes"]}
{"id": "C63", "title": "Rounding does not disturb the order of times", "statement": "Computed in double precision, the times of a route are still in order: no arrival before the start of the shift, arrival <= start <= departure at each stop and departure <= arrival at every later stop; so waiting times are never negative, the assertion pickup_time <= delivery_time of PlannedTrip.feasible never fails, and a later start of the shift makes no time earlier.", "quantifier": "every route, all doubles as data (non-negative travel and loading times)", "why_tests_cant": "universal over roundings of all additions; tests only see some of them", "anchors": ["jinete/models/stops.py:Stop.arrival_time", "jinete/models/stops.py:Stop.starting_time", "jinete/models/stops.py:Stop.departure_time", "jinete/models/stops.py:Stop.waiting_time", "jinete/models/planned_trips.py:PlannedTrip.feasible"]}
{"id": "C64", "title": "The tolerance covers the rounding", "statement": "As long as (6n+4)*5M/2^53 (n stops, times up to M) is at most ERROR_BOUND, the computed times differ from the exact ones by no more than that, a route that keeps all its time limits in exact arithmetic is found feasible in double precision, and a route found feasible exceeds no limit by more than ERROR_BOUND plus that amount; for M = 10^8 and up to 1000 stops the amount is at most half of ERROR_BOUND.", "quantifier": "every route with non-negative travel and loading times, all doubles as data", "why_tests_cant": "accumulated rounding errors over all routes", "anchors": ["jinete/models/constants.py:ERROR_BOUND", "jinete/models/stops.py:Stop.feasible", "jinete/models/planned_trips.py:PlannedTrip.feasible", "jinete/models/routes.py:Route.feasible", "jinete/models/trips.py:Trip.origin_latest", "jinete/models/trips.py:Trip.destination_latest"]}
{"id": "C65", "title": "Distances in double precision", "statement": "Both metrics, computed in double precision, are exactly symmetric, non-negative and 0 from a place to itself; the city-block distance of places with n coordinates is within the factors (1-2^-53)^n and (1+2^-53)^n of the exact one, so different places have a positive distance; under the Euclidean metric different places may have distance 0 because squares underflow.", "quantifier": "all coordinates that are doubles, any dimension", "why_tests_cant": "universal over roundings", "anchors": ["jinete/models/constants.py:DistanceMetric._euclidean_distance", "jinete/models/constants.py:DistanceMetric._manhattan_distance"]}
{"id": "C66", "title": "A warm start never uses a vehicle that was idle in the initial planning", "statement": "When InsertionAlgorithm starts from a planning in which at least one vehicle serves a trip, every vehicle whose route in that planning serves no trip still serves no trip in the result, whatever trips are left over.", "quantifier": "every initial planning with a busy vehicle, every job, strategy, selector, set order and choice of the randomized candidate list", "why_tests_cant": "universal over initial plannings and orders of iteration; the set of attractive routes is collected lazily and updated in place", "anchors": ["jinete/algorithms/heuristics/insertion/iterators/abc.py:InsertionIterator._attractive_routes", "jinete/algorithms/heuristics/insertion/iterators/abc.py:InsertionIterator._set_route", "jinete/algorithms/heuristics/insertion/iterators/ranking.py:RankingInsertionIterator._update_ranking", "jinete/algorithms/heuristics/insertion/algorithm.py:InsertionAlgorithm._optimize"]}
{"id": "C67", "title": "No trip left over by the insertion algorithm fits into a route of the result", "statement": "When InsertionAlgorithm with the exhaustive strategy stops and leaves a trip over, inserting that trip into any route of the result gives no route that keeps all limits.", "quantifier": "every fleet, job, initial planning and configuration with only_feasible", "why_tests_cant": "needs every possible insertion into every route of every result", "anchors": ["jinete/algorithms/heuristics/insertion/iterators/abc.py:InsertionIterator._attractive_routes", "jinete/algorithms/heuristics/insertion/iterators/ranking.py:RankingInsertionIterator.__next__", "jinete/algorithms/heuristics/insertion/algorithm.py:InsertionAlgorithm._optimize"]}
{"id": "C68", "title": "Every insertion accepted in a run is a best one", "statement": "During a whole run of InsertionAlgorithm with the ranking iterator, after any number of rounds, every remaining candidate can be scored and every sub-ranking is sorted best first by the scores its candidates have at that moment; with randomized_size 1 each round therefore accepts a candidate that no other candidate of the ranking beats, and the iterator stops only when no candidate is left.", "quantifier": "every fleet, job, initial planning, strategy, criterion and set order, after any number of rounds", "why_tests_cant": "the candidates share stops with routes that are changed while later candidates are computed; all runs and all intermediate rankings are meant", "anchors": ["jinete/algorithms/heuristics/insertion/iterators/ranking.py:RankingInsertionIterator.__next__", "jinete/algorithms/heuristics/insertion/iterators/ranking.py:RankingInsertionIterator._update_ranking", "jinete/algorithms/heuristics/insertion/iterators/ranking.py:RankingInsertionIterator._mark_planned_trip_as_done", "jinete/algorithms/heuristics/insertion/algorithm.py:InsertionAlgorithm._optimize"]}
{"id": "C69", "title": "Computing candidates for a route touches nothing that belongs to other routes", "statement": "Computing insertion candidates for a route changes no field and no memoised answer of a stop that is not on the route, of a planned trip that is not on the route, of an object of another vehicle, or of any existing route object, also when the computation raises.", "quantifier": "every tour, strategy, list of trips and state of all other objects", "why_tests_cant": "universal over heaps with arbitrary other objects, some of them partly shared with clones", "anchors": ["jinete/algorithms/heuristics/insertion/strategies/abc.py:InsertionStrategy.compute", "jinete/algorithms/heuristics/insertion/strategies/abc.py:InsertionStrategy._improve_ride_times", "jinete/models/routes.py:RouteCloner.clone", "jinete/models/routes.py:Route.append_planned_trip"]}
{"id": "C70", "title": "An insertion that keeps all limits is never missed", "statement": "When inserting a trip into a tour at given places gives a tour that keeps all limits, compute with only_feasible returns a route with exactly these visits, served at the same times; the exhaustive strategy returns one for every such trip and pair of places.", "quantifier": "every tour, trip and pair of places, in every state whose recorded negative answers are right", "why_tests_cant": "universal over tours and states; a missed insertion leaves no trace in a result", "anchors": ["jinete/algorithms/heuristics/insertion/strategies/abc.py:InsertionStrategy.compute", "jinete/algorithms/heuristics/insertion/strategies/abc.py:InsertionStrategy._improve_ride_times", "jinete/algorithms/heuristics/insertion/strategies/intensive.py:IntensiveInsertionStrategy.compute"]}
{"id": "C71", "title": "Searches, restarts and GRASP return only routes that keep all limits", "statement": "Every route with passengers returned by the reallocation search (from a planning whose routes keep them), by the iterative algorithm around insertions or by GRASP keeps all limits.", "quantifier": "every initial planning or fleet and job, every objective, configuration with only_feasible, number of episodes and set order", "why_tests_cant": "universal over searches; steps build routes from clones whose recorded answers may be out of date", "anchors": ["jinete/algorithms/heuristics/local_search/algorithm.py:LocalSearchAlgorithm._optimize", "jinete/algorithms/heuristics/local_search/strategies/plannings/reallocation.py:ReallocationLocalSearchStrategy._improve", "jinete/algorithms/metaheuristics/iterative.py:IterativeAlgorithm._optimize", "jinete/algorithms/metaheuristics/grasp.py:GraspAlgorithm._optimize", "jinete/algorithms/heuristics/insertion/strategies/abc.py:InsertionStrategy.compute"]}
{"id": "C72", "title": "Without riding-time and duration limits all returned routes keep all limits", "statement": "If no trip limits its riding time, insertions, reallocation and GRASP never ask for a start time other than the departure from the depot, so the recorded answers stay right: every route with passengers that they return keeps all limits, if also no vehicle limits the duration of its route.", "quantifier": "every fleet, job, initial planning, objective, configuration with only_feasible and set order in worlds without riding-time limits", "why_tests_cant": "universal over runs; claims that no stale answer is ever used", "anchors": ["jinete/algorithms/heuristics/insertion/strategies/abc.py:InsertionStrategy._improve_ride_times", "jinete/algorithms/heuristics/insertion/strategies/abc.py:InsertionStrategy.compute", "jinete/algorithms/heuristics/insertion/algorithm.py:InsertionAlgorithm._optimize", "jinete/algorithms/heuristics/local_search/strategies/plannings/reallocation.py:ReallocationLocalSearchStrategy._improve", "jinete/algorithms/metaheuristics/grasp.py:GraspAlgorithm._optimize", "jinete/models/stops.py:Stop.flush"]}
{"id": "C73", "title": "A passenger can be taken off without breaking any limit", "statement": "If a tour keeps all limits, then so does the tour without the two visits of one passenger, and the reallocation search finds the clone without them feasible.", "quantifier": "every tour, every passenger whose two visits serve nobody else, every state of the memoised answers, distances with the triangle inequality", "why_tests_cant": "universal over tours; the schedule of everything behind the removed visits changes", "anchors": ["jinete/models/routes.py:Route.remove_trip", "jinete/models/routes.py:Route.feasible", "jinete/algorithms/heuristics/local_search/strategies/plannings/reallocation.py:ReallocationLocalSearchStrategy._improve", "jinete/algorithms/heuristics/insertion/iterators/ranking.py:RankingInsertionIterator._update_ranking"]}
{"id": "C74", "title": "No single trip can be moved to improve the result of a search by reallocation", "statement": "One round of ReallocationLocalSearchStrategy brings at least as much (in the last component of the objective) as handing any one trip to any other vehicle at any place such that both vehicles keep all limits, for receiving routes of at most 16 stops; when the search ends, no such move improves its result.", "quantifier": "every planning of tours with single-purpose stops, every objective, set order and number of rounds without improvement of at least 1", "why_tests_cant": "universal over plannings and all their neighbours; a missed improvement leaves no trace in a result", "anchors": ["jinete/algorithms/heuristics/local_search/strategies/plannings/reallocation.py:ReallocationLocalSearchStrategy._improve", "jinete/algorithms/heuristics/local_search/algorithm.py:LocalSearchAlgorithm._optimize", "jinete/algorithms/heuristics/insertion/strategies/abc.py:InsertionStrategy.compute", "jinete/utils/random.py:sample_index_pairs"]}
{"id": "C75", "title": "A HashCode file becomes a submission whose rides can be driven as listed", "statement": "The vehicles and trips loaded from a HashCode file, given to InsertionAlgorithm with only_feasible or to GraspAlgorithm, lead to a planning whose stored text lists, in lines of a count and ride numbers, rides that can be driven by the rules: every ride at most once, no more vehicles than there are, each vehicle starting at (0,0) at step 0 can begin its rides in the listed order by their latest steps and be back by the last step.", "quantifier": "every file text that spells a HashCode instance, every order of fleet and job, criterion, strategy, objective but taxi sharing, and every choice of the random generator", "why_tests_cant": "the stored text has no times, so the claim is about all instances, all runs and the re-simulation of their output; four components have to fit together", "anchors": ["jinete/loaders/file.py:FileLoader", "jinete/loaders/formatters/hashcode.py:HashCodeLoaderFormatter", "jinete/algorithms/heuristics/insertion/algorithm.py:InsertionAlgorithm._optimize", "jinete/algorithms/metaheuristics/grasp.py:GraspAlgorithm._optimize", "jinete/storers/file.py:FileStorer.store", "jinete/storers/formatters/hashcode.py:HashCodeStorerFormatter"]}
{"id": "C76", "title": "A HashCode submission is worth what was reported for the planning", "statement": "The value of the planning for the HashCode objective equals the points for driving the rides of the stored submission as early as possible.", "quantifier": "every HashCode instance and every planning made by the insertion algorithm", "why_tests_cant": "compares reported values and the re-simulation of the output for all instances and runs", "anchors": ["jinete/models/objectives.py:HashCodeObjective", "jinete/algorithms/heuristics/insertion/strategies/abc.py:InsertionStrategy._improve_ride_times", "jinete/storers/formatters/hashcode.py:HashCodeStorerFormatter"]}
{"id": "C77", "title": "A Cordeau-Laporte file becomes schedules that keep all limits of the file", "statement": "The vehicles and trips loaded from a Cordeau-Laporte file, given to InsertionAlgorithm with only_feasible or to GraspAlgorithm, lead to one schedule per vehicle of the file, each starting and ending at the depot, in which every task starts when the vehicle can be there and the service before is over, every passenger picked up is dropped later, nobody is taken twice, and opening and closing times, capacity, longest ride and longest tour of the file are kept.", "quantifier": "every file text that spells a Cordeau-Laporte instance, every order of fleet and job, criterion, strategy, objective but taxi sharing, and every choice of the random generator", "why_tests_cant": "compares the input file and the times of the output for all instances and runs; loader, tightened windows, memoised answers and moved departures have to fit together", "anchors": ["jinete/loaders/file.py:FileLoader", "jinete/loaders/formatters/cordeau_laporte.py:CordeauLaporteLoaderFormatter", "jinete/models/trips.py:Trip", "jinete/algorithms/heuristics/insertion/algorithm.py:InsertionAlgorithm._optimize", "jinete/algorithms/heuristics/insertion/strategies/abc.py:InsertionStrategy._improve_ride_times", "jinete/algorithms/metaheuristics/grasp.py:GraspAlgorithm._optimize"]}
{"id": "C78", "title": "Moving an instance in time moves its plans", "statement": "If all windows of trips and vehicles are moved by the same amount, then schedules of routes move along, feasibility and objective values stay the same, and the insertion algorithm serves the same trips.", "quantifier": "every instance, amount, route and run, for vehicles that do not start before time 0", "why_tests_cant": "relates the behaviour on two different instances, for all of them", "anchors": ["jinete/models/stops.py:Stop.arrival_time", "jinete/models/routes.py:Route.feasible", "jinete/models/objectives.py", "jinete/algorithms/heuristics/insertion/strategies/abc.py:InsertionStrategy._improve_ride_times"]}
{"id": "C79", "title": "A route that keeps all limits also keeps higher ones", "statement": "If services close later, rides and routes may take longer or vehicles carry more, then every route that was feasible still is.", "quantifier": "every instance, every change that only raises limits, and every route", "why_tests_cant": "relates the behaviour on two different instances, for all of them; the tightened windows depend on several limits at once", "anchors": ["jinete/models/trips.py:Trip.origin_earliest", "jinete/models/trips.py:Trip.origin_latest", "jinete/models/trips.py:Trip.destination_latest", "jinete/models/routes.py:Route.feasible"]}
{"id": "C80", "title": "No stretch of a route can be reversed to improve the result of a 2-opt search", "statement": "When a search with TwoOPTLocalSearchStrategy ends, then for every route of its result and every stretch of at least two inner stops, driving the stretch in reverse order is no tour, breaks a limit or does not improve the value of the route.", "quantifier": "every planning of tours, every objective, set order and number of rounds without improvement of at least 1", "why_tests_cant": "universal over plannings and all their neighbours; a missed improvement leaves no trace in a result", "anchors": ["jinete/algorithms/heuristics/local_search/strategies/routes/two_opt.py:TwoOPTLocalSearchStrategy._improve", "jinete/algorithms/heuristics/local_search/strategies/abc.py:LocalSearchStrategy.improve", "jinete/algorithms/heuristics/local_search/algorithm.py:LocalSearchAlgorithm._optimize"]}
{"id": "C81", "title": "Vehicles leave and come back within their windows", "statement": "On every route with passengers that InsertionAlgorithm with only_feasible, a search by reallocation or GRASP returns, the vehicle leaves its origin within the origin's window and after the work there, and is back at its destination within that one's window and early enough for the work there.", "quantifier": "every instance, every window and duration of the vehicles, every criterion, strategy and choice of the random generator", "why_tests_cant": "the loaders give vehicles no windows of their own, so no test instance has them; universal over all instances and runs", "anchors": ["jinete/models/vehicles.py:Vehicle.origin_latest", "jinete/models/vehicles.py:Vehicle.destination_earliest", "jinete/models/routes.py:Route.feasible", "jinete/algorithms/heuristics/insertion/strategies/abc.py:InsertionStrategy._improve_ride_times"]}
{"id": "C82", "title": "A warm start never makes a planning worse", "statement": "When InsertionAlgorithm is given the routes of an earlier result, the objective value of its result is at least that of the given planning, and the same if no trip is added.", "quantifier": "every valid initial planning, fleet, job, objective, criterion, strategy and choice of the random generator", "why_tests_cant": "universal over plannings; inserted stops move the times of others, so that the values of all routes are involved", "anchors": ["jinete/algorithms/heuristics/insertion/algorithm.py:InsertionAlgorithm._optimize", "jinete/algorithms/heuristics/insertion/iterators/abc.py:InsertionIterator.__init__", "jinete/models/objectives.py:HashCodeObjective", "jinete/models/objectives.py:DialARideObjective", "jinete/models/objectives.py:TaxiSharingObjective"]}
{"id": "C83", "title": "Checking a route nests calls as deeply as the route is long", "statement": "Under a limit on nested calls (RecursionError), checking a route gives the same answer as without a limit or gives up. It gives the answer if there is room for all stops. A route whose times have not been read is given up if it has more stops than the limit, an unchecked planned trip if there is no room for the stops before its delivery. Reading the departures from the first stop to the last needs room for two stops only.", "quantifier": "every limit, every route, every state of the memoised values (none for the third part)", "why_tests_cant": "tests use routes of a few stops; the limit is met by routes of hundreds of stops only", "anchors": ["jinete/models/stops.py:Stop.all_previous", "jinete/models/stops.py:Stop.departure_time", "jinete/models/stops.py:Stop.capacity", "jinete/models/planned_trips.py:PlannedTrip.feasible", "jinete/models/routes.py:Route.feasible"]}
{"id": "C84", "title": "The identifier of a route tells what the route does", "statement": "Route.identifier can be computed for every route without changing anything. If no trip identifier contains brackets or bars, then two routes with the same identifier make the same number of stops, at each of which trips of the same identifiers begin and end; if moreover identifiers are not used twice, and the routes are tours of the same vehicle without empty stops and requested starts, then they run at the same times. Routes that do the same have the same identifier unless several trips begin or end at one stop. The identifiers in files of both formats have the required form.", "quantifier": "every two routes, in the same state or in different ones, every iteration order of sets, every file", "why_tests_cant": "injectivity over all pairs of routes and all identifiers", "anchors": ["jinete/models/routes.py:Route.identifier", "jinete/models/routes.py:Route.__iter__", "jinete/models/stops.py:Stop.identifier", "jinete/loaders/formatters/cordeau_laporte.py:CordeauLaporteLoaderFormatter", "jinete/loaders/formatters/hashcode.py:HashCodeLoaderFormatter"]}
{"id": "C85", "title": "The improving stage of GRASP never loses value", "statement": "The second stage of each episode of GraspAlgorithm, which repeats local search and insertion three times, returns a planning worth at least the one it was given; hence the result of GRASP is worth at least every planning that the first stages found.", "quantifier": "every valid planning, fleet, job, objective, criterion, strategy, number of repetitions and choice of the random generator", "why_tests_cant": "the given planning is not among those the stage compares, so that the claim rests on each step of each repetition", "anchors": ["jinete/algorithms/metaheuristics/grasp.py:GraspAlgorithm._build_local_search_algorithm", "jinete/algorithms/metaheuristics/grasp.py:GraspAlgorithm._optimize", "jinete/algorithms/metaheuristics/iterative.py:IterativeAlgorithm._optimize", "jinete/algorithms/metaheuristics/sequential.py:SequentialAlgorithm._optimize"]}
{"id": "C86", "title": "The iteration order of sets does not change what is found", "statement": "The same fleet, job and random numbers lead to equally good plannings whatever the order in which Python iterates over the sets involved. In detail: the order within the sets of passengers of stops does not change times, loads, feasibility, values and scores; the order in which routes are compared does not change their ranking, and the order of the routes in a planning does not change its value.", "quantifier": "every instance, every two iteration orders of every set, every route, planning, criterion and objective", "why_tests_cant": "the order of sets of objects with identity hashes changes between runs and cannot be chosen by a test", "anchors": ["jinete/models/stops.py:Stop.departure_time", "jinete/models/stops.py:Stop.capacity", "jinete/models/plannings.py:Planning", "jinete/algorithms/heuristics/insertion/iterators/ranking.py:RankingInsertionIterator", "jinete/algorithms/heuristics/insertion/algorithm.py:InsertionAlgorithm._optimize", "jinete/models/routes.py:Route.feasible"]}
{"id": "C87", "title": "Only distances and limits decide", "statement": "If two instances agree in all distances between their places and in the windows, durations, capacities, bonuses and time limits that feasibility refers to, then with the same random numbers and set orders every algorithm makes the same calls with the same results on both, from any state: the same routes with the same schedules and values. Coordinates, the metric, identifiers, the closing time of a vehicle's origin, the opening time of its destination and the durations of work at depots have no influence.", "quantifier": "every two instances related in this way, every state, algorithm, strategy, criterion, objective and number of repetitions", "why_tests_cant": "a statement about two runs of every algorithm at once", "anchors": ["jinete/models/surfaces.py:GeometricSurface", "jinete/models/constants.py:DistanceMetric", "jinete/algorithms/heuristics/insertion/algorithm.py:InsertionAlgorithm._optimize", "jinete/algorithms/heuristics/local_search/algorithm.py:LocalSearchAlgorithm._optimize", "jinete/algorithms/metaheuristics/grasp.py:GraspAlgorithm._optimize", "jinete/algorithms/metaheuristics/iterative.py:IterativeAlgorithm._optimize", "jinete/algorithms/metaheuristics/sequential.py:SequentialAlgorithm._optimize", "jinete/models/routes.py:Route.feasible"]}
{"id": "C88", "title": "The unit of measurement changes numbers only, if the tolerance is converted too", "statement": "If all times, distances, loads, bonuses and the tolerance of an instance are given in another unit, then with the same random numbers and set orders every algorithm makes the same calls with the same results, from any state, and all times, loads, durations and values are converted (except the number of passengers in the dial-a-ride objective). If the tolerance stays as it is, which is what the code does, routes can become infeasible and passengers unserved.", "quantifier": "every factor, every two instances related in this way, every state, algorithm, strategy, criterion, objective and number of repetitions; one instance for the second part", "why_tests_cant": "a statement about two runs of every algorithm at once", "anchors": ["jinete/models/constants.py:ERROR_BOUND", "jinete/algorithms/heuristics/insertion/algorithm.py:InsertionAlgorithm._optimize", "jinete/algorithms/heuristics/local_search/algorithm.py:LocalSearchAlgorithm._optimize", "jinete/algorithms/metaheuristics/grasp.py:GraspAlgorithm._optimize", "jinete/algorithms/metaheuristics/iterative.py:IterativeAlgorithm._optimize", "jinete/algorithms/metaheuristics/sequential.py:SequentialAlgorithm._optimize", "jinete/models/routes.py:Route.feasible", "jinete/models/criterions.py:RouteCriterion", "jinete/models/objectives.py:Objective"]}
{"id": "C89", "title": "Printing an object changes nothing", "statement": "Printing a result, planning, route, stop, fleet or job leaves all stops, planned trips and routes as they were, memoised answers included, and does not raise, so that the value of an objective, which is printed with its argument whenever it is computed, is the value computed without printing. Printing a planned trip does not change any later answer either.", "quantifier": "every state and every object in it; well-formed routes for the existence of the text", "why_tests_cant": "that a method has no effect on any later call in any state cannot be observed by calls in some states", "anchors": ["jinete/models/abc.py:Model.__repr__", "jinete/models/objectives.py:Objective.optimization_function", "jinete/models/stops.py:Stop.__iter__", "jinete/models/planned_trips.py:PlannedTrip.__iter__", "jinete/models/routes.py:Route.__iter__", "jinete/models/plannings.py:Planning.__iter__", "jinete/models/results.py:Result.__iter__"]}
{"id": "C90", "title": "A deep copy of routes is independent of the original", "statement": "copy.deepcopy of routes, which follows references object by object with a memo, leaves all objects as they were and gives different routes, one for each original, that make the same visits with the same memoised values on stops and planned trips none of which existed before, and share stops exactly where the originals do; whether a copied route is feasible is asked anew. If nesting is limited, the result is this one or a RecursionError, never a partial copy. The former whenever the limit is at least the number of stops and planned trips between any two moments at which the vehicle is empty; the latter whenever the chain of references not met yet that starts at the first passenger's stop is longer than the limit. For each limit there are tours that cannot be copied.", "quantifier": "every state, all routes in it (well-formed for the first and the last part), every limit", "why_tests_cant": "sharing between copy and original shows only when the copy is changed in some particular way; nesting depends on how many stops lie between pickups and deliveries", "anchors": ["jinete/models/routes.py:Route.__deepcopy__", "jinete/models/plannings.py:Planning.__deepcopy__", "jinete/algorithms/heuristics/insertion/iterators/abc.py:InsertionIterator", "jinete/algorithms/heuristics/local_search/strategies/abc.py:LocalSearchStrategy.__init__", "jinete/models/trips.py:Trip.__deepcopy__", "jinete/models/vehicles.py:Vehicle.__deepcopy__"]}
{"id": "C91", "title": "Detours in double precision", "statement": "The Euclidean distance of places with n coordinates, computed in double precision, is within the factors (1-2^-53)^(n+3) and (1+2^-53)^(n+3) of the exact one, up to n*2^-537 for squares that underflow. Exact distances are never shortened by a detour. Computed ones can be, under both metrics, but by rounding only: the sum of the two computed legs is at least the computed direct distance times 1-(2n+1)*2^-53 (city blocks) or 1-(2n+7)*2^-53 (Euclidean, less 3n*2^-537), so with up to 1000 coordinates and distances up to 10^8 the difference is below a tenth of the tolerance. All of this needs places with equally many coordinates: further ones are ignored, so that places with fewer are near all others.", "quantifier": "all coordinates that are doubles, any dimension", "why_tests_cant": "universal over roundings and places", "anchors": ["jinete/models/constants.py:DistanceMetric._euclidean_distance", "jinete/models/constants.py:DistanceMetric._manhattan_distance", "jinete/models/surfaces.py:GeometricSurface.distance"]}
{"id": "C92", "title": "Leaving out a stop in double precision", "statement": "When a stop is left out and the vehicle drives directly to the next one, no later stop has an arrival, start or departure, computed in double precision, that is later by more than what the direct way exceeds the two legs plus twice the bound of C64 on rounding. With computed distances as travel times, times up to 10^7, up to 1000 stops and up to 1000 coordinates this is at most a fifth of the tolerance. It is not always 0.", "quantifier": "every route, every stop but the last, both metrics, all doubles as data", "why_tests_cant": "universal over roundings of all distances and additions", "anchors": ["jinete/models/constants.py:DistanceMetric", "jinete/models/stops.py:Stop.arrival_time", "jinete/models/stops.py:Stop.departure_time", "jinete/models/routes.py:Route.remove_stop_at"]}
{"id": "C93", "title": "Objective values in double precision", "statement": "The Dial-a-Ride and Taxi-Sharing values of a planning, added up in double precision stop by stop and route by route, are within the factors (1-2^-53)^n and (1+2^-53)^n of the exact totals, n being the number of routes plus the largest numbers of stops of a route and (Taxi-Sharing) of trips picked up at a stop. So of two plannings with equally many trips the one with the shorter ways gets the better Dial-a-Ride value whenever its total is below the other one's times 1-2n*2^-53, and reading the set of routes in another order changes the value by rounding only. Within rounding, the order does change the value, and the planning with the longer ways can be preferred.", "quantifier": "all plannings, all doubles >= 0 as distances and durations", "why_tests_cant": "universal over roundings and orders of the set of routes", "anchors": ["jinete/models/objectives.py:Objective._planning_optimization_function", "jinete/models/objectives.py:DialARideObjective", "jinete/models/objectives.py:TaxiSharingObjective", "jinete/models/routes.py:Route.distance"]}
{"id": "C94", "title": "Whole numbers are computed exactly", "statement": "If all data of a route are whole numbers and no number exceeds 2^50, then all its arrival, starting and departure times in double precision are exact, and it is found feasible exactly if it keeps all its time limits: the tolerance of 0.001 admits nothing more. City-block distances of whole coordinates and Dial-a-Ride and Taxi-Sharing values of whole distances and durations are exact below 2^53, so the order in which the set of routes is read does not matter; the distances are those of the model with whole ticks. Beyond 2^54 times are not exact any more.", "quantifier": "every route, planning and pair of places with whole numbers as data (as in HashCode files)", "why_tests_cant": "universal over data; links the two models", "anchors": ["jinete/models/stops.py:Stop.arrival_time", "jinete/models/stops.py:Stop.feasible", "jinete/models/planned_trips.py:PlannedTrip.feasible", "jinete/models/routes.py:Route.feasible", "jinete/models/constants.py:DistanceMetric._manhattan_distance", "jinete/models/objectives.py:Objective._planning_optimization_function"]}
{"id": "C95", "title": "On whole numbers exact arithmetic and double precision give the same answers", "statement": "Written in units of time, the exact timetable of every route is the one of the model with ticks. If all data of the route are whole numbers of units and no number exceeds 2^50, then the times in double precision are these too, and what Route.feasible answers for a well-formed route nobody asked before is that the time limits as checked in double precision hold, that the vehicle begins and ends where it should, and that it is not overloaded where somebody boards or alights.", "quantifier": "every world, route, vehicle and list of visits", "why_tests_cant": "universal over data; two models of the same code, one exact and one with rounding, compared", "anchors": ["jinete/models/stops.py:Stop.arrival_time", "jinete/models/stops.py:Stop.departure_time", "jinete/models/stops.py:Stop.feasible", "jinete/models/planned_trips.py:PlannedTrip.feasible", "jinete/models/routes.py:Route.feasible"]}
{"id": "C96", "title": "On whole numbers objective values are the same exactly and in double precision", "statement": "Written in units, the second number of the Dial-a-Ride value of every planning is exactly minus the distance its vehicles drive, and the Taxi-Sharing value exactly the time its passengers ride. If all distances (durations) are whole numbers of units, not negative, and their total is below 2^53, the values in double precision are these too, and of two plannings the same one has the smaller distance in both.", "quantifier": "every world, heap and planning of well-formed routes", "why_tests_cant": "universal over plannings; two models of the same code, one exact and one with rounding, compared", "anchors": ["jinete/models/objectives.py:Objective._planning_optimization_function", "jinete/models/objectives.py:DialARideObjective._route_optimization_function", "jinete/models/objectives.py:TaxiSharingObjective._planned_trip_optimization_function", "jinete/models/routes.py:Route.distance"]}
{"id": "C97", "title": "HashCode scores compared with == pay the bonus correctly on whole numbers", "statement": "HashCodeObjective compares the earliest pickup with the pickup time by ==. If all data of a route and the bonus are whole numbers, no number of the route exceeds 2^50 and distance and bonus together are below 2^53, the score of a ride in double precision is the exact one, and the score of a planning is the exact sum if no score is negative and the sum is below 2^53; these are the scores of the model with ticks. Beyond 2^54 roundings can add up so that a passenger who is picked up on time brings no bonus.", "quantifier": "every route, planning, trip and bonus", "why_tests_cant": "equality of floating point numbers computed in different ways; universal over data", "anchors": ["jinete/models/objectives.py:HashCodeObjective._planned_trip_optimization_function", "jinete/models/trips.py:Trip.origin_earliest", "jinete/models/planned_trips.py:PlannedTrip.pickup_time", "jinete/models/objectives.py:Objective._planning_optimization_function"]}
