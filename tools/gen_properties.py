#!/usr/bin/env python3
"""Source of /verif/properties.jsonl (kept as a script so the list is easy to edit)."""
import json, os
T3 = "jinete/algorithms/exacts/models/three_index.py:ThreeIndexLinearModel."
P = []
def p(id, title, statement, quantifier, why, anchors):
    P.append(dict(id=id, title=title, statement=statement, quantifier=quantifier,
                  why_tests_cant=why, anchors=anchors))

S="jinete/models/stops.py:"; R="jinete/models/routes.py:"; PT="jinete/models/planned_trips.py:"
INS="jinete/algorithms/heuristics/insertion/"; LS="jinete/algorithms/heuristics/local_search/"
ME="jinete/algorithms/metaheuristics/"; MO="jinete/models/"

p("C01","Reading a stop's times gives the schedule recurrence, whatever was read before",
  "On a route whose stops are linked, reading arrival_time, starting_time, departure_time, transit_time, waiting_time or capacity of any stop, any number of times and in any order, always returns the value of the plain recurrence (arrival = departure of the previous stop + travel time; start = latest of the requested start, the earliest window bound and the arrival; departure = start + load time; load = previous load + boarded - alighted) and changes nothing observable.",
  "every well-linked route of any length, every stop in it, every earlier sequence of reads (i.e. every valid content of the per-object caches)",
  "the values are memoised per object, so correctness depends on the whole history of reads; tests only sample a few histories",
  [S+"Stop.arrival_time",S+"Stop.departure_time",S+"Stop.starting_time",S+"Stop.capacity"])
p("C02","Time never runs backwards along a route",
  "If all service durations are non-negative, then along every route arrival <= start <= departure at each stop, the departure of a stop is <= the arrival at the next one, waiting times are >= 0 and the route duration is >= 0; hence the sanity assertions made while editing routes cannot fail because of times.",
  "every route of any length over any trips/vehicles with non-negative durations and any requested start times",
  "universal over all instances and route lengths",
  [S+"Stop.starting_time",S+"Stop.waiting_time",R+"Route.append_planned_trip",R+"Route.duration"])
p("C03","Vehicle load accounting",
  "On a route in which every alighting is preceded by its boarding, the reported load at each stop equals the total capacity of the trips on board after it, is never negative for non-negative trip capacities (the internal assertion cannot fail), and is zero at the end of a route that delivers everything it picks up.",
  "every well-formed route, every stop, all non-negative capacities",
  "needs an inductive argument over route length and over arbitrary interleavings of pickups and deliveries",
  [S+"Stop.capacity"])
p("C04","Changing a stop's start time is reflected everywhere after a route flush",
  "After assigning starting_time of a stop and calling flush() on the route, the times, load and feasibility flags read from any stop of the route are those of the new schedule.",
  "every route, stop, assigned value and previous read history",
  "depends on which memoised values survive; histories are unbounded",
  [S+"Stop.starting_time",S+"Stop.flush",R+"Route.flush",S+"Stop.feasible"])
p("C05","Route.feasible decides exactly the problem constraints",
  "On a route whose feasibility flags were never read before, feasible is True exactly when (up to the tolerance 0.001): it starts at the vehicle's origin and ends at its destination, is back in time, lasts no longer than the vehicle timeout, every trip's pickup and delivery start inside the trip's windows, the vehicle capacity is respected at these stops and no trip rides longer than its timeout.",
  "every well-formed route over every instance",
  "universal over instances and routes",
  [R+"Route.feasible",PT+"PlannedTrip.feasible",S+"Stop.feasible"])
p("C06","Insertion only reports routes that really satisfy the constraints",
  "Every route returned by an insertion strategy with only_feasible=True satisfies the problem constraints when they are recomputed from scratch.",
  "every base route, trip, insertion position",
  "the strategy re-times stops after having memoised feasibility; needs reasoning about every history",
  [INS+"strategies/abc.py:InsertionStrategy._improve_ride_times",INS+"strategies/abc.py:InsertionStrategy.compute",S+"Stop.flush"])
p("C07","insert_stop puts the stop right after its predecessor and keeps everything else",
  "Inserting a stop whose previous stop is in the route (and is not the last one) makes it the immediate successor of that stop, keeps all other stops in order, and relinks the chain; if the previous stop is not in the route it raises PreviousStopNotInRouteException and changes nothing; after the last stop it raises IndexError and changes nothing.",
  "every linked route, every stop to insert",
  "universal over routes and positions, including the error paths",
  [R+"Route.insert_stop",R+"Route.insert_stop_at"])
p("C08","insert_stop returns the inserted stop",
  "The stop returned by insert_stop/insert_stop_at is the stop passed in.",
  "every route and stop for which the call succeeds",
  "universal claim about the return value; the repository tests never look at it",
  [R+"Route.insert_stop_at"])
p("C09","remove_stop_at removes exactly one stop and relinks its neighbours",
  "Removing an inner stop returns it, deletes exactly that occurrence, keeps the order of the others and keeps the chain of previous stops consistent; removing the last stop raises IndexError and changes nothing.",
  "every linked route, every index", "universal over routes and indices",
  [R+"Route.remove_stop_at"])
p("C10","Removing the first stop keeps the chain consistent",
  "After remove_stop_at(0) the new first stop has no previous stop and its times can be read.",
  "every linked route of at least two stops", "universal over routes",
  [R+"Route.remove_stop_at",R+"Route.first_stop"])
p("C11","Appending a planned trip adds exactly that trip, pickup before delivery",
  "append_planned_trip with a pickup and delivery stop whose predecessors are in the route yields a route containing exactly the old stops in the old order plus the pickup and, later, the delivery; no other trip is lost, duplicated or reordered, and no assertion fails.",
  "every well-formed route, trip and insertion place", "universal over routes, and the checks run in the middle of mutation",
  [R+"Route.append_planned_trip"])
p("C12","remove_trip removes exactly that trip",
  "remove_trip deletes the pickup and the delivery of the trip and nothing else; the remaining stops keep their order and remain correctly linked; removing the trip just appended gives back the original sequence of visits.",
  "every well-formed route with one trip event per inner stop, every trip in it", "universal over routes",
  [R+"Route.remove_trip"])
p("C13","Cloning gives an equal route and editing the clone never changes the original",
  "clone(i) returns a route visiting the same places for the same trips with the same requested start times; every stop from position i-1 on is a new object; the original route and every other existing route are unchanged; and each planned trip of the new part points to stops of the clone.",
  "every well-formed route, every requested index", "aliasing: the clone shares a prefix with the original, so safety must hold for every later edit",
  [R+"RouteCloner.clone",R+"RouteCloner._initialize",R+"Route.clone"])
p("C14","Insertion strategies place pickup and delivery where asked",
  "compute(route, trip, i, j) with i < j < number of stops builds a route whose visits are the old ones with the pickup added right after position i and the delivery right before old position j, so that exactly the old trips plus the new one are served, and raises no exception.",
  "every well-formed route, trip not in it, and index pair", "universal over routes and indices, with cloning and mutation underneath",
  [INS+"strategies/abc.py:InsertionStrategy._compute_one",INS+"strategies/abc.py:InsertionStrategy._build_delivery"])
p("C15","Computing insertion candidates does not modify the base route",
  "Calling compute on a route leaves the route passed in unchanged: same stops, same trips, same times.",
  "every base route, trip and positions", "the candidate shares stops with the base route, so an unbounded set of sharing patterns matters",
  [INS+"strategies/abc.py:InsertionStrategy._improve_ride_times",R+"RouteCloner.clone"])
p("C16","Index pairs explored by the strategies",
  "sample_index_pairs(n, count) returns pairwise distinct pairs (i, j) with 0 <= i < j < n; all n(n-1)/2 of them if there are at most count (for n >= 2), otherwise exactly count of them; intensive insertion explores all of them and tail insertion exactly the last position.",
  "all n, count and all random streams for which the sampling loop ends", "universal over n, count and random outcomes",
  ["jinete/utils/random.py:sample_index_pairs","jinete/utils/random.py:ncr",INS+"strategies/intensive.py:IntensiveInsertionStrategy.compute",INS+"strategies/tail.py:TailInsertionStrategy.compute"])
p("C17","The insertion algorithm (ranking iterator) accounts for every trip",
  "For every fleet and job with non-negative durations and capacities, InsertionAlgorithm with the default ranking iterator and a tail, intensive or sampling strategy ends without exception; the planning has exactly one route per vehicle; every route starts at its vehicle's origin, ends at its destination, serves each of its trips exactly once with pickup before delivery; no trip is served by two routes; only trips of the job are served; accepted trips are never dropped later.",
  "every instance, every set-iteration order, every random choice, every number of steps", "whole-run property over unbounded executions and all nondeterministic choices",
  [INS+"algorithm.py:InsertionAlgorithm._optimize",INS+"iterators/ranking.py:RankingInsertionIterator",INS+"iterators/abc.py:InsertionIterator._set_route"])
p("C18","The insertion algorithm terminates",
  "The main loop of InsertionAlgorithm with the ranking iterator accepts at most one route per pending trip and then stops.",
  "every instance and every run", "liveness over unbounded runs",
  [INS+"algorithm.py:InsertionAlgorithm._optimize",INS+"iterators/ranking.py:RankingInsertionIterator.__next__"])
p("C19","Warm start keeps the trips already planned",
  "InsertionAlgorithm started from an initial result returns a planning in which every vehicle still serves the trips it served in the initial result, and the routes of the initial result itself are not modified.",
  "every initial planning with well-formed routes and every run", "universal over initial plannings and runs; relies on deep copies",
  [INS+"algorithm.py:InsertionAlgorithm._build_iterator",INS+"iterators/abc.py:InsertionIterator.__init__"])
p("C20","Stateless iteration keeps accepted trips",
  "InsertionAlgorithm with StatelessInsertionIterator never drops a trip it has accepted.",
  "every instance and every run", "whole-run property; depends on stale references kept by the iterator",
  [INS+"iterators/stateless.py:StatelessInsertionIterator",INS+"iterators/abc.py:InsertionIterator._attractive_routes"])
p("C21","BestStatelessInsertionIterator yields the best candidate",
  "next() on BestStatelessInsertionIterator returns one of the best candidates by the criterion, or ends the iteration when there is none.",
  "every instance", "universal over candidate lists",
  [INS+"iterators/stateless.py:BestStatelessInsertionIterator.__next__",MO+"criterions.py:RouteCriterion.nbest"])
p("C22","Ranking iteration picks the overall best candidate (randomized_size = 1)",
  "With randomized_size = 1 the ranking iterator returns a route whose criterion score is at least as good as that of every candidate in every sub-ranking, and it stops only when there is no candidate.",
  "every collection of sorted sub-rankings", "universal over rankings of any size",
  [INS+"iterators/ranking.py:RankingInsertionIterator.__next__"])
p("C23","Ranking iteration picks among the k best candidates",
  "With randomized_size = k the ranking iterator picks one of the k best-scored candidates over all sub-rankings.",
  "every collection of sorted sub-rankings and every k >= 1", "universal over rankings",
  [INS+"iterators/ranking.py:RankingInsertionIterator.__next__"])
p("C24","best, sorted and nbest",
  "best returns a non-None argument with optimal key, the first one among ties, and None when there is none; sorted returns a permutation of its input ordered by the criterion, stable among ties; nbest returns the first n elements of sorted.",
  "every list of candidates, every key function, both directions", "universal over lists and keys",
  [MO+"constants.py:OptimizationDirection",MO+"criterions.py:RouteCriterion.best",MO+"objectives.py:Objective.best"])
p("C25","Objective of a planning is the sum over its routes and does not depend on iteration order",
  "For each objective the value of a planning is the component-wise sum of the values of its routes, and any order of iterating the set of routes gives the same value; comparison between values is lexicographic.",
  "every planning, every order", "sets iterate in arbitrary order; universal over permutations",
  [MO+"objectives.py:Objective._planning_optimization_function",MO+"objectives.py:DialARideObjective._route_optimization_function"])
p("C26","HashCode score of a ride",
  "Under the HashCode objective a non-empty ride scores its distance, plus the on-time bonus exactly when its pickup service starts at its earliest start.",
  "every planned trip", "universal over schedules and durations",
  [MO+"objectives.py:HashCodeObjective._planned_trip_optimization_function",PT+"PlannedTrip.pickup_time"])
p("C27","Local search never returns a worse planning and leaves the initial result untouched",
  "LocalSearchAlgorithm with the reallocation strategy returns a planning whose objective value is >= that of the initial result, serving exactly the same trips with the same vehicles, one route per vehicle; the routes of the initial result keep their stops, trips and times.",
  "every initial result with well-formed routes, every iteration order and random sample, every number of rounds", "unbounded number of rounds and moves",
  [LS+"algorithm.py:LocalSearchAlgorithm._optimize",LS+"strategies/plannings/reallocation.py:ReallocationLocalSearchStrategy._improve",LS+"strategies/abc.py:LocalSearchStrategy"])
p("C28","2-opt keeps one route per vehicle",
  "The planning produced by TwoOPTLocalSearchStrategy has at most one route per vehicle and serves no trip twice.",
  "every initial planning with that property", "universal over plannings and improvement sequences",
  [LS+"strategies/routes/two_opt.py:TwoOPTLocalSearchStrategy._improve",LS+"strategies/abc.py:LocalSearchStrategy._update_routes"])
p("C29","One-shift keeps routes feasible and ending at the depot",
  "OneShiftLocalSearchStrategy applied to a planning whose routes satisfy all constraints returns a planning whose routes satisfy all constraints; in particular each still ends at the vehicle's destination.",
  "every feasible planning", "depends on memoised feasibility across an unbounded series of swaps",
  [LS+"strategies/routes/one_shift.py:OneShiftLocalSearchStrategy._improve",LS+"strategies/routes/one_shift.py:OneShiftLocalSearchStrategy._flip",R+"Route.feasible"])
p("C30","Swapping two neighbouring stops twice restores the route",
  "The one-shift swap exchanges exactly two neighbouring stops, keeps the chain linked, and applying it again with the roles exchanged restores the original order and links.",
  "every linked route and inner neighbouring pair", "universal over routes",
  [LS+"strategies/routes/one_shift.py:OneShiftLocalSearchStrategy._flip"])
p("C31","Iterative algorithm returns the best of its episodes",
  "IterativeAlgorithm with n >= 1 episodes returns the planning of the first episode whose objective value is maximal; with 0 episodes it raises AssertionError.",
  "every number of episodes, every inner algorithm", "universal over inner behaviours and lengths",
  [ME+"iterative.py:IterativeAlgorithm._optimize"])
p("C32","Sequential algorithm chains its stages",
  "SequentialAlgorithm feeds the result of each stage as the initial result of the next one, exactly once each and in order, and returns the last one's planning; if a stage raises, later stages do not run.",
  "every list of stages, every failure point", "universal over stage lists and crash points",
  [ME+"sequential.py:SequentialAlgorithm._optimize"])
p("C33","GRASP returns a valid planning",
  "GraspAlgorithm returns a planning with one route per vehicle, in which each trip is served at most once with pickup before delivery, and only trips of the job are served.",
  "every instance, seed and number of episodes", "composition of unbounded randomised phases",
  [ME+"grasp.py:GraspAlgorithm._optimize"])
p("C34","Distances do not depend on the query history",
  "distance_to/time_to on a geometric surface always returns the metric value, whatever was queried before; it is symmetric, non-negative, and zero from a position to itself, and (Manhattan) satisfies the triangle inequality.",
  "every sequence of queries, all positions", "memoisation over unbounded histories",
  [MO+"surfaces.py:GeometricSurface.distance",MO+"constants.py:DistanceMetric"])
p("C35","get_or_create_position keeps positions unique",
  "After any sequence of get_or_create_position calls the surface holds exactly one position per distinct coordinate tuple requested, and each call returns a position with the requested coordinates.",
  "every sequence of calls", "unbounded histories",
  [MO+"surfaces.py:Surface.get_or_create_position"])
p("C36","Tightened trip windows admit every valid service",
  "Any pair of pickup/delivery start times that respects the windows of both services, the pickup duration, the travel time and the trip timeout also respects the tightened windows reported by the trip (origin_earliest, origin_latest, destination_earliest, destination_latest).",
  "every trip and every pair of times", "universal over real-valued schedules",
  [MO+"trips.py:Trip.origin_earliest",MO+"trips.py:Trip.origin_latest",MO+"trips.py:Trip.destination_earliest",MO+"trips.py:Trip.destination_latest"])
p("C37","Cordeau-Laporte loader builds the instance in the file",
  "From well-formed data with header (m, 2n, L, Q, T) the loader builds m vehicles named 0..m-1 with capacity Q and timeout L based at the depot, and n trips named 1..n whose i-th pickup/delivery come from rows i and n+i, with timeout T; mismatched loads raise AssertionError; missing rows raise IndexError.",
  "every table of numbers", "universal over inputs including malformed ones",
  ["jinete/loaders/formatters/cordeau_laporte.py:CordeauLaporteLoaderFormatter"])
p("C38","Cordeau-Laporte loader keeps the depot time window",
  "Vehicles loaded from a Cordeau-Laporte file may not leave before nor return after the depot's time window.",
  "every table of numbers", "universal over inputs",
  ["jinete/loaders/formatters/cordeau_laporte.py:CordeauLaporteLoaderFormatter.fleet"])
p("C39","HashCode loader and the latest-finish rule",
  "A HashCode instance loads to F vehicles at (0,0) that must be back by step T and one trip per ride row; every route reported feasible delivers each ride no later than the ride's latest finish.",
  "every table of numbers, every route", "universal over inputs and routes",
  ["jinete/loaders/formatters/hashcode.py:HashCodeLoaderFormatter"])
p("C40","HashCode output can be read back",
  "The text produced by HashCodeStorerFormatter has one line per non-empty route, in sorted order, and parsing the lines back yields, for each of them, the number and the identifiers of the trips it serves in pickup order.",
  "every planning whose trip identifiers contain no blank or line break", "round trip over all plannings and identifiers",
  ["jinete/storers/formatters/hashcode.py:HashCodeStorerFormatter"])
p("C41","A failing FileStorer leaves the previous file content",
  "If formatting the result raises, the target file keeps the content it had before store().",
  "every result, every previous content, every failure", "crash points",
  ["jinete/storers/file.py:FileStorer.store"])
p("C42","StorerSet runs each storer once",
  "StorerSet.store runs every storer class exactly once with the same result; if one raises, the exception propagates and the remaining ones are not run.",
  "every set of storers, every failure point, every set order", "crash points and orders",
  ["jinete/storers/sets.py:StorerSet.store"])
p("C43","Solver pipeline",
  "Solver.solve loads job and fleet, optimizes once, stores the produced result once and returns that same result; if loading or optimizing raises, nothing is stored; a keyword given both by the solver configuration and by the pipeline raises TypeError before anything runs; the user's keyword dictionaries are not modified.",
  "every configuration and failure point", "crash points, orderings, keyword collisions",
  ["jinete/solvers.py:Solver","jinete/dispatchers/static.py:StaticDispatcher.run"])
p("C44","remove_duplicates",
  "remove_duplicates keeps exactly the first occurrence of each element, in order.",
  "every list", "universal over lists", ["jinete/utils/collections.py:remove_duplicates"])
p("C45","Service equality means equal fields",
  "Two services compare equal exactly when position, earliest, latest and duration are equal.",
  "every pair of services", "equality is implemented through hashes; collisions are invisible to sampled tests",
  [MO+"services.py:Service.__eq__",MO+"services.py:Service.__hash__"])
p("C46","Coverage rate",
  "coverage_rate lies between 0 and 1 for plannings that only serve trips of the job, is 1 exactly when all trips are served (with positive capacities), and raises ZeroDivisionError for a job without trips.",
  "every result", "universal over plannings",
  [MO+"results.py:Result.coverage_rate",MO+"results.py:Result.completed_trips"])
p("C47","optimize() works on an empty planning",
  "NaiveAlgorithm.optimize() returns a result with an empty planning; optimize() with an empty fleet returns an empty planning.",
  "every fleet and job", "universal; no repository test calls it",
  ["jinete/algorithms/naive.py:NaiveAlgorithm._optimize","jinete/algorithms/abc.py:Algorithm.optimize",MO+"plannings.py:Planning.feasible"])
p("C48","MILP node numbering",
  "In the three-index model with n trips, node i (1..n) is the pickup of the i-th trip and node n+i its delivery; nodes 0 and 2n+1 are the depot; capacities are +q at pickups, -q at deliveries and 0 at the depot; the time window of a node is the trip's pickup/delivery window.",
  "every number of trips and every node", "universal over n; uses modular arithmetic and negative indexing",
  ["jinete/algorithms/exacts/models/three_index.py:ThreeIndexLinearModel._trip_by_position_idx","jinete/algorithms/exacts/models/three_index.py:ThreeIndexLinearModel._capacity_by_position_idx","jinete/algorithms/exacts/models/three_index.py:ThreeIndexLinearModel._time_window_by_position_idx"])
p("C49","MILP solutions accepted by validation are translated completely",
  "Every arc of a validated solver solution (value within 0.05 of 1) is present in the extracted visiting order.",
  "every solver solution passing validation", "numeric tolerance over all solver outputs",
  ["jinete/algorithms/exacts/models/three_index.py:ThreeIndexLinearModel._validate","jinete/algorithms/exacts/models/three_index.py:ThreeIndexLinearModel._solution_to_positions"])
p("C50","A fresh route is correct",
  "A new Route(vehicle) has exactly two linked stops, at the vehicle's origin and destination, serves no trip, and is feasible exactly when the vehicle can drive directly from origin to destination within its latest return time and its timeout.",
  "every vehicle", "universal over vehicles", [R+"Route.__init__",R+"Route.feasible"])
p("C51","Solutions of the three-index model are plans",
  "Every assignment that satisfies the constraints of the three-index model stands for a plan: one tour per vehicle along the arcs of value 1, with the start times of the solution, that serves every trip exactly once and keeps every time window, ride time, capacity, shift length and return time.",
  "every fleet, every list of trips and every assignment satisfying the constraints", "universal over instances and assignments; a solver returns only one of them",
  [T3+"_uniqueness_constraints",T3+"_connectivity_constraints",T3+"_time_constraints",T3+"_feasibility_constraints"])
p("C52","Every plan is a solution of the three-index model",
  "Every plan (one tour per vehicle, each trip served once, all limits kept) is represented by an assignment that satisfies the constraints, so the model does not exclude any plan.",
  "every fleet, every list of trips and every plan", "universal over plans; a test only sees the solver's choice",
  [T3+"_uniqueness_constraints",T3+"_connectivity_constraints",T3+"_time_constraints",T3+"_feasibility_constraints",T3+"_positions"])
p("C53","The objective of the three-index model is the distance driven",
  "For every solution that stands for a plan, the objective is the sum of the distances driven by the vehicles.",
  "every solution and the plan it stands for", "universal over solutions",
  [T3+"_objective",T3+"_costs"])
p("C54","Optimal solutions of the three-index model are best plans",
  "An optimal solution of the three-index model stands for a plan, and no other plan has a smaller total.",
  "every instance, every optimal solution and every plan", "optimality quantifies over all assignments and all plans",
  [T3+"_objective",T3+"_constraints",T3+"solve"])
p("C55","Solutions of the three-index model become the routes they stand for",
  "Translating a solution of the three-index model into routes gives one linked route per vehicle that visits the places of the solution in its order and at its times, together a planning in which every trip of the job is served and every route is feasible.",
  "every instance and every solution whose arcs take time", "universal over instances and solutions; the translation finds stops by their position",
  [T3+"_solution_to_routes",T3+"_build_planned_trips",T3+"_positions_to_stops",T3+"_positions_to_trips","jinete/algorithms/exacts/milp.py:MilpAlgorithm._optimize"])
p("C56","The durations of rides and routes are fully accounted for",
  "On every well-formed route the ride time of each planned trip is its driving time plus its waiting time (both as the object reports them) plus the services of the stops in between; the duration of the route is the distance after the first stop plus the waiting and service after the first stop; Route.transit_time is the sum of the ride times of the trips on board.",
  "every well-formed route, every trip on it", "universal over routes; the totals are computed by loops over the chain of stops",
  ["jinete/models/planned_trips.py:PlannedTrip.waiting_time","jinete/models/planned_trips.py:PlannedTrip.transit_time","jinete/models/planned_trips.py:PlannedTrip.load_time","jinete/models/planned_trips.py:PlannedTrip.duration",R+"Route.duration",R+"Route.waiting_time",R+"Route.transit_time"])
p("C57","FileLoader reads the file once and keeps what it built",
  "Whatever sequence of fleet, job and surface is read from a FileLoader: the file is not opened again after it could be read once, the same question always gets the same object, the vehicles and trips are those of the table spelled by the text and do not depend on the order of the questions, all their places lie on the one surface of the loader, and a file that could not be read is tried again at the next question.",
  "every text, every file that changes between openings, every sequence of questions including after exceptions", "universal over texts and interleavings of cached properties with failures",
  ["jinete/loaders/file.py:FileLoader._data","jinete/loaders/file.py:FileLoader.fleet","jinete/loaders/file.py:FileLoader.job","jinete/loaders/file.py:FileLoader.surface","jinete/loaders/abc.py:Loader._formatter"])
p("C58","Blank lines at the end of a file do not matter",
  "A file with additional blank lines at the end loads to the same fleet and job.",
  "every text and every number of blank lines", "universal over files",
  ["jinete/loaders/file.py:FileLoader._data","jinete/loaders/formatters/hashcode.py:HashCodeLoaderFormatter.job","jinete/loaders/formatters/cordeau_laporte.py:CordeauLaporteLoaderFormatter.job"])
p("C59","A planning is feasible exactly when all its routes are",
  "Asking the feasibility of a planning with one route per vehicle answers true exactly when every route keeps all limits, provided nothing was asked before; answers given earlier are repeated; asking again gives the same answer; a planning without routes raises TypeError.",
  "every planning with routes, every order of the set of routes, every state of the memoised answers", "universal over plannings; the routes are asked in arbitrary order and each question memoises answers",
  [MO+"plannings.py:Planning.feasible",R+"Route.feasible",MO+"planned_trips.py:PlannedTrip.feasible"])
p("C60","The readable report tells what the routes do",
  "ColumnarStorerFormatter.format() reports each route (optionally only those with passengers) exactly once, with one row per ride in pickup order and one row per stop; places, time windows, waiting, driving, loading, departure times and loads in the rows are those of the timetable of the route; the names of stops list exactly their pickups and deliveries; coverage rate, value and feasibility are those of the planning.",
  "every planning with routes, every job with trips, every objective and set order", "universal over plannings; reports are compared with independent arithmetic",
  ["jinete/storers/formatters/columnar.py:ColumnarStorerFormatter","jinete/storers/formatters/abc.py:StorerFormatter","jinete/models/stops.py:Stop.identifier",MO+"results.py:Result.coverage_rate",MO+"results.py:Result.optimization_value",MO+"results.py:Result.feasible"])
p("C61","The drawing shows all places, trips and legs",
  "The graph built by GraphPlotStorer has exactly the places of the job's trips and of the routes as nodes and exactly the legs of the routes as edges; every place of a trip is labelled with it, every leg is drawn in the colour of its route, and different routes have different colours.",
  "every planning, every job, every order of the sets", "universal over plannings; dictionaries keyed by position overwrite each other",
  ["jinete/storers/plots/graph.py:GraphPlotStorer._generate_nodes","jinete/storers/plots/graph.py:GraphPlotStorer._generate_edges","jinete/storers/plots/graph.py:GraphPlotStorer._generate_graph"])
p("C62","The 2-opt search comes to an end",
  "LocalSearchAlgorithm with TwoOPTLocalSearchStrategy returns after finitely many rounds: although a round may put several routes of the same vehicle into the planning, which also counts for its value, no endless series of better plannings exists.",
  "every initial planning of tours, every objective, every threshold, every order of the sets", "no number of observed rounds shows that the next one is the last",
  [LS+"algorithm.py:LocalSearchAlgorithm._optimize",LS+"strategies/routes/two_opt.py:TwoOPTLocalSearchStrategy._improve",LS+"strategies/abc.py:LocalSearchStrategy._update_routes"])
p("C63","Rounding does not disturb the order of times",
  "Computed in double precision, the times of a route are still in order: no arrival before the start of the shift, arrival <= start <= departure at each stop and departure <= arrival at every later stop; so waiting times are never negative, the assertion pickup_time <= delivery_time of PlannedTrip.feasible never fails, and a later start of the shift makes no time earlier.",
  "every route, all doubles as data (non-negative travel and loading times)", "universal over roundings of all additions; tests only see some of them",
  ["jinete/models/stops.py:Stop.arrival_time","jinete/models/stops.py:Stop.starting_time","jinete/models/stops.py:Stop.departure_time","jinete/models/stops.py:Stop.waiting_time","jinete/models/planned_trips.py:PlannedTrip.feasible"])
p("C64","The tolerance covers the rounding",
  "As long as (6n+4)*5M/2^53 (n stops, times up to M) is at most ERROR_BOUND, the computed times differ from the exact ones by no more than that, a route that keeps all its time limits in exact arithmetic is found feasible in double precision, and a route found feasible exceeds no limit by more than ERROR_BOUND plus that amount; for M = 10^8 and up to 1000 stops the amount is at most half of ERROR_BOUND.",
  "every route with non-negative travel and loading times, all doubles as data", "accumulated rounding errors over all routes",
  ["jinete/models/constants.py:ERROR_BOUND","jinete/models/stops.py:Stop.feasible","jinete/models/planned_trips.py:PlannedTrip.feasible",R+"Route.feasible","jinete/models/trips.py:Trip.origin_latest","jinete/models/trips.py:Trip.destination_latest"])
p("C65","Distances in double precision",
  "Both metrics, computed in double precision, are exactly symmetric, non-negative and 0 from a place to itself; the city-block distance of places with n coordinates is within the factors (1-2^-53)^n and (1+2^-53)^n of the exact one, so different places have a positive distance; under the Euclidean metric different places may have distance 0 because squares underflow.",
  "all coordinates that are doubles, any dimension", "universal over roundings",
  ["jinete/models/constants.py:DistanceMetric._euclidean_distance","jinete/models/constants.py:DistanceMetric._manhattan_distance"])
p("C66","A warm start never uses a vehicle that was idle in the initial planning",
  "When InsertionAlgorithm starts from a planning in which at least one vehicle serves a trip, every vehicle whose route in that planning serves no trip still serves no trip in the result, whatever trips are left over.",
  "every initial planning with a busy vehicle, every job, strategy, selector, set order and choice of the randomized candidate list", "universal over initial plannings and orders of iteration; the set of attractive routes is collected lazily and updated in place",
  [INS+"iterators/abc.py:InsertionIterator._attractive_routes",INS+"iterators/abc.py:InsertionIterator._set_route",INS+"iterators/ranking.py:RankingInsertionIterator._update_ranking",INS+"algorithm.py:InsertionAlgorithm._optimize"])
p("C67","No trip left over by the insertion algorithm fits into a route of the result",
  "When InsertionAlgorithm with the exhaustive strategy stops and leaves a trip over, inserting that trip into any route of the result gives no route that keeps all limits.",
  "every fleet, job, initial planning and configuration with only_feasible", "needs every possible insertion into every route of every result",
  [INS+"iterators/abc.py:InsertionIterator._attractive_routes",INS+"iterators/ranking.py:RankingInsertionIterator.__next__",INS+"algorithm.py:InsertionAlgorithm._optimize"])
p("C68","Every insertion accepted in a run is a best one",
  "During a whole run of InsertionAlgorithm with the ranking iterator, after any number of rounds, every remaining candidate can be scored and every sub-ranking is sorted best first by the scores its candidates have at that moment; with randomized_size 1 each round therefore accepts a candidate that no other candidate of the ranking beats, and the iterator stops only when no candidate is left.",
  "every fleet, job, initial planning, strategy, criterion and set order, after any number of rounds", "the candidates share stops with routes that are changed while later candidates are computed; all runs and all intermediate rankings are meant",
  [INS+"iterators/ranking.py:RankingInsertionIterator.__next__",INS+"iterators/ranking.py:RankingInsertionIterator._update_ranking",INS+"iterators/ranking.py:RankingInsertionIterator._mark_planned_trip_as_done",INS+"algorithm.py:InsertionAlgorithm._optimize"])
p("C69","Computing candidates for a route touches nothing that belongs to other routes",
  "Computing insertion candidates for a route changes no field and no memoised answer of a stop that is not on the route, of a planned trip that is not on the route, of an object of another vehicle, or of any existing route object, also when the computation raises.",
  "every tour, strategy, list of trips and state of all other objects", "universal over heaps with arbitrary other objects, some of them partly shared with clones",
  [INS+"strategies/abc.py:InsertionStrategy.compute",INS+"strategies/abc.py:InsertionStrategy._improve_ride_times",R+"RouteCloner.clone",R+"Route.append_planned_trip"])
p("C70","An insertion that keeps all limits is never missed",
  "When inserting a trip into a tour at given places gives a tour that keeps all limits, compute with only_feasible returns a route with exactly these visits, served at the same times; the exhaustive strategy returns one for every such trip and pair of places.",
  "every tour, trip and pair of places, in every state whose recorded negative answers are right", "universal over tours and states; a missed insertion leaves no trace in a result",
  [INS+"strategies/abc.py:InsertionStrategy.compute",INS+"strategies/abc.py:InsertionStrategy._improve_ride_times",INS+"strategies/intensive.py:IntensiveInsertionStrategy.compute"])
p("C71","Searches, restarts and GRASP return only routes that keep all limits",
  "Every route with passengers returned by the reallocation search (from a planning whose routes keep them), by the iterative algorithm around insertions or by GRASP keeps all limits.",
  "every initial planning or fleet and job, every objective, configuration with only_feasible, number of episodes and set order", "universal over searches; steps build routes from clones whose recorded answers may be out of date",
  [LS+"algorithm.py:LocalSearchAlgorithm._optimize",LS+"strategies/plannings/reallocation.py:ReallocationLocalSearchStrategy._improve","jinete/algorithms/metaheuristics/iterative.py:IterativeAlgorithm._optimize","jinete/algorithms/metaheuristics/grasp.py:GraspAlgorithm._optimize",INS+"strategies/abc.py:InsertionStrategy.compute"])
p("C72","Without riding-time and duration limits all returned routes keep all limits",
  "If no trip limits its riding time, insertions, reallocation and GRASP never ask for a start time other than the departure from the depot, so the recorded answers stay right: every route with passengers that they return keeps all limits, if also no vehicle limits the duration of its route.",
  "every fleet, job, initial planning, objective, configuration with only_feasible and set order in worlds without riding-time limits", "universal over runs; claims that no stale answer is ever used",
  [INS+"strategies/abc.py:InsertionStrategy._improve_ride_times",INS+"strategies/abc.py:InsertionStrategy.compute",INS+"algorithm.py:InsertionAlgorithm._optimize",LS+"strategies/plannings/reallocation.py:ReallocationLocalSearchStrategy._improve","jinete/algorithms/metaheuristics/grasp.py:GraspAlgorithm._optimize","jinete/models/stops.py:Stop.flush"])
p("C73","A passenger can be taken off without breaking any limit",
  "If a tour keeps all limits, then so does the tour without the two visits of one passenger, and the reallocation search finds the clone without them feasible.",
  "every tour, every passenger whose two visits serve nobody else, every state of the memoised answers, distances with the triangle inequality", "universal over tours; the schedule of everything behind the removed visits changes",
  [R+"Route.remove_trip",R+"Route.feasible",LS+"strategies/plannings/reallocation.py:ReallocationLocalSearchStrategy._improve",INS+"iterators/ranking.py:RankingInsertionIterator._update_ranking"])
p("C74","No single trip can be moved to improve the result of a search by reallocation",
  "One round of ReallocationLocalSearchStrategy brings at least as much (in the last component of the objective) as handing any one trip to any other vehicle at any place such that both vehicles keep all limits, for receiving routes of at most 16 stops; when the search ends, no such move improves its result.",
  "every planning of tours with single-purpose stops, every objective, set order and number of rounds without improvement of at least 1", "universal over plannings and all their neighbours; a missed improvement leaves no trace in a result",
  [LS+"strategies/plannings/reallocation.py:ReallocationLocalSearchStrategy._improve",LS+"algorithm.py:LocalSearchAlgorithm._optimize",INS+"strategies/abc.py:InsertionStrategy.compute","jinete/utils/random.py:sample_index_pairs"])
p("C75","A HashCode file becomes a submission whose rides can be driven as listed",
  "The vehicles and trips loaded from a HashCode file, given to InsertionAlgorithm with only_feasible or to GraspAlgorithm, lead to a planning whose stored text lists, in lines of a count and ride numbers, rides that can be driven by the rules: every ride at most once, no more vehicles than there are, each vehicle starting at (0,0) at step 0 can begin its rides in the listed order by their latest steps and be back by the last step.",
  "every file text that spells a HashCode instance, every order of fleet and job, criterion, strategy, objective but taxi sharing, and every choice of the random generator", "the stored text has no times, so the claim is about all instances, all runs and the re-simulation of their output; four components have to fit together",
  ["jinete/loaders/file.py:FileLoader","jinete/loaders/formatters/hashcode.py:HashCodeLoaderFormatter",INS+"algorithm.py:InsertionAlgorithm._optimize",ME+"grasp.py:GraspAlgorithm._optimize","jinete/storers/file.py:FileStorer.store","jinete/storers/formatters/hashcode.py:HashCodeStorerFormatter"])
p("C76","A HashCode submission is worth what was reported for the planning",
  "The value of the planning for the HashCode objective equals the points for driving the rides of the stored submission as early as possible.",
  "every HashCode instance and every planning made by the insertion algorithm", "compares reported values and the re-simulation of the output for all instances and runs",
  [MO+"objectives.py:HashCodeObjective",INS+"strategies/abc.py:InsertionStrategy._improve_ride_times","jinete/storers/formatters/hashcode.py:HashCodeStorerFormatter"])
p("C77","A Cordeau-Laporte file becomes schedules that keep all limits of the file",
  "The vehicles and trips loaded from a Cordeau-Laporte file, given to InsertionAlgorithm with only_feasible or to GraspAlgorithm, lead to one schedule per vehicle of the file, each starting and ending at the depot, in which every task starts when the vehicle can be there and the service before is over, every passenger picked up is dropped later, nobody is taken twice, and opening and closing times, capacity, longest ride and longest tour of the file are kept.",
  "every file text that spells a Cordeau-Laporte instance, every order of fleet and job, criterion, strategy, objective but taxi sharing, and every choice of the random generator", "compares the input file and the times of the output for all instances and runs; loader, tightened windows, memoised answers and moved departures have to fit together",
  ["jinete/loaders/file.py:FileLoader","jinete/loaders/formatters/cordeau_laporte.py:CordeauLaporteLoaderFormatter",MO+"trips.py:Trip",INS+"algorithm.py:InsertionAlgorithm._optimize",INS+"strategies/abc.py:InsertionStrategy._improve_ride_times",ME+"grasp.py:GraspAlgorithm._optimize"])
p("C78","Moving an instance in time moves its plans",
  "If all windows of trips and vehicles are moved by the same amount, then schedules of routes move along, feasibility and objective values stay the same, and the insertion algorithm serves the same trips.",
  "every instance, amount, route and run, for vehicles that do not start before time 0", "relates the behaviour on two different instances, for all of them",
  [MO+"stops.py:Stop.arrival_time",R+"Route.feasible",MO+"objectives.py",INS+"strategies/abc.py:InsertionStrategy._improve_ride_times"])
p("C79","A route that keeps all limits also keeps higher ones",
  "If services close later, rides and routes may take longer or vehicles carry more, then every route that was feasible still is.",
  "every instance, every change that only raises limits, and every route", "relates the behaviour on two different instances, for all of them; the tightened windows depend on several limits at once",
  [MO+"trips.py:Trip.origin_earliest",MO+"trips.py:Trip.origin_latest",MO+"trips.py:Trip.destination_latest",R+"Route.feasible"])
p("C80","No stretch of a route can be reversed to improve the result of a 2-opt search",
  "When a search with TwoOPTLocalSearchStrategy ends, then for every route of its result and every stretch of at least two inner stops, driving the stretch in reverse order is no tour, breaks a limit or does not improve the value of the route.",
  "every planning of tours, every objective, set order and number of rounds without improvement of at least 1", "universal over plannings and all their neighbours; a missed improvement leaves no trace in a result",
  [LS+"strategies/routes/two_opt.py:TwoOPTLocalSearchStrategy._improve",LS+"strategies/abc.py:LocalSearchStrategy.improve",LS+"algorithm.py:LocalSearchAlgorithm._optimize"])
p("C81","Vehicles leave and come back within their windows",
  "On every route with passengers that InsertionAlgorithm with only_feasible, a search by reallocation or GRASP returns, the vehicle leaves its origin within the origin's window and after the work there, and is back at its destination within that one's window and early enough for the work there.",
  "every instance, every window and duration of the vehicles, every criterion, strategy and choice of the random generator", "the loaders give vehicles no windows of their own, so no test instance has them; universal over all instances and runs",
  [MO+"vehicles.py:Vehicle.origin_latest",MO+"vehicles.py:Vehicle.destination_earliest",R+"Route.feasible",INS+"strategies/abc.py:InsertionStrategy._improve_ride_times"])
p("C82","A warm start never makes a planning worse",
  "When InsertionAlgorithm is given the routes of an earlier result, the objective value of its result is at least that of the given planning, and the same if no trip is added.",
  "every valid initial planning, fleet, job, objective, criterion, strategy and choice of the random generator", "universal over plannings; inserted stops move the times of others, so that the values of all routes are involved",
  [INS+"algorithm.py:InsertionAlgorithm._optimize",INS+"iterators/abc.py:InsertionIterator.__init__",MO+"objectives.py:HashCodeObjective",MO+"objectives.py:DialARideObjective",MO+"objectives.py:TaxiSharingObjective"])
p("C83","Checking a route nests calls as deeply as the route is long",
  "Under a limit on nested calls (RecursionError), checking a route gives the same answer as without a limit or gives up. It gives the answer if there is room for all stops. A route whose times have not been read is given up if it has more stops than the limit, an unchecked planned trip if there is no room for the stops before its delivery. Reading the departures from the first stop to the last needs room for two stops only.",
  "every limit, every route, every state of the memoised values (none for the third part)", "tests use routes of a few stops; the limit is met by routes of hundreds of stops only",
  [MO+"stops.py:Stop.all_previous",MO+"stops.py:Stop.departure_time",MO+"stops.py:Stop.capacity",MO+"planned_trips.py:PlannedTrip.feasible",R+"Route.feasible"])
p("C84","The identifier of a route tells what the route does",
  "Route.identifier can be computed for every route without changing anything. If no trip identifier contains brackets or bars, then two routes with the same identifier make the same number of stops, at each of which trips of the same identifiers begin and end; if moreover identifiers are not used twice, and the routes are tours of the same vehicle without empty stops and requested starts, then they run at the same times. Routes that do the same have the same identifier unless several trips begin or end at one stop. The identifiers in files of both formats have the required form.",
  "every two routes, in the same state or in different ones, every iteration order of sets, every file", "injectivity over all pairs of routes and all identifiers",
  [R+"Route.identifier",R+"Route.__iter__",MO+"stops.py:Stop.identifier","jinete/loaders/formatters/cordeau_laporte.py:CordeauLaporteLoaderFormatter","jinete/loaders/formatters/hashcode.py:HashCodeLoaderFormatter"])
p("C85","The improving stage of GRASP never loses value",
  "The second stage of each episode of GraspAlgorithm, which repeats local search and insertion three times, returns a planning worth at least the one it was given; hence the result of GRASP is worth at least every planning that the first stages found.",
  "every valid planning, fleet, job, objective, criterion, strategy, number of repetitions and choice of the random generator", "the given planning is not among those the stage compares, so that the claim rests on each step of each repetition",
  [ME+"grasp.py:GraspAlgorithm._build_local_search_algorithm",ME+"grasp.py:GraspAlgorithm._optimize",ME+"iterative.py:IterativeAlgorithm._optimize",ME+"sequential.py:SequentialAlgorithm._optimize"])
p("C86","The iteration order of sets does not change what is found",
  "The same fleet, job and random numbers lead to equally good plannings whatever the order in which Python iterates over the sets involved. In detail: the order within the sets of passengers of stops does not change times, loads, feasibility, values and scores; the order in which routes are compared does not change their ranking, and the order of the routes in a planning does not change its value.",
  "every instance, every two iteration orders of every set, every route, planning, criterion and objective", "the order of sets of objects with identity hashes changes between runs and cannot be chosen by a test",
  [MO+"stops.py:Stop.departure_time",MO+"stops.py:Stop.capacity",MO+"plannings.py:Planning",INS+"iterators/ranking.py:RankingInsertionIterator",INS+"algorithm.py:InsertionAlgorithm._optimize",R+"Route.feasible"])
p("C87","Only distances and limits decide",
  "If two instances agree in all distances between their places and in the windows, durations, capacities, bonuses and time limits that feasibility refers to, then with the same random numbers and set orders every algorithm makes the same calls with the same results on both, from any state: the same routes with the same schedules and values. Coordinates, the metric, identifiers, the closing time of a vehicle's origin, the opening time of its destination and the durations of work at depots have no influence.",
  "every two instances related in this way, every state, algorithm, strategy, criterion, objective and number of repetitions", "a statement about two runs of every algorithm at once",
  [MO+"surfaces.py:GeometricSurface",MO+"constants.py:DistanceMetric",INS+"algorithm.py:InsertionAlgorithm._optimize",LS+"algorithm.py:LocalSearchAlgorithm._optimize",ME+"grasp.py:GraspAlgorithm._optimize",ME+"iterative.py:IterativeAlgorithm._optimize",ME+"sequential.py:SequentialAlgorithm._optimize",R+"Route.feasible"])
p("C88","The unit of measurement changes numbers only, if the tolerance is converted too",
  "If all times, distances, loads, bonuses and the tolerance of an instance are given in another unit, then with the same random numbers and set orders every algorithm makes the same calls with the same results, from any state, and all times, loads, durations and values are converted (except the number of passengers in the dial-a-ride objective). If the tolerance stays as it is, which is what the code does, routes can become infeasible and passengers unserved.",
  "every factor, every two instances related in this way, every state, algorithm, strategy, criterion, objective and number of repetitions; one instance for the second part", "a statement about two runs of every algorithm at once",
  [MO+"constants.py:ERROR_BOUND",INS+"algorithm.py:InsertionAlgorithm._optimize",LS+"algorithm.py:LocalSearchAlgorithm._optimize",ME+"grasp.py:GraspAlgorithm._optimize",ME+"iterative.py:IterativeAlgorithm._optimize",ME+"sequential.py:SequentialAlgorithm._optimize",R+"Route.feasible",MO+"criterions.py:RouteCriterion",MO+"objectives.py:Objective"])
p("C89","Printing an object changes nothing",
  "Printing a result, planning, route, stop, fleet or job leaves all stops, planned trips and routes as they were, memoised answers included, and does not raise, so that the value of an objective, which is printed with its argument whenever it is computed, is the value computed without printing. Printing a planned trip does not change any later answer either.",
  "every state and every object in it; well-formed routes for the existence of the text", "that a method has no effect on any later call in any state cannot be observed by calls in some states",
  [MO+"abc.py:Model.__repr__",MO+"objectives.py:Objective.optimization_function",MO+"stops.py:Stop.__iter__",MO+"planned_trips.py:PlannedTrip.__iter__",R+"Route.__iter__",MO+"plannings.py:Planning.__iter__",MO+"results.py:Result.__iter__"])
p("C90","A deep copy of routes is independent of the original",
  "copy.deepcopy of routes, which follows references object by object with a memo, leaves all objects as they were and gives different routes, one for each original, that make the same visits with the same memoised values on stops and planned trips none of which existed before, and share stops exactly where the originals do; whether a copied route is feasible is asked anew. If nesting is limited, the result is this one or a RecursionError, never a partial copy. The former whenever the limit is at least the number of stops and planned trips between any two moments at which the vehicle is empty; the latter whenever the chain of references not met yet that starts at the first passenger's stop is longer than the limit. For each limit there are tours that cannot be copied.",
  "every state, all routes in it (well-formed for the first and the last part), every limit", "sharing between copy and original shows only when the copy is changed in some particular way; nesting depends on how many stops lie between pickups and deliveries",
  [R+"Route.__deepcopy__",MO+"plannings.py:Planning.__deepcopy__",INS+"iterators/abc.py:InsertionIterator",LS+"strategies/abc.py:LocalSearchStrategy.__init__",MO+"trips.py:Trip.__deepcopy__",MO+"vehicles.py:Vehicle.__deepcopy__"])
p("C91","Detours in double precision",
  "The Euclidean distance of places with n coordinates, computed in double precision, is within the factors (1-2^-53)^(n+3) and (1+2^-53)^(n+3) of the exact one, up to n*2^-537 for squares that underflow. Exact distances are never shortened by a detour. Computed ones can be, under both metrics, but by rounding only: the sum of the two computed legs is at least the computed direct distance times 1-(2n+1)*2^-53 (city blocks) or 1-(2n+7)*2^-53 (Euclidean, less 3n*2^-537), so with up to 1000 coordinates and distances up to 10^8 the difference is below a tenth of the tolerance. All of this needs places with equally many coordinates: further ones are ignored, so that places with fewer are near all others.",
  "all coordinates that are doubles, any dimension", "universal over roundings and places",
  [MO+"constants.py:DistanceMetric._euclidean_distance",MO+"constants.py:DistanceMetric._manhattan_distance",MO+"surfaces.py:GeometricSurface.distance"])
p("C92","Leaving out a stop in double precision",
  "When a stop is left out and the vehicle drives directly to the next one, no later stop has an arrival, start or departure, computed in double precision, that is later by more than what the direct way exceeds the two legs plus twice the bound of C64 on rounding. With computed distances as travel times, times up to 10^7, up to 1000 stops and up to 1000 coordinates this is at most a fifth of the tolerance. It is not always 0.",
  "every route, every stop but the last, both metrics, all doubles as data", "universal over roundings of all distances and additions",
  [MO+"constants.py:DistanceMetric",MO+"stops.py:Stop.arrival_time",MO+"stops.py:Stop.departure_time",R+"Route.remove_stop_at"])
p("C93","Objective values in double precision",
  "The Dial-a-Ride and Taxi-Sharing values of a planning, added up in double precision stop by stop and route by route, are within the factors (1-2^-53)^n and (1+2^-53)^n of the exact totals, n being the number of routes plus the largest numbers of stops of a route and (Taxi-Sharing) of trips picked up at a stop. So of two plannings with equally many trips the one with the shorter ways gets the better Dial-a-Ride value whenever its total is below the other one's times 1-2n*2^-53, and reading the set of routes in another order changes the value by rounding only. Within rounding, the order does change the value, and the planning with the longer ways can be preferred.",
  "all plannings, all doubles >= 0 as distances and durations", "universal over roundings and orders of the set of routes",
  [MO+"objectives.py:Objective._planning_optimization_function",MO+"objectives.py:DialARideObjective",MO+"objectives.py:TaxiSharingObjective",R+"Route.distance"])
p("C94","Whole numbers are computed exactly",
  "If all data of a route are whole numbers and no number exceeds 2^50, then all its arrival, starting and departure times in double precision are exact, and it is found feasible exactly if it keeps all its time limits: the tolerance of 0.001 admits nothing more. City-block distances of whole coordinates and Dial-a-Ride and Taxi-Sharing values of whole distances and durations are exact below 2^53, so the order in which the set of routes is read does not matter; the distances are those of the model with whole ticks. Beyond 2^54 times are not exact any more.",
  "every route, planning and pair of places with whole numbers as data (as in HashCode files)", "universal over data; links the two models",
  [MO+"stops.py:Stop.arrival_time",MO+"stops.py:Stop.feasible",MO+"planned_trips.py:PlannedTrip.feasible",R+"Route.feasible",MO+"constants.py:DistanceMetric._manhattan_distance",MO+"objectives.py:Objective._planning_optimization_function"])
p("C95","On whole numbers exact arithmetic and double precision give the same answers",
  "Written in units of time, the exact timetable of every route is the one of the model with ticks. If all data of the route are whole numbers of units and no number exceeds 2^50, then the times in double precision are these too, and what Route.feasible answers for a well-formed route nobody asked before is that the time limits as checked in double precision hold, that the vehicle begins and ends where it should, and that it is not overloaded where somebody boards or alights.",
  "every world, route, vehicle and list of visits", "universal over data; two models of the same code, one exact and one with rounding, compared",
  [MO+"stops.py:Stop.arrival_time",MO+"stops.py:Stop.departure_time",MO+"stops.py:Stop.feasible",MO+"planned_trips.py:PlannedTrip.feasible",R+"Route.feasible"])
p("C96","On whole numbers objective values are the same exactly and in double precision",
  "Written in units, the second number of the Dial-a-Ride value of every planning is exactly minus the distance its vehicles drive, and the Taxi-Sharing value exactly the time its passengers ride. If all distances (durations) are whole numbers of units, not negative, and their total is below 2^53, the values in double precision are these too, and of two plannings the same one has the smaller distance in both.",
  "every world, heap and planning of well-formed routes", "universal over plannings; two models of the same code, one exact and one with rounding, compared",
  [MO+"objectives.py:Objective._planning_optimization_function",MO+"objectives.py:DialARideObjective._route_optimization_function",MO+"objectives.py:TaxiSharingObjective._planned_trip_optimization_function",R+"Route.distance"])
p("C97","HashCode scores compared with == pay the bonus correctly on whole numbers",
  "HashCodeObjective compares the earliest pickup with the pickup time by ==. If all data of a route and the bonus are whole numbers, no number of the route exceeds 2^50 and distance and bonus together are below 2^53, the score of a ride in double precision is the exact one, and the score of a planning is the exact sum if no score is negative and the sum is below 2^53; these are the scores of the model with ticks. Beyond 2^54 roundings can add up so that a passenger who is picked up on time brings no bonus.",
  "every route, planning, trip and bonus", "equality of floating point numbers computed in different ways; universal over data",
  [MO+"objectives.py:HashCodeObjective._planned_trip_optimization_function",MO+"trips.py:Trip.origin_earliest",PT+"PlannedTrip.pickup_time",MO+"objectives.py:Objective._planning_optimization_function"])
with open(os.path.join(os.path.dirname(__file__),"..","properties.jsonl"),"w") as f:
    for x in P: f.write(json.dumps(x)+"\n")
print(len(P))
