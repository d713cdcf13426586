# Formal model of jinete: design

Subject: the Python sources in `/repo/jinete` (read as text, never run).
Tool: Rocq/Coq 8.16.1 with std++.  All Coq sources are in `rocq/theories`.

## How the model is built

* **Shallow embedding, function by function.**  Every Python function that is
  modelled is a Gallina function with a comment citing the file and lines.
* **State and exceptions.**  `M A := heap -> res A * heap`; an exception is the
  value `Raise e`, and the heap survives it, as in Python.  `assert` is
  `py_assert` (assertions are assumed enabled, i.e. no `python -O`).
* **Heap.**  `Stop`, `PlannedTrip` and `Route` objects are cells of a heap,
  referenced by index; `is`/`==` on them is equality of indices (none of these
  classes defines `__eq__`).  Every `cached_property` is an explicit optional
  field, so stale caches are visible.
* **Immutable data.**  `Trip`, `Vehicle`, `Service`, `Position` are pure values;
  trips and vehicles are referred to by number (object identity).
* **Nondeterminism.**  Iteration order of Python sets, `random.choice` and the
  outcome of the rejection sampling loop are oracles of the class `World`; all
  theorems quantify over every world.
* **Loops.**  `for` loops are structural recursion; the recursion through
  `Stop.previous` and `while` loops use fuel.  Running out of fuel is an
  exception value (`RecursionError` for a cyclic chain, `Diverge` for a loop);
  the theorems show that it does not happen where termination is claimed.

### Numbers

Times, distances, coordinates and capacities are integers (`Z`) counted in
*ticks*; `ERROR_BOUND` is an arbitrary positive number `w_eb` of ticks.  Any
finite instance with rational data can be scaled to ticks, with 1000 * `w_eb`
ticks per unit.  `float("inf")` is the constructor `Inf` of `lim`, allowed for
`latest`, `timeout` and vehicle capacity.

`Doubles.v` models the times, the feasibility check and the distances a second
time, in IEEE 754 double precision (Flocq's `round` to nearest even in the format
FLT(-1074, 53)).  C63-C65 and C91-C97 say what the other model leaves out: rounding
does not disturb the order of the times, is covered by `ERROR_BOUND` for routes
of ordinary length, keeps distances symmetric, and makes detours look shorter
only within the rounding.  With whole numbers as data nothing is rounded (C94),
and the two models give the same times and the same answer of `Route.feasible` (C95)
and the same values of plannings (C96, C97).

## Trusted base

* Coq's kernel.
* `Print Assumptions` is run under every theorem; see "Assumptions" at the end.
* The reading of the Python sources (the model).  Not modelled:
  - floating point rounding outside `Doubles.v`, `Totals.v` and `Scores.v` (there: no overflow, correctly
    rounded `pow(x, 2)`); NaN, infinite `earliest`/`duration`/coordinates; the
    Euclidean distance is rounded down to whole ticks outside `Doubles.v`;
  - Python's recursion limit outside `Depth.v` and `Copies.v` (C83, C90: it is
    met by routes of hundreds of stops and then makes checks and copies raise
    RecursionError), memory
    exhaustion, threads;
  - logging outside `Shows.v` (C89: what is printed changes nothing, as nothing
    in the algorithms prints a planned trip), uuids, computation time, how Python
    writes positions, numbers and quoted strings;
  - the numeric solver behind the MILP model (PuLP): its answer is an arbitrary
    assignment; networkx/matplotlib/seaborn drawing; console I/O;
  - the random generators: they are oracles, seeds are irrelevant.
* `deepcopy` copies the whole stop/planned-trip heap instead of the reachable
  part (the unreachable copies are garbage).  `Copies.v` has `deepcopy` object by
  object; both meet the same specification (C90).
* `heapq.nlargest/nsmallest`, `sorted`, `min` and `max` follow their documented
  meaning (stable; first of equals).

### What is modelled of each source file

| source (`jinete/`) | modelled | left out |
|--------|----------|----------|
| `models/stops.py`, `planned_trips.py` | everything, including `__iter__` | type annotations |
| `models/routes.py` | everything, including `RouteCloner`, `identifier`, `__iter__` | logging |
| `models/plannings.py`, `results.py` | everything | `uuid`, `computation_time`, the deep copy of a planning object (that of its routes is modelled, in `Copies.v` object by object) |
| `models/objectives.py`, `criterions.py`, `constants.py` | values, directions, `optimization_function` with its log line, `best`, `sorted`, `nbest`, metrics | names, the `inplace` flag (result is the same list) |
| `models/services.py`, `trips.py`, `vehicles.py`, `positions.py` | fields, windows, distances, equality and hashing (`Equality.v`) | `__str__`, `__iter__` |
| `models/surfaces.py` | position set and distance cache | - |
| `models/jobs.py`, `models/abc.py` | a job is the set of its trips and its objective; `__repr__`, `__iter__` | keyword arguments of the objective |
| `utils/*.py` | everything | - |
| `algorithms/abc.py`, `naive.py` | everything | computation time |
| `algorithms/heuristics/insertion/**` | everything | logging |
| `algorithms/heuristics/local_search/**` | everything | logging |
| `algorithms/metaheuristics/**` | everything | seeds |
| `algorithms/exacts/models/three_index.py`, `exacts/milp.py` | variables, objective, constraints, validation, translation to routes | the call of the solver |
| `loaders/**` | reading, splitting and converting text, both formats, caching of `file.py` | `float(str)` is a parameter of the loader model |
| `storers/**` | file, set, prompt (through its text), HashCode and columnar texts, graph | widths and digits of printed numbers, drawing |
| `solvers.py`, `dispatchers/*.py` | everything | - |
| `exceptions.py`, `__init__.py` files | names of exceptions | messages |

## Model files

| file | models |
|------|--------|
| `Prelude.v` | exceptions, monad, Python list/dict/set helpers |
| `World.v` | positions, metrics, services, trips, vehicles |
| `Heap.v` | `models/stops.py`, `models/planned_trips.py` |
| `Routes.v`, `Accounts.v` | `models/routes.py`, deep copies |
| `Utils.v` | `utils/random.py`, `utils/collections.py` |
| `Objectives.v` | `models/objectives.py`, `criterions.py`, `plannings.py`, `results.py`, `constants.py` |
| `Insertion.v` | `algorithms/heuristics/insertion/**` |
| `LocalSearch.v` | `algorithms/heuristics/local_search/**` |
| `Meta.v` | `algorithms/abc.py`, `naive.py`, `metaheuristics/**` |
| `Surface.v` | `models/surfaces.py` |
| `Loaders.v`, `FileLoader.v` | `loaders/formatters/*.py`, `loaders/abc.py`, `loaders/file.py` |
| `Storers.v`, `Report.v`, `Plots.v` | `storers/*.py`, `storers/formatters/*.py`, `storers/plots/graph.py` |
| `Solver.v` | `solvers.py`, `dispatchers/static.py` |
| `Milp.v`, `MilpModel.v` | `algorithms/exacts/models/three_index.py`: numbering and extraction; objective and constraints |
| `Translate.v` | `three_index.py` (solutions to routes), `exacts/milp.py` |
| `Equality.v` | `models/services.py` (`__eq__`, `__hash__`) |
| `Names.v` | identifiers and `__iter__` of `models/routes.py` |
| `Shows.v` | `models/abc.py` (`__repr__`), `__iter__` of `models/*.py`, `optimization_function` of `models/objectives.py` |
| `Copies.v` | `copy.deepcopy` as called by `insertion/iterators/abc.py` and `local_search/strategies/abc.py`: memo, nesting limit, `__deepcopy__` of `models/routes.py`, `plannings.py` |
| `Depth.v` | times, loads and feasibility of `models/*.py` under a limit on nested calls |
| `Doubles.v` | times, windows, feasibility and distances of `models/*.py` in double precision |
| `Totals.v` | values of plannings of `models/objectives.py` in double precision |
| `Scores.v` | HashCode scores of `models/objectives.py` in double precision |

## Specification files

`Spec.v` contains the specification vocabulary, independent of the heap: a
route is the list of its visits (place, trips boarded, trips alighted, requested
start) and the schedule is a forward recurrence over that list.  The others build
on it, and use of the model only data types and the relation "this route object
stands for this list of visits":

| file | vocabulary |
|------|------------|
| `Spec.v` | visits, timetable, rides, tours, admissible routes |
| `SpecValue.v`, `SpecAccount.v` | objective values and scores; where time goes |
| `Represents.v`, `Reads.v` | which route objects stand for which visits; what a getter returns |
| `Choices.v`, `Plannings.v`, `Iterators.v`, `Values.v`, `Searches.v` | strategies, plannings, runs, choices, searches |
| `SpecTrip.v`, `SpecSurface.v`, `SpecLoad.v`, `SpecFile.v` | windows, distances, instances and files |
| `SpecFair.v`, `SpecCalm.v` | what a recorded feasibility answer still guarantees (`fair`, `almost`, `calm`, `honest`), and tours that keep the limits even with the earliest departure (`fits`); plannings without requested starts (`untimed`) |
| `SpecDetour.v` | places without shortcuts, schedules that are nowhere later |
| `SpecMoves.v` | moving one trip between two vehicles and what it brings |
| `SpecSubmission.v` | HashCode submissions: rides driven one after the other, points, the text that lists them |
| `SpecRoster.v` | schedules for a Cordeau-Laporte file in its own terms: tasks with start times, the way between them, loads, windows, longest ride and tour |
| `SpecClock.v` | the same instance with all times moved |
| `SpecEase.v` | the same instance with higher limits |
| `SpecTurns.v` | reversals that improve a route and keep its limits, those that 2-opt tries |
| `SpecHours.v` | windows and work of vehicles at their depots |
| `SpecDepth.v` | routes whose times have not been read |
| `SpecNames.v` | plain and distinct names, visits for people of the same names |
| `SpecGain.v` | objectives for which more trips are never worth less |
| `SpecOrder.v` | the same world with other iteration orders of sets; visits with the same people; routes without equal scores |
| `SpecPlaces.v` | two instances with the same distances and limits; runs that do the same on both |
| `SpecUnits.v` | an instance in another unit; conversion of states, values, visits and schedules |
| `SpecShow.v` | the same objects with the same memoised answers; what consists of well-formed routes |
| `SpecCopies.v` | a route on stops of its own with the same visits and memoised values; how many objects routes have; the trail of references a copy follows |
| `SpecStraight.v` | exact straight-line distance; what underflowing squares lose; leaving out a stop of a route |
| `SpecTotals.v` | exact totals of distances and durations |
| `SpecWhole.v` | data that are whole numbers |
| `SpecBridge.v` | a route of the model with ticks written as a route with doubles |
| `SpecWorth.v` | a planning of the model with ticks written with doubles |
| `SpecScores.v` | exact HashCode scores |
| `SpecStore.v`, `SpecReport.v`, `SpecPlot.v`, `SpecPlan.v` | texts, reports, drawings, verdicts |
| `SpecShift.v` | the order of visits, whatever is memoised |
| `SpecSolver.v`, `SpecEquality.v` | pipeline runs, hashing |
| `SpecDouble.v` | exact timetable and limits with a slack, over the reals |
| `SpecMilp.v`, `SpecDarp.v`, `SpecTranslate.v` | nodes, plans, correct translation |

## Proof files

`Runs.v` is the program logic (`runs m h Q`: `m` returns normally in `h` and the
outcome satisfies `Q`).  `SchedProofs.v`, `TourProofs.v` treat the recurrence;
`PathProofs.v`, `RouteProofs.v` the getters on chains of stops; `EditProofs.v`,
`AppendProofs.v`, `RemoveProofs.v`, `CloneProofs.v`, `CopyProofs.v` the
operations on routes; `ComputeProofs.v`, `StrategyProofs.v`, `RankingProofs.v`,
`RankingRuns.v`, `StatelessProofs.v`, `LocalProofs.v`, `TwoOptProofs.v`,
`ShiftProofs.v` the algorithms;
`FrameProofs.v`, `FrameRuns.v`, `AsideProofs.v`, `RecallProofs.v` what runs leave
untouched (stops, planned trips and routes outside a closed part of the heap, the
objects of other vehicles, existing route objects); `HushProofs.v` which
operations record no new feasibility answer; `ScoreProofs.v`,
`ValueProofs.v`, `FeasibleProofs.v` memoised answers, values and verdicts;
`Milp*.v` and `Translate*.v` the three-index model.  `*Theorems.v` contain the
lemmas `cNN_...`; `Props_*.v` restate them (each closed by `exact`), print their
assumptions and show Examples, whose states are in `Witness*.v` and are checked
with the boolean predicates of `Checker.v`.

`tools/` generates derived files: `gen_properties.py` -> `properties.jsonl`,
`gen_props.py` (from `tools/props/*.in`) -> `Props_*.v`, `gen_manifest.py` (from
`Props_*.v` and `status.json`) -> `MANIFEST.json`.  `mutations.py`, `mutate.py`
and `log_mutations.py` seed bugs into a scratch copy of the model and record in
`seeded/LOG.jsonl` which theorems fail.

## Plan per property

| id | plan |
|----|------|
| C01 | `Heap.v` getters against the forward recurrence of `Spec.v`; invariant: a cache is empty or holds the recurrence value; induction on the chain of previous stops |
| C02 | induction over the recurrence; assertion conditions follow |
| C03 | load recurrence = boarded minus alighted; non-negativity from precedence |
| C04 | true for times and loads, false for the feasibility flag: `_partial` + `_refuted` with a computed witness |
| C05 | evaluate `Route.feasible` with empty flags against a spec predicate |
| C06 | `_refuted` witness (a full run of the default algorithm); `_partial`: with `fair` recorded answers all constraints hold except latest starts after a moved start time (and the route's duration when several candidates are computed), for one insertion, a strategy and whole runs |
| C07, C09 | exact effect of the list edits on the heap, including error paths |
| C08, C10 | `_refuted` + exact behaviour |
| C11, C12 | composition of C07/C09, assertions shown to hold |
| C13 | clone correctness and a frame property for everything allocated before |
| C14 | composition of C13, C11 and re-timing |
| C15 | `_refuted` for times; visits and links are preserved (theorem) |
| C16 | induction over combinations; arithmetic for `ncr`; invariant of the sampling loop |
| C17-C19 | invariant of the ranking iterator over the whole run |
| C20, C21 | `_refuted` witness / theorem that it always raises |
| C22, C23 | induction over the candidate loop; C23 `_refuted`, with a weaker theorem |
| C24, C25 | list inductions |
| C26 | `_refuted` for positive pickup durations; theorem for zero durations |
| C27 | invariant of reallocation and of the search loop; values do not depend on when a vehicle leaves its depot, so the gain the strategy computes from four route values is the gain of the planning (C27_step) |
| C28 | `_refuted` witness; a copy with a reversed segment is again a tour because the check of the segment (two_opt.py:25-31) speaks about planned trips and the links between stops survive the reversal (C28_step_partial), carried through the loop (C28_search_partial, C28_takes_partial) |
| C29 | `_refuted` witnesses; the order of the stops and their links survive whatever is memoised (C29_order_partial): getters change memoised values only, each swap is c30_swap |
| C30 | exact effect of the swap |
| C31, C32 | induction over episodes/stages with arbitrary inner algorithm |
| C33 | composition of C17, C19, C27, C31, C32 |
| C34, C35 | state machine over query histories |
| C36 | `_refuted` + theorem for equal durations |
| C37-C39 | loaders on arbitrary tables |
| C40 | printer/parser round trip |
| C41, C42, C43 | effects with failures |
| C44 | list induction |
| C45 | `_refuted` (hash collisions) + theorem for one direction |
| C46, C47 | arithmetic; exceptional cases |
| C48, C49 | modular arithmetic; `_refuted` for truncation |
| C50 | evaluation of the fresh route |
| C51-C54 | constraints as a predicate on assignments; arcs of value 1 with increasing times form paths (`MilpGraph.v`); both directions between solutions and plans, and the objective; optima that are no plans or not the shortest (`DarpRefute.v`) |
| C55 | run of the translation on a solution that is a plan; `_refuted` for shared places |
| C56 | sums over the chain of stops against the recurrence |
| C57, C58 | state machine of the cached loader; printer-independent reading of tables |
| C59 | verdict of each route, and a frame: asking one route does not change the others' |
| C60 | rows of the report against the timetable |
| C61 | dictionaries keyed by place; `_refuted` for shared places and legs |
| C62 | per vehicle, the number of orders of its visits that are better than its worst route falls whenever its routes are replaced (TwoOptEnds.v) |
| C63 | rounding is monotone and leaves doubles alone; no hypothesis on sizes |
| C64 | error analysis: each stop adds at most three roundings (`DoubleTheorems.v`) |
| C65 | exact relative error of additions of doubles; the Euclidean distance of different places may be 0 |
| C66 | the attractive routes are fixed when the ranking is built, and only their vehicles have candidates (`IdleTheorems.v`) |
| C67 | `_refuted` by evaluated runs: a cold and a warm start that leave a trip over which an idle vehicle could take, and a run whose only, busy vehicle could take the trip left over at every place; `C67_busy_partial`: invariant that the candidates of every busy vehicle are complete (`FullProofs.v`) |
| C68 | the candidates of a vehicle are all recomputed and sorted when a route of it is accepted, and nothing done for another vehicle changes their scores (`RankedTheorems.v`) |
| C69 | frame of `strategy_compute` for the closed part of the heap reachable from the route (`RankedTheorems.v`) |
| C70 | `_refuted` by an evaluated attempt that moves the departure forward; `_partial`: no recorded negative answer is wrong, so a tour that keeps the limits with the earliest departure is found feasible (`MissProofs.v`) |
| C71 | the generic ranking/search proofs (class `Shape`) instantiated with "almost admissible" routes (`FairSearchTheorems.v`); `_partial` because C06 is already refuted for insertions |
| C72 | the same instantiated with "no requested start times" (`CalmTheorems.v`): without riding-time limits `improve_ride_times` requests no start, so no recorded answer goes out of date |
| C73 | `_refuted` by an evaluated removal; `_partial`: induction over the schedule with and without the two visits (`DetourProofs.v`); the clone of the reallocation search has no recorded answers, so its verdict is exact |
| C74 | the best value of a round only rises, and the attempt for a given move reaches it: the clone without the trip is judged exactly (C73) and the insertion is found (C70); routes are only replaced by similar ones while the others are tried (`MoveProofs.v`) |
| C75 | vehicles that hold one ride at a time serve pickup and delivery in turns (`taxi_turns`, from the load bound); the planned times are never earlier than driving as early as possible (`legs_drivable`); limits from C72, the text from C40, the loaded world from C39 and C57. `made_of` fixes the vehicles and trips of the world to the loaded ones, everything random stays arbitrary |
| C76 | the same induction compares the pickups with the earliest possible ones (`legs_points`, `legs_points_exact`); two small files refute equality |
| C77 | inner visits of single-purpose tours are tasks of the file (`inner_stop`); induction over the schedule for way, starts and loads; `almost` (C06, C71) gives rides and windows; two small files refute closing times and the longest tour |
| C78 | two worlds side by side, induction over the schedule; the algorithm is run in two small worlds |
| C79 | two worlds side by side: the timetable is the same and each tightened limit is higher; one small tour refutes the rest |
| C80 | one pair of positions leaves a cost at least as good as the reversed stretch if its answers are honest (TwoOptProofs.v), carried through pairs, routes and copies (TwoOptBest.v); with one route per vehicle the lexicographic sum of the values then rises, so the search goes on (TwoOptSettled.v); two routes along a line refute the rest |
| C81 | the last departure is part of `almost` (C06, C71), the first one cannot be before the vehicle is ready; one vehicle with windows and work at its depot refutes the rest |
| C82 | copies have the values of their originals; a round that is accepted takes a pending trip, so that no round was accepted or more trips are served (WarmProofs.v); two runs after one another refute the rest |
| C83 | less fuel gives up or does the same; enough fuel does the same as the unlimited readings; chains longer than the fuel give up (DepthProofs.v, DepthTheorems.v) |
| C84 | cutting identifiers at brackets and bars; equal names give equal visits, hence equal schedules (NameTheorems.v) |
| C85 | local search (C27) and warm starts (C82) composed along stages and repetitions; every episode leads what its first stage found (GainTheorems.v); the planning of C82's refutation refutes the rest |
| C86 | times, loads, limits, values and scores of visits are sums and maxima over the people at a stop, hence invariant under permutation; two sorted permutations without ties are equal (OrderTheorems.v); a town of three trips refutes the rest |
| C87 | a simulation, function by function through the whole model, by one tactic (PlaceProofs.v); schedules and limits directly (PlaceTheorems.v) |
| C88 | the same, with numbers converted (UnitProofs.v); comparisons, sorting and `max`/`min` by keys commute with a positive factor |
| C89 | printing reads cells and draws orders only (ShowTheorems.v); a planned trip is asked for its feasibility, which a later change of a start time does not take back |
| C90 | depth-first search with a memo: every object met has a finished or an unfinished copy (DeepProofs.v); after each part between two moments at which the vehicle is empty all copies are finished (PartProofs.v); monotone in the limit; a trail of first unseen references forces the nesting (DeepTheorems.v), which grows with the number of passengers who come and go while one stays (LongTheorems.v) |
| C91 | relative and underflow error of squares, sums and roots; Minkowski's inequality coordinate by coordinate; a witness in which rounding makes a detour look shorter |
| C92 | exact timetables are monotone up to a shift; C64 for both routes; C91 for the direct way |
| C93 | induction over the nested sums with one more factor per addition; Bernoulli; rounding is odd |
| C94 | whole numbers below 2^53 are doubles; a whole number is at most l + 1/2 only if it is at most l |
| C95 | the two timetables are the same recursion under division by 1000 * `w_eb`; C94 and C05 |
| C96 | sums of legs and rides under division by 1000 * `w_eb`; C94 and C25 |
| C97 | whole numbers are equal as doubles exactly if they are equal; a route beyond 2^54 on which roundings add up |

## Assumptions

`Print Assumptions` under every theorem of the `Props_*.v` files except
`Props_Double.v`, `Props_Straight.v`, `Props_Totals.v`, `Props_Whole.v`, `Props_Bridge.v`,
`Props_Worth.v` and `Props_Scores.v` answers "Closed under the global context": no axiom is used.
Under their theorems C63-C65 and C91-C97, which are about real numbers, it lists axioms of Coq's standard library:
`ClassicalDedekindReals.sig_forall_dec`, `ClassicalDedekindReals.sig_not_dec`,
`FunctionalExtensionality.functional_extensionality_dep` (the construction of the
reals) and `Classical_Prop.classic` (used by Flocq).  `vcheck` additionally lists the
constants of the library module `Coq.ssr.ssrunder.Under_rel` (opaque module
members of ssreflect, loaded by std++); no theorem depends on them.
