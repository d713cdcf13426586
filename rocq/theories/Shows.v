(** How objects are printed, and what is printed whenever a value is computed:
    models/abc.py (__repr__), the [__iter__] of stops, planned trips, routes,
    plannings, results, jobs and fleets, models/objectives.py
    (optimization_function).

    An f-string is evaluated before [logger.debug] looks at the level, so that
    [optimization_function] prints its argument whether or not anybody reads it.

    Left out: how Python writes positions, numbers and quoted strings, the unique
    numbers of plannings and the class name of the algorithm ([formats]); trips,
    vehicles and services, of which only fixed fields are printed. *)
From Verif Require Export Names.

(** how Python writes what is not modelled: a position (positions.py:115-117), a
    string within a tuple, a tuple of numbers, a planning's [uuid], an object
    which is not a [Model] and the name of the class of the algorithm *)
Record formats : Type := Formats {
  f_place : position -> string;
  f_quoted : string -> string;
  f_numbers : list Z -> string;
  f_uuid : planning -> string;
  f_objective : string;
  f_algorithm : string
}.

(** abc.py:51-57 *)
Definition print_model (name : string) (values : list (string * string)) : string :=
  name +:+ "(" +:+ String.concat ", " (map (fun kv => kv.1 +:+ "=" +:+ kv.2) values) +:+ ")".

(** a tuple of strings, as Python writes it *)
Definition print_tuple (f : formats) (l : list string) : string :=
  match l with
  | [x] => "(" +:+ f_quoted f x +:+ ",)"
  | _ => "(" +:+ String.concat ", " (map (f_quoted f) l) +:+ ")"
  end.
Definition print_bool (b : bool) : string := if b then "True" else "False".

(** what [optimization_function] is called with (objectives.py:44); a result is
    its fleet, the trips of its job and its planning *)
Inductive optimizable : Type :=
| AResult (fleet job : list nat) (pl : planning)
| APlanning (pl : planning)
| ARoute (r : nat)
| AStop (s : nat)
| APlanned (p : nat)
| ATuple (l : list Z).

Section shows.
  Context {W : World} (f : formats).

  (** stops.py:219-223 *)
  Definition stop_text (s : nat) : M string :=
    let! c := stop_get s in
    let! name := stop_identifier s in
    ret (print_model "Stop" [("position", f_place f (st_position c)); ("identifier", name)]).

  (** planned_trips.py:146-152.  The tuple is made first, [feasible] included;
      the stops are written afterwards. *)
  Definition planned_text (p : nat) : M string :=
    let! c := pt_get p in
    let! b := pt_is_feasible p in
    let! pickup := match pt_pickup c with Some s => stop_text s | None => ret "None" end in
    let! delivery := match pt_delivery c with Some s => stop_text s | None => ret "None" end in
    ret (print_model "PlannedTrip"
      [("trip_identifier", tr_identifier (w_trip (pt_trip c))); ("pickup", pickup);
       ("delivery", delivery); ("feasible", print_bool b)]).

  (** routes.py:228-232 *)
  Definition route_text (r : nat) : M string :=
    let! x := route_iter r in
    ret (print_model "Route" [("vehicle_identifier", x.1); ("stops_identifiers", print_tuple f x.2)]).

  (** plannings.py:79-80 *)
  Definition planning_text (pl : planning) : M string :=
    let! rs := set_order pl in
    let! names := mapM route_identifier rs in
    ret (print_model "Planning" [("uuid", f_uuid f pl); ("route_identifiers", print_tuple f names)]).

  (** vehicles.py:112-113 *)
  Definition fleet_iter (fleet : list nat) : M (list string) :=
    let! vs := set_order fleet in ret (map (fun v => vh_identifier (w_vehicle v)) vs).
  Definition fleet_text (fleet : list nat) : M string :=
    let! names := fleet_iter fleet in
    ret (print_model "Fleet" [("vehicle_identifiers", print_tuple f names)]).

  (** jobs.py:61-65 *)
  Definition job_iter (job : list nat) : M (list string) :=
    let! ts := set_order job in ret (map (fun t => tr_identifier (w_trip t)) ts).
  Definition job_text (job : list nat) : M string :=
    let! names := job_iter job in
    ret (print_model "Job" [("trip_identifiers", print_tuple f names); ("objective", f_objective f)]).

  (** a pair of a key and a value, within a tuple *)
  Definition print_pair (key value : string) : string := "(" +:+ f_quoted f key +:+ ", " +:+ value +:+ ")".
  (** results.py:99-105 *)
  Definition result_text (fleet job : list nat) (pl : planning) : M string :=
    let! vs := fleet_iter fleet in
    let! ts := job_iter job in
    ret (print_model "Result"
      [("fleet_uuid", "(" +:+ print_pair "vehicle_identifiers" (print_tuple f vs) +:+ ",)");
       ("job", "(" +:+ print_pair "trip_identifiers" (print_tuple f ts) +:+ ", " +:+ print_pair "objective" (f_objective f) +:+ ")");
       ("algorithm_name", f_algorithm f);
       ("planning_uuid", f_uuid f pl)]).

  Definition text (x : optimizable) : M string :=
    match x with
    | AResult fleet job pl => result_text fleet job pl
    | APlanning pl => planning_text pl
    | ARoute r => route_text r
    | AStop s => stop_text s
    | APlanned p => planned_text p
    | ATuple l => ret (f_numbers f l)
    end.

  (** objectives.py:61-73, without the last two lines *)
  Definition value_of_optimizable (o : objective) (x : optimizable) : M (list Z) :=
    match x with
    | AResult _ _ pl | APlanning pl => planning_value o pl
    | ARoute r => route_value o r
    | AStop s => stop_value o s
    | APlanned p => planned_trip_value o p
    | ATuple l => ret l
    end.
  (** objectives.py:61-75 *)
  Definition optimization_function (o : objective) (x : optimizable) : M (list Z) :=
    let! result := value_of_optimizable o x in
    let! _ := text x in
    ret result.
End shows.
