(** Algorithms on top of heuristics: jinete/algorithms/abc.py, naive.py,
    metaheuristics/{iterative,sequential,grasp}.py. *)
From Verif Require Export LocalSearch.

Section meta.
  Context {W : World}.

  (** algorithms/abc.py:54-73: [optimize] evaluates the feasibility and the
      objective value of the planning for its log message *)
  Definition optimize (o : objective) (m : M planning) : M planning :=
    let! pl := m in
    planning_feasible pl ;;;
    planning_value o pl ;;;
    ret pl.

  (** An algorithm: what [_optimize] does for a given [initial] result.  Seeds
      are part of the nondeterminism of the world. *)
  Definition algorithm : Type := option planning -> M planning.

  (** naive.py:29-31 *)
  Definition naive_optimize : M planning := ret [].

  (** iterative.py:77-88.  [restart] is restart_mode; [init] is an [initial]
      keyword argument given to the constructor (iterative.py:70-75 passes it on
      unless it is overridden). *)
  Fixpoint iterative_loop (o : objective) (alg : algorithm) (restart : bool)
      (init : option planning) (episodes : nat) (best : option planning) : M (option planning) :=
    match episodes with
    | O => ret best
    | S episodes =>
        let start := match best with
                     | Some b => if restart then init else Some b
                     | None => init
                     end in
        let! current := optimize o (alg start) in
        let! best' :=
          match best with
          | None => let! _ := objective_best o [current] in ret (Some current)
          | Some b => let! w := objective_best o [b; current] in
                      ret (Some (match w with Some 1%nat => current | _ => b end))
          end in
        iterative_loop o alg restart init episodes best'
    end.
  Definition iterative_optimize (o : objective) (alg : algorithm) (restart : bool)
      (episodes : nat) (init : option planning) : M planning :=
    let! best := iterative_loop o alg restart init episodes None in
    match best with
    | None => raise AssertionError
    | Some b => ret b
    end.

  (** sequential.py:89-93; [current.planning] on [None] raises AttributeError *)
  Fixpoint sequential_loop (o : objective) (algs : list algorithm) (current : option planning)
      : M (option planning) :=
    match algs with
    | [] => ret current
    | a :: algs =>
        let! pl := optimize o (a current) in
        sequential_loop o algs (Some pl)
    end.
  Definition sequential_optimize (o : objective) (algs : list algorithm)
      (initial : option planning) : M planning :=
    let! c := sequential_loop o algs initial in
    py_some c.

  (** local_search/algorithm.py:50-56: the initial result is mandatory *)
  Definition local_search_algorithm (fuel : nat) (s : ls_strategy) (o : objective)
      (threshold : nat) : algorithm :=
    fun init => match init with
                | None => raise AttributeError
                | Some pl => local_search_optimize fuel s o threshold pl
                end.
  Definition insertion_algorithm (cfg : insertion_config) (fleet job : list nat) : algorithm :=
    fun init => insertion_optimize cfg fleet job init.

  (** grasp.py:79-106: [episodes] times (first solution: 3 insertions, then
      3 times local search followed by insertion, without restart) *)
  Definition default_sequential (fuel : nat) (o : objective) (cfg : insertion_config)
      (fleet job : list nat) : algorithm :=
    fun init => sequential_optimize o
      [local_search_algorithm fuel Reallocation o 1; insertion_algorithm cfg fleet job] init.
  Definition grasp_optimize (fuel : nat) (o : objective) (cfg : insertion_config)
      (fleet job : list nat) (episodes first_episodes : nat) : M planning :=
    optimize o (iterative_optimize o
      (fun _ => sequential_optimize o
         [ (fun init => iterative_optimize o (insertion_algorithm cfg fleet job) true first_episodes init);
           (fun init => iterative_optimize o (default_sequential fuel o cfg fleet job) false 3 init) ]
         None) true episodes None).
End meta.
