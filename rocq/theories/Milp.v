(** The three-index mixed-integer model:
    jinete/algorithms/exacts/models/three_index.py.

    [ts] and [vs] are the tuples [_trips] and [_vehicles] (the iteration order
    of the sets in the job and the fleet); node numbers are list indices.  Values
    of the solver: [x] rational, [u] and [w] in ticks.  An infinite latest time,
    timeout or capacity means "no limit" here; PuLP would be given an infinite
    coefficient. *)
From Coq Require Export QArith Qminmax Qabs.
From Verif Require Export Routes.

Section numbering.
  Context {W : World} (vs ts : list nat).

  (** three_index.py:182-183 *)
  Definition trip_count : nat := length ts.
  (** three_index.py:141-149; IndexError for an empty fleet *)
  Definition positions : res (list position) :=
    match vs with
    | [] => Raise IndexError
    | v :: _ => Ok (v_origin_position v :: map (fun t => origin_position (w_trip t)) ts
                    ++ map (fun t => destination_position (w_trip t)) ts ++ [v_destination_position v])
    end.
  (** its length, three_index.py:180 *)
  Definition node_count : nat := 2 * trip_count + 2.
  Definition pos (i : nat) : position := match positions with Ok l => nth i l [] | Raise _ => [] end.

  (** [l[i]] for any integer *)
  Definition py_index {A} (l : list A) (i : Z) : res A :=
    match (if i <? 0 then l !! Z.to_nat (Z.of_nat (length l) + i) else l !! Z.to_nat i) with
    | Some a => if (i <? 0) && (Z.of_nat (length l) + i <? 0) then Raise IndexError else Ok a
    | None => Raise IndexError
    end.
  (** three_index.py:185-188 *)
  Definition trip_by_position_idx (idx : nat) : res (option nat) :=
    if (idx =? 0)%nat || (idx =? node_count - 1)%nat then Ok None
    else if (trip_count =? 0)%nat then Raise ZeroDivisionError
    else match py_index ts (Z.of_nat idx mod Z.of_nat trip_count - 1) with
         | Ok t => Ok (Some t)
         | Raise e => Raise e
         end.

  (** three_index.py:193-204; the bare [Exception] is written [ValueError] *)
  Definition time_window_by_position_idx (idx : nat) : res (Z * lim) :=
    match trip_by_position_idx idx with
    | Raise e => Raise e
    | Ok None => Ok (0, Lim (1440 * (1000 * eb)))
    | Ok (Some t) =>
        if bool_decide (pos idx = origin_position (w_trip t))
        then Ok (origin_earliest (w_trip t), origin_latest (w_trip t))
        else if bool_decide (pos idx = destination_position (w_trip t))
        then Ok (destination_earliest (w_trip t), destination_latest (w_trip t))
        else Raise ValueError
    end.
  (** three_index.py:206-215; [idx < len / 2] *)
  Definition capacity_by_position_idx (idx : nat) : res Z :=
    match trip_by_position_idx idx with
    | Raise e => Raise e
    | Ok None => Ok 0
    | Ok (Some t) =>
        Ok (if (2 * idx <? node_count)%nat then tr_capacity (w_trip t) else tr_capacity (w_trip t) * -1)
    end.
  (** three_index.py:217-221 *)
  Definition load_time_by_position_idx (idx : nat) : res Z :=
    match trip_by_position_idx idx with
    | Raise e => Raise e
    | Ok None => Ok 0
    | Ok (Some t) => Ok (origin_duration (w_trip t))
    end.
  (** three_index.py:223-227 *)
  Definition timeout_by_position_idx (idx : nat) : res lim :=
    match trip_by_position_idx idx with
    | Raise e => Raise e
    | Ok None => Ok (Lim 0)
    | Ok (Some t) => Ok (tr_timeout (w_trip t))
    end.
End numbering.

(** values of the decision variables *)
Record assignment : Type := Assignment {
  as_x : nat -> nat -> nat -> Q;
  as_u : nat -> nat -> Z;
  as_w : nat -> nat -> Z
}.

(** ** Validation and reading of a solution *)
Section reading.
  Context {W : World} (vs ts : list nat) (a : assignment).
  Notation nodes := (seq 0 (node_count ts)).

  (** three_index.py:365-376 *)
  Definition near_binary (x : Q) : bool :=
    Qle_bool (Qmin (Qabs x) (Qabs (x - 1))) (5 # 100).
  Definition validate : res unit :=
    if forallb (fun k => forallb (fun i =>
         (0 <=? as_u a k i) && (0 <=? as_w a k i) &&
         forallb (fun j => near_binary (as_x a k i j)) nodes) nodes) (seq 0 (length vs))
    then Ok tt else Raise AssertionError.

  (** Python's [int] on a float *)
  Definition py_trunc (x : Q) : Z := Z.quot (Qnum x) (Zpos (Qden x)).
  (** three_index.py:420-428: the origins of the arcs used, by starting time;
      [u] is sorted with Python's stable sort *)
  Definition used (k i j : nat) : bool := Z.eqb (py_trunc (as_x a k i j)) 1.
  Definition ordered_indexes (k : nat) : list nat :=
    map snd (sort_keyed Z.ltb false (map (fun i => (as_u a k i, i)) nodes)).
  Definition solution_to_nodes (k : nat) : list nat :=
    flat_map (fun i => map (fun _ => i) (List.filter (fun j => used k i j) nodes)) (ordered_indexes k).
  Definition solution_to_positions (k : nat) : list position :=
    map (fun i => pos vs ts i) (solution_to_nodes k).
End reading.
