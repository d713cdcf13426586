(** The drawing of a solution: jinete/storers/plots/graph.py.

    The graph is kept as its two dictionaries: the places with their labels and
    the pairs of places with their colours.  The colour is the number of the
    colour in the palette.  Left out: the libraries that lay out, draw and save
    the graph (graph.py:87-111), and the (empty) labels of edges.  networkx
    keeps one node per place and one edge per pair of places, as the
    dictionaries do. *)
From Verif Require Export Storers.

(** Python dictionaries: assigning to a known key keeps its place *)
Section gdict.
  Context {K V : Type} `{EqDecision K}.
  Fixpoint gd_get (k : K) (d : list (K * V)) : option V :=
    match d with [] => None | (k', v) :: d => if decide (k = k') then Some v else gd_get k d end.
  Fixpoint gd_set (k : K) (v : V) (d : list (K * V)) : list (K * V) :=
    match d with
    | [] => [(k, v)]
    | (k', v') :: d => if decide (k = k') then (k', v) :: d else (k', v') :: gd_set k v d
    end.
End gdict.

Section plots.
  Context {W : World}.

  (** graph.py:62-70; storers/abc.py:59-61; [husl_palette n] has [n] colours *)
  Definition generate_edges (pl : list nat) : M (list ((position * position) * nat)) :=
    let! rs := set_order pl in
    foldM (fun edges (rc : nat * nat) =>
      let! stops := route_stops (fst rc) in
      foldM (fun edges (ss : nat * nat) =>
        let! a := stop_get (fst ss) in
        let! b := stop_get (snd ss) in
        ret (gd_set (st_position a, st_position b) (snd rc) edges))
        edges (combine (removelast stops) (tail stops)))
      [] (combine rs (seq 0 (length rs))).

  (** graph.py:42-60; storers/abc.py:55-57 *)
  Definition generate_nodes (edges : list ((position * position) * nat)) (job : list nat) : M (list (position * string)) :=
    let! ts := set_order job in
    let nodes := foldl (fun nodes t =>
      let nodes := gd_set (origin_position (w_trip t)) ("+" +:+ tr_identifier (w_trip t)) nodes in
      gd_set (destination_position (w_trip t)) ("-" +:+ tr_identifier (w_trip t)) nodes) [] ts in
    let missing p nodes := match gd_get p nodes with None => gd_set p EmptyString nodes | Some _ => nodes end in
    ret (foldl (fun nodes (e : (position * position) * nat) =>
      missing (snd (fst e)) (missing (fst (fst e)) nodes)) nodes edges).

  (** graph.py:72-85 *)
  Definition generate_graph (pl job : list nat) : M (list (position * string) * list ((position * position) * nat)) :=
    let! edges := generate_edges pl in
    let! nodes := generate_nodes edges job in
    ret (nodes, edges).
End plots.
