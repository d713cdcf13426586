(** What a distance is, independently of the code. *)
From Verif Require Export Surface.

(** the sum over the coordinates both positions have *)
Definition over_common (f : Z -> Z -> Z) (a b : position) : Z :=
  foldr Z.add 0 (map (fun i => f (nth i a 0) (nth i b 0)) (seq 0 (Nat.min (length a) (length b)))).

(** [d] is the distance between [a] and [b]: city-block distance, or the
    length of the straight line rounded down to whole ticks. *)
Definition is_distance (m : metric) (a b : position) (d : Z) : Prop :=
  match m with
  | Manhattan => d = over_common (fun x y => Z.abs (x - y)) a b
  | Euclidean => 0 <= d /\
      d ^ 2 <= over_common (fun x y => (x - y) ^ 2) a b < (d + 1) ^ 2
  end.

(** a reply that is right for a request *)
Definition right_reply (m : metric) (q : request) (r : reply) : Prop :=
  match q, r with
  | AskPosition c, GotPosition p => po_coords p = c
  | AskDistance a b, GotNumber d => is_distance m (po_coords a) (po_coords b) d
  | AskTime a b _, GotNumber d => is_distance m (po_coords a) (po_coords b) d
  | _, _ => False
  end.

(** the coordinates asked for by a list of requests *)
Definition asked (qs : list request) : list position :=
  flat_map (fun q => match q with AskPosition c => [c] | _ => [] end) qs.

(** states a program can bring a new surface to *)
Definition surface_after (m : metric) (qs : list request) : surface :=
  (perform_all qs (new_surface m)).2.
