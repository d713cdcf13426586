(** HashCode submissions: rules of the contest and the text that lists the rides
    of every vehicle, independently of loaders, algorithms and storers. *)
From Verif Require Export SpecLoad SpecStore Plannings.

(** ** Driving rides one after the other *)
Definition spot : Type := Z * Z.
Definition blocks_from (a b : spot) : Z := Z.abs (a.1 - b.1) + Z.abs (a.2 - b.2).
Definition start_of (r : ride_line) : spot := (rd_from_x r, rd_from_y r).
Definition finish_of (r : ride_line) : spot := (rd_to_x r, rd_to_y r).

(** when and where a vehicle is free; all begin at step 0 in the corner *)
Definition cab : Type := Z * spot.
Definition garage : cab := (0, (0, 0)).
(** the ride begins as soon as the vehicle is there, but not too early *)
Definition begins_at (c : cab) (r : ride_line) : Z := Z.max (c.1 + blocks_from c.2 (start_of r)) (rd_earliest r).
Definition cab_after (c : cab) (r : ride_line) : cab :=
  (begins_at c r + blocks_from (start_of r) (finish_of r), finish_of r).

(** every ride begins by its latest step and the vehicle is back in the corner
    by step [steps], both up to [slack] *)
Fixpoint drivable (slack steps : Z) (c : cab) (rs : list ride_line) : Prop :=
  match rs with
  | [] => c.1 + blocks_from c.2 (0, 0) <= steps + slack
  | r :: rs => begins_at c r <= rd_latest r + slack /\ drivable slack steps (cab_after c r) rs
  end.
(** points for the rides: their length, and the bonus for a start on time *)
Fixpoint ride_points (bonus : Z) (c : cab) (rs : list ride_line) : Z :=
  match rs with
  | [] => 0
  | r :: rs => blocks_from (start_of r) (finish_of r) + (if decide (begins_at c r = rd_earliest r) then bonus else 0)
               + ride_points bonus (cab_after c r) rs
  end.
(** in the contest, a ride only counts if it is finished by its latest step *)
Fixpoint contest_points (bonus : Z) (c : cab) (rs : list ride_line) : Z :=
  match rs with
  | [] => 0
  | r :: rs =>
      (if decide ((cab_after c r).1 <= rd_latest r)
       then blocks_from (start_of r) (finish_of r) + (if decide (begins_at c r = rd_earliest r) then bonus else 0)
       else 0) + contest_points bonus (cab_after c r) rs
  end.

(** ** Submissions: for each vehicle in use the numbers of its rides *)
Definition rides_of (i : hash_code) (ks : list nat) (rs : list ride_line) : Prop :=
  Forall2 (fun k r => hc_rides i !! k = Some r) ks rs.
Record workable (slack : Z) (i : hash_code) (kss : list (list nat)) : Prop := {
  wk_vehicles : (length kss <= hc_vehicles i)%nat;
  wk_once : NoDup (concat kss);
  wk_used : forall ks, ks ∈ kss -> ks <> [];
  wk_drivable : forall ks, ks ∈ kss -> exists rs, rides_of i ks rs /\ drivable slack (hc_steps i) garage rs
}.
(** all numbers are whole multiples of [u] *)
Definition multiple (u x : Z) : Prop := (u | x).
Record in_units (u : Z) (i : hash_code) : Prop := {
  iu_bonus : multiple u (hc_bonus i);
  iu_steps : multiple u (hc_steps i);
  iu_rides : forall r, r ∈ hc_rides i ->
    Forall (multiple u) [rd_from_x r; rd_from_y r; rd_to_x r; rd_to_y r; rd_earliest r; rd_latest r]
}.
(** the text: one line per vehicle, the number of rides and then the rides *)
Definition submits (text : string) (kss : list (list nat)) : Prop :=
  if decide (kss = []) then text = EmptyString
  else Forall2 (fun line ks => split_on blank line = pretty (length ks) :: map pretty ks) (split_on line_break text) kss.
(** the sum over the vehicles *)
Inductive total_points (f : list ride_line -> Z) (i : hash_code) : list (list nat) -> Z -> Prop :=
| no_points : total_points f i [] 0
| more_points ks rs kss z : rides_of i ks rs -> total_points f i kss z -> total_points f i (ks :: kss) (f rs + z).

Section made_of.
  Context {W : World}.
  (** the world of these vehicles and trips; other numbers mean nobody *)
  Definition made_of (vs : list vehicle) (ts : list trip) : Prop :=
    holds vs ts /\
    (forall k, vs !! k = None -> w_vehicle k = Vehicle "" (Service [] 0 Inf 0) None Inf Inf) /\
    (forall k, ts !! k = None -> w_trip k = Trip "" (Service [] 0 Inf 0) (Service [] 0 Inf 0) 0 0 Inf).
  (** [kss] are the trips of the routes in [pl] that have any *)
  Definition listed (h : heap) (pl : list nat) (kss : list (list nat)) : Prop :=
    exists rs, NoDup rs /\ (forall r, r ∈ rs <-> r ∈ pl /\ has_passengers h r) /\
      Forall2 (fun r ks => exists v, route_serves h r v ks) rs kss.
  (** the first ride of every vehicle begins as early as possible *)
  Definition prompt (i : hash_code) (h : heap) (pl : list nat) : Prop :=
    forall r v ids xs t ts rd, r ∈ pl -> on_tour h r v ids xs -> boards xs = t :: ts -> hc_rides i !! t = Some rd ->
      picked_up_at v xs t = begins_at garage rd.
End made_of.
