(** Driving schedules for a Cordeau-Laporte file, in the terms of the file. *)
From Verif Require Export Represents SpecLoad.

(** picking up or dropping the passenger of request [k], counted from 0 *)
Inductive task : Type := Pick (k : nat) | Drop (k : nat).
Definition task_point (i : dial_a_ride) (t : task) : option point :=
  match t with Pick k => dr_pickups i !! k | Drop k => dr_deliveries i !! k end.
Definition place (p : point) : position := [pt_x p; pt_y p].

(** what one vehicle does: when it leaves the depot, its tasks with the start of
    each service, and when it is back *)
Record roster : Type := Roster { ro_leave : Z; ro_work : list (task * Z); ro_back : Z }.

(** from [here] at [now] the work can be done at the given times, and the vehicle
    is at the depot at [back]: each service starts when the vehicle is there *)
Fixpoint passable (i : dial_a_ride) (now : Z) (here : position) (work : list (task * Z)) (back : Z) : Prop :=
  match work with
  | [] => now + euclidean here (place (dr_depot i)) <= back
  | (t, s) :: work => exists p, task_point i t = Some p /\ now + euclidean here (place p) <= s /\
      passable i (s + pt_duration p) (place p) work back
  end.
(** what is on board after the tasks *)
Definition aboard (i : dial_a_ride) (work : list (task * Z)) : Z :=
  foldr Z.add 0 (map (fun w => match task_point i w.1 with Some p => pt_load p | None => 0 end) work).

(** A vehicle can do its work; passengers get off after they got on, nobody is
    served before the opening time, and neither the capacity nor the longest
    ride is exceeded *)
Record orderly (slack : Z) (i : dial_a_ride) (ro : roster) : Prop := {
  od_leave : 0 <= ro_leave ro;
  od_way : passable i (ro_leave ro) (place (dr_depot i)) (ro_work ro) (ro_back ro);
  od_once : NoDup (map fst (ro_work ro));
  od_both : forall k, Pick k ∈ map fst (ro_work ro) <-> Drop k ∈ map fst (ro_work ro);
  od_ride : forall a b k s s' p, ro_work ro !! a = Some (Pick k, s) -> ro_work ro !! b = Some (Drop k, s') ->
              dr_pickups i !! k = Some p -> (a < b)%nat /\ s' <= s + pt_duration p + dr_longest_ride i + slack;
  od_open : forall t s p, (t, s) ∈ ro_work ro -> task_point i t = Some p -> pt_open p <= s;
  od_load : forall a w, ro_work ro !! a = Some w -> aboard i (take (S a) (ro_work ro)) <= dr_capacity i + slack
}.
(** everybody is served by the closing time *)
Definition punctual (slack : Z) (i : dial_a_ride) (ro : roster) : Prop :=
  forall t s p, (t, s) ∈ ro_work ro -> task_point i t = Some p -> s <= pt_close p + slack.
(** the tour is not too long *)
Definition short_enough (slack : Z) (i : dial_a_ride) (ro : roster) : Prop :=
  ro_back ro - ro_leave ro <= dr_longest_tour i + slack.

(** no durations and loads below zero *)
Definition ordinary (i : dial_a_ride) : Prop :=
  Forall (fun p => 0 <= pt_duration p /\ 0 <= pt_load p) (dr_pickups i) /\
  Forall (fun d => 0 <= pt_duration d) (dr_deliveries i).

(** ** The schedule of a route *)
Definition tasks (x : visit) : list task := map Pick (vi_board x) ++ map Drop (vi_alight x).
Definition work_of (xs : list visit) (Ts : list timing) : list (task * Z) :=
  concat (zip_with (fun x T => map (fun t => (t, tm_start T)) (tasks x)) xs Ts).
Definition roster_of `{W : World} (v : nat) (xs : list visit) : roster :=
  let Ts := timetable v xs in
  Roster (default 0 (tm_departure <$> head Ts)) (work_of xs Ts) (default 0 (tm_departure <$> last Ts)).
Definition scheduled `{W : World} (h : heap) (r : nat) (ro : roster) : Prop :=
  exists v ids xs, on_tour h r v ids xs /\ ro = roster_of v xs.
(** the planning gives a schedule to each vehicle and no request to two *)
Definition divided `{W : World} (i : dial_a_ride) (h : heap) (pl : list nat) (ros : list roster) : Prop :=
  Forall2 (scheduled h) pl ros /\ length ros = dr_vehicles i /\
  forall a b ro ro' k, ros !! a = Some ro -> ros !! b = Some ro' ->
    Pick k ∈ map fst (ro_work ro) -> Pick k ∈ map fst (ro_work ro') -> a = b.
