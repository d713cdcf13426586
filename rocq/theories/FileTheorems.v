(** Proofs about loading from files (C57, C58). *)
From Verif Require Import SpecLoad SpecFile FileLoader FileProofs SurfaceTheorems LoadTheorems.

Definition coords (s : surface) : list position := position_coordinates s.

(** ** Formatters do not look at the surface they are given *)
Record tame {A} (pre : list position) (m : ST surface A) (pos : A -> list position) : Prop := {
  tm_keeps : forall s, coords s ⊆ coords (snd (m s));
  tm_puts : forall s a s', pre ⊆ coords s -> m s = (Ok a, s') -> pos a ⊆ coords s';
  tm_blind : forall s s', fst (m s) = fst (m s')
}.
Lemma tame_ret {A} pre (a : A) pos : pos a ⊆ pre -> tame pre (ret a) pos.
Proof. intros H. split; [done| |done]. intros s a' s' Hs [= <- <-]. by etrans. Qed.
Lemma tame_raise {A} pre e (pos : A -> list position) : tame pre (raise e) pos.
Proof. split; [done|intros ? ? ? ?; discriminate|done]. Qed.
Lemma tame_bind {A B} pre (m : ST surface A) (k : A -> ST surface B) p q :
  tame pre m p -> (forall a, tame (p a ++ pre) (k a) q) -> tame pre (bind m k) q.
Proof.
  intros [K P Bl] H. split.
  - intros s. unfold bind. specialize (K s). destruct (m s) as [[a|e] s1]; [|done]. etrans; [exact K|apply H].
  - intros s b s' Hs. unfold bind. destruct (m s) as [[a|e] s1] eqn:E; [|discriminate]. intros Eb.
    eapply (tm_puts _ _ _ (H a)); [|exact Eb]. specialize (K s). rewrite E in K. specialize (P s a s1 Hs E). set_solver.
  - intros s s'. unfold bind. specialize (Bl s s'). destruct (m s) as [[a|e] s1], (m s') as [[a'|e'] s1']; cbn in *; [|done|done|congruence].
    injection Bl as ->. apply H.
Qed.
Lemma tame_nth {A} pre (l : list A) i : tame pre (py_nth l i) (fun _ => []).
Proof. unfold py_nth. destruct (l !! i); [apply tame_ret; set_solver|apply tame_raise]. Qed.
Lemma tame_assert pre b : tame pre (py_assert b) (fun _ => []).
Proof. destruct b; [apply tame_ret; set_solver|apply tame_raise]. Qed.
Lemma create_coords c s : exists p s', get_or_create_position c s = (Ok p, s') /\ po_coords p = c /\ c :: coords s ⊆ coords s'.
Proof.
  destruct (create_runs c s) as (s' & p & E & _ & Hc & _ & _ & _ & Hp). exists p, s'. split; [done|]. split; [done|].
  unfold coords, position_coordinates. rewrite Hp. destruct (has_position c s) eqn:Eh.
  - apply has_position_iff in Eh. set_solver.
  - rewrite map_app. cbn. rewrite Hc. set_solver.
Qed.
Lemma tame_create {B} pre c (k : pobj -> ST surface B) q :
  (forall p p' s, po_coords p = po_coords p' -> k p s = k p' s) -> tame (c :: pre) (k (Pobj 0 c)) q ->
  tame pre (bind (get_or_create_position c) k) q.
Proof.
  intros Hk [K P Bl].
  assert (E : forall s, exists s', bind (get_or_create_position c) k s = k (Pobj 0 c) s' /\ c :: coords s ⊆ coords s').
  { intros s. destruct (create_coords c s) as (p & s' & E & Hc & Hs). exists s'. split; [|done].
    unfold bind. rewrite E. by apply Hk. }
  split.
  - intros s. destruct (E s) as (s' & -> & Hs). specialize (K s'). set_solver.
  - intros s b s1 Hpre. destruct (E s) as (s' & -> & Hs). apply P. set_solver.
  - intros s s0. destruct (E s) as (s' & -> & _). destruct (E s0) as (s0' & -> & _). apply Bl.
Qed.
Lemma tame_mapM {A B} pre (f : A -> ST surface B) l pos : (forall a pre', pre ⊆ pre' -> tame pre' (f a) pos) ->
  tame pre (mapM f l) (fun bs => flat_map pos bs).
Proof.
  intros H. revert pre H. induction l as [|a l IH]; intros pre H; cbn [mapM]; [apply tame_ret; set_solver|].
  eapply tame_bind; [by apply H|]. intros b. eapply tame_bind; [apply IH; intros; apply H; set_solver|]. intros bs.
  apply tame_ret. cbn. set_solver.
Qed.

Lemma flat_map_all {A} (f : nat -> A) (pos : A -> list position) l c : (forall i, pos (f i) ⊆ [c]) -> flat_map pos (map f l) ⊆ [c].
Proof. intros H. induction l as [|i l IH]; cbn; [set_solver|]. specialize (H i). set_solver. Qed.
Lemma tame_cordeau_fleet e d : tame [] (cordeau_fleet e d) (flat_map vehicle_places).
Proof.
  unfold cordeau_fleet. eapply tame_bind; [apply tame_nth|]. intros row. eapply tame_bind; [apply tame_nth|]. intros x.
  eapply tame_bind; [apply tame_nth|]. intros drow. apply tame_create; [by intros p p' s Hp; unfold plain_service; rewrite Hp|].
  eapply tame_bind; [apply tame_nth|]. intros cap. eapply tame_bind; [apply tame_nth|]. intros tmo. apply tame_ret. cbn.
  rewrite flat_map_all; [set_solver|]. intros i. cbn. set_solver.
Qed.
Lemma tame_cordeau_service pre row : tame pre (cordeau_service row) (fun s => [sv_position s]).
Proof.
  unfold cordeau_service. apply tame_create; [by intros p p' s Hp; rewrite Hp|].
  eapply tame_bind; [apply tame_nth|]. intros ?. eapply tame_bind; [apply tame_nth|]. intros ?.
  eapply tame_bind; [apply tame_nth|]. intros ?. apply tame_ret. cbn. set_solver.
Qed.
Lemma tame_cordeau_trip pre d n i : tame pre (cordeau_trip d n i) trip_places.
Proof.
  unfold cordeau_trip. eapply tame_bind; [apply tame_nth|]. intros ?. eapply tame_bind; [apply tame_cordeau_service|]. intros so.
  eapply tame_bind; [apply tame_nth|]. intros ?. eapply tame_bind; [apply tame_cordeau_service|]. intros sd.
  eapply tame_bind; [apply tame_nth|]. intros ?. eapply tame_bind; [apply tame_nth|]. intros ?.
  eapply tame_bind; [apply tame_assert|]. intros ?. eapply tame_bind; [apply tame_nth|]. intros ?.
  eapply tame_bind; [apply tame_nth|]. intros ?. eapply tame_bind; [apply tame_nth|]. intros ?. apply tame_ret. cbn. set_solver.
Qed.
Lemma tame_cordeau_job e d : tame [] (cordeau_job e d) (flat_map trip_places).
Proof.
  unfold cordeau_job. eapply tame_bind; [apply tame_nth|]. intros ?. eapply tame_bind; [apply tame_nth|]. intros ?.
  apply tame_mapM. intros. apply tame_cordeau_trip.
Qed.
Lemma tame_hashcode_fleet e d : tame [] (hashcode_fleet e d) (flat_map vehicle_places).
Proof.
  unfold hashcode_fleet. eapply tame_bind; [apply tame_nth|]. intros row. eapply tame_bind; [apply tame_nth|]. intros x.
  eapply tame_bind; [apply tame_nth|]. intros l. apply tame_create; [by intros p p' s Hp; rewrite Hp|].
  apply tame_ret. cbn. rewrite flat_map_all; [set_solver|]. intros i. cbn. set_solver.
Qed.
Lemma tame_hashcode_trip pre e i b row : tame pre (hashcode_trip e i b row) trip_places.
Proof.
  unfold hashcode_trip. do 6 (destruct row as [|? row]; [apply tame_raise|]). destruct row; [|apply tame_raise].
  apply tame_create; [by intros p p' s Hp; rewrite Hp|]. apply tame_create; [by intros p p' s Hp; unfold plain_service; rewrite Hp|].
  apply tame_ret. cbn. set_solver.
Qed.
Lemma tame_hashcode_job e d : tame [] (hashcode_job e d) (flat_map trip_places).
Proof.
  unfold hashcode_job. eapply tame_bind; [apply tame_nth|]. intros ?. eapply tame_bind; [apply tame_nth|]. intros ?.
  apply tame_mapM. intros [i row] pre' _. apply tame_hashcode_trip.
Qed.
Lemma tame_fleet e k d : tame [] (format_fleet e k d) (flat_map vehicle_places).
Proof. destruct k; [apply tame_cordeau_fleet|apply tame_hashcode_fleet]. Qed.
Lemma tame_job e k d : tame [] (format_job e k d) (flat_map trip_places).
Proof. destruct k; [apply tame_cordeau_job|apply tame_hashcode_job]. Qed.

(** ** The loader *)
Section loader.
  Context (number : string -> option Z) (contents : nat -> option string) (e : positive) (k : layout).
  Definition good (j : nat) : option table :=
    match contents j with Some t => read_table number t | None => None end.
  Definition opened_again (x : loader) : loader :=
    Loader (ld_formatter x) (ld_surface x) (ld_fleet x) (ld_job x) (S (ld_opened x)) (ld_next x).
  Lemma mapM_pure {S A B} (f : A -> ST S B) (g : A -> option B) (x : exn) l s :
    (forall a, f a s = (match g a with Some b => Ok b | None => Raise x end, s)) ->
    mapM f l s = (match every g l with Some b => Ok b | None => Raise x end, s).
  Proof.
    intros H. induction l as [|a l IH]; cbn; [done|]. unfold bind at 1. rewrite H. destruct (g a); [|done].
    unfold bind. rewrite IH. by destruct (every g l).
  Qed.
  Lemma loader_data_eq x : exists ex, loader_data number contents x =
    (match good (ld_opened x) with Some d => Ok d | None => Raise ex end, opened_again x).
  Proof.
    unfold loader_data, open_file, bind, good. destruct (contents (ld_opened x)) as [t|]; [|by exists OSError].
    exists ValueError. apply mapM_pure. intros line. apply mapM_pure. intros w. unfold read_number. by destruct (number w).
  Qed.

  Record inv (x : loader) : Prop := {
    iv_formatter : match ld_formatter x with
                   | None => ld_surface x = None /\ forall j, (j < ld_opened x)%nat -> good j = None
                   | Some d => exists j, ld_opened x = S j /\ good j = Some d /\ forall i, (i < j)%nat -> good i = None
                   end;
    iv_surface : ld_surface x = None -> ld_fleet x = None /\ ld_job x = None;
    iv_fleet : forall o vs, ld_fleet x = Some (o, vs) -> exists d os s, ld_formatter x = Some d /\ ld_surface x = Some (os, s) /\
      flat_map vehicle_places vs ⊆ coords s /\ forall s0, fst (format_fleet e k d s0) = Ok vs;
    iv_job : forall o ts, ld_job x = Some (o, ts) -> exists d os s, ld_formatter x = Some d /\ ld_surface x = Some (os, s) /\
      flat_map trip_places ts ⊆ coords s /\ forall s0, fst (format_job e k d s0) = Ok ts
  }.
  Record later (x y : loader) : Prop := {
    lt_formatter : forall d, ld_formatter x = Some d -> ld_formatter y = Some d;
    lt_surface : forall o s, ld_surface x = Some (o, s) -> exists s', ld_surface y = Some (o, s');
    lt_fleet : forall f, ld_fleet x = Some f -> ld_fleet y = Some f;
    lt_job : forall f, ld_job x = Some f -> ld_job y = Some f
  }.
  Lemma later_refl x : later x x.
  Proof. split; eauto. Qed.
  Lemma later_trans x y z : later x y -> later y z -> later x z.
  Proof.
    intros [A B C D] [A' B' C' D']. split; [eauto| |eauto..]. intros o s H. destruct (B _ _ H) as [s1 H1]. eauto.
  Qed.
  Lemma inv_new : inv new_loader.
  Proof. split; cbn; try done. split; [done|]. intros j Hj. lia. Qed.

  Lemma cached_eq {A} (f : loader -> option A) {B} (g : A -> B) (m : ST loader B) x :
    bind get_state (fun x => match f x with Some a => ret (g a) | None => m end) x =
    match f x with Some a => (Ok (g a), x) | None => m x end.
  Proof. unfold bind, get_state. by destruct (f x). Qed.
  Lemma formatter_eq x : loader_formatter number contents x =
    match ld_formatter x with
    | Some d => (Ok d, x)
    | None => bind (loader_data number contents) (fun d x =>
        (Ok d, Loader (Some d) (ld_surface x) (ld_fleet x) (ld_job x) (ld_opened x) (ld_next x))) x
    end.
  Proof. exact (cached_eq ld_formatter id _ x). Qed.
  Lemma surface_eq x : loader_surface number contents k x =
    match ld_surface x with
    | Some p => (Ok (fst p), x)
    | None => bind (loader_formatter number contents) (fun _ x => (Ok (ld_next x), Loader (ld_formatter x)
           (Some (ld_next x, match k with CordeauLayout => cordeau_surface | HashCodeLayout => hashcode_surface end))
           (ld_fleet x) (ld_job x) (ld_opened x) (S (ld_next x)))) x
    end.
  Proof. unfold loader_surface, bind at 1, get_state. by destruct (ld_surface x) as [[]|]. Qed.

  Lemma formatter_step x : inv x ->
    (exists d y, loader_formatter number contents x = (Ok d, y) /\ ld_formatter y = Some d /\ inv y /\ later x y /\
       ld_surface y = ld_surface x /\ ld_fleet y = ld_fleet x /\ ld_job y = ld_job x) \/
    (exists ex y, loader_formatter number contents x = (Raise ex, y) /\ ld_formatter x = None /\ good (ld_opened x) = None /\
       inv y /\ later x y /\ y = opened_again x).
  Proof.
    intros I. pose proof I as [If Is Ifl Ij]. rewrite formatter_eq. destruct (ld_formatter x) as [d|] eqn:Ed.
    - left. exists d, x. split; [done|]. split; [done|]. split; [done|]. split; [apply later_refl|done].
    - destruct If as [Hs Hbad]. destruct (Is Hs) as [Hf Hj]. destruct (loader_data_eq x) as [ex E]. unfold bind. rewrite E. clear E.
      destruct (good (ld_opened x)) as [d|] eqn:Eg.
      + left. eexists d, _. split; [reflexivity|]. cbn. split; [done|]. split; [|split; [|done]].
        * split; cbn; [eauto|done| |]; rewrite ?Hf, ?Hj; done.
        * split; cbn; eauto. by rewrite Ed.
      + right. eexists ex, _. split; [reflexivity|]. split; [done|]. split; [done|]. split; [|split; [|done]].
        * split; cbn; rewrite ?Ed; [|done| |]; rewrite ?Hf, ?Hj; [|done..]. split; [done|]. intros j Hlt.
          destruct (decide (j = ld_opened x)) as [->|Hne]; [done|]. apply Hbad. lia.
        * split; cbn; eauto.
  Qed.
  Lemma surface_step x : inv x ->
    (exists o s d y, loader_surface number contents k x = (Ok o, y) /\ ld_surface y = Some (o, s) /\ ld_formatter y = Some d /\ inv y /\ later x y /\
       ld_fleet y = ld_fleet x /\ ld_job y = ld_job x /\ (forall d', ld_formatter x = Some d' -> d' = d)) \/
    (exists ex y, loader_surface number contents k x = (Raise ex, y) /\ ld_formatter x = None /\ good (ld_opened x) = None /\
       inv y /\ later x y /\ y = opened_again x).
  Proof.
    intros I. rewrite surface_eq. destruct (ld_surface x) as [[o s]|] eqn:Es.
    - left. pose proof (iv_formatter _ I) as If. destruct (ld_formatter x) as [d|] eqn:Ed; [|destruct If; congruence].
      exists o, s, d, x. split; [done|]. split; [done|]. split; [done|]. split; [done|]. split; [apply later_refl|].
      split; [done|]. split; [done|]. congruence.
    - destruct (formatter_step x I) as [(d & y & E & Ed & Iy & L & Hs & Hf & Hj)|(ex & y & E & Ed & Hg & Iy & L & Hy)].
      + left. unfold bind. rewrite E. eexists _, _, d, _. split; [reflexivity|]. cbn. split; [reflexivity|]. split; [done|].
        rewrite Es in Hs. destruct (iv_surface _ Iy Hs) as [Nf Nj]. split; [|split; [|split; [|split]]].
        * split; cbn; [|done| |]; rewrite ?Nf, ?Nj; [|done..]. pose proof (iv_formatter _ Iy) as If. rewrite Ed in *. done.
        * destruct L. split; cbn; eauto. rewrite Es. done.
        * done.
        * done.
        * intros d' Hd'. pose proof (lt_formatter _ _ L _ Hd'). congruence.
      + right. unfold bind. rewrite E. exists ex, y. done.
  Qed.
  Definition kept (x : loader) (a : answer) : Prop :=
    match a with
    | GotFleet o vs => ld_fleet x = Some (o, vs)
    | GotJob o ts => ld_job x = Some (o, ts)
    | GotSurface o => exists s, ld_surface x = Some (o, s)
    end.
  Definition fits (q : question) (a : answer) : Prop :=
    match q, a with Fleet, GotFleet _ _ | Job, GotJob _ _ | TheSurface, GotSurface _ => True | _, _ => False end.
  Lemma kept_later x y a : later x y -> kept x a -> kept y a.
  Proof. intros [A B C D]. destruct a; cbn; [eauto..|]. intros [s Hs]. eauto. Qed.

  Lemma fleet_eq x : loader_fleet number contents e k x =
    match ld_fleet x with
    | Some f => (Ok f, x)
    | None => bind (loader_formatter number contents) (fun d => bind (loader_surface number contents k) (fun _ =>
        bind (on_surface (format_fleet e k d)) (fun vs x => (Ok (ld_next x, vs),
          Loader (ld_formatter x) (ld_surface x) (Some (ld_next x, vs)) (ld_job x)
           (ld_opened x) (S (ld_next x)))))) x
    end.
  Proof. exact (cached_eq ld_fleet id _ x). Qed.
  Lemma fleet_step x : inv x -> exists r y, loader_fleet number contents e k x = (r, y) /\ inv y /\ later x y /\
    (forall f, ld_fleet x = Some f -> r = Ok f) /\
    (forall f, r = Ok f -> ld_fleet y = Some f) /\
    (ld_formatter x = None -> good (ld_opened x) = None -> (exists ex, r = Raise ex) /\ y = opened_again x) /\
    (forall d, (ld_formatter x = Some d \/ (ld_formatter x = None /\ good (ld_opened x) = Some d)) ->
       ld_formatter y = Some d /\
       ((exists vs, fst (format_fleet e k d (new_surface Euclidean)) = Ok vs) -> exists f, r = Ok f)).
  Proof.
    intros I. rewrite fleet_eq. destruct (ld_fleet x) as [f|] eqn:Ef.
    { destruct f as [o vs]. destruct (iv_fleet _ I _ _ Ef) as (d0 & os & s & Hd & Hs & _).
      eexists _, x. split; [reflexivity|]. split; [done|]. split; [apply later_refl|]. split; [congruence|].
      split; [intros f [= <-]; done|]. split; [congruence|]. intros d [Hd'|[Hd' _]]; [|congruence]. split; [congruence|eauto]. }
    destruct (formatter_step x I) as [(d & y & E & Ed & Iy & L & Hs & Hf & Hj)|(ex & y & E & Ed & Hg & Iy & L & ->)].
    2:{ unfold bind. rewrite E. eexists _, _. split; [reflexivity|]. split; [done|]. split; [done|]. split; [done|]. split; [done|].
        split; [eauto|]. intros d [Hd'|[_ Hd']]; congruence. }
    destruct (surface_step y Iy) as [(o & s & d' & z & E2 & Es2 & Ed2 & Iz & L2 & Hf2 & Hj2 & Hd2)|(ex & z & E2 & Ed2 & _)]; [|congruence].
    assert (d' = d) as -> by (symmetry; by apply Hd2).
    assert (Hdd : forall d', ld_formatter x = Some d' \/ ld_formatter x = None /\ good (ld_opened x) = Some d' -> d' = d).
    { intros d' [H|[Hn Hg]]; [pose proof (lt_formatter _ _ L _ H); congruence|].
      rewrite formatter_eq, Hn in E. destruct (loader_data_eq x) as [ex El]. unfold bind in E. rewrite El, Hg in E. congruence. }
    assert (Hbad : ld_formatter x = None -> good (ld_opened x) = None -> False).
    { intros Hn Hg. rewrite formatter_eq, Hn in E. destruct (loader_data_eq x) as [ex El]. unfold bind in E. rewrite El, Hg in E. congruence. }
    assert (Ez : ld_fleet z = None) by congruence.
    assert (Hez : bind (loader_formatter number contents) (fun d => bind (loader_surface number contents k) (fun _ =>
        bind (on_surface (format_fleet e k d)) (fun vs x => (Ok (ld_next x, vs),
          Loader (ld_formatter x) (ld_surface x) (Some (ld_next x, vs)) (ld_job x) (ld_opened x) (S (ld_next x)))))) x =
       bind (on_surface (format_fleet e k d)) (fun vs x => (Ok (ld_next x, vs),
          Loader (ld_formatter x) (ld_surface x) (Some (ld_next x, vs)) (ld_job x) (ld_opened x) (S (ld_next x)))) z).
    { unfold bind at 1. rewrite E. unfold bind at 1. by rewrite E2. }
    rewrite Hez. unfold bind, on_surface. rewrite Es2.
    pose proof (tame_fleet e k d) as [K P Bl]. specialize (K s). pose proof (P s) as Ps. pose proof (Bl s) as Bs.
    pose proof (iv_formatter _ Iz) as If. rewrite Ed2 in If. pose proof (later_trans _ _ _ L L2) as [L1 L3 L4 L5].
    destruct (format_fleet e k d s) as [[vs|ex] s'] eqn:Em; cbn [fst snd] in *.
    - eexists _, _. split; [reflexivity|]. cbn. rewrite Ed2. split; [|split; [|split; [done|split; [|split; [|]]]]].
      + split; cbn; [done|done| |].
        * intros o' l [= <- <-]. eexists d, o, s'. split; [done|]. split; [done|]. split; [by apply (Ps vs s'); [set_solver|]|].
          intros s0. by rewrite <- (Bs s0).
        * intros o' l Hl. destruct (iv_job _ Iz _ _ Hl) as (d1 & os1 & s1 & H1 & H2 & H3 & H4). eexists d, o, s'.
          assert (d1 = d) as -> by congruence. rewrite Es2 in H2. injection H2 as <- <-.
          split; [done|]. split; [done|]. split; [|done]. by etrans.
      + split; cbn; [rewrite <- Ed2; done| | |]; [|intros f Hf0; congruence|done].
        intros o' s0 H. destruct (L3 _ _ H) as [s1 H1]. rewrite Es2 in H1. injection H1 as <- <-. eauto.
      + intros f [= <-]. done.
      + intros Hn Hg. by destruct (Hbad Hn Hg).
      + intros d' Hd'. rewrite (Hdd _ Hd'). eauto.
    - eexists _, _. split; [reflexivity|]. cbn. rewrite Ed2. split; [|split; [|split; [done|split; [done|split; [|]]]]].
      + split; cbn; [done|done| |].
        * intros o' l Hl. congruence.
        * intros o' l Hl. destruct (iv_job _ Iz _ _ Hl) as (d1 & os1 & s1 & H1 & H2 & H3 & H4). eexists d, o, s'.
          assert (d1 = d) as -> by congruence. rewrite Es2 in H2. injection H2 as <- <-.
          split; [done|]. split; [done|]. split; [|done]. by etrans.
      + split; cbn; [rewrite <- Ed2; done| |done|done].
        intros o' s0 H. destruct (L3 _ _ H) as [s1 H1]. rewrite Es2 in H1. injection H1 as <- <-. eauto.
      + intros Hn Hg. by destruct (Hbad Hn Hg).
      + intros d' Hd'. rewrite (Hdd _ Hd'). split; [done|]. intros [vs Hv]. specialize (Bs (new_surface Euclidean)). congruence.
  Qed.
  Lemma job_eq x : loader_job number contents e k x =
    match ld_job x with
    | Some f => (Ok f, x)
    | None => bind (loader_formatter number contents) (fun d => bind (loader_surface number contents k) (fun _ =>
        bind (on_surface (format_job e k d)) (fun vs x => (Ok (ld_next x, vs),
          Loader (ld_formatter x) (ld_surface x) (ld_fleet x) (Some (ld_next x, vs))
           (ld_opened x) (S (ld_next x)))))) x
    end.
  Proof. exact (cached_eq ld_job id _ x). Qed.
  Lemma job_step x : inv x -> exists r y, loader_job number contents e k x = (r, y) /\ inv y /\ later x y /\
    (forall f, ld_job x = Some f -> r = Ok f) /\
    (forall f, r = Ok f -> ld_job y = Some f) /\
    (ld_formatter x = None -> good (ld_opened x) = None -> (exists ex, r = Raise ex) /\ y = opened_again x) /\
    (forall d, (ld_formatter x = Some d \/ (ld_formatter x = None /\ good (ld_opened x) = Some d)) ->
       ld_formatter y = Some d /\
       ((exists vs, fst (format_job e k d (new_surface Euclidean)) = Ok vs) -> exists f, r = Ok f)).
  Proof.
    intros I. rewrite job_eq. destruct (ld_job x) as [f|] eqn:Ef.
    { destruct f as [o vs]. destruct (iv_job _ I _ _ Ef) as (d0 & os & s & Hd & Hs & _).
      eexists _, x. split; [reflexivity|]. split; [done|]. split; [apply later_refl|]. split; [congruence|].
      split; [intros f [= <-]; done|]. split; [congruence|]. intros d [Hd'|[Hd' _]]; [|congruence]. split; [congruence|eauto]. }
    destruct (formatter_step x I) as [(d & y & E & Ed & Iy & L & Hs & Hf & Hj)|(ex & y & E & Ed & Hg & Iy & L & ->)].
    2:{ unfold bind. rewrite E. eexists _, _. split; [reflexivity|]. split; [done|]. split; [done|]. split; [done|]. split; [done|].
        split; [eauto|]. intros d [Hd'|[_ Hd']]; congruence. }
    destruct (surface_step y Iy) as [(o & s & d' & z & E2 & Es2 & Ed2 & Iz & L2 & Hf2 & Hj2 & Hd2)|(ex & z & E2 & Ed2 & _)]; [|congruence].
    assert (d' = d) as -> by (symmetry; by apply Hd2).
    assert (Hdd : forall d', ld_formatter x = Some d' \/ ld_formatter x = None /\ good (ld_opened x) = Some d' -> d' = d).
    { intros d' [H|[Hn Hg]]; [pose proof (lt_formatter _ _ L _ H); congruence|].
      rewrite formatter_eq, Hn in E. destruct (loader_data_eq x) as [ex El]. unfold bind in E. rewrite El, Hg in E. congruence. }
    assert (Hbad : ld_formatter x = None -> good (ld_opened x) = None -> False).
    { intros Hn Hg. rewrite formatter_eq, Hn in E. destruct (loader_data_eq x) as [ex El]. unfold bind in E. rewrite El, Hg in E. congruence. }
    assert (Ez : ld_job z = None) by congruence.
    assert (Hez : bind (loader_formatter number contents) (fun d => bind (loader_surface number contents k) (fun _ =>
        bind (on_surface (format_job e k d)) (fun vs x => (Ok (ld_next x, vs),
          Loader (ld_formatter x) (ld_surface x) (ld_fleet x) (Some (ld_next x, vs)) (ld_opened x) (S (ld_next x)))))) x =
       bind (on_surface (format_job e k d)) (fun vs x => (Ok (ld_next x, vs),
          Loader (ld_formatter x) (ld_surface x) (ld_fleet x) (Some (ld_next x, vs)) (ld_opened x) (S (ld_next x)))) z).
    { unfold bind at 1. rewrite E. unfold bind at 1. by rewrite E2. }
    rewrite Hez. unfold bind, on_surface. rewrite Es2.
    pose proof (tame_job e k d) as [K P Bl]. specialize (K s). pose proof (P s) as Ps. pose proof (Bl s) as Bs.
    pose proof (iv_formatter _ Iz) as If. rewrite Ed2 in If. pose proof (later_trans _ _ _ L L2) as [L1 L3 L4 L5].
    destruct (format_job e k d s) as [[vs|ex] s'] eqn:Em; cbn [fst snd] in *.
    - eexists _, _. split; [reflexivity|]. cbn. rewrite Ed2. split; [|split; [|split; [done|split; [|split; [|]]]]].
      + split; cbn; [done|done| |].
        * intros o' l Hl. destruct (iv_fleet _ Iz _ _ Hl) as (d1 & os1 & s1 & H1 & H2 & H3 & H4). eexists d, o, s'.
          assert (d1 = d) as -> by congruence. rewrite Es2 in H2. injection H2 as <- <-.
          split; [done|]. split; [done|]. split; [|done]. by etrans.
        * intros o' l [= <- <-]. eexists d, o, s'. split; [done|]. split; [done|]. split; [by apply (Ps vs s'); [set_solver|]|].
          intros s0. by rewrite <- (Bs s0).
      + split; cbn; [rewrite <- Ed2; done| | |]; [|done|intros f Hf0; congruence].
        intros o' s0 H. destruct (L3 _ _ H) as [s1 H1]. rewrite Es2 in H1. injection H1 as <- <-. eauto.
      + intros f [= <-]. done.
      + intros Hn Hg. by destruct (Hbad Hn Hg).
      + intros d' Hd'. rewrite (Hdd _ Hd'). eauto.
    - eexists _, _. split; [reflexivity|]. cbn. rewrite Ed2. split; [|split; [|split; [done|split; [done|split; [|]]]]].
      + split; cbn; [done|done| |].
        * intros o' l Hl. destruct (iv_fleet _ Iz _ _ Hl) as (d1 & os1 & s1 & H1 & H2 & H3 & H4). eexists d, o, s'.
          assert (d1 = d) as -> by congruence. rewrite Es2 in H2. injection H2 as <- <-.
          split; [done|]. split; [done|]. split; [|done]. by etrans.
        * intros o' l Hl. congruence.
      + split; cbn; [rewrite <- Ed2; done| |done|done].
        intros o' s0 H. destruct (L3 _ _ H) as [s1 H1]. rewrite Es2 in H1. injection H1 as <- <-. eauto.
      + intros Hn Hg. by destruct (Hbad Hn Hg).
      + intros d' Hd'. rewrite (Hdd _ Hd'). split; [done|]. intros [vs Hv]. specialize (Bs (new_surface Euclidean)). congruence.
  Qed.
  (** what happens to a question *)
  Lemma ask_step q x : inv x -> exists r y, ask_loader number contents e k q x = (r, y) /\ inv y /\ later x y /\
    (forall a, kept x a -> fits q a -> r = Ok a) /\
    (forall a, r = Ok a -> fits q a /\ kept y a) /\
    (ld_formatter x = None -> good (ld_opened x) = None -> (exists ex, r = Raise ex) /\ y = opened_again x) /\
    (forall d, (ld_formatter x = Some d \/ (ld_formatter x = None /\ good (ld_opened x) = Some d)) ->
       ld_formatter y = Some d /\
       ((exists vs, fst (format_fleet e k d (new_surface Euclidean)) = Ok vs) ->
        (exists ts, fst (format_job e k d (new_surface Euclidean)) = Ok ts) -> exists a, r = Ok a)).
  Proof.
    intros I. destruct q; unfold ask_loader.
    - destruct (fleet_step x I) as (r & y & E & Iy & L & H1 & H2 & H3 & H4). unfold bind. rewrite E.
      destruct r as [f|ex]; (eexists _, y; split; [reflexivity|]); (split; [done|]); (split; [done|]).
      + split; [|split; [|split]].
        * intros [o l| |] Ha Hq; try done. specialize (H1 _ Ha). injection H1 as ->. done.
        * intros a [= <-]. split; [done|]. cbn. specialize (H2 _ eq_refl). by destruct f.
        * intros Hn Hg. destruct (H3 Hn Hg) as [[ex Hx] _]. discriminate Hx.
        * intros d Hd. destruct (H4 d Hd) as [? _]. eauto.
      + split; [|split; [done|split]].
        * intros [o l| |] Ha Hq; try done. specialize (H1 _ Ha). discriminate H1.
        * intros Hn Hg. destruct (H3 Hn Hg) as [_ ->]. eauto.
        * intros d Hd. destruct (H4 d Hd) as [? H5]. split; [done|]. intros Hv _. destruct (H5 Hv) as [f Hf]. discriminate Hf.
    - destruct (job_step x I) as (r & y & E & Iy & L & H1 & H2 & H3 & H4). unfold bind. rewrite E.
      destruct r as [f|ex]; (eexists _, y; split; [reflexivity|]); (split; [done|]); (split; [done|]).
      + split; [|split; [|split]].
        * intros [|o l|] Ha Hq; try done. specialize (H1 _ Ha). injection H1 as ->. done.
        * intros a [= <-]. split; [done|]. cbn. specialize (H2 _ eq_refl). by destruct f.
        * intros Hn Hg. destruct (H3 Hn Hg) as [[ex Hx] _]. discriminate Hx.
        * intros d Hd. destruct (H4 d Hd) as [? _]. eauto.
      + split; [|split; [done|split]].
        * intros [|o l|] Ha Hq; try done. specialize (H1 _ Ha). discriminate H1.
        * intros Hn Hg. destruct (H3 Hn Hg) as [_ ->]. eauto.
        * intros d Hd. destruct (H4 d Hd) as [? H5]. split; [done|]. intros _ Hv. destruct (H5 Hv) as [f Hf]. discriminate Hf.
    - unfold bind. destruct (surface_step x I) as [(o & s & d & y & E & Es & Ed & Iy & L & _ & _ & Hd)|(ex & y & E & Ed & Hg & Iy & L & ->)]; rewrite E.
      + eexists _, y. split; [reflexivity|]. split; [done|]. split; [done|]. split; [|split; [|split]].
        * intros [| |o'] Ha Hq; try done. destruct Ha as [s0 Hs0]. rewrite surface_eq, Hs0 in E. injection E as <- <-. done.
        * intros a [= <-]. split; [done|]. cbn. eauto.
        * intros Hn Hg. exfalso. pose proof (iv_formatter _ I) as If. rewrite Hn in If. destruct If as [Hs _].
          rewrite surface_eq, Hs in E. unfold bind at 1 in E. rewrite formatter_eq, Hn in E. unfold bind in E.
          destruct (loader_data_eq x) as [ex El]. rewrite El, Hg in E. discriminate E.
        * intros d' Hd'. split; [|eauto]. destruct Hd' as [Hd'|[Hn Hg]]; [by rewrite (Hd _ Hd')|].
          pose proof (iv_formatter _ I) as If. rewrite Hn in If. destruct If as [Hs _].
          rewrite surface_eq, Hs in E. unfold bind at 1 in E. rewrite formatter_eq, Hn in E. unfold bind in E.
          destruct (loader_data_eq x) as [ex El]. rewrite El, Hg in E. injection E as _ <-. done.
      + eexists _, _. split; [reflexivity|]. split; [done|]. split; [done|]. split; [|split; [done|split]].
        * intros [| |o'] Ha Hq; try done. destruct Ha as [s0 Hs0]. pose proof (iv_formatter _ I) as If. rewrite Ed in If. destruct If; congruence.
        * eauto.
        * intros d [Hd|[_ Hd]]; congruence.
  Qed.
End loader.

Section session.
  Context (number : string -> option Z) (contents : nat -> option string) (e : positive) (k : layout).
  Notation all := (ask_loader_all number contents e k).
  Notation Inv := (inv number contents e k).
  Lemma all_step qs x : Inv x -> Inv (snd (all qs x)) /\ later x (snd (all qs x)).
  Proof.
    revert x. induction qs as [|q qs IH]; intros x I; cbn; [split; [done|apply later_refl]|].
    destruct (ask_step number contents e k q x I) as (r & y & E & Iy & L & _). rewrite E.
    destruct (IH y Iy) as [IH1 IH2]. destruct (all qs y) as [rs z]. cbn in *. split; [done|by eapply later_trans].
  Qed.
  Lemma all_at qs x i q r : qs !! i = Some q -> fst (all qs x) !! i = Some r ->
    exists x1 x2, snd (all (take i qs) x) = x1 /\ ask_loader number contents e k q x1 = (r, x2) /\
      snd (all (drop (S i) qs) x2) = snd (all qs x) /\ (forall j, fst (all qs x) !! (S i + j)%nat = fst (all (drop (S i) qs) x2) !! j).
  Proof.
    revert qs x. induction i as [|i IH]; intros [|q0 qs] x Hq Hr; try done; cbn in *.
    - injection Hq as ->. destruct (ask_loader number contents e k q x) as [r0 y] eqn:E. destruct (all qs y) as [rs z] eqn:Ez.
      cbn in Hr. injection Hr as ->. exists x, y. split; [done|]. rewrite drop_0. rewrite Ez. done.
    - destruct (ask_loader number contents e k q0 x) as [r0 y] eqn:E. specialize (IH qs y Hq).
      destruct (all qs y) as [rs z] eqn:Ez. cbn in Hr, IH. destruct (IH Hr) as (x1 & x2 & H1 & H2 & H3 & H4).
      exists x1, x2. rewrite <- H1. destruct (all (take i qs) y) as [rs' z']. cbn in *. split; [done|]. by rewrite H1.
  Qed.
  Lemma all_length qs x : length (fst (all qs x)) = length qs.
  Proof.
    revert x. induction qs as [|q qs IH]; intros x; cbn; [done|]. destruct (ask_loader number contents e k q x) as [r y].
    specialize (IH y). destruct (all qs y). cbn in *. by rewrite IH.
  Qed.
  Lemma good_tabulates j d : good number contents j = Some d <-> exists text, contents j = Some text /\ tabulates number text d.
  Proof.
    unfold good. destruct (contents j) as [t|]; [|split; [done|intros (? & ? & _); done]].
    rewrite read_table_tabulates. split; [eauto|]. by intros (? & [= <-] & ?).
  Qed.
  Lemma good_none j : good number contents j = None <-> forall text d, contents j = Some text -> ~ tabulates number text d.
  Proof.
    split.
    - intros H text d E Hd. assert (X : good number contents j = Some d) by (apply good_tabulates; eauto). congruence.
    - intros H. destruct (good number contents j) as [d|] eqn:E; [|done]. apply good_tabulates in E as (t & Et & Hd). by destruct (H _ _ Et Hd).
  Qed.
  Lemma inv_first x d : Inv x -> ld_formatter x = Some d -> exists j, first_table number contents j d /\ ld_opened x = S j.
  Proof.
    intros I Hd. pose proof (iv_formatter _ _ _ _ _ I) as If. rewrite Hd in If. destruct If as (j & Ho & Hg & Hb).
    exists j. split; [|done]. split; [by apply good_tabulates|]. intros i text d' Hi. by apply good_none, Hb.
  Qed.
End session.

(** ** C57 *)
Lemma c57_text : forall number contents x text d, contents (ld_opened x) = Some text ->
  (exists x', loader_data number contents x = (Ok d, x')) <-> tabulates number text d.
Proof.
  intros number contents x text d Ht. destruct (loader_data_eq number contents x) as [ex E]. rewrite E.
  rewrite <- read_table_tabulates. unfold good. rewrite Ht. destruct (read_table number text) as [d'|].
  - split; [intros [x' [= ->]]; done|intros [= ->]; eauto].
  - split; [intros [x' H]; discriminate H|done].
Qed.
Lemma c57_once : forall number contents e k qs n text d, contents n = Some text -> tabulates number text d ->
  (ld_opened (snd (ask_loader_all number contents e k qs new_loader)) <= S n)%nat.
Proof.
  intros number contents e k qs n text d Ht Hd.
  assert (Hg : good number contents n = Some d) by (apply good_tabulates; eauto).
  destruct (all_step number contents e k qs new_loader (inv_new _ _ _ _)) as [I _].
  pose proof (iv_formatter _ _ _ _ _ I) as If. destruct (ld_formatter _) as [d'|].
  - destruct If as (j & -> & _ & Hb). destruct (decide (n < j)%nat) as [Hlt|]; [|lia]. specialize (Hb _ Hlt). congruence.
  - destruct If as [_ Hb]. destruct (decide (n < ld_opened (snd (ask_loader_all number contents e k qs new_loader)))%nat) as [Hlt|]; [|lia].
    specialize (Hb _ Hlt). congruence.
Qed.
Lemma c57_same : forall number contents e k qs rs x q i j a,
  ask_loader_all number contents e k qs new_loader = (rs, x) -> (i <= j)%nat -> qs !! i = Some q -> qs !! j = Some q ->
  rs !! i = Some (Ok a) -> rs !! j = Some (Ok a).
Proof.
  intros number contents e k qs rs x q i j a E Hij Hi Hj Ha. destruct (decide (i = j)) as [->|Hne]; [done|].
  assert (Hr : fst (ask_loader_all number contents e k qs new_loader) !! i = Some (Ok a)) by (by rewrite E).
  destruct (all_at number contents e k qs new_loader i q _ Hi Hr) as (x1 & x2 & H1 & H2 & H3 & H4).
  destruct (all_step number contents e k (take i qs) new_loader (inv_new _ _ _ _)) as [I1 _]. rewrite H1 in I1.
  destruct (ask_step number contents e k q x1 I1) as (r & y & Eq & I2 & _ & _ & Hk & _). rewrite H2 in Eq. injection Eq as <- <-.
  destruct (Hk _ eq_refl) as [Hf Hkept].
  assert (Hjl : (j < length qs)%nat) by (by eapply lookup_lt_Some).
  destruct (lookup_lt_is_Some_2 rs j) as [r Hrj]. { pose proof (all_length number contents e k qs new_loader) as X. rewrite E in X. cbn in X. lia. }
  rewrite Hrj. specialize (H4 (j - S i)%nat). rewrite E in H4. cbn [fst] in H4.
  replace (S i + (j - S i))%nat with j in H4 by lia. rewrite Hrj in H4. symmetry in H4.
  assert (Hj' : drop (S i) qs !! (j - S i)%nat = Some q). { rewrite lookup_drop. replace (S i + (j - S i))%nat with j by lia. done. }
  destruct (all_at number contents e k (drop (S i) qs) x2 _ q _ Hj' H4) as (x3 & x4 & H5 & H6 & _).
  destruct (all_step number contents e k (take (j - S i) (drop (S i) qs)) x2 I2) as [I3 L3]. rewrite H5 in I3, L3.
  destruct (ask_step number contents e k q x3 I3) as (r' & y' & Eq & _ & _ & Hkk & _). rewrite H6 in Eq. injection Eq as <- <-.
  f_equal. apply Hkk; [|done]. by eapply kept_later.
Qed.
Lemma c57_answers : forall number contents e k qs rs x i r,
  ask_loader_all number contents e k qs new_loader = (rs, x) -> rs !! i = Some (Ok r) ->
  exists n d, first_table number contents n d /\ ld_opened x = S n /\
    match r with
    | GotFleet _ vs => qs !! i = Some Fleet /\ (forall s, exists s', format_fleet e k d s = (Ok vs, s')) /\
        exists o s, ld_surface x = Some (o, s) /\ flat_map vehicle_places vs ⊆ position_coordinates s
    | GotJob _ ts => qs !! i = Some Job /\ (forall s, exists s', format_job e k d s = (Ok ts, s')) /\
        exists o s, ld_surface x = Some (o, s) /\ flat_map trip_places ts ⊆ position_coordinates s
    | GotSurface o => qs !! i = Some TheSurface /\ exists s, ld_surface x = Some (o, s)
    end.
Proof.
  intros number contents e k qs rs x i r E Hr.
  assert (Hil : (i < length qs)%nat). { rewrite <- (all_length number contents e k qs new_loader), E. by eapply lookup_lt_Some. }
  destruct (lookup_lt_is_Some_2 qs i Hil) as [q Hq].
  assert (Hr' : fst (ask_loader_all number contents e k qs new_loader) !! i = Some (Ok r)) by (by rewrite E).
  destruct (all_at number contents e k qs new_loader i q _ Hq Hr') as (x1 & x2 & H1 & H2 & H3 & _).
  destruct (all_step number contents e k (take i qs) new_loader (inv_new _ _ _ _)) as [I1 _]. rewrite H1 in I1.
  destruct (ask_step number contents e k q x1 I1) as (r' & y & Eq & I2 & _ & _ & Hk & _). rewrite H2 in Eq. injection Eq as <- <-.
  destruct (Hk _ eq_refl) as [Hf Hkept].
  destruct (all_step number contents e k (drop (S i) qs) x2 I2) as [I3 L3]. rewrite H3, E in I3, L3. cbn in I3, L3.
  apply (kept_later _ _ _ L3) in Hkept.
  assert (F : forall m vs, (forall s0 : surface, fst (m s0 : res (list vehicle) * surface) = Ok vs) -> forall s, exists s', m s = (Ok vs, s')).
  { intros m vs H s. specialize (H s). destruct (m s) as [r0 s']. cbn in H. subst. eauto. }
  assert (G : forall m vs, (forall s0 : surface, fst (m s0 : res (list trip) * surface) = Ok vs) -> forall s, exists s', m s = (Ok vs, s')).
  { intros m vs H s. specialize (H s). destruct (m s) as [r0 s']. cbn in H. subst. eauto. }
  destruct r as [o vs|o ts|o]; cbn in Hkept.
  - destruct (iv_fleet _ _ _ _ _ I3 _ _ Hkept) as (d & os & s & Hd & Hs & Hc & Hm).
    destruct (inv_first _ _ _ _ _ _ I3 Hd) as (n & Hn & Ho). exists n, d. split; [done|]. split; [done|].
    destruct q; try done. split; [done|]. split; [by apply F|]. eauto.
  - destruct (iv_job _ _ _ _ _ I3 _ _ Hkept) as (d & os & s & Hd & Hs & Hc & Hm).
    destruct (inv_first _ _ _ _ _ _ I3 Hd) as (n & Hn & Ho). exists n, d. split; [done|]. split; [done|].
    destruct q; try done. split; [done|]. split; [by apply G|]. eauto.
  - destruct Hkept as [s Hs]. pose proof (iv_formatter _ _ _ _ _ I3) as If. destruct (ld_formatter x) as [d|] eqn:Hd; [|destruct If; congruence].
    destruct (inv_first _ _ _ _ _ _ I3 Hd) as (n & Hn & Ho). exists n, d. split; [done|]. split; [done|].
    destruct q; try done. eauto.
Qed.
Lemma c57_retry : forall number contents e k qs rs x n d i r,
  ask_loader_all number contents e k qs new_loader = (rs, x) -> first_table number contents n d ->
  (exists vs s, format_fleet e k d (new_surface Euclidean) = (Ok vs, s)) ->
  (exists ts s, format_job e k d (new_surface Euclidean) = (Ok ts, s)) ->
  rs !! i = Some r -> ((n <= i)%nat <-> exists a, r = Ok a).
Proof.
  intros number contents e k qs rs x n d i r E [Hg Hb] (vs & s1 & Hv) (ts & s2 & Ht) Hr.
  apply good_tabulates in Hg.
  assert (Hb' : forall j, (j < n)%nat -> good number contents j = None). { intros j Hj. apply good_none. intros text d'. by apply Hb. }
  clear Hb. assert (X : forall qs x, inv number contents e k x -> forall rs y m, ask_loader_all number contents e k qs x = (rs, y) ->
     (ld_formatter x = None /\ ld_opened x = m /\ (m <= n)%nat) \/ (ld_formatter x = Some d /\ (n <= m)%nat) ->
     forall i r, rs !! i = Some r -> ((n <= m + i)%nat <-> exists a, r = Ok a)).
  { clear -Hg Hb' Hv Ht. induction qs as [|q qs IH]; intros x I rs y m E Hst i r Hr; cbn in E; [injection E as <- <-; done|].
    destruct (ask_step number contents e k q x I) as (r0 & x1 & E1 & I1 & L1 & _ & _ & Hno & Hyes). rewrite E1 in E.
    destruct (ask_loader_all number contents e k qs x1) as [rs1 y1] eqn:E2. injection E as <- <-.
    destruct (decide (ld_formatter x = None /\ (m < n)%nat)) as [[Hn Hm]|Hnot].
    - destruct Hst as [(_ & Ho & _)|(Hs & _)]; [|congruence]. assert (Hgn : good number contents (ld_opened x) = None) by (rewrite Ho; by apply Hb').
      destruct (Hno Hn Hgn) as [[ex ->] ->]. destruct i as [|i].
      + injection Hr as <-. split; [lia|intros [a Ha]; discriminate Ha].
      + cbn in Hr. replace (m + S i)%nat with (S m + i)%nat by lia. eapply (IH _ I1); [exact E2| |exact Hr].
        left. unfold opened_again. cbn. split; [done|]. split; [by rewrite Ho|lia].
    - assert (Hd : ld_formatter x = Some d \/ ld_formatter x = None /\ good number contents (ld_opened x) = Some d).
      { destruct Hst as [(Hn & Ho & Hle)|(Hs & _)]; [|by left]. right. split; [done|]. rewrite Ho.
        assert (m = n) as ->; [|done]. destruct (decide (m < n)%nat) as [|]; [exfalso; by apply Hnot|lia]. }
      assert (Hm : (n <= m)%nat). { destruct Hst as [(Hn & Ho & Hle)|(_ & ?)]; [|done]. destruct (decide (m < n)%nat) as [|]; [exfalso; by apply Hnot|lia]. }
      destruct (Hyes d Hd) as [Hd1 Hok]. destruct i as [|i].
      + injection Hr as <-. split; [|lia]. intros _. apply Hok; [exists vs; by rewrite Hv|exists ts; by rewrite Ht].
      + cbn in Hr. replace (m + S i)%nat with (S m + i)%nat by lia. eapply (IH _ I1); [exact E2| |exact Hr]. right. split; [done|lia]. }
  specialize (X qs new_loader (inv_new _ _ _ _) rs x 0%nat E). apply (X ltac:(left; cbn; split; [done|split; [done|lia]]) i r Hr).
Qed.

(** from the text of an instance to its vehicles and trips *)
Lemma c57_instance : forall number contents e i text qs rs x, contents 0%nat = Some text ->
  tabulates number text (dial_a_ride_file (unit_of e) i) -> paired i ->
  ask_loader_all number contents e CordeauLayout qs new_loader = (rs, x) ->
  forall n q, qs !! n = Some q -> exists a, rs !! n = Some (Ok a) /\
    match q with
    | Fleet => exists o vs, a = GotFleet o vs /\ length vs = dr_vehicles i /\
        forall j v, vs !! j = Some v -> vh_identifier v = pretty j /\
          sv_position (vh_origin v) = [pt_x (dr_depot i); pt_y (dr_depot i)] /\
          sv_position (vh_destination v) = [pt_x (dr_depot i); pt_y (dr_depot i)] /\
          vh_capacity v = Lim (dr_capacity i) /\ vh_timeout v = Lim (dr_longest_tour i)
    | Job => exists o ts, a = GotJob o ts /\ length ts = length (dr_pickups i) /\
        forall j t p d, ts !! j = Some t -> dr_pickups i !! j = Some p -> dr_deliveries i !! j = Some d ->
          tr_identifier t = pretty (j + 1)%nat /\ service_at p (tr_origin t) /\ service_at d (tr_destination t) /\
          tr_capacity t = pt_load p /\ tr_timeout t = Lim (dr_longest_ride i)
    | TheSurface => exists o, a = GotSurface o
    end.
Proof.
  intros number contents e i text qs rs x Ht Hh Hp E n q Hq.
  assert (HF : first_table number contents 0 (dial_a_ride_file (unit_of e) i)) by (split; [eauto|intros; lia]).
  destruct (lookup_lt_is_Some_2 rs n) as [r Hr].
  { pose proof (all_length number contents e CordeauLayout qs new_loader) as X. rewrite E in X. cbn in X. rewrite X. by eapply lookup_lt_Some. }
  destruct (c37_fleet e i (new_surface Euclidean)) as (vs & s1 & Ev & Hlv & Hv).
  destruct (c37_job e i (new_surface Euclidean) Hp) as (ts & s2 & Et & Hlt & Htt).
  destruct (proj1 (c57_retry number contents e CordeauLayout qs rs x 0 _ n r E HF ltac:(eexists _, _; exact Ev) ltac:(eexists _, _; exact Et) Hr) ltac:(lia)) as [a ->].
  exists a. split; [done|].
  destruct (c57_answers _ _ _ _ _ _ _ _ _ E Hr) as (n' & d & Hft & Ho & Ha).
  assert (d = dial_a_ride_file (unit_of e) i) as ->.
  { destruct Hft as [(t' & Ht' & Hh') Hb]. destruct n' as [|n']; [|by destruct (Hb 0%nat text _ ltac:(lia) Ht Hh)].
    rewrite Ht in Ht'. injection Ht' as <-. apply read_table_tabulates in Hh, Hh'. congruence. }
  destruct a as [o vs'|o ts'|o]; destruct Ha as (Hq' & Ha); rewrite Hq in Hq'; injection Hq' as ->.
  - destruct Ha as [Ha _]. destruct (Ha (new_surface Euclidean)) as [s' Es]. unfold format_fleet in Es. rewrite Ev in Es. injection Es as <- <-. eauto.
  - destruct Ha as [Ha _]. destruct (Ha (new_surface Euclidean)) as [s' Es]. unfold format_job in Es. rewrite Et in Es. injection Es as <- <-. eauto.
  - eauto.
Qed.

(** ** C58: blank lines at the end of a file *)
Lemma c58_cordeau : forall e d n s,
  (forall vs s', cordeau_fleet e d s = (Ok vs, s') -> cordeau_fleet e (d ++ repeat [] n) s = (Ok vs, s')) /\
  (forall ts s', cordeau_job e d s = (Ok ts, s') -> cordeau_job e (d ++ repeat [] n) s = (Ok ts, s')).
Proof.
  intros e d n s.
  assert (Hn : forall {A B} (l m : list A) i (k k' : A -> ST surface B) s b s', (forall a s, k a s = (Ok b, s') -> k' a s = (Ok b, s')) ->
     bind (py_nth l i) k s = (Ok b, s') -> bind (py_nth (l ++ m) i) k' s = (Ok b, s')).
  { intros A B l m i k k' s0 b s' Hk. unfold bind, py_nth. destruct (l !! i) as [a|] eqn:El; [|discriminate].
    rewrite (lookup_app_l_Some _ _ _ _ El). apply Hk. }
  assert (Hs : forall {A B} (m : ST surface A) (k k' : A -> ST surface B) s b s', (forall a s, k a s = (Ok b, s') -> k' a s = (Ok b, s')) ->
     bind m k s = (Ok b, s') -> bind m k' s = (Ok b, s')).
  { intros A B m k k' s0 b s' Hk. unfold bind. destruct (m s0) as [[a|] s1]; [apply Hk|discriminate]. }
  split.
  - intros vs s'. unfold cordeau_fleet. apply Hn. intros row s0. apply Hs. intros x s1. apply Hn. done.
  - assert (Ht : forall m i s b s', cordeau_trip d m i s = (Ok b, s') -> cordeau_trip (d ++ repeat [] n) m i s = (Ok b, s')).
    { intros m i s0 b s'. unfold cordeau_trip. apply Hn. intros row s1. apply Hs. intros o s2. apply Hn. intros row' s3.
      apply Hs. intros o' s4. apply Hs. intros q s5. apply Hs. intros q' s6. apply Hs. intros u s7. apply Hs. intros c s8. apply Hn. done. }
    intros ts s'. unfold cordeau_job. apply Hn. intros row s0. apply Hs. intros x s1.
    generalize (py_range (py_int_half e x)), (Z.to_nat (py_int_half e x)). clear -Ht. intros l m. revert ts s1.
    induction l as [|i l IH]; intros ts s; cbn [mapM]; [done|].
    unfold bind at 1 3. destruct (cordeau_trip d m i s) as [[t|] s1] eqn:Et; [|done]. rewrite (Ht _ _ _ _ _ Et).
    unfold bind. destruct (mapM (cordeau_trip d m) l s1) as [[ts1|] s2] eqn:Em; [|done]. intros [= <- <-].
    by rewrite (IH ts1 s1 Em).
Qed.
Lemma c58_text : forall number ls bs d, Forall one_line ls -> Forall one_line bs -> Forall blank bs ->
  tabulates number (text_of ls) d -> tabulates number (text_of (ls ++ bs)) (d ++ repeat [] (length bs)).
Proof.
  intros number ls bs d Hl Hb Hbl H.
  assert (X : read_table number (text_of ls) = Some d) by (by apply read_table_tabulates). apply read_table_split in X.
  rewrite (split_lines _ ls (ended _ Hl)) in X.
  exists (ls ++ bs), (map words_in ls ++ repeat [] (length bs)). split; [apply ended; by apply Forall_app|]. split.
  - apply Forall2_app.
    + apply Forall2_fmap_r, Forall_Forall2_diag, Forall_forall. intros l _. by apply spelled_split.
    + clear -Hbl. induction Hbl as [|b bs Hb _ IH]; cbn; constructor; [by apply spelled_end|done].
  - apply Forall2_app; [done|]. clear. induction bs as [|b bs IH]; cbn; by constructor.
Qed.
Lemma c58_fleet : forall e d n s vs s', hashcode_fleet e d s = (Ok vs, s') -> hashcode_fleet e (d ++ repeat [] n) s = (Ok vs, s').
Proof.
  intros e d n s vs s'. destruct (d !! 0%nat) as [row|] eqn:E.
  - unfold hashcode_fleet. rewrite (py_nth_some d 0 row _ s E), (py_nth_some (d ++ repeat [] n) 0 row _ s); [done|]. by apply lookup_app_l_Some.
  - unfold hashcode_fleet. by rewrite (py_nth_none d 0 _ s E).
Qed.
Lemma mapM_app_ok {S A B} (f : A -> ST S B) l m s bs s' : mapM f l s = (Ok bs, s') ->
  mapM f (l ++ m) s = (let! cs := mapM f m in ret (bs ++ cs)) s'.
Proof.
  revert s bs. induction l as [|a l IH]; intros s bs; cbn [mapM app].
  - intros [= <- <-]. unfold bind. cbn. by destruct (mapM f m s) as [[]].
  - unfold bind at 1 3. destruct (f a s) as [[b|ex] s1]; [|done]. unfold bind at 1 2.
    destruct (mapM f l s1) as [[bs1|ex] s2] eqn:E; [|done]. intros [= <- <-]. rewrite (IH _ _ E). unfold bind. by destruct (mapM f m s2) as [[]].
Qed.
Lemma c58_refuted : forall e d n s ts s', hashcode_job e d s = (Ok ts, s') -> (0 < n)%nat ->
  hashcode_job e (d ++ repeat [] n) s = (Raise TypeError, s').
Proof.
  intros e d n s ts s' H Hn. destruct d as [|row d]; [done|].
  unfold hashcode_job in *. rewrite (py_nth_some (row :: d) 0 row _ s eq_refl) in H. rewrite (py_nth_some ((row :: d) ++ repeat [] n) 0 row _ s eq_refl).
  destruct (row !! 4%nat) as [b|] eqn:E; [|by rewrite (py_nth_none row 4 _ s E) in H]. rewrite (py_nth_some row 4 b _ s E) in H. rewrite (py_nth_some row 4 b _ s E).
  cbn [drop app] in *. rewrite drop_0 in *. rewrite imap_app, (mapM_app_ok _ _ _ _ _ _ H). destruct n as [|n]; [lia|]. done.
Qed.
