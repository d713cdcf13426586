(** Insertions that keep all limits are found, and trips left over do not fit
    into the busy vehicles (C67, C70). *)
From Verif Require Export FullProofs.

#[local] Existing Instance any_shape.
Lemma c70_compute `{W : World} : forall r t h v ids xs i j,
  sane -> tidy h -> honest h -> on_tour h r v ids xs -> t ∉ boards xs -> (i < j < length xs)%nat ->
  fits v (serve t i j xs) ->
  exists r' h' ids' xs', compute true r [t] i j h = (Ok [r'], h') /\ h_routes h !! r' = None /\
    on_tour h' r' v ids' xs' /\ similar v (serve t i j xs) xs' /\ fits v xs' /\ tidy h' /\ honest h'.
Proof.
  intros r t h v ids xs i j [S1 S2] HT Hh R Ht Hij Hf. apply tidy_HInv in HT. apply on_tour_RouteOK in R.
  pose proof (proj1 (honest_Worth h HT) Hh) as Wf.
  assert (G : runs (compute true r [t] i j) h (fun rs h' => (exists r' ids' L', rs = [r'] /\ (length (h_routes h) <= r')%nat /\
      RouteOK h' r' v ids' L' /\ similar v (serve t i j xs) L') /\ HInv h' /\ Worth false h')).
  { apply runs_both; [by apply (compute_finds_runs h r v ids xs t i j)|].
    eapply runs_mono; [apply (compute_runs true h r v ids xs [t] i j S1 S2 HT R); [by intros u ->%elem_of_list_singleton|done]|].
    intros rs h' (HI' & E & _). split; [done|by apply E]. }
  apply runs_eq in G as (rs & h' & E & (r' & ids' & L' & -> & Hr' & R' & Sm) & HI' & Wf'). exists r', h', ids', L'.
  split; [done|]. split; [by apply lookup_ge_None|]. split; [by apply on_tour_RouteOK|]. split; [done|].
  split; [eapply similar_fits; [apply R'|done|done]|]. split; [by apply tidy_HInv|by apply honest_Worth].
Qed.
Lemma c70_strategy `{W : World} : forall r ts h v ids xs,
  sane -> tidy h -> honest h -> on_tour h r v ids xs -> (forall t, t ∈ ts -> t ∉ boards xs) ->
  exists rs h', strategy_compute Intensive true r ts h = (Ok rs, h') /\ tidy h' /\ honest h' /\
    forall t i j, t ∈ ts -> (1 <= i)%nat -> (i < j < length xs)%nat -> fits v (serve t i j xs) ->
      exists r' ids' xs', r' ∈ rs /\ on_tour h' r' v ids' xs' /\ similar v (serve t i j xs) xs' /\ fits v xs'.
Proof.
  intros r ts h v ids xs [S1 S2] HT Hh R Ht. apply tidy_HInv in HT. apply on_tour_RouteOK in R.
  pose proof (proj1 (honest_Worth h HT) Hh) as Wf.
  pose proof (intensive_runs h r v ids xs ts S1 S2 HT R Ht Wf) as G.
  apply runs_eq in G as (rs & h' & E & HI' & (Ev & _) & _ & F). exists rs, h'. split; [done|]. split; [by apply tidy_HInv|].
  split; [apply honest_Worth; [done|by apply Ev]|]. intros t i j Hin Hi Hij Hf.
  destruct (F t i j Hin Hi Hij Hf) as (c & Hc & ids' & L' & R' & Sm). exists c, ids', L'. split; [done|].
  split; [by apply on_tour_RouteOK|]. split; [done|]. eapply similar_fits; [apply R'|done|done].
Qed.

Lemma c67_busy `{W : World} : forall cfg fleet job h,
  sane -> tidy h -> honest h -> NoDup fleet -> NoDup job -> (1 <= ic_random cfg)%nat ->
  ic_strategy cfg = Intensive -> ic_only_feasible cfg = true ->
  (forall n, ic_size cfg = Some n -> (length job <= n)%nat) ->
  exists pl h', insertion_optimize cfg fleet job None h = (Ok pl, h') /\ tidy h' /\ honest h' /\
    forall t r v ids xs i j, t ∈ job -> (forall q w us, q ∈ pl -> route_serves h' q w us -> t ∉ us) ->
      r ∈ pl -> on_tour h' r v ids xs -> boards xs <> [] -> (1 <= i)%nat -> (i < j < length xs)%nat ->
      ~ fits v (serve t i j xs).
Proof.
  intros cfg fleet job h Hs HT Hh Hf Hj Hr C1 C2 C3. apply tidy_HInv in HT. pose proof (proj1 (honest_Worth h HT) Hh) as Wf.
  assert (Th : thorough cfg job) by (split; [done|]; split; [done|]; destruct (ic_size cfg); auto).
  pose proof (runs_both _ _ _ _ (start_cold_runs cfg fleet job h Hs HT (False_ind _) Hf Hj Hr) (start_cold_full cfg fleet job h Hs HT Wf Th Hf Hj Hr)) as R.
  apply runs_eq in R as (k & h0 & E & (Ev & RI & Hk & Ej & Ep) & FI).
  unfold insertion_optimize. change (ranking_init _ _ _ _ _ _ _ _) with (start cfg fleet job None).
  assert (Hlen : (length (it_pending (rk_it k)) < S (length job))%nat) by (rewrite Ep; lia).
  pose proof (runs_both _ _ _ _ (ranking_loop_runs job (S (length job)) k h0 Hs RI Hlen) (ranking_loop_full job (S (length job)) k h0 Hs RI FI Hlen)) as L.
  apply runs_eq in L as (k' & h' & EL & (_ & (_ & Ej' & _)) & RI' & FI' & He).
  exists (current k'), h'. rewrite (bind_ok _ _ _ _ _ E), (bind_ok _ _ _ _ _ EL). split; [done|].
  pose proof (ri_it _ _ _ RI') as I'. split; [apply tidy_HInv, I'|]. split; [apply honest_Worth; [apply I'|apply FI']|].
  intros t r v ids xs i j Ht Hn Hin R HB Hi Hij. apply on_tour_RouteOK in R.
  apply (full_end h' job k' r v ids xs t i j); try done. apply (full_pending h' job); [done| |done]. congruence.
Qed.
Lemma c67_warm_busy `{W : World} : forall cfg fleet job h vs ts rs0,
  sane -> tidy h -> honest h -> valid_planning h vs ts rs0 -> NoDup job -> (1 <= ic_random cfg)%nat ->
  ic_strategy cfg = Intensive -> ic_only_feasible cfg = true ->
  (forall n, ic_size cfg = Some n -> (length job <= n)%nat) ->
  exists pl h', insertion_optimize cfg fleet job (Some rs0) h = (Ok pl, h') /\ tidy h' /\ honest h' /\
    forall t r v ids xs i j, t ∈ job -> (forall q w us, q ∈ pl -> route_serves h' q w us -> t ∉ us) ->
      r ∈ pl -> on_tour h' r v ids xs -> boards xs <> [] -> (1 <= i)%nat -> (i < j < length xs)%nat ->
      ~ fits v (serve t i j xs).
Proof.
  intros cfg fleet job h vs ts rs0 Hs HT Hh V Hj Hr C1 C2 C3. apply tidy_HInv in HT. pose proof (proj1 (honest_Worth h HT) Hh) as Wf.
  assert (Th : thorough cfg job) by (split; [done|]; split; [done|]; destruct (ic_size cfg); auto).
  pose proof (runs_both _ _ _ _ (start_warm_runs cfg fleet job rs0 vs ts h Hs HT V (all_good_any _ _) (False_ind _) Hj Hr) (start_warm_full cfg fleet job rs0 vs ts h Hs HT Wf Th V Hj Hr)) as R.
  apply runs_eq in R as (k & h0 & E & (Ev & RI & Hk & Ej & Ep & _) & FI).
  unfold insertion_optimize. change (ranking_init _ _ _ _ _ _ _ _) with (start cfg fleet job (Some rs0)).
  assert (Hlen : (length (it_pending (rk_it k)) < S (length job))%nat) by (apply sublist_length in Ep; lia).
  pose proof (runs_both _ _ _ _ (ranking_loop_runs (job ++ ts) (S (length job)) k h0 Hs RI Hlen) (ranking_loop_full (job ++ ts) (S (length job)) k h0 Hs RI FI Hlen)) as L.
  apply runs_eq in L as (k' & h' & EL & (_ & (_ & Ej' & _)) & RI' & FI' & He).
  exists (current k'), h'. rewrite (bind_ok _ _ _ _ _ E), (bind_ok _ _ _ _ _ EL). split; [done|].
  pose proof (ri_it _ _ _ RI') as I'. split; [apply tidy_HInv, I'|]. split; [apply honest_Worth; [apply I'|apply FI']|].
  intros t r v ids xs i j Ht Hn Hin R HB Hi Hij. apply on_tour_RouteOK in R.
  apply (full_end h' (job ++ ts) k' r v ids xs t i j); try done. apply (full_pending h' (job ++ ts)); [done| |done]. congruence.
Qed.
