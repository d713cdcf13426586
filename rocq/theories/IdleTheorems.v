(** Warm starts: vehicles without trips stay without trips. *)
From Verif Require Export RankingTheorems.

Section idle.
  Context {W : World} {Sh : Shape}.

  (** the attractive routes were fixed when the ranking was built, one of them
      is busy, and all of them belong to the vehicles [P] *)
  Definition Fixed (h : heap) (P : nat -> Prop) (k : ranking) : Prop :=
    exists l, it_attractive (rk_it k) = Some l /\ (exists r, r ∈ l /\ busy h r) /\
      forall r, r ∈ l -> exists v B, Serves h r v B /\ P v.
  Lemma Fixed_evolves h h' P k : evolves h h' -> Fixed h P k -> Fixed h' P k.
  Proof.
    intros E (l & El & (r & Hr & Hb) & Hl). exists l. split; [done|]. split.
    - exists r. split; [done|]. by eapply busy_evolves.
    - intros q Hq. destruct (Hl q Hq) as (v & B & S & ?). exists v, B. split; [|done]. by eapply Serves_evolves.
  Qed.
  Lemma Fixed_key h U P k v : RankInv h U k -> Fixed h P k -> is_Some (dict_get v (rk_table k)) -> P v.
  Proof.
    intros RI (l & El & _ & Hl) Hv. destruct (ri_seen _ _ _ RI v Hv) as (l' & r & B & El' & Hr & S).
    assert (l' = l) as -> by congruence. destruct (Hl r Hr) as (w & C & SC & Pw).
    by destruct (Serves_det _ _ _ _ _ _ S SC) as [-> _].
  Qed.
  Lemma accept_fixed h U P k v sub r : sane -> RankInv h U k -> Fixed h P k ->
    dict_get v (rk_table k) = Some sub -> r ∈ sub ->
    runs (ranking_set_route k r) h (fun k' h' => evolves h h' /\ RankInv h' U k' /\ Fixed h' P k' /\
      length (it_pending (rk_it k)) = S (length (it_pending (rk_it k'))) /\
      forall w, ~ P w -> dict_get w (it_routes (rk_it k')) = dict_get w (it_routes (rk_it k))).
  Proof.
    intros Hs RI F G Hr. pose proof (Fixed_key h U P k v RI F ltac:(eauto)) as Pv.
    eapply runs_mono; [by eapply ranking_set_route_runs|].
    intros k' h' (E & RI' & _ & Ej & Er & B & t & B' & A & Ht & SB & Pm & Ep & Ea). split; [done|]. split; [done|]. split; [|split].
    - destruct F as (l & El & Hb & Hl). apply (Fixed_evolves h); [done|]. exists l. split; [by apply Ea|]. done.
    - rewrite Ep. apply filter_out_length; [apply (ii_pending _ _ _ (ri_it _ _ _ RI))|done].
    - intros w Hw. rewrite Er. apply dict_get_set_ne. intros ->. done.
  Qed.
  Lemma loop_fixed U P n : forall k h, sane -> RankInv h U k -> Fixed h P k -> (length (it_pending (rk_it k)) < n)%nat ->
    runs (ranking_loop n k) h (fun k' h' => evolves h h' /\ RankInv h' U k' /\
      forall w, ~ P w -> dict_get w (it_routes (rk_it k')) = dict_get w (it_routes (rk_it k))).
  Proof.
    induction n as [|n IH]; intros k h Hs RI F Hlen; [lia|]. cbn [ranking_loop]. step.
    eapply runs_mono; [by apply (ranking_next_runs h U k)|]. intros o h1 (E1 & K1 & HI1 & Ho).
    assert (RI1 : RankInv h1 U k) by by eapply RankInv_mono.
    destruct o as [r|]; [|by apply runs_ret].
    destruct Ho as (v & sub & G & Hr). step.
    eapply runs_mono; [by eapply (feasible_step h1 U k v sub r)|]. intros b h2 [E2 RI2].
    assert (E02 : evolves h h2) by by eapply evolves_trans.
    destruct b; cbn [negb]; [|by apply runs_ret].
    step. eapply runs_mono; [eapply (accept_fixed h2 U P k v sub r); [done|done|by eapply Fixed_evolves|done|done]|].
    intros k' h3 (E3 & RI3 & F3 & El & Hw).
    eapply runs_mono; [apply (IH k' h3 Hs RI3 F3); lia|]. intros k'' h4 (E4 & RI4 & Hw').
    split; [by eapply evolves_trans; [exact E02|]; eapply evolves_trans|]. split; [done|].
    intros w Pw. by rewrite Hw', Hw.
  Qed.
End idle.

#[local] Existing Instance any_shape.
Lemma c66_idle `{W : World} : forall cfg fleet job h vs ts rs0,
  sane -> tidy h -> valid_planning h vs ts rs0 -> NoDup job -> (1 <= ic_random cfg)%nat ->
  (exists v us, planned_for h rs0 v us /\ us <> []) ->
  exists pl h', insertion_optimize cfg fleet job (Some rs0) h = (Ok pl, h') /\
    forall v, planned_for h rs0 v [] -> planned_for h' pl v [].
Proof.
  intros cfg fleet job h vs ts rs0 Hs HT V Hj Hr Hbusy. apply tidy_HInv in HT.
  pose proof (start_warm_runs cfg fleet job rs0 vs ts h Hs HT V (all_good_any _ _) (False_ind _) Hj Hr) as R.
  apply runs_eq in R as (k & h0 & E & Ev & RI & Hk & Ej & Ep & Has & Hfix).
  destruct (Hfix Hbusy) as (l & El & Hl & Hb).
  unfold insertion_optimize. change (ranking_init _ _ _ _ _ _ _ _) with (start cfg fleet job (Some rs0)).
  pose proof (loop_fixed (job ++ ts) (fun v => exists us, planned_for h rs0 v us /\ us <> []) (S (length job)) k h0 Hs RI) as L.
  apply runs_eq in L as (k' & h' & EL & E' & RI' & Hw).
  2:{ exists l. split; [done|]. split; [done|]. intros r Hq. destruct (Hl r Hq) as (v & B & S & Hp). exists v, B. eauto. }
  2:{ apply sublist_length in Ep. lia. }
  exists (current k'), h'. rewrite (bind_ok _ _ _ _ _ E), (bind_ok _ _ _ _ _ EL). split; [done|].
  intros v Hv. pose proof Hv as (r & G & S)%Has. apply (planned_for_assigned h' (job ++ ts)); [apply RI'|].
  exists r. split; [|by eapply Serves_evolves]. rewrite Hw; [done|].
  intros (us & A%Has & Hne). destruct A as (r' & G' & S'). assert (r' = r) as -> by congruence.
  by destruct (Serves_det _ _ _ _ _ _ S S') as [_ <-].
Qed.
