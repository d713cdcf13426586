(** Arc sets with balanced degrees and increasing node values are a path. *)
From Coq Require Import Sorted.
From Verif Require Import SpecDarp.

Lemma next_to_cons l x i j : next_to (x :: l) i j <-> (i = x /\ head l = Some j) \/ next_to l i j.
Proof.
  split.
  - intros ([|y l1] & l2 & E); cbn in E; injection E as -> ->; [by left|]. right. by exists l1, l2.
  - intros [[-> H]|(l1 & l2 & ->)]; [|by exists (x :: l1), l2].
    destruct l as [|y l]; [done|]. injection H as ->. by exists [], l.
Qed.
Lemma next_to_nil i j : ~ next_to [] i j.
Proof. intros (l1 & l2 & E). by destruct l1. Qed.
Lemma next_to_elem l i j : next_to l i j -> i ∈ l /\ j ∈ l.
Proof. intros (l1 & l2 & ->). split; set_solver. Qed.
(** an element that is not the last one has a neighbour *)
Lemma next_to_exists l i z : i ∈ l -> last l = Some z -> i <> z -> exists j, next_to l i j.
Proof.
  induction l as [|x l IH]; intros Hi Hz Hn; [by inversion Hi|].
  apply elem_of_cons in Hi as [->|Hi].
  - destruct l as [|y l]; [by injection Hz|]. exists y. by exists [], l.
  - destruct l as [|y l]; [by inversion Hi|]. destruct IH as (j & Hj); [done|done|done|].
    exists j. apply next_to_cons. by right.
Qed.

Section graph.
  Context (L : nat) (arc : nat -> nat -> Prop) (r : nat -> Z) (lo hi : Z).
  Context (dom : forall i j, arc i j -> (i <= L)%nat /\ (j <= L)%nat).
  Context (Hlo : forall i, (i <= L)%nat -> lo <= r i) (Hhi : forall i, (i <= L)%nat -> r i <= hi).
  Context (start : exists j, arc 0 j).
  Context (out_unique : forall i j j', i <> L -> arc i j -> arc i j' -> j = j').
  Context (in_of_out : forall i j, (0 < i < L)%nat -> arc i j -> exists h, arc h i).
  Context (out_of_in : forall h i, (0 < i < L)%nat -> arc h i -> exists j, arc i j).
  Context (strict : forall i j, arc i j -> r i < r j).

  Lemma reaches_end : forall m i j, (Z.to_nat (hi - r i) < m)%nat -> arc i j -> r i < r L.
  Proof.
    induction m as [|m IH]; intros i j Hm H; [lia|]. pose proof (strict _ _ H) as Hs. destruct (dom _ _ H) as [Hi Hj].
    pose proof (Hhi j Hj). destruct (decide (j = L)) as [->|Hn]; [done|].
    assert (exists j', arc j j') as (j' & Hj').
    { destruct (decide (j = 0%nat)) as [->|]; [done|]. apply (out_of_in i); [lia|done]. }
    specialize (IH j j' ltac:(lia) Hj'). lia.
  Qed.
  Lemma no_out j : ~ arc L j.
  Proof. intros H. pose proof (reaches_end (S (Z.to_nat (hi - r L))) L j ltac:(lia) H). lia. Qed.
  Lemma from_start : forall m i j, (Z.to_nat (r i - lo) < m)%nat -> arc i j -> i = 0%nat \/ r 0%nat < r i.
  Proof.
    induction m as [|m IH]; intros i j Hm H; [lia|]. destruct (dom _ _ H) as [Hi Hj].
    destruct (decide (i = 0%nat)); [by left|]. right.
    destruct (decide (i = L)) as [->|]; [by destruct (no_out j)|].
    destruct (in_of_out i j ltac:(lia) H) as (h & Hh). pose proof (strict _ _ Hh). destruct (dom _ _ Hh) as [Hd _].
    pose proof (Hlo h Hd). destruct (IH h i ltac:(lia) Hh) as [->|]; lia.
  Qed.
  Lemma no_in j : ~ arc j 0.
  Proof.
    intros H. pose proof (strict _ _ H). destruct (from_start (S (Z.to_nat (r j - lo))) j 0 ltac:(lia) H) as [->|]; lia.
  Qed.
  Lemma path_from : forall m i j, (Z.to_nat (hi - r i) < m)%nat -> arc i j ->
    exists p, Forall (fun i => 0 < i < L)%nat p /\ forall a b, next_to (i :: p ++ [L]) a b -> arc a b.
  Proof.
    induction m as [|m IH]; intros i j Hm H; [lia|]. pose proof (strict _ _ H) as Hs. destruct (dom _ _ H) as [Hi Hj].
    pose proof (Hhi j Hj). destruct (decide (j = L)) as [->|Hn].
    - exists []. split; [constructor|]. intros a b Hab. apply next_to_cons in Hab as [[-> Hb]|Hab]; [by injection Hb as <-|].
      apply next_to_cons in Hab as [[_ Hb]|Hab]; [done|by apply next_to_nil in Hab].
    - destruct (decide (j = 0%nat)) as [->|]; [by apply no_in in H|].
      destruct (out_of_in i j ltac:(lia) H) as (j' & Hj').
      destruct (IH j j' ltac:(lia) Hj') as (p & Hp & Hlink). exists (j :: p). split; [constructor; [lia|done]|].
      intros a b Hab. apply next_to_cons in Hab as [[-> Hb]|Hab]; [by injection Hb as <-|by apply Hlink].
  Qed.
  Lemma linked_sorted l : (forall a b, next_to l a b -> arc a b) -> StronglySorted (fun a b => r a < r b) l.
  Proof.
    intros H. apply Sorted_StronglySorted; [intros x y z; lia|].
    induction l as [|x l IH]; [constructor|]. constructor.
    - apply IH. intros a b Hab. apply H. apply next_to_cons. by right.
    - destruct l as [|y l]; constructor. apply strict, H. by exists [], l.
  Qed.
  Lemma sorted_NoDup l : StronglySorted (fun a b => r a < r b) l -> NoDup l.
  Proof.
    induction 1 as [|x l Hl IH Hx]; constructor; [|done]. intros Hin. rewrite Forall_forall in Hx. specialize (Hx x Hin). lia.
  Qed.

  Lemma arcs_are_path : exists p, Forall (fun i => 0 < i < L)%nat p /\
    (forall i j, arc i j <-> next_to (0%nat :: p ++ [L]) i j) /\
    StronglySorted (fun a b => r a < r b) (0%nat :: p ++ [L]).
  Proof.
    destruct start as (j0 & H0).
    destruct (path_from (S (Z.to_nat (hi - r 0%nat))) 0 j0 ltac:(lia) H0) as (p & Hp & Hlink).
    exists p. split; [done|]. split; [|by apply linked_sorted]. intros i j. split; [|apply Hlink].
    assert (Hl : last (0%nat :: p ++ [L]) = Some L) by (rewrite app_comm_cons; apply last_snoc).
    remember (S (Z.to_nat (r i - lo))) as m eqn:Em. assert (Hm : (Z.to_nat (r i - lo) < m)%nat) by lia. clear Em.
    revert i j Hm. induction m as [|m IH]; intros i j Hm H; [lia|]. destruct (dom _ _ H) as [Hi Hj].
    assert (HiL : i <> L) by (intros ->; by apply no_out in H).
    assert (Hin : i ∈ 0%nat :: p ++ [L]).
    { destruct (decide (i = 0%nat)) as [->|]; [apply elem_of_list_here|].
      destruct (in_of_out i j ltac:(lia) H) as (h & Hh). pose proof (strict _ _ Hh). destruct (dom _ _ Hh) as [Hd _].
      pose proof (Hlo h Hd). apply (next_to_elem _ h i). apply IH; [lia|done]. }
    destruct (next_to_exists _ i L Hin Hl HiL) as (j' & Hj'). by rewrite (out_unique i j j' HiL H (Hlink _ _ Hj')).
  Qed.
End graph.
