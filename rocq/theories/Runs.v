(** A small program logic for the state-and-exception monad: [runs m h Q] says
    that [m] started in [h] returns normally and the outcome satisfies [Q]. *)
From Verif Require Export Prelude.

Section runs.
  Context {S : Type}.

  Definition runs {A} (m : ST S A) (h : S) (Q : A -> S -> Prop) : Prop :=
    match m h with (Ok a, h') => Q a h' | (Raise _, _) => False end.
  (** [m] started in [h] raises [e] in a final state satisfying [Q] *)
  Definition raises {A} (m : ST S A) (h : S) (e : exn) (Q : S -> Prop) : Prop :=
    match m h with (Ok _, _) => False | (Raise e', h') => e' = e /\ Q h' end.

  Lemma runs_eq {A} (m : ST S A) h Q :
    runs m h Q <-> exists a h', m h = (Ok a, h') /\ Q a h'.
  Proof.
    unfold runs. destruct (m h) as [[a|e] h']; split.
    - intros; eauto.
    - intros (?&?&[= <- <-]&?); done.
    - done.
    - intros (?&?&?&?); done.
  Qed.
  Lemma runs_ret {A} (a : A) h (Q : A -> S -> Prop) : Q a h -> runs (ret a) h Q.
  Proof. done. Qed.
  Lemma runs_bind {A B} (m : ST S A) (k : A -> ST S B) h Q :
    runs m h (fun a h' => runs (k a) h' Q) -> runs (bind m k) h Q.
  Proof. unfold runs, bind. destruct (m h) as [[a|e] h']; done. Qed.
  Lemma runs_bind_inv {A B} (m : ST S A) (k : A -> ST S B) h Q :
    runs (bind m k) h Q -> runs m h (fun a h' => runs (k a) h' Q).
  Proof. unfold runs, bind. destruct (m h) as [[a|e] h']; done. Qed.
  Lemma runs_mono {A} (m : ST S A) h (Q Q' : A -> S -> Prop) :
    runs m h Q -> (forall a h', Q a h' -> Q' a h') -> runs m h Q'.
  Proof. unfold runs. destruct (m h) as [[a|e] h']; auto. Qed.
  Lemma runs_seq {A B} (m : ST S A) (k : A -> ST S B) h (P : A -> S -> Prop) Q :
    runs m h P -> (forall a h', P a h' -> runs (k a) h' Q) -> runs (bind m k) h Q.
  Proof. intros H1 H2. apply runs_bind. eapply runs_mono; eauto. Qed.
  Lemma runs_assert b h (Q : unit -> S -> Prop) : b = true -> Q tt h -> runs (py_assert b) h Q.
  Proof. intros -> ?. done. Qed.
  Lemma runs_nth {A} (l : list A) i x h (Q : A -> S -> Prop) :
    l !! i = Some x -> Q x h -> runs (py_nth l i) h Q.
  Proof. unfold py_nth. intros -> ?. done. Qed.
  Lemma runs_some {A} (x : A) h (Q : A -> S -> Prop) : Q x h -> runs (py_some (Some x)) h Q.
  Proof. done. Qed.

  Lemma raises_bind {A B} (m : ST S A) (k : A -> ST S B) h e Q :
    runs m h (fun a h' => raises (k a) h' e Q) -> raises (bind m k) h e Q.
  Proof. unfold runs, raises, bind. destruct (m h) as [[a|e'] h']; done. Qed.
  Lemma raises_bind_l {A B} (m : ST S A) (k : A -> ST S B) h e Q :
    raises m h e Q -> raises (bind m k) h e Q.
  Proof. unfold raises, bind. destruct (m h) as [[a|e'] h']; done. Qed.
  Lemma raises_mono {A} (m : ST S A) h e (Q Q' : S -> Prop) :
    raises m h e Q -> (forall h', Q h' -> Q' h') -> raises m h e Q'.
  Proof. unfold raises. destruct (m h) as [[a|e'] h']; [done|]. intros [? ?]; auto. Qed.

  (** ** Loops with an invariant *)
  Lemma runs_iterM {A} (f : A -> ST S unit) (I : S -> Prop) l h :
    I h ->
    (forall x h, x ∈ l -> I h -> runs (f x) h (fun _ h' => I h')) ->
    runs (iterM f l) h (fun _ h' => I h').
  Proof.
    revert h. induction l as [|x l IH]; intros h Hi Hf; [done|].
    cbn. apply runs_bind. eapply runs_mono; [apply Hf; [left|done]|].
    intros ? h' Hi'. apply IH; [done|]. intros y h1 Hy. apply Hf. by right.
  Qed.
  Lemma runs_mapM {A B} (f : A -> ST S B) (I : S -> Prop) (g : A -> B -> Prop) l h :
    I h ->
    (forall x h, x ∈ l -> I h -> runs (f x) h (fun y h' => I h' /\ g x y)) ->
    runs (mapM f l) h (fun ys h' => I h' /\ Forall2 g l ys).
  Proof.
    revert h. induction l as [|x l IH]; intros h Hi Hf; [by split; [|constructor]|].
    cbn. apply runs_bind. eapply runs_mono; [apply Hf; [left|done]|].
    intros y h' [Hi' Hg]. apply runs_bind.
    eapply runs_mono; [apply IH; [done|]|].
    { intros z h1 Hz. apply Hf. by right. }
    intros ys h'' [? ?]. split; [done|]. by constructor.
  Qed.
  Lemma runs_foldM {A B} (f : B -> A -> ST S B) (I : B -> S -> Prop) l b h :
    I b h ->
    (forall b x h, x ∈ l -> I b h -> runs (f b x) h I) ->
    runs (foldM f b l) h I.
  Proof.
    revert b h. induction l as [|x l IH]; intros b h Hi Hf; [done|].
    cbn. apply runs_bind. eapply runs_mono; [apply Hf; [left|done]|].
    intros b' h' Hi'. apply IH; [done|]. intros b1 y h1 Hy. apply Hf. by right.
  Qed.
  Lemma runs_filterM {A} (f : A -> ST S bool) (I : S -> Prop) (g : A -> bool -> Prop) l h :
    I h ->
    (forall x h, x ∈ l -> I h -> runs (f x) h (fun b h' => I h' /\ g x b)) ->
    runs (filterM f l) h (fun ys h' => I h' /\
       (forall x, x ∈ ys -> x ∈ l /\ g x true) /\ ys `sublist_of` l /\
       (forall x, x ∈ l -> x ∉ ys -> g x false)).
  Proof.
    revert h. induction l as [|x l IH]; intros h Hi Hf.
    { apply runs_ret. split; [done|]. split; [|split].
      - intros y Hy; inversion Hy.
      - constructor.
      - intros y Hy; inversion Hy. }
    cbn. apply runs_bind. eapply runs_mono; [apply Hf; [left|done]|].
    intros b h' [Hi' Hg]. apply runs_bind.
    eapply runs_mono; [apply IH; [done|]|].
    { intros z h1 Hz. apply Hf. by right. }
    intros ys h'' (Hi'' & Hin & Hsub & Hout). apply runs_ret. split; [done|].
    destruct b; (split; [|split]).
    - intros y [->|Hy]%elem_of_cons; [split; [left|done]|]. destruct (Hin y Hy). split; [by right|done].
    - by constructor.
    - intros y [->|Hy]%elem_of_cons Hn; [exfalso; apply Hn; left|].
      apply Hout; [done|]. intros ?; apply Hn; by right.
    - intros y Hy. destruct (Hin y Hy). split; [by right|done].
    - by constructor.
    - intros y [->|Hy]%elem_of_cons Hn; [done|]. by apply Hout.
  Qed.
  Lemma runs_allM {A} (f : A -> ST S bool) (I : S -> Prop) l h :
    I h ->
    (forall x h, x ∈ l -> I h -> runs (f x) h (fun b h' => I h' /\ b = true)) ->
    runs (allM f l) h (fun b h' => I h' /\ b = true).
  Proof.
    revert h. induction l as [|x l IH]; intros h Hi Hf; [done|].
    cbn. apply runs_bind. eapply runs_mono; [apply Hf; [left|done]|].
    intros b h' [Hi' ->]. apply IH; [done|]. intros y h1 Hy. apply Hf. by right.
  Qed.
  Lemma runs_anyM {A} (f : A -> ST S bool) (I : S -> Prop) (g : A -> bool -> Prop) l h :
    I h ->
    (forall x h, x ∈ l -> I h -> runs (f x) h (fun b h' => I h' /\ g x b)) ->
    runs (anyM f l) h (fun b h' => I h' /\
      if b then exists x, x ∈ l /\ g x true else forall x, x ∈ l -> g x false).
  Proof.
    revert h. induction l as [|x l IH]; intros h Hi Hf.
    { split; [done|]. intros x Hx; inversion Hx. }
    cbn. apply runs_bind. eapply runs_mono; [apply Hf; [left|done]|].
    intros b h' [Hi' Hg]. destruct b.
    { split; [done|]. exists x. split; [left|done]. }
    eapply runs_mono; [apply IH; [done|]|].
    { intros z h1 Hz. apply Hf. by right. }
    intros b h'' [? Hb]. split; [done|]. destruct b.
    - destruct Hb as (y & ? & ?). exists y. split; [by right|done].
    - intros y [->|Hy]%elem_of_cons; auto.
  Qed.
End runs.

(** [step]: run the first command of a sequence. *)
Ltac step := apply runs_bind.
