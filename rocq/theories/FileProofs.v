(** Proofs about reading texts. *)
From Verif Require Import FileLoader SpecFile.
#[local] Arguments String.append !_ _ / : simpl nomatch.

Lemma sapp_nil s : (s +:+ "")%string = s.
Proof. induction s as [|c s IH]; cbn; [done|]. by rewrite IH. Qed.
Lemma sapp_assoc a b c : ((a +:+ b) +:+ c = a +:+ (b +:+ c))%string.
Proof. induction a as [|x a IH]; cbn; [done|]. by rewrite IH. Qed.
Lemma letters_app a b : letters (a +:+ b) = letters a ++ letters b.
Proof. induction a as [|c a IH]; cbn; [done|]. by rewrite IH. Qed.
Lemma sapp_empty a b : (a +:+ b = "")%string -> a = ""%string /\ b = ""%string.
Proof. destruct a; cbn; [done|]. done. Qed.

Lemma whitespace_iff c : whitespace c = true <-> c ∈ spaces.
Proof.
  split.
  - destruct c as [[] [] [] [] [] [] [] []]; vm_compute; intros H; try discriminate H; repeat (first [apply elem_of_list_here|apply elem_of_list_further]).
  - intros H. unfold spaces in H. repeat (apply elem_of_cons in H as [->|H]; [reflexivity|]). by apply elem_of_nil in H.
Qed.
Lemma whitespace_not c : whitespace c = false <-> c ∉ spaces.
Proof. rewrite <- whitespace_iff. destruct (whitespace c); split; congruence. Qed.

Lemma split_blank b s : blank b -> split_from "" (b +:+ s) = split_from "" s.
Proof.
  induction b as [|c b IH]; cbn; [done|]. intros H. inversion H; subst. rewrite (proj2 (whitespace_iff c)) by done. cbn. by apply IH.
Qed.
Lemma split_word a w s : Forall (fun c => c ∉ spaces) (letters w) -> split_from a (w +:+ s) = split_from (a +:+ w) s.
Proof.
  revert a. induction w as [|c w IH]; intros a; cbn; [by rewrite sapp_nil|]. intros H. inversion H; subst.
  rewrite (proj2 (whitespace_not c)) by done. rewrite IH by done. by rewrite sapp_assoc.
Qed.
Lemma flush_some w ws : w <> ""%string -> flush_word w ws = w :: ws.
Proof. by destruct w. Qed.
Lemma split_spelled s ws : spelled s ws -> words_in s = ws.
Proof.
  unfold words_in. induction 1 as [b Hb|b w rest ws Hb [Hw Hl] Hs IH Hr].
  - rewrite <- (sapp_nil b). by rewrite split_blank.
  - rewrite split_blank, split_word by done. cbn [String.append]. destruct Hr as [->|(c & r & -> & Hc)].
    + cbn in *. rewrite flush_some by done. by rewrite <- IH.
    + cbn in *. rewrite (proj2 (whitespace_iff c)) in * by done. cbn in IH. by rewrite flush_some, IH.
Qed.
Lemma spelled_space c s ws : c ∈ spaces -> spelled s ws -> spelled (String c s) ws.
Proof.
  intros Hc H. inversion H as [b Hb|b w rest ws' Hb Hw Hs Hr]; subst.
  - apply spelled_end. by constructor.
  - apply (spelled_word (String c b)); [by constructor|done..].
Qed.
Lemma split_from_spelled s w : w = ""%string \/ word w -> spelled (w +:+ s) (split_from w s).
Proof.
  revert w. induction s as [|c s IH]; intros w Hw; cbn.
  - rewrite sapp_nil. destruct Hw as [->|Hw]; [apply spelled_end; constructor|]. rewrite flush_some by apply Hw.
    rewrite <- (sapp_nil w) at 1. apply (spelled_word ""); [constructor|done|apply spelled_end; constructor|by left].
  - destruct (whitespace c) eqn:E.
    + apply whitespace_iff in E. assert (S : spelled s (split_from "" s)) by (apply (IH ""%string); by left).
      destruct Hw as [->|Hw]; cbn; [by apply spelled_space|]. rewrite flush_some by apply Hw.
      apply (spelled_word "" w); [constructor|done|by apply spelled_space|]. right. eauto.
    + apply whitespace_not in E. specialize (IH (w +:+ String c "")%string). rewrite sapp_assoc in IH. cbn in IH. apply IH.
      right. split; [intros X; by apply sapp_empty in X as [_ ?]|]. rewrite letters_app. apply Forall_app. split.
      * destruct Hw as [->|[_ ?]]; [constructor|done].
      * apply Forall_singleton. done.
Qed.
Lemma spelled_split s ws : spelled s ws <-> words_in s = ws.
Proof.
  split; [apply split_spelled|]. intros <-. apply (split_from_spelled s ""). by left.
Qed.
(** the end of a line does not matter *)
Lemma spelled_trail s ws c : c ∈ spaces -> spelled s ws -> spelled (s +:+ String c "") ws.
Proof.
  intros Hc. induction 1 as [b Hb|b w rest ws Hb Hw Hs IH Hr].
  - apply spelled_end. unfold blank. rewrite letters_app. apply Forall_app. split; [done|]. apply Forall_singleton. done.
  - rewrite !sapp_assoc. apply spelled_word; [done|done|done|]. right. destruct Hr as [->|(d & r & -> & Hd)]; cbn; eauto.
Qed.
Lemma newline_space : newline ∈ spaces.
Proof. apply whitespace_iff. reflexivity. Qed.
Lemma split_line l : words_in (l +:+ String newline "") = words_in l.
Proof. apply split_spelled, spelled_trail; [apply newline_space|]. by apply spelled_split. Qed.

(** ** Lines *)
Lemma lines_word l x s : one_line x -> lines_from l (x +:+ s) = lines_from (l +:+ x) s.
Proof.
  revert l. induction x as [|c x IH]; intros l; cbn; [by rewrite sapp_nil|]. intros H. unfold one_line in H. cbn in H.
  apply not_elem_of_cons in H as [Hc Hx]. rewrite decide_False; [|intros ->; by apply Hc].
  rewrite IH by done. by rewrite sapp_assoc.
Qed.
Lemma lines_ended ls : Forall one_line ls -> readlines (text_of ls) = map (fun l => (l +:+ String newline "")%string) ls.
Proof.
  unfold readlines. induction 1 as [|l ls Hl _ IH]; cbn; [done|]. rewrite lines_word by done. cbn. by rewrite IH.
Qed.
Lemma lines_unended ls l : Forall one_line ls -> one_line l -> l <> ""%string ->
  readlines (open_text_of (ls ++ [l])) = map (fun l => (l +:+ String newline "")%string) ls ++ [l].
Proof.
  intros H Hl Hne. unfold readlines. induction H as [|x ls Hx _ IH]; cbn.
  - rewrite <- (sapp_nil l) at 1. rewrite lines_word by done. cbn. by rewrite flush_some.
  - change (open_text_of (x :: (ls ++ [l]))) with (match ls ++ [l] with [] => x | _ => (x +:+ String newline (open_text_of (ls ++ [l])))%string end).
    destruct (ls ++ [l]) as [|y ys] eqn:E; [by destruct ls|]. rewrite lines_word by done. cbn [lines_from String.append]. rewrite decide_True by done. by rewrite IH.
Qed.
Lemma split_lines text ls : text_lines text ls -> map words_in (readlines text) = map words_in ls.
Proof.
  intros [ls' H|ls' l H Hl Hne].
  - rewrite lines_ended, map_map by done. apply map_ext. apply split_line.
  - rewrite lines_unended, !map_app, map_map by done. f_equal. apply map_ext. apply split_line.
Qed.
Lemma lines_total s : forall l, one_line l -> exists ls z, Forall one_line ls /\ one_line z /\
  (l +:+ s = if decide (z = ""%string) then text_of ls else open_text_of (ls ++ [z]))%string.
Proof.
  induction s as [|c s IH]; intros l Hl.
  - exists [], l. rewrite sapp_nil. split; [constructor|]. split; [done|]. case_decide; cbn; by subst.
  - destruct (decide (c = newline)) as [->|Hc].
    + destruct (IH ""%string) as (ls & z & H1 & H2 & E); [by apply not_elem_of_nil|]. cbn in E.
      exists (l :: ls), z. split; [by constructor|]. split; [done|]. rewrite E. case_decide; [done|].
      cbn. by destruct ls.
    + destruct (IH (l +:+ String c "")%string) as (ls & z & H1 & H2 & E).
      { unfold one_line. rewrite letters_app. cbn. apply not_elem_of_app. split; [done|]. apply not_elem_of_cons. split; [intros X; apply Hc; by rewrite <- X|apply not_elem_of_nil]. }
      exists ls, z. split; [done|]. split; [done|]. rewrite <- E, sapp_assoc. done.
Qed.
Lemma text_lines_total s : exists ls, text_lines s ls.
Proof.
  destruct (lines_total s ""%string) as (ls & z & H1 & H2 & E); [by apply not_elem_of_nil|]. cbn in E. case_decide; subst s.
  - exists ls. by constructor.
  - exists (ls ++ [z]). by constructor.
Qed.

(** ** Tables *)
Fixpoint every {A B} (f : A -> option B) (l : list A) : option (list B) :=
  match l with
  | [] => Some []
  | a :: l => match f a, every f l with Some b, Some m => Some (b :: m) | _, _ => None end
  end.
Lemma every_Some {A B} (f : A -> option B) l m : every f l = Some m <-> Forall2 (fun a b => f a = Some b) l m.
Proof.
  split.
  - revert m. induction l as [|a l IH]; cbn; intros m; [intros [= <-]; constructor|].
    destruct (f a) as [b|] eqn:E; [|done]. destruct (every f l) as [m'|]; [|done]. intros [= <-]. constructor; [done|by apply IH].
  - induction 1 as [|a b l m H _ IH]; cbn; [done|]. by rewrite H, IH.
Qed.
Definition read_table (number : string -> option Z) (text : string) : option table :=
  every (fun line => every number (words_in line)) (readlines text).
Lemma read_table_split number text d : read_table number text = Some d <->
  Forall2 (Forall2 (fun w z => number w = Some z)) (map words_in (readlines text)) d.
Proof.
  unfold read_table. split; intros H.
  - apply every_Some in H. apply Forall2_fmap_l. eapply Forall2_impl; [exact H|]. intros l z Hz. by apply every_Some.
  - apply every_Some. pose proof (proj1 (Forall2_fmap_l words_in _ _ _) H) as H1. eapply Forall2_impl; [exact H1|]. intros l z Hz. by apply every_Some.
Qed.
Lemma read_table_tabulates number text d : read_table number text = Some d <-> tabulates number text d.
Proof.
  rewrite read_table_split. split.
  - intros H. destruct (text_lines_total text) as [ls Hls]. exists ls, (map words_in ls). split; [done|].
    rewrite (split_lines text ls Hls) in H. split; [|done].
    apply Forall2_fmap_r, Forall_Forall2_diag, Forall_forall. intros l _. by apply spelled_split.
  - intros (ls & wss & Hls & Hsp & H). rewrite (split_lines text ls Hls).
    replace (map words_in ls) with wss; [done|]. clear -Hsp. induction Hsp as [|l ws ls wss H _ IH]; cbn; [done|].
    by rewrite (split_spelled _ _ H), IH.
Qed.
