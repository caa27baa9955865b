(** * Examples of text index histories, and checks of the hypotheses about them *)
From Verif Require Import Text S_text S_textapi M_split SMap Ord.
Open Scope string_scope.
Open Scope list_scope.
Open Scope Z_scope.

Definition check_history (pipeline : list elem) (h : list top) : bool :=
  forallb (fun o => match o with LCounter n => 0 <=? n | _ => true end) (lex_hist h) &&
  forallb (fun i => i <? 2 ^ 28) (lex_wids (lex_run pipeline (lex_hist h))).
Lemma check_history_ok pipeline h : check_history pipeline h = true -> history_ok pipeline h.
Proof.
  unfold check_history. rewrite andb_true_iff, !forallb_forall. intros [H1 H2]. split.
  - intros n Hn. specialize (H1 _ Hn). cbn in H1. lia.
  - intros i Hi. specialize (H2 i Hi). lia.
Qed.
Definition check_small (pipeline : list elem) (h : list top) : bool :=
  forallb (fun o => match o with TIndex d t => Zlen (text_words pipeline t) <=? 2 ^ 24 | _ => true end) h.
Lemma check_small_ok pipeline h : check_small pipeline h = true -> texts_small pipeline h.
Proof. unfold check_small. rewrite forallb_forall. intros H d t Hin. specialize (H _ Hin). cbn in H. lia. Qed.

Lemma check_newline_ok lx : forallb (fun w => negb (existsb (Z.eqb 10) w)) (lex_words lx) = true -> no_newline lx.
Proof.
  rewrite forallb_forall. intros H w Hw Hin. specialize (H w Hw).
  assert (E : existsb (Z.eqb 10) w = true) by (apply existsb_exists; exists 10; split; [exact Hin|reflexivity]).
  rewrite E in H. discriminate.
Qed.

(** Two documents, one of them indexed twice, and another index using the lexicon. *)
Definition ex_hist : list top := [
  TIndex 1 (TxStr (txt "The quick brown fox"));
  TIndex 2 (TxStr (txt "Quick, quick: a dog!"));
  TOther (LText (TxStr (txt "zebra fox")));
  TIndex 3 (TxStr (txt "gone"));
  TIndex 1 (TxStr (txt "brown dog, brown fox"));
  TUnindex 3; TUnindex 77 ].
Lemma ex_hist_ok : history_ok ascii_pipeline ex_hist.
Proof. apply check_history_ok. vm_compute. reflexivity. Qed.
Lemma ex_hist_small : texts_small ascii_pipeline ex_hist.
Proof. apply check_small_ok. vm_compute. reflexivity. Qed.
