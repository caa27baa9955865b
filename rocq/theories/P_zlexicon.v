(** * Property C70: concurrent transactions on a lexicon stored in a ZODB
    (text/lexicon.py, with the conflict resolution of BTrees and Length)

    A transaction [(i, j, texts)] begins with version [i] (0: the latest) and calls
    [sourceToWordIds] for each of the texts; the word counter it reads is that of version
    [j], if this is more recent: [sourceToWordIds] asks the database to load the counter
    again.  (With the snapshot isolation of today's ZODB, [j = i].)
    [lex_db_run pipeline schedule]: the committed versions, the latest first.
    [sub committed schedule]: some of the transactions, in the same order. *)
From Verif Require Import S_lexicon M_lexicon S_ztext L_zlexicon SMap Ord.

(** C70: a commit has precisely the effect of the same calls made on the latest version; ... *)
Theorem C70_commit : forall pipeline schedule i j texts lx,
  lex_commit pipeline (lex_db_run pipeline schedule) i j texts = Some lx ->
  exists cur, hd_error (lex_db_run pipeline schedule) = Some cur /\ lx = lex_texts pipeline texts cur.
Proof. exact lex_commit_effect. Qed.
Print Assumptions C70_commit.
(** ... so every version is the lexicon of a single client who indexed the texts of some of
    the transactions (those that committed) in that order (and C35-C39 apply to it). *)
Theorem C70_serializable : forall pipeline schedule lx, In lx (lex_db_run pipeline schedule) ->
  exists committed, sub committed schedule /\ lx = lex_run pipeline (map LText (texts_of committed)).
Proof. exact lex_serializable. Qed.
Print Assumptions C70_serializable.
(** A word keeps its id in all later versions. *)
Theorem C70_permanent : forall pipeline schedule k old new w i, (k <= i)%nat ->
  nth_error (lex_db_run pipeline schedule) k = Some new -> nth_error (lex_db_run pipeline schedule) i = Some old ->
  (get_wid old w <> 0 -> get_wid new w = get_wid old w) /\ (forall n, get_word old n = Ok w -> get_word new n = Ok w).
Proof. exact lex_permanent_versions. Qed.
Print Assumptions C70_permanent.
(** There is no conflict if the transaction meets no new word; otherwise there is none precisely
    if nobody has added a word since it read the counter, and nobody has added one of its
    new words since it began. *)
Theorem C70_conflicts : forall pipeline schedule i j texts cur snap seen,
  hd_error (lex_db_run pipeline schedule) = Some cur -> nth_error (lex_db_run pipeline schedule) i = Some snap ->
  nth_error (lex_db_run pipeline schedule) (Nat.min i j) = Some seen ->
  (lex_commit pipeline (lex_db_run pipeline schedule) i j texts <> None <->
   (new_words pipeline texts snap -> lex_wordCount seen = lex_wordCount cur /\
      forall t w, In t texts -> In w (text_words pipeline t) -> get_wid snap w = 0 -> get_wid cur w = 0)).
Proof. exact lex_commit_iff. Qed.
Print Assumptions C70_conflicts.
(** With snapshot isolation, of two concurrent transactions that add words only one commits,
    even if their words have nothing in common; ... *)
Theorem C70_snapshot : forall pipeline schedule i texts cur snap,
  hd_error (lex_db_run pipeline schedule) = Some cur -> nth_error (lex_db_run pipeline schedule) i = Some snap ->
  new_words pipeline texts snap -> lex_wordCount cur <> lex_wordCount snap ->
  lex_commit pipeline (lex_db_run pipeline schedule) i i texts = None.
Proof. exact lex_snapshot. Qed.
Print Assumptions C70_snapshot.
(** ... and a transaction that began with the latest version always commits. *)
Theorem C70_latest : forall pipeline schedule texts cur, hd_error (lex_db_run pipeline schedule) = Some cur ->
  forall j, lex_commit pipeline (lex_db_run pipeline schedule) 0 j texts = Some (lex_texts pipeline texts cur).
Proof. exact lex_latest. Qed.
Print Assumptions C70_latest.
(** A transaction that commits makes one version, and one that meets a conflict none. *)
Theorem C70_attempt : forall pipeline schedule i j texts,
  lex_db_run pipeline (schedule ++ [(i, j, texts)]) =
    match lex_commit pipeline (lex_db_run pipeline schedule) i j texts with
    | Some lx => lx :: lex_db_run pipeline schedule
    | None => lex_db_run pipeline schedule
    end.
Proof. exact (fun pipeline schedule i j texts => fold_left_app _ schedule [(i, j, texts)] _). Qed.
Print Assumptions C70_attempt.

(** Words are given as lists of words; the pipeline changes nothing.  The second transaction
    and the third began with the same version; the third read the counter after the second
    had committed, and commits.  Had it read the counter before that, or had it met the
    same word, there would have been a conflict. *)
Example C70_used :
  let p := [mkElem (fun l => l) None] in
  let a := [97] in let b := [98] in let c := [99] in let d := [100] in
  let vs := lex_db_run p [(0%nat, 0%nat, [TxList [a; b]]); (0%nat, 0%nat, [TxList [b; c]])] in
  map (fun lx => map (get_wid lx) [a; b; c; d]) (lex_db_run p [(0%nat, 0%nat, [TxList [a; b]]); (0%nat, 0%nat, [TxList [b; c]]); (1%nat, 0%nat, [TxList [a; d]])])
    = [[1; 2; 3; 4]; [1; 2; 3; 0]; [1; 2; 0; 0]; [0; 0; 0; 0]] /\
  map lex_wordCount vs = [3; 2; 0] /\
  match lex_commit p vs 1 1 [TxList [a; d]] with None => true | Some _ => false end = true /\
  match lex_commit p vs 1 0 [TxList [d; c]] with None => true | Some _ => false end = true /\
  match lex_commit p vs 1 1 [TxList [b; a]] with None => false | Some _ => true end = true.
Proof. vm_compute. repeat split. Qed.
