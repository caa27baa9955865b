(** * C84: concurrent transactions on a cosine text index stored in a ZODB

    [zc_run same pipeline schedule] are the committed versions of a cosine index and its
    lexicon, the latest first, after the transactions of [schedule] were attempted one after
    the other; [(i, j, ops)] is a transaction that began with version [i] (0: the latest)
    and read the counter of the lexicon at version [j].  Numbers are those of any arithmetic
    that meets [SafeArith] and [SoundEq] (IEEE numbers do, C65); [same] decides if two are equal. *)
From Verif Require Import S_textapi S_zcos M_zcos L_zcos L_zcframe L_ztextex L_zcosex S_text SMap Ord.

(** A commit combines, document by document, the transaction's changes with those others
    committed since it began, or one of both is lost if there was a clear; the lexicon
    becomes as if the texts had been indexed with the latest version. *)
Theorem C84_commit : forall F (AF : Arith F), SafeArith F -> SoundEq F -> forall same : F -> F -> bool, (forall x y, same x y = true <-> x = y) ->
  forall pipeline schedule i j ops st, cos_schedule_ok pipeline (schedule ++ [(i, j, ops)]) ->
  zc_commit same pipeline (zc_run same pipeline schedule) i j ops = Some st ->
  exists cur snap, hd_error (zc_run same pipeline schedule) = Some cur /\ nth_error (zc_run same pipeline schedule) i = Some snap /\
    committed (cleared_since_t snap cur) (clears_t ops) (documents (zt_sys snap)) (documents (zt_sys cur))
              (fold_left (docs_step pipeline) ops (documents (zt_sys snap))) (documents (zt_sys st)) /\
    slx (zt_sys st) = fold_left (lex_step pipeline) (lex_hist ops) (slx (zt_sys cur)).
Proof. exact @zc_commit_ok. Qed.
Print Assumptions C84_commit.
(** Every committed version cannot be told apart from the index of a single client with
    the same documents: not by has_doc, get_words and the counts, nor by searches, scores and
    query weights (C40-C57 apply to that index). *)
Theorem C84_consistent : forall F (AF : Arith F), SafeArith F -> SoundEq F -> forall same : F -> F -> bool, (forall x y, same x y = true <-> x = y) ->
  forall pipeline schedule st, cos_schedule_ok pipeline schedule -> In st (zc_run same pipeline schedule) ->
  exists h, history_ok pipeline h /\ no_clear h /\ docs_of pipeline h = documents (zt_sys st) /\
    cos_same pipeline (cos_state pipeline h) (zt_sys st).
Proof. exact @zc_consistent. Qed.
Print Assumptions C84_consistent.
(** If nobody else changed the documents that a transaction is about, and nobody cleared
    the index, its commit is as good as the same calls made on the latest version. *)
Theorem C84_serial : forall F (AF : Arith F), SafeArith F -> SoundEq F -> forall same : F -> F -> bool, (forall x y, same x y = true <-> x = y) ->
  forall pipeline schedule i j ops st cur snap, cos_schedule_ok pipeline (schedule ++ [(i, j, ops)]) ->
  zc_commit same pipeline (zc_run same pipeline schedule) i j ops = Some st ->
  hd_error (zc_run same pipeline schedule) = Some cur -> nth_error (zc_run same pipeline schedule) i = Some snap ->
  cleared_since_t snap cur = false -> clears_t ops = false ->
  (forall d, In d (docs_of_t ops) -> get (documents (zt_sys cur)) d = get (documents (zt_sys snap)) d) ->
  exists own, zc_exec pipeline ops cur = Some own /\ cos_same pipeline (zt_sys st) (zt_sys own).
Proof. exact @zc_serial. Qed.
Print Assumptions C84_serial.
(** A transaction that began with the latest version never meets a conflict, and its
    commit is what its calls made of that version. *)
Theorem C84_latest : forall F (AF : Arith F), SafeArith F -> SoundEq F -> forall same : F -> F -> bool, (forall x y, same x y = true <-> x = y) ->
  forall pipeline schedule j ops cur, cos_schedule_ok pipeline (schedule ++ [(0%nat, j, ops)]) ->
  hd_error (zc_run same pipeline schedule) = Some cur ->
  zc_commit same pipeline (zc_run same pipeline schedule) 0 j ops = zc_exec pipeline ops cur /\
  zc_commit same pipeline (zc_run same pipeline schedule) 0 j ops <> None.
Proof. exact @zc_alone. Qed.
Print Assumptions C84_latest.
(** So transactions make no difference for a single client: the latest version is the
    index of C40-C57 after the same calls. *)
Theorem C84_one_client : forall F (AF : Arith F), SafeArith F -> SoundEq F -> forall same : F -> F -> bool, (forall x y, same x y = true <-> x = y) ->
  forall pipeline schedule, (forall t, In t schedule -> fst (fst t) = 0%nat) -> cos_schedule_ok pipeline schedule ->
  exists cur, hd_error (zc_run same pipeline schedule) = Some cur /\ zt_sys cur = cos_state pipeline (all_ops schedule) /\
    length (zc_run same pipeline schedule) = S (length schedule).
Proof. exact @zc_one_client. Qed.
Print Assumptions C84_one_client.
(** Of two concurrent transactions that index documents with a word that no document had
    before, only one commits, even if they are about different documents. *)
Theorem C84_new_word : forall F (AF : Arith F), SafeArith F -> SoundEq F -> forall same : F -> F -> bool, (forall x y, same x y = true <-> x = y) ->
  forall pipeline schedule i j ops cur snap w, cos_schedule_ok pipeline (schedule ++ [(i, j, ops)]) ->
  hd_error (zc_run same pipeline schedule) = Some cur -> nth_error (zc_run same pipeline schedule) i = Some snap ->
  cleared_since_t snap cur = false -> clears_t ops = false ->
  ~ In w (vocabulary (documents (zt_sys snap))) -> In w (vocabulary (documents (zt_sys cur))) ->
  In w (vocabulary (fold_left (docs_step pipeline) ops (documents (zt_sys snap)))) ->
  zc_commit same pipeline (zc_run same pipeline schedule) i j ops = None.
Proof. exact @zc_new_word. Qed.
Print Assumptions C84_new_word.
(** There is no conflict if the lexicon has no objection (C70), nobody clears the index, the
    transaction is about other documents than those attempted since it began, and no word
    was ever in a text of one of its documents and in a text of one of theirs. *)
Theorem C84_commits : forall F (AF : Arith F), SafeArith F -> SoundEq F -> forall same : F -> F -> bool, (forall x y, same x y = true <-> x = y) ->
  forall pipeline before since i j ops cur snap seen,
  cos_schedule_ok pipeline (before ++ since ++ [(i, j, ops)]) ->
  hd_error (zc_run same pipeline before) = Some snap -> hd_error (zc_run same pipeline (before ++ since)) = Some cur ->
  nth_error (zc_run same pipeline (before ++ since)) i = Some snap ->
  nth_error (zc_run same pipeline (before ++ since)) (Nat.min i j) = Some seen ->
  lexicon_admits pipeline (op_texts ops) (slx (zt_sys snap)) (slx (zt_sys seen)) (slx (zt_sys cur)) ->
  clears_t (all_ops since) = false -> clears_t ops = false ->
  (forall d d', In d (docs_of_t ops) -> In d' (docs_of_t (all_ops since)) -> d <> d' /\
     forall w, word_given pipeline (all_ops (before ++ since ++ [(i, j, ops)])) d w ->
               word_given pipeline (all_ops (before ++ since ++ [(i, j, ops)])) d' w -> False) ->
  zc_commit same pipeline (zc_run same pipeline (before ++ since)) i j ops <> None.
Proof. exact @zc_commits. Qed.
Print Assumptions C84_commits.
(** If one side cleared the index there is no conflict unless both did, or the lexicon objects. *)
Theorem C84_clears : forall F (AF : Arith F), SafeArith F -> SoundEq F -> forall same : F -> F -> bool, (forall x y, same x y = true <-> x = y) ->
  forall pipeline schedule i j ops cur snap seen, cos_schedule_ok pipeline (schedule ++ [(i, j, ops)]) ->
  hd_error (zc_run same pipeline schedule) = Some cur -> nth_error (zc_run same pipeline schedule) i = Some snap ->
  nth_error (zc_run same pipeline schedule) (Nat.min i j) = Some seen ->
  cleared_since_t snap cur = true \/ clears_t ops = true ->
  (zc_commit same pipeline (zc_run same pipeline schedule) i j ops <> None <->
   lexicon_admits pipeline (op_texts ops) (slx (zt_sys snap)) (slx (zt_sys seen)) (slx (zt_sys cur)) /\
   ~ (cleared_since_t snap cur = true /\ clears_t ops = true)).
Proof. exact @zc_clears. Qed.
Print Assumptions C84_clears.
(** A transaction that commits makes one version, and one that meets a conflict none. *)
Theorem C84_attempt : forall F (AF : Arith F) (same : F -> F -> bool) pipeline schedule i j ops,
  zc_run same pipeline (schedule ++ [(i, j, ops)]) =
    match zc_commit same pipeline (zc_run same pipeline schedule) i j ops with
    | Some st => st :: zc_run same pipeline schedule
    | None => zc_run same pipeline schedule
    end.
Proof. exact (fun F AF same pipeline schedule i j ops => fold_left_app _ schedule [(i, j, ops)] _). Qed.
Print Assumptions C84_attempt.

(** Three transactions, two of them concurrent, that commit; both change the entry of the
    word 122, which has more than ten documents. *)
Example C84_used :
  cos_schedule_ok id_pipeline zt_example /\ clears_t (all_ops zt_example) = false /\ length (zc_run Z.eqb id_pipeline zt_example) = 4%nat /\
  forall st, hd_error (zc_run Z.eqb id_pipeline zt_example) = Some st -> firstn 4 (zt_show st) =
     [(1, [wd 97; wd 98]); (3, [wd 102]); (4, [wd 97; wd 98; wd 122; wd 122]); (5, [wd 99; wd 122; wd 99])].
Proof. exact zc_example_ok. Qed.
(** Conflicts: a word with few documents, a document changed by someone else; and none:
    a word new to the index, a word with many documents, the latest version. *)
Example C84_conflicts :
  let try i j ops := is_some (zc_commit Z.eqb id_pipeline (zc_run Z.eqb id_pipeline (firstn 2 zt_example)) i j ops) in
  cos_schedule_ok id_pipeline (firstn 2 zt_example ++ [(1%nat, 1%nat, [TIndex 6 (tx [97])])]) /\
  try 1%nat 1%nat [TIndex 6 (tx [97])] = false /\ try 1%nat 1%nat [TIndex 4 (tx [122])] = false /\
  try 1%nat 1%nat [TIndex 6 (tx [103])] = true /\ try 1%nat 1%nat [TIndex 6 (tx [122])] = true /\ try 0%nat 0%nat [TIndex 6 (tx [97])] = true.
Proof. exact zc_example_conflicts. Qed.
Example C84_serial_used : exists st cur snap,
  let ops := [TIndex 5 (tx [99; 122; 99]); TUnindex 2; TIndex 3 (tx [102])] in
  cos_schedule_ok id_pipeline (firstn 2 zt_example ++ [(1%nat, 1%nat, ops)]) /\
  zc_commit Z.eqb id_pipeline (zc_run Z.eqb id_pipeline (firstn 2 zt_example)) 1 1 ops = Some st /\
  hd_error (zc_run Z.eqb id_pipeline (firstn 2 zt_example)) = Some cur /\ nth_error (zc_run Z.eqb id_pipeline (firstn 2 zt_example)) 1 = Some snap /\
  cleared_since_t snap cur = false /\ clears_t ops = false /\
  (forall d, In d (docs_of_t ops) -> get (documents (zt_sys cur)) d = get (documents (zt_sys snap)) d) /\
  get (documents (zt_sys cur)) 4 <> get (documents (zt_sys snap)) 4.
Proof. exact zc_serial_used. Qed.
Example C84_new_word_used : exists cur snap,
  let sch := [(0%nat, 0%nat, [TOther (LText (tx [97])); TIndex 1 (tx [98])]); (0%nat, 0%nat, [TIndex 2 (tx [97])])] in
  let ops := [TIndex 3 (tx [97; 98])] in
  cos_schedule_ok id_pipeline (sch ++ [(1%nat, 1%nat, ops)]) /\
  hd_error (zc_run Z.eqb id_pipeline sch) = Some cur /\ nth_error (zc_run Z.eqb id_pipeline sch) 1 = Some snap /\
  cleared_since_t snap cur = false /\ clears_t ops = false /\
  ~ In (wd 97) (vocabulary (documents (zt_sys snap))) /\ In (wd 97) (vocabulary (documents (zt_sys cur))) /\
  In (wd 97) (vocabulary (fold_left (docs_step id_pipeline) ops (documents (zt_sys snap)))).
Proof. exact zc_new_word_used. Qed.
(** A transaction with a new word that is concurrent with two others; it reads the counter of
    the lexicon after they have committed. *)
Example C84_commits_used : exists cur snap seen,
  cos_schedule_ok id_pipeline (zt_before ++ zt_since ++ [(2%nat, 0%nat, zt_ops)]) /\
  hd_error (zc_run Z.eqb id_pipeline zt_before) = Some snap /\ hd_error (zc_run Z.eqb id_pipeline (zt_before ++ zt_since)) = Some cur /\
  nth_error (zc_run Z.eqb id_pipeline (zt_before ++ zt_since)) 2 = Some snap /\
  nth_error (zc_run Z.eqb id_pipeline (zt_before ++ zt_since)) (Nat.min 2 0) = Some seen /\
  lexicon_admits id_pipeline (op_texts zt_ops) (slx (zt_sys snap)) (slx (zt_sys seen)) (slx (zt_sys cur)) /\
  new_words id_pipeline (op_texts zt_ops) (slx (zt_sys snap)) /\
  clears_t (all_ops zt_since) = false /\ clears_t zt_ops = false /\
  (forall d d', In d (docs_of_t zt_ops) -> In d' (docs_of_t (all_ops zt_since)) -> d <> d' /\
     forall w, word_given id_pipeline (all_ops (zt_before ++ zt_since ++ [(2%nat, 0%nat, zt_ops)])) d w ->
               word_given id_pipeline (all_ops (zt_before ++ zt_since ++ [(2%nat, 0%nat, zt_ops)])) d' w -> False).
Proof. exact zc_commits_used. Qed.
Example C84_clears_used : let sch := zt_before ++ [(0%nat, 0%nat, [TClear; TIndex 1 (tx [97])])] in
  let try i j ops := is_some (zc_commit Z.eqb id_pipeline (zc_run Z.eqb id_pipeline sch) i j ops) in
  length (zc_run Z.eqb id_pipeline sch) = 3%nat /\
  try 1%nat 1%nat [TUnindex 2; TIndex 1 (tx [98; 99])] = true /\ try 1%nat 1%nat [TClear] = false /\ try 1%nat 1%nat [TIndex 7 (tx [108])] = true.
Proof. exact zc_clears_used. Qed.

(** Transactions are not serializable: two may commit although the outcome is that of
    neither order. *)
Theorem C84_serializable_refuted : exists base ta tb (st v1 v2 v3 : ztext Z),
  zc_run Z.eqb id_pipeline [(0%nat, 0%nat, base); (0%nat, 0%nat, ta); (1%nat, 1%nat, tb)] = [st; v1; v2; v3] /\
  (exists d, get (documents (zt_sys st)) d <> get (docs_of id_pipeline (base ++ ta ++ tb)) d) /\
  (exists d, get (documents (zt_sys st)) d <> get (docs_of id_pipeline (base ++ tb ++ ta)) d).
Proof. exact zc_skew. Qed.
Print Assumptions C84_serializable_refuted.
(** A document indexed by a transaction that commits after a concurrent clear is lost. *)
Theorem C84_clear_refuted : exists base d t (st v1 v2 v3 : ztext Z),
  zc_run Z.eqb id_pipeline [(0%nat, 0%nat, base); (0%nat, 0%nat, [TClear]); (1%nat, 1%nat, [TIndex d t])] = [st; v1; v2; v3] /\
  has_doc (six (zt_sys st)) d = false /\
  get (docs_of id_pipeline (base ++ [TClear] ++ [TIndex d t])) d <> None.
Proof. exact zc_clear_loses. Qed.
Print Assumptions C84_clear_refuted.
