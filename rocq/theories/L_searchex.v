(** * The counterexample to the exactness of phrase search *)
From Verif Require Import S_textapi S_score L_textapi L_textex SMap Ord.

Definition id_pipe : list elem := [mkElem (fun l => l) None].
(** 133 words; the document consists of the first, the second and the last. *)
Definition many_words : list str := map (fun n => [Z.of_nat n]) (seq 1 133).
Definition false_hist : list top := [TOther (LText (TxList many_words)); TIndex 1 (TxList [[1]; [2]; [133]])].

Lemma phrase_false_positive : exists pipeline h t d,
  history_ok pipeline h /\ texts_small pipeline h /\
  (exists ws, get (docs_of pipeline h) d = Some ws /\ ~ in_a_row (text_words pipeline t) ws) /\
  forall F (AF : Arith F), SafeArith F -> forall K1 B : F, OkapiSafe K1 B ->
  exists m, search_phrase pipeline (python_search_wids K1 B) (okapi_state pipeline h) t = Ok m /\ mem d m = true.
Proof.
  exists id_pipe, false_hist, (TxList [[2]; [1]]), 1.
  assert (Hh : history_ok id_pipe false_hist) by (apply check_history_ok; vm_compute; reflexivity).
  assert (Hs : texts_small id_pipe false_hist) by (apply check_small_ok; vm_compute; reflexivity).
  assert (Hd : get (docs_of id_pipe false_hist) 1 = Some [[1]; [2]; [133]]) by (vm_compute; reflexivity).
  split; [exact Hh|]. split; [exact Hs|]. split.
  - exists [[1]; [2]; [133]]. split; [exact Hd|].
    intros (a & b & E). change (text_words id_pipe (TxList [[2]; [1]])) with ([[2]; [1]] : list str) in E.
    destruct a as [|x1 [|x2 [|x3 [|x4 a]]]]; cbn in E; try discriminate; injection E; intros; try discriminate;
      destruct a; discriminate.
  - intros F AF SF K1 B OF.
    destruct (okapi_phrase_iff K1 B id_pipe false_hist (TxList [[2]; [1]]) [[2]] [1] Hh Hs eq_refl) as (m & Em & Hm).
    exists m. split; [exact Em|]. apply Hm. exists [[1]; [2]; [133]]. split; [exact Hd|]. split.
    + intros w [<-|[<-|[]]]; cbn; auto.
    + exists [133]. split; [exists [[1]], []; reflexivity|]. right. exists 1. split; [lia|]. vm_compute. reflexivity.
Qed.
