(** * Property C76: a text index and its lexicon in a ZODB (text/baseindex.py,
    text/okapiindex.py, text/cosineindex.py, text/lexicon.py)

    [db_okapi_run pipeline evs]: an index saved when new, after the events [evs] (calls,
    commits, aborts, cache evictions, restarts), and what its calls returned or raised;
    [db_live] is the index in memory and [db_saved] what a new connection would read.
    [in_force evs] are the calls not undone by an abort or a restart, [committed evs] those
    before the last commit, and [after call h] is an index that was in memory all the time
    and to which the calls [h] were made (S_ptext.v). *)
From Verif Require Import IEEE Text L_textex S_ptext M_ptext M_okapi M_cosine M_baseindex L_ptext SMap Ord.
Open Scope string_scope.
Open Scope list_scope.
Open Scope Z_scope.

(** Twelve documents share a word, so that its dict becomes an IF BTree; some keys share
    buckets with others. *)
Definition z_doc (d : Z) (s : string) : zevent := ZCall (TIndex d (TxStr (txt s))).
Definition z_keys (l : list Z) : keysets :=
  mkKs (set_of_list l) (set_of_list l) (set_of_list l) (set_of_list l) (set_of_list [txt "fox"]) (set_of_list l).
Definition z_evs : list zevent :=
  map (fun d => z_doc d "fox") [1; 2; 3; 4; 5; 6; 7; 8; 9; 10] ++
  [ZCommit no_keys; z_doc 11 "brown fox"; ZEvict (z_keys [0; 1; 2; 11]); z_doc 12 "fox"; ZCommit (z_keys [1; 3]);
   z_doc 1 "dog"; ZCall (TUnindex 2); ZCall TClear; z_doc 7 "zebra"; ZEvict (z_keys [7]); ZAbort (z_keys [0; 1; 7]);
   z_doc 11 "dog"; z_doc 3 "dog fox fox"; ZCommit no_keys; z_doc 20 "dog"; ZRestart;
   ZEvict (z_keys [0; 1; 2; 3]); ZCall (TUnindex 3); z_doc 12 "zebra"].
(** The documents of a word: dict or IF BTree, and how often each contains it *)
Definition z_word (s : sys Z) (w : string) : option (bool * list (Z * Z)) :=
  match get (lwids (slx s)) (txt w) with
  | Some i => match get (wordinfo (six s)) i with Some p => Some (p_dict p, elts (p_map p)) | None => None end
  | None => None
  end.

(** C76: whatever is committed, aborted, dropped from the cache or restarted when, the index
    in memory is that of the calls in force, and a new connection reads that of the committed
    calls. *)
Theorem C76_okapi : forall (pipeline : list elem) (evs : list zevent),
  db_live (fst (db_okapi_run pipeline evs)) = after (okapi_call pipeline) (in_force evs) /\
  db_saved (fst (db_okapi_run pipeline evs)) = after (okapi_call pipeline) (committed evs).
Proof. exact okapi_stored. Qed.
Print Assumptions C76_okapi.
Example C76_okapi_ex :
  let st := fst (db_okapi_run ascii_pipeline z_evs) in
  z_word (db_live st) "fox" = Some (false, map (fun d => (d, 1)) [1; 2; 4; 5; 6; 7; 8; 9; 10]) /\
  z_word (db_saved st) "fox" = Some (false, map (fun d => (d, if d =? 3 then 2 else 1)) [1; 2; 3; 4; 5; 6; 7; 8; 9; 10; 12]) /\
  z_word (db_live st) "dog" = Some (true, [(11, 1)]) /\ z_word (db_saved st) "dog" = Some (true, [(3, 1); (11, 1)]) /\
  z_word (db_live st) "zebra" = Some (true, [(12, 1)]) /\ z_word (db_saved st) "zebra" = None /\
  documentCount (six (db_live st)) = 11 /\ documentCount (six (db_saved st)) = 12 /\
  wordCount (six (db_live st)) = 3 /\ wordCount (six (db_saved st)) = 2.
Proof. vm_compute. repeat split; reflexivity. Qed.

Theorem C76_cosine : forall (F : Type) (AF : Arith F) (pipeline : list elem) (evs : list zevent),
  db_live (fst (db_cos_run pipeline evs)) = after (cos_call pipeline) (in_force evs) /\
  db_saved (fst (db_cos_run pipeline evs)) = after (cos_call pipeline) (committed evs).
Proof. exact @cos_stored. Qed.
Print Assumptions C76_cosine.
Example C76_cosine_ex :
  let st := fst (db_cos_run (AF := Arith_b64 (fun x => x)) ascii_pipeline z_evs) in
  keys (docweight (six (db_live st))) = [1; 2; 4; 5; 6; 7; 8; 9; 10; 11; 12] /\
  keys (docweight (six (db_saved st))) = [1; 2; 3; 4; 5; 6; 7; 8; 9; 10; 11; 12].
Proof. vm_compute. split; reflexivity. Qed.

(** C76: and each call returns or raises what it would in such an index. *)
Theorem C76_okapi_results : forall (pipeline : list elem) (evs : list zevent) (o : top),
  snd (db_okapi_run pipeline (evs ++ [ZCall o])) =
  snd (db_okapi_run pipeline evs) ++ [snd (okapi_call pipeline o (after (okapi_call pipeline) (in_force evs)))].
Proof. exact okapi_results. Qed.
Print Assumptions C76_okapi_results.
Theorem C76_cosine_results : forall (F : Type) (AF : Arith F) (pipeline : list elem) (evs : list zevent) (o : top),
  snd (db_cos_run pipeline (evs ++ [ZCall o])) =
  snd (db_cos_run pipeline evs) ++ [snd (cos_call pipeline o (after (cos_call pipeline) (in_force evs)))].
Proof. exact @cos_results. Qed.
Print Assumptions C76_cosine_results.
Example C76_results_ex :
  forallb (fun r => match r with Ok _ => true | Raise _ => false end) (snd (db_okapi_run ascii_pipeline z_evs)) = true /\
  length (snd (db_okapi_run ascii_pipeline z_evs)) = 21%nat.
Proof. vm_compute. split; reflexivity. Qed.

(** C76: in particular, where [okapi_run] and [cos_run] tell what an index in memory holds
    after a history (C50-C64), they tell what one in a database does. *)
Theorem C76_okapi_history : forall (pipeline : list elem) (evs : list zevent) (s : sys Z),
  (okapi_run pipeline (in_force evs) = (s, Ok tt) -> db_live (fst (db_okapi_run pipeline evs)) = s) /\
  (okapi_run pipeline (committed evs) = (s, Ok tt) -> db_saved (fst (db_okapi_run pipeline evs)) = s).
Proof. exact okapi_history. Qed.
Print Assumptions C76_okapi_history.
Theorem C76_cosine_history : forall (F : Type) (AF : Arith F) (pipeline : list elem) (evs : list zevent) (s : sys F),
  (cos_run pipeline (in_force evs) = (s, Ok tt) -> db_live (fst (db_cos_run pipeline evs)) = s) /\
  (cos_run pipeline (committed evs) = (s, Ok tt) -> db_saved (fst (db_cos_run pipeline evs)) = s).
Proof. exact @cos_history. Qed.
Print Assumptions C76_cosine_history.
Example C76_history_ex :
  snd (okapi_run ascii_pipeline (in_force z_evs)) = Ok tt /\ snd (okapi_run ascii_pipeline (committed z_evs)) = Ok tt /\
  length (in_force z_evs) = 16%nat /\ length (committed z_evs) = 14%nat.
Proof. vm_compute. repeat split; reflexivity. Qed.
