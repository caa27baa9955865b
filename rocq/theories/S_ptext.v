(** * Specification of a text index stored in a database *)
From Verif Require Export M_ptext M_okapi M_cosine M_baseindex SMap Ord.

(** The calls that are in force after the events: those of the committed transactions,
    and, in memory, those made since. *)
Definition in_force_event (c : list top * list top) (e : zevent) : list top * list top :=
  match e with
  | ZCall o => (fst c ++ [o], snd c)
  | ZCommit _ => (fst c, fst c)
  | ZAbort _ | ZRestart => (snd c, snd c)
  | ZEvict _ => c
  end.
Definition in_force (evs : list zevent) : list top := fst (fold_left in_force_event evs ([], [])).
Definition committed (evs : list zevent) : list top := snd (fold_left in_force_event evs ([], [])).

(** An index in memory only, to which the calls [h] are made; a call that raises leaves
    the index as it is then. *)
Definition after {V} (call : top -> sx (sys V) unit) (h : list top) : sys V :=
  fold_left (fun s o => fst (call o s)) h (mkSys lex_new ix_new).
Definition okapi_call (pipeline : list elem) : top -> sx (sys Z) unit :=
  op_step pipeline (okapi_index_doc pipeline) okapi_unindex_doc.
Definition cos_call {F} {AF : Arith F} (pipeline : list elem) : top -> sx (sys F) unit :=
  op_step pipeline (cos_index_doc pipeline) base_unindex_doc.
