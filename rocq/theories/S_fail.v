(** * Specification: histories in which calls of index_doc fail *)
From Verif Require Export S_text S_textapi M_okapi M_cosine SMap Ord.

(** A call of sourceToWordIds(text) that raises [e], for instance because the text is not
    a string; [l] is what had happened to the lexicon by then. *)
Definition failing {V} (pipeline : list elem) (e : exn) (l : list lop) : sx (sys V) (list Z) :=
  fun s => (mkSys (fold_left (lex_step pipeline) l (slx s)) (six s), Raise e).

(** An operation, or a call index_doc(docid, text) whose text makes sourceToWordIds fail;
    the caller catches the exception and goes on. *)
Inductive fop := FOp (o : top) | FFail (docid : Z) (e : exn) (l : list lop).
Section Run.
  Context {V : Type}.
  Variable pipeline : list elem.
  Variable index_doc_with : Z -> sx (sys V) (list Z) -> sx (sys V) Z.
  Variable unindex_doc : Z -> sx (sys V) unit.
  Definition fop_step (o : fop) : sx (sys V) unit :=
    match o with
    | FOp o => op_step pipeline (fun d t => index_doc_with d (source pipeline t)) unindex_doc o
    | FFail d e l => fun s => (fst (index_doc_with d (failing pipeline e l) s), Ok tt)
    end.
  Definition run_fops (h : list fop) : sys V * res unit := siter fop_step h (mkSys lex_new ix_new).
End Run.
Definition okapi_frun (pipeline : list elem) (h : list fop) : sys Z * res unit :=
  run_fops pipeline okapi_index_doc_with okapi_unindex_doc h.
Definition cos_frun {F} {AF : Arith F} (pipeline : list elem) (h : list fop) : sys F * res unit :=
  run_fops pipeline cos_index_doc_with base_unindex_doc h.

(** The history without the failed calls, apart from what they did to the lexicon. *)
Definition successful (h : list fop) : list top :=
  flat_map (fun o => match o with FOp o => [o] | FFail _ _ l => map TOther l end) h.

(** The numbers of words of the documents that index_doc failed to replace, added up. *)
Definition words_lost (pipeline : list elem) (h : list fop) : Z :=
  snd (fold_left (fun Dn o =>
      match o with
      | FOp o => (docs_step pipeline (fst Dn) o, snd Dn)
      | FFail d _ _ => (fst Dn, snd Dn + match get (fst Dn) d with Some ws => Zlen ws | None => 0 end)
      end) h (empty, 0)).

(** The same index with another total document length. *)
Definition add_total (n : Z) (s : sys Z) : sys Z := mkSys (slx s) (change_totaldoclen n (six s)).
