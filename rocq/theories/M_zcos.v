(** * Concurrent transactions on a cosine text index stored in a ZODB

    CosineIndex (text/cosineindex.py) keeps the same BTrees and Lengths as OkapiIndex
    (text/baseindex.py:53-83), so that commits are those of [M_ztext]; its weights are
    floats.  The code of the index is that of [M_baseindex] and [M_cosine].

    [same] decides whether two stored weights are equal, as the resolution of conflicts
    in IF BTrees does. *)
From Verif Require Export M_ztext M_cosine SMap Ord.

Section CosDb.
  Context {F : Type} {AF : Arith F}.
  Variable same : F -> F -> bool.
  Variable pipeline : list elem.
  (** cosineindex.py:27-61: CosineIndex inherits index_doc and unindex_doc from BaseIndex;
      see [zt_commit] and [zt_run] for the transactions *)
  Definition zc_exec := zt_exec (V := F) pipeline (cos_index_doc pipeline) base_unindex_doc.
  Definition zc_commit := zt_commit same pipeline (cos_index_doc pipeline) base_unindex_doc.
  Definition zc_run := zt_run same pipeline (cos_index_doc pipeline) base_unindex_doc.
End CosDb.
