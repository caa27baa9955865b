(** * Concurrent transactions on a lexicon and a text index stored in a ZODB

    text/lexicon.py, baseindex.py and okapiindex.py keep their data in BTrees and
    Lengths, as the field and keyword indexes do; see [M_zodb] for what a commit does
    when others have committed since the transaction began.  The code of the index and
    of the lexicon is that of [M_lexicon], [M_baseindex] and [M_okapi].

    Simplification: object identities.  A posting that is an IF BTree ([p_dict] false) is
    a persistent object of its own; a dict is part of the state of [_wordinfo].  Here two
    IF BTrees kept for the same word count as the same object.  They are, unless one side
    removed all documents of the word and added documents again; then the real resolution
    finds the old BTree emptied by that side, and there is a conflict if the other side
    changed it at all.  So whenever the real one commits, this one does, with the same
    result. *)
From Verif Require Export M_baseindex M_okapi M_zodb SMap Ord.

(** ** The lexicon *)

(** lexicon.py:37-46: two BTrees and a Length.  [read] is the value the Length had when
    this transaction ([b]) read it. *)
Definition lex3 (read : Z) (o a b : lex) : option lex :=
  match map3 (fun _ => key3 Z.eqb) (lwids o) (lwids a) (lwids b),
        map3 (fun _ => key3 eqb) (lwords o) (lwords a) (lwords b) with
  | Some wids, Some words => Some (mkLex wids words (lcount a + (lcount b - read)))
  | _, _ => None
  end.

(** lexicon.py:68-75: before it looks up words, [sourceToWordIds] makes the connection
    forget the Length, so that the transaction may see a newer value, that of the version
    [seen], than it would have in the version [snap] it sees otherwise.  (Once it has changed
    the Length, [_p_deactivate] has no effect.  The [isinstance] upgrade is in M_upgrade.v.) *)
Definition lex_begin (seen snap : lex) : lex := mkLex (lwids snap) (lwords snap) (lcount seen).

Section LexDb.
  Variable pipeline : list elem.
  (** [sourceToWordIds] of each of the texts *)
  Definition lex_texts (ts : list ltext) (lx : lex) : lex :=
    fold_left (fun lx t => fst (sourceToWordIds pipeline t lx)) ts lx.

  (** The transaction began with version [i] (0: the latest) and read the counter of
      version [j], or of version [i] if [j] is even older. *)
  Definition lex_commit (versions : list lex) (i j : nat) (ts : list ltext) : option lex :=
    match versions, nth_error versions i, nth_error versions (Nat.min i j) with
    | cur :: _, Some snap, Some seen => lex3 (lcount seen) snap cur (lex_texts ts (lex_begin seen snap))
    | _, _, _ => None
    end.
  Definition lex_db_step (versions : list lex) (t : nat * nat * list ltext) : list lex :=
    match lex_commit versions (fst (fst t)) (snd (fst t)) (snd t) with Some lx => lx :: versions | None => versions end.
  Definition lex_db_run (schedule : list (nat * nat * list ltext)) : list lex :=
    fold_left lex_db_step schedule [lex_new].
End LexDb.

(** ** The text index *)
Section TextDb.
  Context {V : Type}.
  (** equality of stored weights *)
  Variable same : V -> V -> bool.

  Definition map_same (m n : smap Z V) : bool :=
    forallb (fun k => opt_same same (get m k) (get n k)) (keys m ++ keys n).
  Definition post_same (p q : posting V) : bool := Bool.eqb (p_dict p) (p_dict q) && map_same (p_map p) (p_map q).

  (** One key of [_wordinfo], together with the IF BTree that is its value. *)
  Definition post3 (o a b : option (posting V)) : option (option (posting V)) :=
    if opt_same post_same a o then Some b
    else if opt_same post_same b o then Some a
    else match o, a, b with
         | Some p, Some q, Some r =>
             if p_dict p || p_dict q || p_dict r then None
             else match map3 (fun _ => key3 same) (p_map p) (p_map q) (p_map r) with
                  | Some m => if is_empty m then None else Some (Some (mkPosting false m))
                  | None => None
                  end
         | _, _, _ => None
         end.

  (** baseindex.py:69-83: the attributes of an index that was not cleared by either side;
      [tot] is the merged [_totaldoclen] *)
  Definition ix3 (tot : Z) (o a b : bindex V) : option (bindex V) :=
    match map3 (fun _ => post3) (wordinfo o) (wordinfo a) (wordinfo b),
          map3 (fun _ => key3 same) (docweight o) (docweight a) (docweight b),
          map3 (fun _ => key3 eqb) (docwords o) (docwords a) (docwords b) with
    | Some wi, Some dw, Some ds =>
        Some (mkIx wi dw ds (wordCount a + wordCount b - wordCount o) (documentCount a + documentCount b - documentCount o) tot)
    | _, _, _ => None
    end.
  Definition set_totaldoclen (n : Z) (ix : bindex V) : bindex V :=
    mkIx (wordinfo ix) (docweight ix) (docwords ix) (wordCount ix) (documentCount ix) n.

  (** [zt_gen]: the number of calls of [clear], each of which replaces all attributes but
      [_totaldoclen] (baseindex.py:53-83). *)
  Record ztext := mkZT { zt_sys : sys V; zt_gen : Z }.
  Definition zt_new : ztext := mkZT (mkSys lex_new ix_new) 0.

  Definition zt_merge (read : Z) (o a b : ztext) : option ztext :=
    let io := six (zt_sys o) in let ia := six (zt_sys a) in let ib := six (zt_sys b) in
    let tot := totaldoclen ia + totaldoclen ib - totaldoclen io in
    match lex3 read (slx (zt_sys o)) (slx (zt_sys a)) (slx (zt_sys b)) with
    | None => None
    | Some lx =>
        if zt_gen a =? zt_gen o then
          if zt_gen b =? zt_gen o then
            match ix3 tot io ia ib with Some ix => Some (mkZT (mkSys lx ix) (zt_gen o)) | None => None end
          else Some (mkZT (mkSys lx (set_totaldoclen tot ib)) (zt_gen b))
        else if zt_gen b =? zt_gen o then Some (mkZT (mkSys lx (set_totaldoclen tot ia)) (zt_gen a))
        else None
    end.

  Variable pipeline : list elem.
  Variable index_doc : Z -> ltext -> sx (sys V) Z.
  Variable unindex_doc : Z -> sx (sys V) unit.

  Definition zt_begin (seen snap : ztext) : ztext :=
    mkZT (mkSys (lex_begin (slx (zt_sys seen)) (slx (zt_sys snap))) (six (zt_sys snap))) (zt_gen snap).
  Definition count_clears (ops : list top) : Z := Zlen (filter (fun o => match o with TClear => true | _ => false end) ops).
  (** A transaction whose calls raise is not committed. *)
  Definition zt_exec (ops : list top) (st : ztext) : option ztext :=
    match siter (op_step pipeline index_doc unindex_doc) ops (zt_sys st) with
    | (s, Ok _) => Some (mkZT s (zt_gen st + count_clears ops))
    | (_, Raise _) => None
    end.
  Definition zt_commit (versions : list ztext) (i j : nat) (ops : list top) : option ztext :=
    match versions, nth_error versions i, nth_error versions (Nat.min i j) with
    | cur :: _, Some snap, Some seen =>
        match zt_exec ops (zt_begin seen snap) with
        | Some own => zt_merge (lcount (slx (zt_sys seen))) snap cur own
        | None => None
        end
    | _, _, _ => None
    end.
  Definition zt_step (versions : list ztext) (t : nat * nat * list top) : list ztext :=
    match zt_commit versions (fst (fst t)) (snd (fst t)) (snd t) with Some st => st :: versions | None => versions end.
  Definition zt_run (schedule : list (nat * nat * list top)) : list ztext := fold_left zt_step schedule [zt_new].
End TextDb.
Arguments ztext : clear implicits.

(** OkapiIndex: weights are numbers of occurrences. *)
Definition zo_commit (pipeline : list elem) := zt_commit Z.eqb pipeline (okapi_index_doc pipeline) okapi_unindex_doc.
Definition zo_run (pipeline : list elem) := zt_run Z.eqb pipeline (okapi_index_doc pipeline) okapi_unindex_doc.
