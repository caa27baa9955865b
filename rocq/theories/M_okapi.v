(** * Model of OkapiIndex (/repo/src/zope/index/text/okapiindex.py) and of the C
    scoring loop (/repo/src/zope/index/text/okascore.c) *)
From Verif Require Export M_baseindex Arith SMap Ord.

(** The value read back after storing an integer in an IF BTree: a C float has 24
    significant bits; rounding is to nearest, ties to even.  (Overflow beyond 2^128 is
    not modelled.) *)
Definition f32Z (n : Z) : Z :=
  if Z.abs n <=? 2 ^ 24 then n
  else
    let e := 2 ^ (Z.log2 (Z.abs n) - 23) in
    let q := Z.abs n / e in
    let r := Z.abs n mod e in
    let up := (e <? 2 * r) || ((2 * r =? e) && Z.odd q) in
    Z.sgn n * ((if up then q + 1 else q) * e).

(** okapiindex.py:372-377 [_get_frequencies] *)
Definition count_words (wids : list Z) : smap Z Z :=
  fold_left (fun d wid => put wid (match get d wid with Some n => n | None => 0 end + 1) d) wids empty.
Definition okapi_freqs (wids : list Z) : res (smap Z Z * Z) := Ok (count_words wids, Zlen wids).

Section Okapi.
  Variable pipeline : list elem.

  (** okapiindex.py:255-262 [_change_doc_len] (the upgrade branch is in M_upgrade.v) *)
  Definition change_doc_len (delta : Z) : sx (sys Z) unit := on_ix (change_totaldoclen delta).

  (** okapiindex.py:245-247 [_reindex_doc] *)
  Definition okapi_reindex (docid : Z) (src : sx (sys Z) (list Z)) : sx (sys Z) Z :=
    sdo w <- slift (fun s => item (docweight (six s)) docid);
    sdo _ <- change_doc_len (- w);
    base_reindex_with f32Z Z.eqb okapi_freqs docid src.

  (** okapiindex.py:240-243 [index_doc] *)
  Definition okapi_index_doc_with (docid : Z) (src : sx (sys Z) (list Z)) : sx (sys Z) Z :=
    sdo count <- base_index_doc_with f32Z okapi_freqs okapi_reindex docid src;
    sdo _ <- change_doc_len count;
    sret count.
  Definition okapi_index_doc (docid : Z) (t : ltext) : sx (sys Z) Z := okapi_index_doc_with docid (source pipeline t).

  (** okapiindex.py:249-253 [unindex_doc] *)
  Definition okapi_unindex_doc (docid : Z) : sx (sys Z) unit :=
    fun s =>
    if negb (has_doc (six s) docid) then (s, Ok tt)
    else
      (sdo w <- slift (fun s => item (docweight (six s)) docid);
       sdo _ <- change_doc_len (- w);
       base_unindex_doc docid) s.

  Definition okapi_run (h : list top) : sys Z * res unit := run_ops pipeline okapi_index_doc okapi_unindex_doc h.

  Section Search.
    Context {F : Type} {AF : Arith F}.
    Variables K1 B : F. (* okapiindex.py:218-219 *)

    (** okapiindex.py:274-280 and 325-331: N and meandoclen *)
    Definition mean_doc_len (ix : bindex Z) : res F := py_div (fofZ (totaldoclen ix)) (fofZ (documentCount ix)).

    (** okapiindex.py:297-298: the score of one document, apart from idf *)
    Definition okapi_tf (meandoclen : F) (len f : Z) : res F :=
      let K1_plus1 := fadd K1 f1 in
      let B_from1 := fsub f1 B in
      do q <- py_div (fmul B (fofZ len)) meandoclen;
      let lenweight := fadd B_from1 q in
      py_div (fmul (fofZ f) K1_plus1) (fadd (fofZ f) (fmul K1 lenweight)).

    (** okapiindex.py:296-299: the loop over the documents of a word *)
    Fixpoint py_score (result : smap Z F) (items : list (Z * Z)) (docid2len : smap Z Z) (idf meandoclen : F)
      : res (smap Z F) :=
      match items with
      | [] => Ok result
      | (docid, f) :: items' =>
          do len <- item docid2len docid;
          do tf <- okapi_tf meandoclen len f;
          py_score (put docid (f32 (fmul tf idf)) result) items' docid2len idf meandoclen
      end.

    (** okapiindex.py:292-300, for one word *)
    Definition py_search_wid (ix : bindex Z) (meandoclen : F) (t : Z) : res (smap Z F * F) :=
      do d2f <- item (wordinfo ix) t;
      do idf <- inverse_doc_frequency (Zsize (p_map d2f)) (fofZ (documentCount ix));
      do result <- py_score empty (elts (p_map d2f)) (docweight ix) idf meandoclen;
      Ok (result, f1).

    (** okapiindex.py:271-301 [_python_search_wids] *)
    Definition python_search_wids (ix : bindex Z) (wids : list Z) : res (list (smap Z F * F)) :=
      match wids with
      | [] => Ok []
      | _ => do meandoclen <- mean_doc_len ix; mapM (py_search_wid ix meandoclen) wids
      end.

    (** okapiindex.py:354-370 [query_weight] *)
    Definition okapi_query_weight (s : sys Z) (terms : list ltext) : res F :=
      let wids := flat_map (fun term => termToWordIds pipeline term (slx s)) terms in
      let N := fofZ (Zsize (docweight (six s))) in
      let tfmax := fadd f1 K1 in
      fold_left (fun acc t =>
          do sum <- acc;
          do p <- item (wordinfo (six s)) t;
          do idf <- inverse_doc_frequency (Zsize (p_map p)) N;
          Ok (fadd sum (fmul idf tfmax)))
        (remove_oov (six s) wids) (Ok f0).
  End Search.

  Section CScore.
    Context {F : Type} {AF : Arith F}.
    (** okascore.c:38-39: the constants compiled into the extension *)
    Variables c_K1 c_B : F.

    (** okascore.c:66-108 [score].  Division in C does not raise. *)
    Fixpoint c_score (result : smap Z F) (items : list (Z * Z)) (d2len : smap Z Z) (idf meandoclen : F)
      : res (smap Z F) :=
      match items with
      | [] => Ok result
      | (d, f) :: items' =>
          do doclen <- item d2len d;
          let B_FROM1 := fsub f1 c_B in
          let K1_PLUS1 := fadd c_K1 f1 in
          let lenweight := fadd B_FROM1 (fdiv (fmul c_B (fofZ doclen)) meandoclen) in
          let tf := fdiv (fmul (fofZ f) K1_PLUS1) (fadd (fofZ f) (fmul c_K1 lenweight)) in
          c_score (put d (f32 (fmul tf idf)) result) items' d2len idf meandoclen
      end.

    (** okapiindex.py:343-349, for one word *)
    Definition c_search_wid (ix : bindex Z) (meandoclen : F) (t : Z) : res (smap Z F * F) :=
      do d2f <- item (wordinfo ix) t;
      do idf <- inverse_doc_frequency (Zsize (p_map d2f)) (fofZ (documentCount ix));
      do result <- c_score empty (elts (p_map d2f)) (docweight ix) idf meandoclen;
      Ok (result, f1).
    (** okapiindex.py:322-350 [_c_search_wids] *)
    Definition c_search_wids (ix : bindex Z) (wids : list Z) : res (list (smap Z F * F)) :=
      match wids with
      | [] => Ok []
      | _ => do meandoclen <- mean_doc_len ix; mapM (c_search_wid ix meandoclen) wids
      end.
  End CScore.
End Okapi.
