(** * Model of text queries with object identity
    (/repo/src/zope/index/text: baseindex.py, cosineindex.py, setops.py, parsetree.py,
    textindex.py)

    [apply] of M_textindex.v takes the index and gives a mapping.  In the code mappings
    are objects: some functions return one of their arguments, and [TextIndex.apply]
    assigns to the items of the mapping it got.  [CosineIndex._search_wids] hands over
    the BTrees of [_wordinfo] themselves.  Here an object is one that was made for the
    query, or the BTree that [_wordinfo] has for a word id. *)
From Verif Require Export M_textindex M_cosine M_okapi M_tree M_baseindex Arith SMap Ord.

Inductive mobj (F : Type) := Own (m : smap Z F) | Posting (wid : Z).
Arguments Own {F} m.
Arguments Posting {F} wid.

Section Alias.
  Context {V F : Type} {AF : Arith F}.
  Notation obj := (mobj F).

  (** Reading the BTree of [_wordinfo] for a word id, and assigning to its items. *)
  Variable read : bindex V -> Z -> smap Z F.
  Variable write : Z -> Z -> F -> bindex V -> bindex V.

  (** What an object contains. *)
  Definition val (ix : bindex V) (o : obj) : smap Z F := match o with Own m => m | Posting wid => read ix wid end.
  (** [o[docid] = v] *)
  Definition assign (o : obj) (docid : Z) (v : F) (ix : bindex V) : bindex V * obj :=
    match o with
    | Own m => (ix, Own (put docid (f32 v) m))
    | Posting wid => (write wid docid v ix, o)
    end.

  Section Ops.
    Variable ix : bindex V.
    Definition vals_of (L : list (obj * F)) : list (smap Z F * F) := map (fun p => (val ix (fst p), snd p)) L.

    (** setops.py:56-66 [_trivial] *)
    Definition o_trivial (L : list (obj * F)) : res obj :=
      match L with
      | [] => Ok (Own empty)
      | [(result, weight)] =>
          if negb (feqb weight f1) then Ok (Own (weightedUnion empty (val ix result) f0 weight)) else Ok result
      | _ => Raise AssertionError
      end.
    (** setops.py:22-35 (no [x] is None here); [IF.weightedIntersection] makes a new object *)
    Definition o_intersection (L : list (obj * F)) : res obj :=
      if (length L <? 2)%nat then o_trivial L
      else rmap Own (mass_weightedIntersection (map (fun p => (Some (fst p), snd p)) (vals_of L))).
    (** setops.py:38-53; [IF.weightedUnion] makes a new object *)
    Definition o_union (L : list (obj * F)) : res obj :=
      if (length L <? 2)%nat then o_trivial L else rmap Own (mass_weightedUnion (vals_of L)).

    Variable pipeline : list elem.
    Variable search_wids : bindex V -> list Z -> res (list (obj * F)).
    Variable lx : lex.

    (** baseindex.py:185-190 [search] *)
    Definition o_search (term : ltext) : res (option obj) :=
      match termToWordIds pipeline term lx with
      | [] => Ok None
      | wids => do L <- search_wids ix (remove_oov ix wids); do r <- o_union L; Ok (Some r)
      end.
    (** baseindex.py:192-195 [search_glob] *)
    Definition o_search_glob (pattern : str) : res obj :=
      do wids <- globToWordIds pattern lx;
      do L <- search_wids ix (remove_oov ix wids);
      o_union L.
    (** baseindex.py:197-213 [search_phrase]; [result] is a new object, [hits] need not be *)
    Definition o_search_phrase (phrase : ltext) : res obj :=
      let wids := termToWordIds pipeline phrase lx in
      let cleaned := remove_oov ix wids in
      if negb (Zlen wids =? Zlen cleaned) then Ok (Own empty)
      else
        do scores <- search_wids ix wids;
        do hits <- o_intersection scores;
        if is_empty (val ix hits) then Ok hits
        else
          do code <- encode wids;
          rmap Own (phrase_loop ix code (elts (val ix hits)) empty).

    Definition o_add_part (L : list (obj * F)) (r : option obj) : list (obj * F) :=
      match r with Some m => L ++ [(m, f1)] | None => L end.
    (** parsetree.py:91-95; [IF.difference] makes a new object *)
    Definition o_and_combine (L Nots : list (obj * F)) : res (option obj) :=
      do set <- o_intersection L;
      match Nots with
      | [] => Ok (Some set)
      | _ :: _ => do notset <- o_union Nots; Ok (Some (Own (mdiff (val ix set) (val ix notset))))
      end.
    (** parsetree.py:65-66, 73-95, 102-112, 122-139 *)
    Fixpoint o_execute (n : node) : res (option obj) :=
      match n with
      | NAtom w => o_search (TxStr w)
      | NPhrase ws => rmap Some (o_search_phrase (TxList ws))
      | NGlob w => rmap Some (o_search_glob w)
      | NNot _ => Raise QueryError
      | NAnd l =>
          do (L, Nots) <-
            (fix loop (l : list node) (L Nots : list (obj * F)) : res (list (obj * F) * list (obj * F)) :=
               match l with
               | [] => Ok (L, Nots)
               | NNot m :: l' => do r <- o_execute m; loop l' L (o_add_part Nots r)
               | x :: l' => do r <- o_execute x; loop l' (o_add_part L r) Nots
               end) l [] [];
          o_and_combine L Nots
      | NOr l =>
          do weighted <-
            (fix loop (l : list node) (weighted : list (obj * F)) : res (list (obj * F)) :=
               match l with
               | [] => Ok weighted
               | x :: l' => do r <- o_execute x; loop l' (o_add_part weighted r)
               end) l [];
          do r <- o_union weighted; Ok (Some r)
      end.
  End Ops.

  (** textindex.py:83-89.  The items are read before they are assigned to: each is
      assigned once, after it was read. *)
  Fixpoint o_normalise_loop (items : list (Z * F)) (qw : F) (ix : bindex V) (results : obj) : bindex V * res obj :=
    match items with
    | [] => (ix, Ok results)
    | (docid, score) :: items' =>
        match py_div score qw with
        | Raise e => (ix, Raise e)
        | Ok q => let (ix', results') := assign results docid q ix in o_normalise_loop items' qw ix' results'
        end
    end.

  Variable space : char -> bool.
  Variable upper : str -> str.
  Variables qpipeline pipeline : list elem.
  Variable search_wids : bindex V -> list Z -> res (list (obj * F)).
  Variable query_weight : sys V -> list ltext -> res F.

  (** textindex.py:70-91: the index afterwards, and what is returned *)
  Definition o_apply (s : sys V) (querytext : str) : sys V * pres (option obj) :=
    match parseQuery space upper (fun t => parseTerms qpipeline (TxStr t)) isGlob querytext with
    | PErr e => (s, PErr e)
    | POk (tree, _) =>
        match o_execute (six s) pipeline search_wids (slx s) tree with
        | Raise e => (s, PErr (PExn e))
        | Ok None => (s, POk None)
        | Ok (Some results) =>
            if is_empty (val (six s) results) then (s, POk (Some results))
            else
              match query_weight s (map term_text (terms tree)) with
              | Raise e => (s, PErr (PExn e))
              | Ok qw =>
                  let qw := if feqb qw f0 then f1 else qw in
                  let qw := fmul qw f1 in
                  match o_normalise_loop (elts (val (six s) results)) qw (six s) results with
                  | (ix', Ok r) => (mkSys (slx s) ix', POk (Some r))
                  | (ix', Raise e) => (mkSys (slx s) ix', PErr (PExn e))
                  end
              end
        end
    end.
End Alias.

(** okapiindex.py:295, 343: [result = self.family.IF.Bucket()] for every word, in both
    versions of [_search_wids]. *)
Definition okapi_objs {F} (search_wids : bindex Z -> list Z -> res (list (smap Z F * F)))
    (ix : bindex Z) (wids : list Z) : res (list (mobj F * F)) :=
  rmap (map (fun p => (Own (fst p), snd p))) (search_wids ix wids).

Section CosineObjs.
  Context {F : Type} {AF : Arith F}.
  (** The items of [_wordinfo[wid]]. *)
  Definition cos_read (ix : bindex F) (wid : Z) : smap Z F :=
    match get (wordinfo ix) wid with Some p => p_map p | None => empty end.
  Definition cos_write (wid docid : Z) (v : F) (ix : bindex F) : bindex F :=
    match get (wordinfo ix) wid with
    | Some p => set_wordinfo (put wid (p_set f32 docid v p) (wordinfo ix)) ix
    | None => ix
    end.
  (** cosineindex.py:72-79: a dict is copied, a BTree is not *)
  Definition cos_obj (ix : bindex F) (wid : Z) : res (mobj F * F) :=
    do (m, idf) <- cos_search_wid ix wid;
    Ok (match get (wordinfo ix) wid with
        | Some p => if p_dict p then Own m else Posting wid
        | None => Own m
        end, idf).
  Definition cos_objs (ix : bindex F) (wids : list Z) : res (list (mobj F * F)) := mapM (cos_obj ix) wids.
End CosineObjs.
