(** * Several text indexes: lexicons, indexes and TextIndex objects that share each other

    text/textindex.py:39-91, text/lexicon.py:37-46, text/baseindex.py:45-51: an index has a
    reference to a lexicon, and a TextIndex has references to a lexicon and to an index.
    Programs may create these objects in any combination and call their methods in any
    order (baseindex.py:63-64: "lexicons can also be shared across indices").  Objects are referred to by number, in the order of their creation.  The code of the
    lexicon and of the indexes is that of [M_lexicon], [M_baseindex], [M_okapi], [M_cosine].

    Simplifications: queries are not among the calls of a program (see C74 for what they
    change); a reference to an object that was never created does nothing. *)
From Verif Require Export M_textindex M_okapi M_cosine Arith SMap Ord.

Section Share.
  Context {F : Type} {AF : Arith F}.
  Variable word_char : char -> bool.
  Variable lower : str -> str.

  (** okapiindex.py:223, cosineindex.py:27: an index of either class.  [ix_lexicon] is [self._lexicon]
      (baseindex.py:47-51). *)
  Inductive content := COkapi (ix : bindex Z) | CCosine (ix : bindex F).
  Record index := mkIndex { ix_lexicon : nat; ix_content : content }.
  (** textindex.py:50-51 *)
  Record tindex := mkTindex { ti_lexicon : nat; ti_index : nat }.
  (** lexicon.py:37-46: a lexicon has its pipeline, and its words *)
  Record lexicon := mkLexicon { lx_pipeline : list elem; lx_words : lex }.
  Record sworld := mkSworld { s_lexicons : list lexicon; s_indexes : list index; s_texts : list tindex }.

  Inductive shop :=
  | NewLexicon (pipeline : list elem)                      (* Lexicon( *pipeline ) *)
  | NewOkapi (l : nat)                                     (* OkapiIndex(l) *)
  | NewCosine (l : nat)                                    (* CosineIndex(l) *)
  | NewText (l i : option nat)                             (* TextIndex(l, i) *)
  | LexText (l : nat) (t : ltext)                          (* l.sourceToWordIds(t) *)
  | IxIndex (i : nat) (d : Z) (t : ltext)                  (* i.index_doc(d, t) *)
  | IxUnindex (i : nat) (d : Z)                            (* i.unindex_doc(d) *)
  | IxClear (i : nat)                                      (* i.clear() *)
  | TiIndex (k : nat) (d : Z) (t : ltext)                  (* k.index_doc(d, t), k a TextIndex *)
  | TiUnindex (k : nat) (d : Z)
  | TiClear (k : nat).

  Fixpoint set_nth {A} (n : nat) (x : A) (l : list A) : list A :=
    match l, n with
    | [], _ => []
    | _ :: l', O => x :: l'
    | y :: l', S n' => y :: set_nth n' x l'
    end.

  (** lexicon.py:37-46 *)
  Definition new_lexicon (pipeline : list elem) (w : sworld) : nat * sworld :=
    (length (s_lexicons w), mkSworld (s_lexicons w ++ [mkLexicon pipeline lex_new]) (s_indexes w) (s_texts w)).
  (** baseindex.py:47-51, okapiindex.py:223-238, cosineindex.py:27-36 *)
  Definition new_index (l : nat) (c : content) (w : sworld) : nat * sworld :=
    (length (s_indexes w),
     match nth_error (s_lexicons w) l with
     | Some _ => mkSworld (s_lexicons w) (s_indexes w ++ [mkIndex l c]) (s_texts w)
     | None => w
     end).
  (** textindex.py:50: [index.lexicon] (baseindex.py:45) *)
  Definition lexicon_of_index (w : sworld) (i : nat) : nat :=
    match nth_error (s_indexes w) i with Some ix => ix_lexicon ix | None => 0%nat end.
  (** textindex.py:40-51 [TextIndex.__init__].  A lexicon given explicitly is always true as a
      condition: Lexicon defines neither [__len__] nor [__bool__]. *)
  Definition new_text (lexicon index : option nat) (w : sworld) : sworld :=
    let '(explicit, (l, w)) :=
      match lexicon with
      | None => (false, new_lexicon (default_pipeline word_char lower) w)
      | Some l => (true, (l, w))
      end in
    let '(i, w) := match index with None => new_index l (COkapi ix_new) w | Some i => (i, w) end in
    let l := if (explicit : bool) then l else lexicon_of_index w i in
    mkSworld (s_lexicons w) (s_indexes w) (s_texts w ++ [mkTindex l i]).

  (** A method of an index, which uses and changes its lexicon too. *)
  Definition with_index (i : nat) (o : top) (w : sworld) : sworld * res unit :=
    match nth_error (s_indexes w) i with
    | None => (w, Ok tt)
    | Some x =>
        match nth_error (s_lexicons w) (ix_lexicon x) with
        | None => (w, Ok tt)
        | Some lx =>
            let p := lx_pipeline lx in
            match ix_content x with
            | COkapi ix =>
                let (s, r) := op_step p (okapi_index_doc p) okapi_unindex_doc o (mkSys (lx_words lx) ix) in
                (mkSworld (set_nth (ix_lexicon x) (mkLexicon p (slx s)) (s_lexicons w))
                          (set_nth i (mkIndex (ix_lexicon x) (COkapi (six s))) (s_indexes w)) (s_texts w), r)
            | CCosine ix =>
                let (s, r) := op_step p (cos_index_doc p) base_unindex_doc o (mkSys (lx_words lx) ix) in
                (mkSworld (set_nth (ix_lexicon x) (mkLexicon p (slx s)) (s_lexicons w))
                          (set_nth i (mkIndex (ix_lexicon x) (CCosine (six s))) (s_indexes w)) (s_texts w), r)
            end
        end
    end.
  (** textindex.py:53-60: the methods of a TextIndex call those of its index *)
  Definition with_text (k : nat) (o : top) (w : sworld) : sworld * res unit :=
    match nth_error (s_texts w) k with Some ti => with_index (ti_index ti) o w | None => (w, Ok tt) end.

  Definition sh_step (c : shop) (w : sworld) : sworld * res unit :=
    match c with
    | NewLexicon p => (snd (new_lexicon p w), Ok tt)
    | NewOkapi l => (snd (new_index l (COkapi ix_new) w), Ok tt)
    | NewCosine l => (snd (new_index l (CCosine ix_new) w), Ok tt)
    | NewText l i => (new_text l i w, Ok tt)
    | LexText l t =>
        match nth_error (s_lexicons w) l with
        | None => (w, Ok tt)
        | Some lx =>
            let (words, r) := sourceToWordIds (lx_pipeline lx) t (lx_words lx) in
            (mkSworld (set_nth l (mkLexicon (lx_pipeline lx) words) (s_lexicons w)) (s_indexes w) (s_texts w),
             rmap (fun _ => tt) r)
        end
    | IxIndex i d t => with_index i (TIndex d t) w
    | IxUnindex i d => with_index i (TUnindex d) w
    | IxClear i => with_index i TClear w
    | TiIndex k d t => with_text k (TIndex d t) w
    | TiUnindex k d => with_text k (TUnindex d) w
    | TiClear k => with_text k TClear w
    end.
  (** A program goes on after an exception. *)
  Definition sh_run (cs : list shop) : sworld * list (res unit) :=
    fold_left (fun wr c => let (w, r) := sh_step c (fst wr) in (w, snd wr ++ [r])) cs (mkSworld [] [] [], []).

  (** textindex.py:70-91 [apply] of TextIndex object [k]; [K1] and [B] are those of
      okapiindex.py:218-219 *)
  Variable space : char -> bool.
  Variable upper : str -> str.
  Variables (K1 B : F).
  Definition sh_apply (w : sworld) (k : nat) (query : str) (start : Z) (count : option Z) : option (pres (option (smap Z F))) :=
    match nth_error (s_texts w) k with
    | None => None
    | Some ti =>
        match nth_error (s_lexicons w) (ti_lexicon ti), nth_error (s_indexes w) (ti_index ti) with
        | Some qlx, Some x =>
            match nth_error (s_lexicons w) (ix_lexicon x) with
            | None => None
            | Some lx =>
                let p := lx_pipeline lx in
                Some (match ix_content x with
                      | COkapi ix => apply space upper (lx_pipeline qlx) p (python_search_wids K1 B) (okapi_query_weight p K1)
                                           (mkSys (lx_words lx) ix) query start count
                      | CCosine ix => apply space upper (lx_pipeline qlx) p cos_search_wids (cos_query_weight p)
                                            (mkSys (lx_words lx) ix) query start count
                      end)
            end
        | _, _ => None
        end
    end.
End Share.
Arguments sworld : clear implicits.
Arguments content : clear implicits.
Arguments index : clear implicits.
