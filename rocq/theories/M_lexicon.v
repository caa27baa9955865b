(** * Model of the class Lexicon (/repo/src/zope/index/text/lexicon.py:31-165)

    Simplification: word ids are unbounded integers (the BTrees hold 32-bit ones). *)
From Verif Require Export Regex SMap Ord.

(** ** Python's [re.compile] and [re.escape], as far as glob patterns need them *)

Definition chr_star := 42. (* '*' *)
Definition chr_qm := 63. (* '?' *)
Definition is_glob_char (c : char) : bool := (c =? chr_star) || (c =? chr_qm).

(** External: [re.escape] of one character: a backslash before the characters
    ()[]{}?*+-|^$\.&~# and ASCII white space. *)
Definition special_chars : list char :=
  [40; 41; 91; 93; 123; 125; 63; 42; 43; 45; 124; 94; 36; 92; 46; 38; 126; 35; 32; 9; 10; 13; 11; 12].
Definition re_escape (c : char) : str := if memZ c special_chars then [92; c] else [c].

Definition is_ascii_alnum (c : char) : bool :=
  ((48 <=? c) && (c <=? 57)) || ((65 <=? c) && (c <=? 90)) || ((97 <=? c) && (c <=? 122)).
Definition lit (c : char) : regex := RChr (fun x => x =? c).
(** '.' without DOTALL *)
Definition dot : regex := RChr (fun x => negb (x =? 10)).
Definition rseq (rs : list regex) : regex := fold_right RSeq REps rs.
Fixpoint ralt (rs : list regex) : regex :=
  match rs with [] => REps | [r] => r | r :: rs' => RAlt r (ralt rs') end.

(** External: [re.compile], for patterns made of literals, '.', '$', '|',
    backslash followed by a non-alphanumeric character, and '*', '+', '?' after a
    character.  Anything else (groups, classes, '^', '{', lazy repeats ...) is not
    modelled and gives [ReError], which here stands for "unknown".
    [cur] is the current branch in reverse, [rep] tells whether its last item may
    be repeated. *)
Fixpoint re_parse (s : str) (cur : list regex) (rep : bool) (branches : list regex) : res regex :=
  match s with
  | [] => Ok (ralt (rev (rseq (rev cur) :: branches)))
  | c :: s' =>
      if c =? 124 then re_parse s' [] false (rseq (rev cur) :: branches)
      else if c =? 46 then re_parse s' (dot :: cur) true branches
      else if c =? 36 then re_parse s' (REnd :: cur) false branches
      else if memZ c [42; 43; 63] then
        match rep, cur with
        | true, r :: cur' =>
            re_parse s' ((if c =? 42 then RStar r else if c =? 43 then RPlus r else ROpt r) :: cur') false branches
        | _, _ => Raise ReError
        end
      else if c =? 92 then
        match s' with
        | c' :: s'' => if is_ascii_alnum c' then Raise ReError else re_parse s'' (lit c' :: cur) true branches
        | [] => Raise ReError
        end
      else if memZ c [94; 40; 41; 91; 123] then Raise ReError
      else re_parse s' (lit c :: cur) true branches
  end.
Definition re_compile (s : str) : res regex := re_parse s [] false [].

(** ** The lexicon *)

(** lexicon.py:37-46 *)
Record lex := mkLex {
  lwids : smap str Z;
  lwords : smap Z str;
  lcount : Z
}.
Definition lex_new : lex := mkLex empty empty 0.

(** A pipeline element; [processGlob] is optional (lexicon.py:90). *)
Record elem := mkElem {
  process : list str -> list str;
  processGlob : option (list str -> list str)
}.

(** lexicon.py:149-155 [_new_wid].  The loop runs at most once per word plus one. *)
Fixpoint next_free (fuel : nat) (words : smap Z str) (count : Z) : res Z :=
  if mem count words then
    match fuel with
    | O => Raise OutOfFuel
    | S n => next_free n words (count + 1)
    end
  else Ok count.
Definition new_wid (lx : lex) : res Z := next_free (size (lwords lx)) (lwords lx) (lcount lx + 1).

(** lexicon.py:141-147 [_getWordIdCreate] *)
Definition getWordIdCreate (word : str) (lx : lex) : lex * res Z :=
  match get (lwids lx) word with
  | Some wid => (lx, Ok wid)
  | None =>
      match new_wid lx with
      | Ok wid => (mkLex (put word wid (lwids lx)) (put wid word (lwords lx)) wid, Ok wid)
      | Raise e => (lx, Raise e)
      end
  end.
(** lexicon.py:76: [list(map(self._getWordIdCreate, last))] *)
Fixpoint create_all (ws : list str) (lx : lex) : lex * res (list Z) :=
  match ws with
  | [] => (lx, Ok [])
  | w :: ws' =>
      match getWordIdCreate w lx with
      | (lx1, Raise e) => (lx1, Raise e)
      | (lx1, Ok wid) =>
          match create_all ws' lx1 with
          | (lx2, Raise e) => (lx2, Raise e)
          | (lx2, Ok wids) => (lx2, Ok (wid :: wids))
          end
      end
  end.

(** The text argument: None, a string, or a list of strings. *)
Inductive ltext := TxNone | TxStr (s : str) | TxList (l : list str).
(** lexicon.py:63-65 and 158-165 [_text2list] *)
Definition text2list (t : ltext) : list str :=
  match t with TxNone => [[]] | TxStr s => [s] | TxList l => l end.

(** lexicon.py:66-67 *)
Definition run_pipeline (pipeline : list elem) (l : list str) : list str :=
  fold_left (fun last el => process el last) pipeline l.
(** lexicon.py:89-91 *)
Definition run_pipeline_glob (pipeline : list elem) (l : list str) : list str :=
  fold_left (fun last el => match processGlob el with Some f => f last | None => process el last end) pipeline l.

(** lexicon.py:62-76 [sourceToWordIds] *)
Definition sourceToWordIds (pipeline : list elem) (t : ltext) (lx : lex) : lex * res (list Z) :=
  create_all (run_pipeline pipeline (text2list t)) lx.

(** lexicon.py:97-101 *)
Definition get_wid (lx : lex) (word : str) : Z := match get (lwids lx) word with Some i => i | None => 0 end.
Definition get_word (lx : lex) (wid : Z) : res str :=
  match get (lwords lx) wid with Some w => Ok w | None => Raise KeyError end.
(** lexicon.py:48-60: [wordCount] is the counter *)
Definition lex_wordCount (lx : lex) : Z := lcount lx.
Definition lex_words (lx : lex) : list str := keys (lwids lx).
Definition lex_wids (lx : lex) : list Z := keys (lwords lx).

(** lexicon.py:78-85 [termToWordIds] *)
Definition termToWordIds (pipeline : list elem) (t : ltext) (lx : lex) : list Z :=
  map (get_wid lx) (run_pipeline pipeline (text2list t)).
(** lexicon.py:87-92 [parseTerms] *)
Definition parseTerms (pipeline : list elem) (t : ltext) : list str :=
  run_pipeline_glob pipeline (text2list t).
(** lexicon.py:94-95 [isGlob] *)
Definition isGlob (word : str) : bool := existsb is_glob_char word.

(** lexicon.py:106-109 *)
Fixpoint split_prefix (pattern : str) : str * str :=
  match pattern with
  | c :: pattern' =>
      if is_glob_char c then ([], pattern)
      else let '(p, rest) := split_prefix pattern' in (c :: p, rest)
  | [] => ([], [])
  end.
(** lexicon.py:122-130 *)
Definition glob_regex_source (prefix pattern : str) : str :=
  prefix ++ flat_map (fun c => if c =? chr_star then [46; 42] else if c =? chr_qm then [46] else re_escape c) pattern
  ++ [36].
Fixpoint startswith (s prefix : str) {struct prefix} : bool :=
  match prefix, s with
  | [], _ => true
  | p :: prefix', c :: s' => (c =? p) && startswith s' prefix'
  | _ :: _, [] => false
  end.
(** lexicon.py:132-139: the loop over the keys from [prefix] on *)
Fixpoint glob_loop (prog : regex) (prefix : str) (items : list (str * Z)) : list Z :=
  match items with
  | [] => []
  | (key, wid) :: items' =>
      if startswith key prefix then
        match re_match prog key with
        | Some _ => wid :: glob_loop prog prefix items'
        | None => glob_loop prog prefix items'
        end
      else []
  end.
(** lexicon.py:103-139 [globToWordIds], for any implementation of [re.compile] *)
Definition globToWordIds_with (compile : str -> res regex) (pattern : str) (lx : lex) : res (list Z) :=
  let '(prefix, rest) := split_prefix pattern in
  match rest with
  | [] => let wid := get_wid lx prefix in Ok (if wid =? 0 then [] else [wid])
  | _ :: _ =>
      match prefix with
      | [] => Raise QueryError
      | _ :: _ =>
          do prog <- compile (glob_regex_source prefix rest);
          Ok (glob_loop prog prefix (filter (fun p => leb prefix (fst p)) (elts (lwids lx))))
      end
  end.
Definition globToWordIds : str -> lex -> res (list Z) := globToWordIds_with re_compile.

(** Histories: texts are indexed; between calls another ZODB connection may change
    the shared counter (lexicon.py:71-75). *)
Inductive lop := LText (t : ltext) | LCounter (n : Z).
Definition lex_step (pipeline : list elem) (lx : lex) (o : lop) : lex :=
  match o with
  | LText t => fst (sourceToWordIds pipeline t lx)
  | LCounter n => mkLex (lwids lx) (lwords lx) n
  end.
Definition lex_run (pipeline : list elem) (h : list lop) : lex := fold_left (lex_step pipeline) h lex_new.
