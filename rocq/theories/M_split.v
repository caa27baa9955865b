(** * Model of the pipeline elements (/repo/src/zope/index/text/lexicon.py:171-225,
      text/htmlsplitter.py, text/stopdict.py)

    [word_char] is the class \w, [lower] is [str.lower]; both are arbitrary. *)
From Verif Require Export M_lexicon Regex SMap Ord.

Section Pipeline.
  Variable word_char : char -> bool.
  Variable lower : str -> str.

  (** lexicon.py:176 and htmlsplitter.py:26: \w+ *)
  Definition rx_word : regex := RPlus (RChr word_char).
  Definition word_or_glob (c : char) : bool := word_char c || is_glob_char c.
  (** lexicon.py:177 and htmlsplitter.py:27: \w+[\w*?]* *)
  Definition rx_glob : regex := RSeq (RPlus (RChr word_char)) (RStar (RChr word_or_glob)).

  (** lexicon.py:179-189 [Splitter.process] and [processGlob] *)
  Definition splitter_process (lst : list str) : list str := flat_map (findall rx_word) lst.
  Definition splitter_processGlob (lst : list str) : list str := flat_map (findall rx_glob) lst.
  Definition Splitter : elem := mkElem splitter_process (Some splitter_processGlob).

  (** lexicon.py:199-200 [CaseNormalizer.process] *)
  Definition case_process (lst : list str) : list str := map lower lst.
  Definition CaseNormalizer : elem := mkElem case_process None.

  (** stopdict.py:27-37: the keys of the dict *)
  Definition stop_words : list str :=
    [[97]; [97; 110; 100]; [97; 114; 101]; [97; 115]; [97; 116]; [98; 101]; [98; 117; 116]; [98; 121];
     [102; 111; 114]; [105; 102]; [105; 110]; [105; 110; 116; 111]; [105; 115]; [105; 116]; [110; 111];
     [110; 111; 116]; [111; 102]; [111; 110]; [111; 114]; [115; 117; 99; 104]; [116; 104; 97; 116];
     [116; 104; 101]; [116; 104; 101; 105; 114]; [116; 104; 101; 110]; [116; 104; 101; 114; 101];
     [116; 104; 101; 115; 101]; [116; 104; 101; 121]; [116; 104; 105; 115]; [116; 111]; [119; 97; 115];
     [119; 105; 108; 108]; [119; 105; 116; 104]].
  (** lexicon.py:212: [get_stopdict().copy()] *)
  Definition stopdict : sset str := set_of_list stop_words.
  (** lexicon.py:214-215 [StopWordRemover.process] *)
  Definition remove_in (d : sset str) (lst : list str) : list str := filter (fun w => negb (mem w d)) lst.
  Definition stop_process : list str -> list str := remove_in stopdict.
  Definition StopWordRemover : elem := mkElem stop_process None.
  (** lexicon.py:223-225: [for c in range(255): dict[chr(c)] = None] *)
  Definition stopdict1 : sset str :=
    fold_left (fun d c => sadd [Z.of_nat c] d) (seq 0 255) stopdict.
  Definition stop1_process : list str -> list str := remove_in stopdict1.
  Definition StopWordAndSingleCharRemover : elem := mkElem stop1_process None.

  (** htmlsplitter.py:23 [MARKUP] = <[^<>]*> or &[A-Za-z]+; *)
  Definition not_angle (c : char) : bool := negb ((c =? 60) || (c =? 62)).
  Definition ascii_letter (c : char) : bool := ((65 <=? c) && (c <=? 90)) || ((97 <=? c) && (c <=? 122)).
  Definition rx_markup : regex :=
    RAlt (RSeq (lit 60) (RSeq (RStar (RChr not_angle)) (lit 62)))
         (RSeq (lit 38) (RSeq (RPlus (RChr ascii_letter)) (lit 59))).
  (** htmlsplitter.py:51-53 [_split] *)
  Definition html_split (rx : regex) (text : str) : list str := findall rx (re_sub rx_markup [32] (lower text)).
  (** htmlsplitter.py:38-49 *)
  Definition html_process (lst : list str) : list str := flat_map (html_split rx_word) lst.
  Definition html_processGlob (lst : list str) : list str := flat_map (html_split rx_glob) lst.
  Definition HTMLWordSplitter : elem := mkElem html_process (Some html_processGlob).
End Pipeline.
