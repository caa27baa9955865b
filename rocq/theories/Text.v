(** * Text: readable strings for examples (nothing else uses this file). *)
From Coq Require Import List ZArith.
From Verif Require Export Txt.
From Verif Require Import Prelude M_parser S_split M_split.
Open Scope list_scope.
Open Scope Z_scope.

(** An ASCII lexicon: \s, \w, lower and upper restricted to ASCII, with the pipeline
    Splitter, CaseNormalizer, StopWordRemover. *)
Definition ascii_space (c : char) : bool := (c =? 32) || ((9 <=? c) && (c <=? 13)).
Definition ascii_upper (s : str) : str := map (fun c => if (97 <=? c) && (c <=? 122) then c - 32 else c) s.
Definition ascii_pipeline : list elem := [Splitter ascii_word; CaseNormalizer ascii_lower; StopWordRemover].
Definition ascii_terms (a : str) : list str := parseTerms ascii_pipeline (TxStr a).
Definition ascii_query : str -> pres (node * list str) := parseQuery ascii_space ascii_upper ascii_terms isGlob.
