(** * Specification of the pipeline elements *)
From Verif Require Import Txt.
From Verif Require Export M_split SMap Ord.

(** [runs p s ws]: [ws] are the maximal runs of characters of class [p] in [s]. *)
Inductive runs (p : char -> bool) : str -> list str -> Prop :=
| runs_nil : runs p [] []
| runs_sep c s ws : p c = false -> runs p s ws -> runs p (c :: s) ws
| runs_word w s ws : w <> [] -> Forall (fun c => p c = true) w ->
    (forall c s', s = c :: s' -> p c = false) -> runs p s ws -> runs p (w ++ s) (w :: ws).

(** The English stop words (those of Lucene). *)
Definition english_stop_words : list str := map txt
  ["a"; "and"; "are"; "as"; "at"; "be"; "but"; "by"; "for"; "if"; "in"; "into"; "is"; "it"; "no"; "not"; "of"; "on";
   "or"; "such"; "that"; "the"; "their"; "then"; "there"; "these"; "they"; "this"; "to"; "was"; "will"; "with"]%string.

(** [glob_runs p s ws]: [ws] are the runs that begin with a character of class [p]
    and go on with such characters, '*' and '?', as far as possible. *)
Inductive glob_runs (p : char -> bool) : str -> list str -> Prop :=
| gruns_nil : glob_runs p [] []
| gruns_sep c s ws : p c = false -> glob_runs p s ws -> glob_runs p (c :: s) ws
| gruns_word c w s ws : p c = true -> Forall (fun c => p c = true \/ c = chr_star \/ c = chr_qm) w ->
    (forall c s', s = c :: s' -> p c = false /\ c <> chr_star /\ c <> chr_qm) ->
    glob_runs p s ws -> glob_runs p (c :: w ++ s) ((c :: w) :: ws).

(** What is needed of [str.lower] around markup: '<', '>', '&', ';' and blank are
    unchanged, nothing else becomes one of them, lower-casing works on both sides
    independently, and ASCII letters become ASCII letters. *)
Definition letter (c : char) : Prop := 65 <= c <= 90 \/ 97 <= c <= 122.
Definition markup_chars : list char := [60; 62; 38; 59; 32].
Record lower_ok (lower : str -> str) : Prop := {
  lower_app : forall c a b, In c markup_chars -> lower (a ++ c :: b) = lower a ++ c :: lower b;
  lower_In : forall c s, In c markup_chars -> In c (lower s) <-> In c s;
  lower_letters : forall s, s <> [] -> Forall letter s -> lower s <> [] /\ Forall letter (lower s)
}.
(** No tag is open at the end of [a]. *)
Definition no_open_tag (a : str) : Prop := forall u v, a = u ++ 60 :: v -> In 62 v.

(** ASCII lower-casing *)
Definition ascii_lower (s : str) : str := map (fun c => if (65 <=? c) && (c <=? 90) then c + 32 else c) s.
Definition ascii_word (c : char) : bool :=
  ((48 <=? c) && (c <=? 57)) || ((65 <=? c) && (c <=? 90)) || ((97 <=? c) && (c <=? 122)) || (c =? 95).
