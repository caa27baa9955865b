(** * Examples of programs with several text indexes *)
From Verif Require Import Text S_split L_share L_textex S_share IEEE L_ieee Arith SMap Ord.
Open Scope string_scope.
Open Scope list_scope.
Open Scope Z_scope.

(** A lexicon used by two Okapi indexes, one of them in a TextIndex, and a cosine index; a
    TextIndex that shares the first index; one that has everything for itself. *)
Definition share_prog : list shop := [
  NewLexicon ascii_pipeline;                                  (* lexicon 0 *)
  NewOkapi 0;                                                 (* index 0 *)
  NewText (Some 0%nat) None;                                  (* TextIndex 0: lexicon 0, index 1 *)
  NewText None (Some 0%nat);                                  (* TextIndex 1: lexicon 0, index 0; makes lexicon 1 *)
  NewCosine 0;                                                (* index 2 *)
  NewText None None;                                          (* TextIndex 2: lexicon 2, index 3 *)
  IxIndex 0 1 (TxStr (txt "quick brown fox"));
  TiIndex 0 1 (TxStr (txt "lazy dog"));
  LexText 0 (TxStr (txt "gnu"));
  TiIndex 1 2 (TxStr (txt "brown dog"));
  IxIndex 2 7 (TxStr (txt "brown dog"));
  TiIndex 2 9 (TxStr (txt "brown dog"));
  TiUnindex 0 2;
  IxClear 1;
  TiIndex 0 5 (TxStr (txt "brown gnu")) ].
Lemma share_prog_ok : sensible ascii_word ascii_lower share_prog /\ few_words ascii_word ascii_lower share_prog.
Proof. split; [apply check_sensible_ok|apply check_few_ok]; vm_compute; reflexivity. Qed.

(** A TextIndex whose lexicon is not that of its index. *)
Definition split_only : list elem := [Splitter ascii_word].
Definition other_prog : list shop := [
  NewLexicon split_only; NewOkapi 0; NewLexicon ascii_pipeline; NewText (Some 1%nat) (Some 0%nat); NewText None (Some 0%nat);
  TiIndex 0 1 (TxStr (txt "Dog")) ].
Lemma other_prog_ok : sensible ascii_word ascii_lower other_prog /\ few_words ascii_word ascii_lower other_prog.
Proof. split; [apply check_sensible_ok|apply check_few_ok]; vm_compute; reflexivity. Qed.
Lemma other_lexicon :
  match sh_apply (AF := Arith_b64 (fun x => x)) ascii_space ascii_upper K1_b64 B_b64 (fst (sh_run (AF := Arith_b64 (fun x => x)) ascii_word ascii_lower other_prog)) 0 (txt "Dog") 0 None,
        sh_apply (AF := Arith_b64 (fun x => x)) ascii_space ascii_upper K1_b64 B_b64 (fst (sh_run (AF := Arith_b64 (fun x => x)) ascii_word ascii_lower other_prog)) 1 (txt "Dog") 0 None with
  | Some (POk (Some m1)), Some (POk (Some m2)) => mem 1 m1 = false /\ mem 1 m2 = true
  | _, _ => False
  end.
Proof. vm_compute. auto. Qed.
