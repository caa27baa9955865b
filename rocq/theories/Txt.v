(** * Txt: strings of characters written as Coq string literals (ASCII). *)
From Coq Require Export Ascii String.
From Coq Require Import List ZArith.
From Verif Require Import Prelude.
Open Scope list_scope.
Open Scope Z_scope.

Definition txt (s : string) : str := map (fun a => Z.of_N (N_of_ascii a)) (list_ascii_of_string s).
