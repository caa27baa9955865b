(** * Shared specification vocabulary (independent of the models). *)
From Verif Require Export Prelude.

(** [p] occurs in [l] at consecutive positions. *)
Definition contiguous {A} (p l : list A) : Prop := exists a b, l = a ++ p ++ b.

(** Word ids that widcode supports: 28 bits. *)
Definition wid_ok (w : Z) : Prop := 0 <= w < 2 ^ 28.
