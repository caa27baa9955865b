(** * Specification of answers that are the caller's own *)
From Verif Require Export M_fheap M_field SMap PyVal Ord.

Fixpoint change_nth {A} (k : nat) (f : A -> A) (l : list A) : list A :=
  match l, k with
  | [], _ => []
  | x :: l', O => f x :: l'
  | x :: l', S k' => x :: change_nth k' f l'
  end.
(** The calls made to the index, and the answers: each as it was when given, but for what the
    caller did to it. *)
Definition own_event {T} `{Ord T} (c : list (fop T) * list (sset Z)) (e : hevent T) : list (fop T) * list (sset Z) :=
  match e with
  | HCall o => (fst c ++ [o], snd c)
  | HQuery q => (fst c, match f_apply q (f_run (fst c)) with Ok s => snd c ++ [s] | Raise _ => snd c end)
  | HChange k f => (fst c, change_nth k f (snd c))
  end.
Definition own_answers {T} `{Ord T} (evs : list (hevent T)) : list (fop T) * list (sset Z) := fold_left own_event evs ([], []).
