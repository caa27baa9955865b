(** * Specification of NBest: a list of at most N pairs, best first. *)
From Verif Require Export Sort M_nbest Ord.

(** Higher scores first. *)
Definition score_desc {A S} `{Ord S} (p q : A * S) : bool := leb (snd q) (snd p).

(** Insert after all pairs of at least the same score. *)
Definition best_insert {A S} `{Ord S} (p : A * S) (l : list (A * S)) : list (A * S) :=
  filter (fun q => leb (snd p) (snd q)) l ++ [p] ++ filter (fun q => ltb (snd q) (snd p)) l.

(** The abstract machine. *)
Definition best_add {A S} `{Ord S} (N : nat) (l : list (A * S)) (p : A * S) : list (A * S) :=
  firstn N (best_insert p l).

Definition best_step {A S} `{Ord S} (N : nat) (l : list (A * S)) (o : nb_op A S)
  : list (A * S) * nb_out A S :=
  match o with
  | NAdd it s => (best_add N l (it, s), ODone)
  | NAddMany ps => (fold_left (best_add N) ps l, ODone)
  | NPop => match rev l with [] => (l, OExc IndexError) | p :: _ => (removelast l, OPair p) end
  | NGetbest => (l, OList l)
  | NLen => (l, OLen (Zlen l))
  end.
Fixpoint best_run {A S} `{Ord S} (N : nat) (l : list (A * S)) (os : list (nb_op A S))
  : list (nb_out A S) :=
  match os with
  | [] => []
  | o :: os' => let '(l', out) := best_step N l o in out :: best_run N l' os'
  end.
Fixpoint best_exec {A S} `{Ord S} (N : nat) (l : list (A * S)) (os : list (nb_op A S)) : list (A * S) :=
  match os with [] => l | o :: os' => best_exec N (fst (best_step N l o)) os' end.

(** Everything a history of calls adds. *)
Definition added {A S} (os : list (nb_op A S)) : list (A * S) :=
  concat (map (fun o => match o with NAdd it s => [(it, s)] | NAddMany ps => ps | _ => [] end) os).
Definition no_pop {A S} (os : list (nb_op A S)) : Prop :=
  Forall (fun o => match o with NPop => False | _ => True end) os.
