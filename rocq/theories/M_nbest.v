(** * Model of /repo/src/zope/index/nbest.py
    Scores are any totally ordered type [S] (Python numbers without NaN); items
    are arbitrary. *)
From Verif Require Export PyList Ord.

(** CPython's [bisect.bisect_left] (external, Lib/bisect.py): binary search with
    explicit fuel. *)
Fixpoint bisect_loop {S} `{Ord S} (fuel : nat) (a : list S) (x : S) (lo hi : nat) : res nat :=
  match fuel with
  | O => Raise OutOfFuel
  | Datatypes.S n =>
      if (lo <? hi)%nat then
        let mid := ((lo + hi) / 2)%nat in
        match nth_error a mid with
        | None => Raise IndexError
        | Some y => if ltb y x then bisect_loop n a x (mid + 1) hi else bisect_loop n a x lo mid
        end
      else Ok lo
  end.
Definition bisect_left {S} `{Ord S} (a : list S) (x : S) : res nat :=
  bisect_loop (length a + 1) a x 0 (length a).

Section NBest.
  Context {A S : Type} `{OS : Ord S}.

  (** nbest.py:36-42 *)
  Record nbest := NBest { nb_capacity : Z; nb_scores : list S; nb_items : list A }.

  (** nbest.py:31-42 [__init__] *)
  Definition nb_new (N : Z) : res nbest :=
    if N <? 1 then Raise ValueError else Ok (NBest N [] []).

  (** nbest.py:44-45 [__len__] *)
  Definition nb_len (nb : nbest) : Z := Zlen (nb_scores nb).

  (** nbest.py:56-68: one iteration of the loop of [addmany]; the state is the
      local variable [n] and the two lists. *)
  Definition add_one (capacity : Z) (st : Z * list S * list A) (p : A * S)
    : res (Z * list S * list A) :=
    let '(n, scores, items) := st in let '(item, score) := p in
    do skip <- (if capacity <=? n
                then do s0 <- py_get scores 0; Ok (leb score s0)
                else Ok false);
    if (skip : bool) then Ok (n, scores, items)
    else
      do i <- bisect_left scores score;
      let scores1 := insert_at i score scores in
      let items1 := insert_at i item items in
      if n =? capacity then Ok (n, tl scores1, tl items1)
      else Ok (n + 1, scores1, items1).

  Fixpoint add_loop (capacity : Z) (st : Z * list S * list A) (l : list (A * S))
    : res (Z * list S * list A) :=
    match l with
    | [] => Ok st
    | p :: l' => do st' <- add_one capacity st p; add_loop capacity st' l'
    end.

  (** nbest.py:53-69 [addmany].  Simplification: if an exception occurred inside the
      loop the partial update would be lost; C09/C10 show that none occurs. *)
  Definition nb_addmany (nb : nbest) (l : list (A * S)) : res nbest :=
    do r <- add_loop (nb_capacity nb) (Zlen (nb_scores nb), nb_scores nb, nb_items nb) l;
    let '(n, scores, items) := r in
    if n =? Zlen scores then Ok (NBest (nb_capacity nb) scores items)
    else Raise AssertionError.

  (** nbest.py:50-51 [add] *)
  Definition nb_add (nb : nbest) (item : A) (score : S) : res nbest :=
    nb_addmany nb [(item, score)].

  (** nbest.py:71-74 [getbest] *)
  Definition nb_getbest (nb : nbest) : list (A * S) :=
    rev (combine (nb_items nb) (nb_scores nb)).

  (** nbest.py:76-79 [pop_smallest]; [list.pop(0)] of an empty list raises IndexError. *)
  Definition nb_pop_smallest (nb : nbest) : res (A * S * nbest) :=
    match nb_scores nb with
    | s :: scores =>
        match nb_items nb with
        | it :: items => Ok (it, s, NBest (nb_capacity nb) scores items)
        | [] => Raise IndexError
        end
    | [] => Raise IndexError
    end.
End NBest.
Arguments nbest A S : clear implicits.

(** Client calls and their results (the quantifier of C10). *)
Inductive nb_op A S :=
| NAdd (item : A) (score : S) | NAddMany (l : list (A * S)) | NPop | NGetbest | NLen.
Inductive nb_out A S :=
| ODone | OPair (p : A * S) | OList (l : list (A * S)) | OLen (n : Z) | OExc (e : exn).
Arguments NAdd {A S}. Arguments NAddMany {A S}. Arguments NPop {A S}.
Arguments NGetbest {A S}. Arguments NLen {A S}.
Arguments ODone {A S}. Arguments OPair {A S}. Arguments OList {A S}.
Arguments OLen {A S}. Arguments OExc {A S}.

Definition nb_step {A S} `{Ord S} (nb : nbest A S) (o : nb_op A S) : nbest A S * nb_out A S :=
  match o with
  | NAdd it s => match nb_add nb it s with Ok nb' => (nb', ODone) | Raise e => (nb, OExc e) end
  | NAddMany l => match nb_addmany nb l with Ok nb' => (nb', ODone) | Raise e => (nb, OExc e) end
  | NPop => match nb_pop_smallest nb with
            | Ok (it, s, nb') => (nb', OPair (it, s)) | Raise e => (nb, OExc e) end
  | NGetbest => (nb, OList (nb_getbest nb))
  | NLen => (nb, OLen (nb_len nb))
  end.
Fixpoint nb_run {A S} `{Ord S} (nb : nbest A S) (os : list (nb_op A S)) : list (nb_out A S) :=
  match os with
  | [] => []
  | o :: os' => let '(nb', out) := nb_step nb o in out :: nb_run nb' os'
  end.
Fixpoint nb_exec {A S} `{Ord S} (nb : nbest A S) (os : list (nb_op A S)) : nbest A S :=
  match os with [] => nb | o :: os' => nb_exec (fst (nb_step nb o)) os' end.

(** Pop until empty (or [fuel] times). *)
Fixpoint nb_popall {A S} `{Ord S} (fuel : nat) (nb : nbest A S) : list (A * S) * nbest A S :=
  match fuel with
  | O => ([], nb)
  | Datatypes.S n =>
      match nb_pop_smallest nb with
      | Ok (it, s, nb') => let '(r, nb'') := nb_popall n nb' in ((it, s) :: r, nb'')
      | Raise _ => ([], nb)
      end
  end.
