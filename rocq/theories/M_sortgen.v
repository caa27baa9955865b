(** * Model of [SortingIndexMixin.sort] as the generator it is
    (/repo/src/zope/index/field/sorting.py:35-134)

    [f_sort] of M_field.v is the list obtained by exhausting the generator at once.
    Here the caller asks for one document at a time and may change the index in
    between.  The body runs up to the next [yield] at each [next()], and not before. *)
From Verif Require Export M_field SMap PyVal Ord.

(** What a call of [next()] on the generator does.  [Unspecified]: the generator
    walks over a BTree that was modified since it began; the BTrees library does not
    say what happens then. *)
Inductive nexted := Yield (d : Z) | Stop | Err (e : exn) | Unspecified.

Section Gen.
  Context {T : Type} `{OT : Ord T}.
  Notation pyval := (pyval T).
  Notation fop := (fop T).
  Notation fstate := (fstate T).

  (** The BTrees of the index.  [clear] (field/index.py:49-55) does not empty them:
      it stores new ones in the attributes.  The generator's local variables
      [fwd_index] and [rev_index] (sorting.py:51-52) go on naming the old ones.
      [w_gen] counts the calls of [clear]; [w_old] has the trees given up by each. *)
  Record world := mkW {
    w_st : fstate;               (* the trees the attributes name now *)
    w_ver : Z;                   (* how many calls were made on them *)
    w_gen : Z;
    w_old : smap Z (fstate * Z)
  }.
  Definition w_new : world := mkW f_clear 0 0 empty.
  Definition w_call (w : world) (o : fop) : world :=
    match o with
    | FClear => mkW (fst (f_step (w_st w) o)) 0 (w_gen w + 1) (put (w_gen w) (w_st w, w_ver w) (w_old w))
    | _ => mkW (fst (f_step (w_st w) o)) (w_ver w + 1) (w_gen w) (w_old w)
    end.
  (** The trees that were the index's after [g] calls of [clear]. *)
  Definition w_trees (w : world) (g : Z) : fstate * Z :=
    if g =? w_gen w then (w_st w, w_ver w)
    else match get (w_old w) g with Some x => x | None => (f_clear, 0) end.

  (** Where the generator stands. *)
  Inductive gstate :=
  | GStart                                        (* created, not yet asked *)
  | GList (l : list Z)                            (* sorting.py:84-85, 103-104 *)
  | GSorted (g : Z) (l : list Z) (n : Z)          (* sorting.py:128-134 *)
  | GLazy (g ver : Z) (l : list Z) (n : Z)        (* sorting.py:116-123 *)
  | GDone.                                        (* returned or raised *)

  Variable lazy_heuristic : Z -> Z -> bool.
  Variables (ov_lazy ov_nbest : bool) (docids0 : list Z) (reverse : bool) (limit : option Z).

  (** sorting.py:36-128, up to the loop that yields.  Simplification: the argument
      [docids] itself is not changed by the caller meanwhile. *)
  Definition g_begin (w : world) : res gstate :=
    let st := w_st w in
    if match limit with Some k => k <? 1 | None => false end then Raise ValueError
    else if num_docs st =? 0 then Ok GDone
    else
      let docids := set_of_list docids0 in
      if is_empty docids then Ok GDone
      else
        let rlen := Zsize docids in
        let use_lazy := ov_lazy || lazy_heuristic rlen (num_docs st) in
        let use_nbest := ov_nbest ||
          match limit with Some k => negb (k =? 0) && (k * 4 <? rlen) | None => false end in
        if use_nbest then
          if reverse then do r <- nlargest limit (nsort (rev_ix st) docids); Ok (GList (map snd r))
          else do r <- nsmallest limit (nsort (rev_ix st) docids); Ok (GList r)
        else if use_lazy && negb reverse then
          Ok (GLazy (w_gen w) (w_ver w) (concat (map (fun s => selems (sinter docids s)) (vals (fwd st)))) 0)
        else
          let key := getValue (rev_ix st) in
          do s <- py_sorted (fun a b => lt_ok (key a) (key b))
                            (fun a b => if reverse then leb (key b) (key a) else leb (key a) (key b))
                            (selems docids);
          Ok (GSorted (w_gen w) s 0).

  (** [if limit and n >= limit: return] (sorting.py:122, 133), executed when the
      generator is resumed after a [yield]. *)
  Definition limit_hit (n : Z) : bool :=
    match limit with Some k => negb (k =? 0) && (n >=? k) | None => false end.

  (** sorting.py:128-129: the next sorted document that is in [rev_index] now. *)
  Fixpoint next_present (m : smap Z pyval) (l : list Z) : option (Z * list Z) :=
    match l with
    | [] => None
    | d :: l' => if mem d m then Some (d, l') else next_present m l'
    end.

  Definition g_resume (w : world) (s : gstate) : gstate * nexted :=
    match s with
    | GStart | GDone => (GDone, Stop)
    | GList [] => (GDone, Stop)
    | GList (d :: l) => (GList l, Yield d)
    | GSorted g l n =>
        if limit_hit n then (GDone, Stop)
        else match next_present (rev_ix (fst (w_trees w g))) l with
             | None => (GDone, Stop)
             | Some (d, l') => (GSorted g l' (n + 1), Yield d)
             end
    | GLazy g ver l n =>
        if limit_hit n then (GDone, Stop)
        else if negb (ver =? snd (w_trees w g)) then (GDone, Unspecified)
        else match l with
             | [] => (GDone, Stop)
             | d :: l' => (GLazy g ver l' (n + 1), Yield d)
             end
    end.

  (** One [next()]. *)
  Definition g_next (w : world) (s : gstate) : gstate * nexted :=
    match s with
    | GStart => match g_begin w with Raise e => (GDone, Err e) | Ok s' => g_resume w s' end
    | _ => g_resume w s
    end.

  (** What happens once [sort] has been called: calls on the index and [next()]s. *)
  Inductive event := ECall (o : fop) | ENext.
  Definition g_step (ws : world * gstate) (e : event) : world * gstate :=
    match e with
    | ECall o => (w_call (fst ws) o, snd ws)
    | ENext => (fst ws, fst (g_next (fst ws) (snd ws)))
    end.
  (** What the [next()]s among the events give, in order. *)
  Fixpoint g_trace (w : world) (s : gstate) (evs : list event) : list nexted :=
    match evs with
    | [] => []
    | ECall o :: r => g_trace (w_call w o) s r
    | ENext :: r => let (s', x) := g_next w s in x :: g_trace w s' r
    end.
  (** [sort] is called after the history [h]. *)
  Definition g_run (h : list fop) (evs : list event) : list nexted :=
    g_trace (fold_left w_call h w_new) GStart evs.
End Gen.
Arguments world T {OT}.
Arguments event T : clear implicits.
