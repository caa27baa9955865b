(** * Specification of sorting one document at a time *)
From Verif Require Export M_sortgen S_field M_field SMap PyVal Ord.

Section Spec.
  Context {T : Type} `{OT : Ord T}.
  Notation fop := (fop T).
  Notation event := (event T).

  (** The calls and the number of [next()]s among some events. *)
  Definition calls_of (evs : list event) : list fop :=
    concat (map (fun e => match e with ECall o => [o] | ENext => [] end) evs).
  Definition nexts_of (evs : list event) : nat :=
    length (filter (fun e => match e with ECall _ => false | ENext => true end) evs).

  (** The documents yielded. *)
  Definition yielded (xs : list nexted) : list Z :=
    concat (map (fun x => match x with Yield d => [d] | _ => [] end) xs).

  (** What [n] calls of [next()] give if the documents, or the exception, are [r]. *)
  Definition one_by_one (r : res (list Z)) (n : nat) : list nexted :=
    firstn n (match r with Ok l => map Yield l | Raise e => [Err e] end ++ repeat Stop n).

  (** A call that says nothing about the documents being sorted. *)
  Definition about_others (docids : list Z) (o : fop) : Prop :=
    match o with FIndex d _ | FUnindex d => ~ In d docids | FClear => False end.

  (** The ways to sort (sorting.py:58-66): the few smallest or largest; walking over
      the index; or, failing both, sorting all documents. *)
  Definition few (ovn : bool) (docids : list Z) (limit : option Z) : Prop :=
    ovn = true \/ exists k, limit = Some k /\ k * 4 < Zsize (set_of_list docids).
  Definition walks (heur : Z -> Z -> bool) (ovl ovn : bool) (docids : list Z) (reverse : bool)
      (limit : option Z) (h : list fop) : Prop :=
    ~ few ovn docids limit /\ reverse = false /\
    (ovl = true \/ heur (Zsize (set_of_list docids)) (Zsize (current h)) = true).

  (** Calls, made while the generator is being consumed, that do not matter to it:
      those about other documents (none at all if it walks over the index), and
      everything from a [clear] on. *)
  Definition harmless (docids : list Z) (walking : Prop) (calls : list fop) : Prop :=
    exists before after, calls = before ++ after /\
      Forall (about_others docids) before /\ (walking -> before = []) /\
      (after = [] \/ exists rest, after = FClear :: rest).
End Spec.
