(** * Specification of concurrent transactions on a topic index *)
From Verif Require Export S_topic M_ztopic SMap Ord.

Section Spec.
  Context {I : Type} `{OI : Ord I} {E C : Type}.
  Notation ztopic := (ztopic I E).
  Notation zop := (zop I E C).

  (** Which filter object is registered as [i]. *)
  Definition filter_object (st : ztopic) (i : I) : option Z := option_map q_set (get (tz_filters st) i).
  (** The filter [i] has the document [d]. *)
  Definition has (st : ztopic) (i : I) (d : Z) : bool :=
    match get (view st) i with Some f => mem d (f_ids f) | None => false end.

  Definition cleared_since (snap cur : ztopic) : bool := negb (tz_gen cur =? tz_gen snap).
  Definition clears (ops : list zop) : bool := existsb (fun o => match o with ZClear => true | _ => false end) ops.
  (** Only [index_doc] and [unindex_doc]. *)
  Definition documents_only (ops : list zop) : Prop :=
    forall o, In o ops -> match o with ZIndex _ _ | ZUnindex _ => True | _ => False end.
  (** The documents the calls are about. *)
  Definition docs_of (ops : list zop) : list Z :=
    flat_map (fun o => match o with ZIndex d _ => [d] | ZUnindex d => [d] | _ => [] end) ops.
  (** All calls of a schedule. *)
  Definition all_ops (schedule : list (nat * list zop)) : list zop := concat (map snd schedule).

  (** Two filters that differ in their documents at most. *)
  Definition same_but_docs (f g : filt I E) : Prop := f_python f = f_python g /\ f_id f = f_id g /\ f_expr f = f_expr g.

  (** A transaction began with the version [snap]; others have committed since, [cur] being the
      latest version; [own] is what the transaction sees at its end and [new] the version that its
      commit makes. *)
  Definition combined (snap cur own new : ztopic) : Prop := forall i,
    (* it added, replaced or removed the filter: nobody else did, and it is as the transaction left it *)
    (filter_object own i <> filter_object snap i ->
       filter_object cur i = filter_object snap i /\ get (view new) i = get (view own) i) /\
    (* others did: it is as they left it *)
    (filter_object own i = filter_object snap i -> filter_object cur i <> filter_object snap i ->
       get (view new) i = get (view cur) i) /\
    (* nobody did: it is the same filter, and each of its documents is as the side left it that changed it *)
    (filter_object own i = filter_object snap i -> filter_object cur i = filter_object snap i ->
       match get (view snap) i, get (view new) i with
       | Some f, Some g => same_but_docs f g
       | None, None => True
       | _, _ => False
       end /\
       forall d, (has own i d = has snap i d -> has new i d = has cur i d) /\
                 (has own i d <> has snap i d -> has cur i d = has snap i d /\ has new i d = has own i d)).
  Definition tcommitted (since here : bool) (snap cur own new : ztopic) : Prop :=
    match since, here with
    | false, false => combined snap cur own new
    | true, false => view new = view cur   (* the transaction's changes are lost *)
    | false, true => view new = view own   (* the others' changes are lost *)
    | true, true => False                  (* a conflict *)
    end.

  (** The changes that the two sides made to the documents of the filter [i] do not go together:
      both changed it, and they changed the same document, or one side removed all documents, or the
      two sides together did. *)
  Definition clash (snap cur own : ztopic) (i : I) : Prop :=
    (exists d, has cur i d <> has snap i d) /\ (exists d, has own i d <> has snap i d) /\
    ((exists d, has cur i d <> has snap i d /\ has own i d <> has snap i d) \/
     (forall d, has cur i d = false) \/ (forall d, has own i d = false) \/
     (forall d, (has cur i d = true -> has own i d <> has snap i d) /\ (has own i d = true -> has cur i d <> has snap i d))).
End Spec.
