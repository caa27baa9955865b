(** * Specification of the keyword index *)
From Verif Require Export M_keyword SMap Ord.

Section Spec.
  Context {W : Type} `{OW : Ord W}.
  Variable normalize : list W -> list W.
  Notation kop := (kop W).

  (** The current docid -> keywords mapping: the last call about a document counts. *)
  Definition kw_step (m : smap Z (sset W)) (o : kop) : smap Z (sset W) :=
    match o with
    | KIndex d (SeqList []) => del d m
    | KIndex d (SeqList l) => put d (set_of_list (normalize l)) m
    | KIndex d SeqStr => m
    | KUnindex d => del d m
    | KClear => empty
    | KOptimize | KThreshold _ => m
    end.
  Definition keywords (h : list kop) : smap Z (sset W) := fold_left kw_step h empty.

  (** normalize never turns one of the non-empty sequences indexed in [h] into an
      empty one. *)
  Definition op_normal (o : kop) : Prop :=
    match o with KIndex _ (SeqList l) => l <> [] -> normalize l <> [] | _ => True end.
  Definition normal_history (h : list kop) : Prop := Forall op_normal h.

  (** The keywords a query asks for: those of the argument, normalized. *)
  Definition asked (q : kquery W) : list W :=
    match q with KWord w => normalize [w] | KWords ws => normalize ws end.
  Definition has_all (kw : sset W) (ws : list W) : Prop := forall w, In w ws -> mem w kw = true.
  Definition has_one (kw : sset W) (ws : list W) : Prop := exists w, In w ws /\ mem w kw = true.

  (** Everything a client can see. *)
  Definition same_answers (st1 st2 : kstate W) : Prop :=
    k_documentCount st1 = k_documentCount st2 /\
    k_wordCount st1 = k_wordCount st2 /\
    (forall d, k_has_doc d st1 = k_has_doc d st2) /\
    (forall q op, k_search normalize q op st1 = k_search normalize q op st2).

  (** Document [d] is an answer. *)
  Definition found (q : kquery W) (op : koperator) (st : kstate W) (d : Z) : Prop :=
    exists s, k_search normalize q op st = Ok s /\ mem d s = true.

  (** The last call about [d] in a history given latest call first. *)
  Fixpoint kw_last (d : Z) (rh : list kop) : option (sset W) :=
    match rh with
    | [] => None
    | KIndex d' (SeqList l) :: rh' =>
        if eqb d d' then match l with [] => None | _ => Some (set_of_list (normalize l)) end else kw_last d rh'
    | KUnindex d' :: rh' => if eqb d d' then None else kw_last d rh'
    | KClear :: _ => None
    | _ :: rh' => kw_last d rh'
    end.

  (** An 'and' search for a single (normalized) keyword. *)
  Definition live_query (q : kquery W) (op : koperator) : bool :=
    match op with
    | OpAnd => match asked q with [_] => true | _ => false end
    | _ => false
    end.

  (** Calls about tree_threshold only. *)
  Definition tuning (o : kop) : bool := match o with KOptimize | KThreshold _ => true | _ => false end.
End Spec.

(** Histories and queries with every keyword lower-cased. *)
Section Lower.
  Context {W : Type}.
  Variable lower : W -> W.
  Definition lower_op (o : kop W) : kop W :=
    match o with KIndex d (SeqList l) => KIndex d (SeqList (map lower l)) | _ => o end.
  Definition lower_query (q : kquery W) : kquery W :=
    match q with KWord w => KWord (lower w) | KWords ws => KWords (map lower ws) end.
End Lower.
