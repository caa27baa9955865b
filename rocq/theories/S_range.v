(** * Specification of indexes given document ids out of range *)
From Verif Require Export M_range S_keyword S_field SMap PyVal Ord.

Section Spec.
  Variable fits : Z -> bool.

  (** ** Field index *)
  Section Field.
    Context {T : Type} `{OT : Ord T}.
    (** The calls about document ids that fit. *)
    Definition f_fitting (h : list (fop T)) : list (fop T) :=
      filter (fun o => match o with FIndex d _ | FUnindex d => fits d | FClear => true end) h.
    (** A document has the value [v]. *)
    Definition f_held (h : list (fop T)) (v : pyval T) : Prop := exists d, get (current (f_fitting h)) d = Some v.
    (** Someone tried to index [v] under an id that does not fit, and since then, [clear]
        has not been called and no document has had the value [v]. *)
    Definition f_idle (h : list (fop T)) (v : pyval T) : Prop :=
      exists h1 d h2, h = h1 ++ FIndex d v :: h2 /\ fits d = false /\ ~ In FClear h2 /\
        forall h2a h2b, h2 = h2a ++ h2b -> ~ f_held (h1 ++ FIndex d v :: h2a) v.
    (** [v] can be compared with all values ever passed to the index. *)
    Definition comparable (v : pyval T) (h : list (fop T)) : Prop := forall w, In w (values_of h) -> key_ok v w = true.
  End Field.

  (** ** Keyword index *)
  Section Keyword.
    Context {W : Type} `{OW : Ord W}.
    Variable normalize : list W -> list W.
    Definition k_fitting (h : list (kop W)) : list (kop W) :=
      filter (fun o => match o with KIndex d _ | KUnindex d => fits d | _ => true end) h.
    Definition k_held (h : list (kop W)) (w : W) : Prop :=
      exists d kw, get (keywords normalize (k_fitting h)) d = Some kw /\ mem w kw = true.
    (** [w] is the least keyword of [l]. *)
    Definition least (w : W) (l : list W) : Prop := In w l /\ forall w', In w' l -> le w w'.
    Definition k_idle (h : list (kop W)) (w : W) : Prop :=
      exists h1 d l h2, h = h1 ++ KIndex d (SeqList l) :: h2 /\ fits d = false /\ l <> [] /\ least w (normalize l) /\ ~ In KClear h2 /\
        forall h2a h2b, h2 = h2a ++ h2b -> ~ k_held (h1 ++ KIndex d (SeqList l) :: h2a) w.
  End Keyword.

  (** ** Topic index *)
  Definition t_fitting {I E C} (h : list (top I E C)) : list (top I E C) :=
    filter (fun o => match o with TIndex d _ | TUnindex d => fits d | _ => true end) h.
End Spec.

(** The ids of [BTrees.family32]. *)
Definition fits32 (d : Z) : bool := (- 2 ^ 31 <=? d) && (d <? 2 ^ 31).
