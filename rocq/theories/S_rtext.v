(** * Specification of text indexes given document ids out of range *)
From Verif Require Export M_rtext S_text S_textapi SMap Ord.

Section Spec.
  Variable fits : Z -> bool.
  (** Calls of index_doc with an id that does not fit. *)
  Definition refused (o : top) : bool := match o with TIndex d _ => negb (fits d) | _ => false end.
  (** The same history with those calls replaced by mere uses of the lexicon. *)
  Definition without_refused (h : list top) : list top :=
    map (fun o => match o with TIndex d t => if fits d then o else TOther (LText t) | _ => o end) h.
  (** The words of their texts, since the index was last cleared. *)
  Definition refused_words (pipeline : list elem) (h : list top) : list str :=
    fold_left (fun ws o => match o with
                           | TIndex d t => if fits d then ws else ws ++ text_words pipeline t
                           | TClear => []
                           | _ => ws
                           end) h [].
  (** No other call of the history raised. *)
  Definition others_fine {V} (step : top -> sx (sys V) unit) (h : list top) : Prop :=
    forall h1 o h2, h = h1 ++ o :: h2 -> refused o = false -> snd (step o (r_fold step h1)) = Ok tt.
  (** No text indexed under an id that fits contains a word of a refused text. *)
  Definition apart (pipeline : list elem) (h : list top) : Prop :=
    forall h1 d t h2 w, h = h1 ++ TIndex d t :: h2 -> fits d = true -> In w (text_words pipeline t) ->
      ~ In w (refused_words pipeline h1).
End Spec.
