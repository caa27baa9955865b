(** * Specification: programs with several lexicons, indexes and TextIndex objects *)
From Verif Require Export S_indep S_textapi M_share SMap Ord.

Section Share.
  Variable word_char : char -> bool.
  Variable lower : str -> str.

  (** The objects made so far: the pipelines of the lexicons; the class (true: Okapi) and the lexicon of
      each index; the lexicon and the index of each TextIndex. *)
  Record made := mkMade { m_lexicons : list (list elem); m_indexes : list (bool * nat); m_texts : list (nat * nat) }.
  Definition nothing : made := mkMade [] [] [].
  Definition declare (m : made) (c : shop) : made :=
    let lexicons := m_lexicons m in let indexes := m_indexes m in let texts := m_texts m in
    match c with
    | NewLexicon p => mkMade (lexicons ++ [p]) indexes texts
    | NewOkapi l => mkMade lexicons (indexes ++ [(true, l)]) texts
    | NewCosine l => mkMade lexicons (indexes ++ [(false, l)]) texts
    (* TextIndex(): an Okapi index and a lexicon of its own *)
    | NewText None None => mkMade (lexicons ++ [default_pipeline word_char lower]) (indexes ++ [(true, length lexicons)])
                                  (texts ++ [(length lexicons, length indexes)])
    (* TextIndex(lexicon): an Okapi index of its own, on that lexicon *)
    | NewText (Some l) None => mkMade lexicons (indexes ++ [(true, l)]) (texts ++ [(l, length indexes)])
    (* TextIndex(index=index): that index and the lexicon of that index; another lexicon is made, and not used *)
    | NewText None (Some i) => mkMade (lexicons ++ [default_pipeline word_char lower]) indexes
                                      (texts ++ [(snd (nth i indexes (true, 0%nat)), i)])
    (* TextIndex(lexicon, index) *)
    | NewText (Some l) (Some i) => mkMade lexicons indexes (texts ++ [(l, i)])
    | _ => m
    end.
  Definition made_by (cs : list shop) : made := fold_left declare cs nothing.

  (** Calls only refer to objects made before. *)
  Definition refers (m : made) (c : shop) : Prop :=
    let lexicon l := (l < length (m_lexicons m))%nat in
    let index i := (i < length (m_indexes m))%nat in
    let text k := (k < length (m_texts m))%nat in
    match c with
    | NewLexicon _ => True
    | NewOkapi l | NewCosine l | LexText l _ => lexicon l
    | NewText ol oi => (forall l, ol = Some l -> lexicon l) /\ (forall i, oi = Some i -> index i)
    | IxIndex i _ _ | IxUnindex i _ | IxClear i => index i
    | TiIndex k _ _ | TiUnindex k _ | TiClear k => text k
    end.
  Definition sensible (cs : list shop) : Prop :=
    forall before c after, cs = before ++ c :: after -> refers (made_by before) c.

  (** The index a call is for, directly or by way of a TextIndex, and what it asks for. *)
  Definition target (m : made) (c : shop) : option (nat * top) :=
    let by_text k o := match nth_error (m_texts m) k with Some (_, i) => Some (i, o) | None => None end in
    match c with
    | IxIndex i d t => Some (i, TIndex d t)
    | IxUnindex i d => Some (i, TUnindex d)
    | IxClear i => Some (i, TClear)
    | TiIndex k d t => by_text k (TIndex d t)
    | TiUnindex k d => by_text k (TUnindex d)
    | TiClear k => by_text k TClear
    | _ => None
    end.
  Definition lexicon_of (m : made) (i : nat) : option nat := option_map snd (nth_error (m_indexes m) i).

  (** The texts a call gives to lexicon [l]. *)
  Definition tells (m : made) (l : nat) (c : shop) : list ltext :=
    match target m c with
    | Some (i, TIndex _ t) => match lexicon_of m i with Some l' => if Nat.eqb l' l then [t] else [] | None => [] end
    | Some _ => []
    | None => match c with LexText l' t => if Nat.eqb l' l then [t] else [] | _ => [] end
    end.
  (** What a call is for index [i], which has lexicon [l]: a change of the index, or a text that
      others give to its lexicon. *)
  Definition event (m : made) (l i : nat) (c : shop) : list top :=
    let others := map (fun t => TOther (LText t)) (tells m l c) in
    match target m c with Some (j, o) => if Nat.eqb j i then [o] else others | None => others end.
  (** The calls for index [i] alone. *)
  Definition mine (m : made) (i : nat) (c : shop) : list top :=
    match target m c with Some (j, o) => if Nat.eqb j i then [o] else [] | None => [] end.

  Section Through.
    Context {A : Type}.
    Variable f : made -> shop -> list A.
    Fixpoint through (m : made) (cs : list shop) : list A :=
      match cs with [] => [] | c :: cs' => f m c ++ through (declare m c) cs' end.
  End Through.
  Definition told (l : nat) (cs : list shop) : list ltext := through (fun m => tells m l) nothing cs.
  Definition seen (l i : nat) (cs : list shop) : list top := through (fun m => event m l i) nothing cs.
  Definition own (i : nat) (cs : list shop) : list top := through (fun m => mine m i) nothing cs.

  (** No lexicon gets 2^28 different words. *)
  Definition few_words (cs : list shop) : Prop :=
    forall l p, nth_error (m_lexicons (made_by cs)) l = Some p ->
      Zlen (distinct (flat_map (text_words p) (told l cs))) < 2 ^ 28.
End Share.
