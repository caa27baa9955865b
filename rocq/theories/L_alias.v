(** * Lemmas about text queries with object identity *)
From Verif Require Import S_alias M_alias L_tree S_parser Arith SMap Ord.

Section Alias.
  Context {V F : Type} {AF : Arith F}.
  Notation obj := (mobj F).
  Variable read : bindex V -> Z -> smap Z F.
  Variable write : Z -> Z -> F -> bindex V -> bindex V.
  Variable pipeline : list elem.
  Variable sw_o : bindex V -> list Z -> res (list (obj * F)).
  Variable sw : bindex V -> list Z -> res (list (smap Z F * F)).
  Notation val := (val read).
  Notation vals_of := (vals_of read).
  Variable s : sys V.
  Notation ix := (six s).
  Hypothesis Hsw : forall wids, sw ix wids = rmap (vals_of ix) (sw_o ix wids).

  (** ** The values are those of the model without identity *)
  Lemma vals_len L : length (vals_of ix L) = length L.
  Proof. apply map_length. Qed.
  Lemma trivial_val L : trivial (vals_of ix L) = rmap (val ix) (o_trivial read ix L).
  Proof.
    destruct L as [|[o w] [|p L]]; try reflexivity. cbn [M_alias.vals_of map fst snd trivial o_trivial].
    destruct (negb (feqb w f1)); reflexivity.
  Qed.
  Lemma drop_none_some (L : list (smap Z F * F)) : drop_none (map (fun p => (Some (fst p), snd p)) L) = L.
  Proof.
    unfold drop_none. induction L as [|[m w] L IH]; [reflexivity|]. cbn [map concat fst snd app]. f_equal. exact IH.
  Qed.
  Lemma inter_val L : mass_weightedIntersection (map (fun p => (Some (fst p), snd p)) (vals_of ix L)) = rmap (val ix) (o_intersection read ix L).
  Proof.
    unfold o_intersection. destruct (length L <? 2)%nat eqn:E.
    - unfold mass_weightedIntersection. rewrite drop_none_some, vals_len, E. apply trivial_val.
    - destruct (mass_weightedIntersection _); reflexivity.
  Qed.
  Lemma union_val L : mass_weightedUnion (vals_of ix L) = rmap (val ix) (o_union read ix L).
  Proof.
    unfold o_union. destruct (length L <? 2)%nat eqn:E.
    - unfold mass_weightedUnion. rewrite vals_len, E. apply trivial_val.
    - destruct (mass_weightedUnion _); reflexivity.
  Qed.
  Lemma search_val t : search pipeline sw s t = rmap (option_map (val ix)) (o_search read ix pipeline sw_o (slx s) t).
  Proof.
    unfold search, o_search. destruct (termToWordIds pipeline t (slx s)) as [|i l]; [reflexivity|].
    rewrite Hsw. destruct (sw_o ix _) as [L|e]; cbn [rmap bind]; [|reflexivity].
    rewrite union_val. destruct (o_union read ix L); reflexivity.
  Qed.
  Lemma glob_val p : search_glob sw s p = rmap (val ix) (o_search_glob read ix sw_o (slx s) p).
  Proof.
    unfold search_glob, o_search_glob. destruct (globToWordIds p (slx s)) as [wids|e]; cbn [bind rmap]; [|reflexivity].
    rewrite Hsw. destruct (sw_o ix _) as [L|e]; cbn [rmap bind]; [|reflexivity]. apply union_val.
  Qed.
  Lemma phrase_val t : search_phrase pipeline sw s t = rmap (val ix) (o_search_phrase read ix pipeline sw_o (slx s) t).
  Proof.
    unfold search_phrase, o_search_phrase. cbv zeta. destruct (negb _); [reflexivity|].
    rewrite Hsw. destruct (sw_o ix _) as [L|e]; cbn [rmap bind]; [|reflexivity].
    rewrite inter_val. destruct (o_intersection read ix L) as [h|e]; cbn [rmap bind]; [|reflexivity].
    destruct (is_empty (val ix h)); [reflexivity|]. destruct (encode _); cbn [rmap bind]; [|reflexivity].
    destruct (phrase_loop _ _ _ _); reflexivity.
  Qed.

  Notation exec := (execute pipeline sw s).
  Notation o_exec := (o_execute read ix pipeline sw_o (slx s)).
  Fixpoint o_and_loop (l : list node) (L Nots : list (obj * F)) : res (list (obj * F) * list (obj * F)) :=
    match l with
    | [] => Ok (L, Nots)
    | NNot m :: l' => do r <- o_exec m; o_and_loop l' L (o_add_part Nots r)
    | x :: l' => do r <- o_exec x; o_and_loop l' (o_add_part L r) Nots
    end.
  Fixpoint o_or_loop (l : list node) (weighted : list (obj * F)) : res (list (obj * F)) :=
    match l with
    | [] => Ok weighted
    | x :: l' => do r <- o_exec x; o_or_loop l' (o_add_part weighted r)
    end.
  Lemma o_exec_NAnd l : o_exec (NAnd l) = (do (L, Nots) <- o_and_loop l [] []; o_and_combine read ix L Nots).
  Proof. reflexivity. Qed.
  Lemma o_exec_NOr l : o_exec (NOr l) = (do weighted <- o_or_loop l []; do r <- o_union read ix weighted; Ok (Some r)).
  Proof. reflexivity. Qed.
  Lemma add_part_val L r : add_part (vals_of ix L) (option_map (val ix) r) = vals_of ix (o_add_part L r).
  Proof. destruct r as [o|]; [|reflexivity]. cbn. unfold M_alias.vals_of. rewrite map_app. reflexivity. Qed.

  Lemma and_loop_NNot m l L N : o_and_loop (NNot m :: l) L N = (do r <- o_exec m; o_and_loop l L (o_add_part N r)).
  Proof. reflexivity. Qed.

  Lemma exec_val n : (forall m, n = NNot m -> exec m = rmap (option_map (val ix)) (o_exec m)) /\
    exec n = rmap (option_map (val ix)) (o_exec n).
  Proof.
    induction n as [w|ws|w|n IH|l IH|l IH] using node_induction; (split; [intros m Hm; try discriminate|]).
    - exact (search_val (TxStr w)).
    - cbn [execute executeQuery o_execute]. unfold execute. cbn [executeQuery]. rewrite phrase_val.
      destruct (o_search_phrase _ _ _ _ _ _); reflexivity.
    - unfold execute. cbn [executeQuery o_execute]. rewrite glob_val. destruct (o_search_glob _ _ _ _ _); reflexivity.
    - injection Hm as <-. apply IH.
    - reflexivity.
    - rewrite o_exec_NAnd. unfold execute. rewrite exec_NAnd.
      assert (G : forall L N, and_loop (fun w => search pipeline sw s (TxStr w))
          (fun ws => rmap Some (search_phrase pipeline sw s (TxList ws))) (fun p => rmap Some (search_glob sw s p)) l (vals_of ix L) (vals_of ix N) =
          rmap (fun p => (vals_of ix (fst p), vals_of ix (snd p))) (o_and_loop l L N)).
      { induction IH as [|x l [Hx1 Hx2] Hl IHl]; intros L N; [reflexivity|].
        destruct x as [w|ws|w|m|k|k]; cbn [and_loop o_and_loop].
        4: specialize (Hx1 m eq_refl); unfold execute in Hx1; rewrite Hx1; destruct (o_exec m) as [r|e]; cbn [rmap bind]; [|reflexivity];
           rewrite add_part_val; apply IHl.
        all: unfold execute in Hx2; rewrite Hx2;
           match goal with |- context [o_exec ?x] => destruct (o_exec x) as [r|e] end; cbn [rmap bind]; [|reflexivity]; rewrite add_part_val; apply IHl. }
      pose proof (G [] []) as G0. change (vals_of ix []) with (@nil (smap Z F * F)) in G0. rewrite G0. destruct (o_and_loop l [] []) as [[L N]|e]; cbn [rmap bind fst snd]; [|reflexivity].
      unfold and_combine, o_and_combine. rewrite inter_val. destruct (o_intersection read ix L) as [h|e]; cbn [rmap bind]; [|reflexivity].
      destruct N as [|p N]; [reflexivity|]. change (vals_of ix (p :: N)) with ((val ix (fst p), snd p) :: vals_of ix N) at 1. cbv iota.
      change ((val ix (fst p), snd p) :: vals_of ix N) with (vals_of ix (p :: N)).
      rewrite union_val. destruct (o_union read ix (p :: N)); reflexivity.
    - rewrite o_exec_NOr. unfold execute. rewrite exec_NOr.
      assert (G : forall L, or_loop (fun w => search pipeline sw s (TxStr w))
          (fun ws => rmap Some (search_phrase pipeline sw s (TxList ws))) (fun p => rmap Some (search_glob sw s p)) l (vals_of ix L) =
          rmap (vals_of ix) (o_or_loop l L)).
      { induction IH as [|x l [Hx1 Hx2] Hl IHl]; intros L; [reflexivity|]. cbn [or_loop o_or_loop].
        unfold execute in Hx2; rewrite Hx2. destruct (o_exec x) as [r|e]; cbn [rmap bind]; [|reflexivity]. rewrite add_part_val. apply IHl. }
      pose proof (G []) as G0. change (vals_of ix []) with (@nil (smap Z F * F)) in G0. rewrite G0. destruct (o_or_loop l []) as [L|e]; cbn [rmap bind]; [|reflexivity].
      rewrite union_val. destruct (o_union read ix L); reflexivity.
  Qed.

  (** ** Where a shared object comes from *)
  Definition handed (o : obj) : Prop := exists wids L w, sw_o ix wids = Ok L /\ In (o, w) L /\ feqb w f1 = true.
  Definition ok_obj (o : obj) : Prop := private o \/ handed o.
  Lemma trivial_ok L o : (forall p, In p L -> ok_obj (fst p) \/ (feqb (snd p) f1 = true -> ok_obj (fst p))) ->
    o_trivial read ix L = Ok o -> ok_obj o.
  Proof.
    intros H E. destruct L as [|[a w] [|p L]]; [injection E as <-; left; eexists; reflexivity| |discriminate].
    cbn in E. destruct (feqb w f1) eqn:Ew; cbn in E; injection E as <-; [|left; eexists; reflexivity].
    destruct (H (a, w) (or_introl eq_refl)) as [H1|H1]; [exact H1|exact (H1 Ew)].
  Qed.
  Lemma union_ok L o : (forall p, In p L -> ok_obj (fst p) \/ (feqb (snd p) f1 = true -> ok_obj (fst p))) ->
    o_union read ix L = Ok o -> ok_obj o.
  Proof.
    intros H E. unfold o_union in E. destruct (length L <? 2)%nat; [exact (trivial_ok L o H E)|].
    destruct (mass_weightedUnion _); [|discriminate]. injection E as <-. left. eexists; reflexivity.
  Qed.
  Lemma inter_ok L o : (forall p, In p L -> ok_obj (fst p) \/ (feqb (snd p) f1 = true -> ok_obj (fst p))) ->
    o_intersection read ix L = Ok o -> ok_obj o.
  Proof.
    intros H E. unfold o_intersection in E. destruct (length L <? 2)%nat; [exact (trivial_ok L o H E)|].
    destruct (mass_weightedIntersection _); [|discriminate]. injection E as <-. left. eexists; reflexivity.
  Qed.
  Lemma wids_ok wids L : sw_o ix wids = Ok L -> forall p, In p L -> ok_obj (fst p) \/ (feqb (snd p) f1 = true -> ok_obj (fst p)).
  Proof. intros E p Hp. right. intros Hw. right. exists wids, L, (snd p). rewrite <- surjective_pairing. auto. Qed.
  Lemma search_ok t o : o_search read ix pipeline sw_o (slx s) t = Ok (Some o) -> ok_obj o.
  Proof.
    unfold o_search. destruct (termToWordIds _ _ _) as [|i l]; [discriminate|].
    destruct (sw_o ix _) as [L|e] eqn:E; cbn [bind]; [|discriminate].
    destruct (o_union read ix L) as [r|e] eqn:E2; cbn [bind]; [|discriminate]. intros H; injection H as <-.
    exact (union_ok L r (wids_ok _ _ E) E2).
  Qed.
  Lemma glob_ok p o : o_search_glob read ix sw_o (slx s) p = Ok o -> ok_obj o.
  Proof.
    unfold o_search_glob. destruct (globToWordIds _ _) as [wids|e]; cbn [bind]; [|discriminate].
    destruct (sw_o ix _) as [L|e] eqn:E; cbn [bind]; [|discriminate]. apply union_ok. exact (wids_ok _ _ E).
  Qed.
  Lemma phrase_ok t o : o_search_phrase read ix pipeline sw_o (slx s) t = Ok o -> ok_obj o.
  Proof.
    unfold o_search_phrase. cbv zeta. destruct (negb _); [intros E; injection E as <-; left; eexists; reflexivity|].
    destruct (sw_o ix _) as [L|e] eqn:E; cbn [bind]; [|discriminate].
    destruct (o_intersection read ix L) as [h|e] eqn:E2; cbn [bind]; [|discriminate].
    destruct (is_empty _).
    - intros H; injection H as <-. exact (inter_ok L h (wids_ok _ _ E) E2).
    - destruct (encode _); cbn [bind]; [|discriminate]. destruct (phrase_loop _ _ _ _); [|discriminate].
      intros H; injection H as <-. left. eexists; reflexivity.
  Qed.
  Definition all_ok (L : list (obj * F)) : Prop := forall p, In p L -> ok_obj (fst p).
  Lemma all_ok_weaken L : all_ok L -> forall p, In p L -> ok_obj (fst p) \/ (feqb (snd p) f1 = true -> ok_obj (fst p)).
  Proof. intros H p Hp. left. exact (H p Hp). Qed.
  Lemma add_part_ok L r : all_ok L -> (forall o, r = Some o -> ok_obj o) -> all_ok (o_add_part L r).
  Proof.
    intros HL Hr p Hp. destruct r as [o|]; [|exact (HL p Hp)]. cbn in Hp. apply in_app_or in Hp as [Hp|[<-|[]]]; [exact (HL p Hp)|].
    exact (Hr o eq_refl).
  Qed.
  Lemma exec_ok n : (forall m o, n = NNot m -> o_exec m = Ok (Some o) -> ok_obj o) /\
    (forall o, o_exec n = Ok (Some o) -> ok_obj o).
  Proof.
    induction n as [w|ws|w|n IH|l IH|l IH] using node_induction; (split; [intros m o Hm; try discriminate|intros o]).
    - apply search_ok.
    - cbn [o_execute]. destruct (o_search_phrase _ _ _ _ _ _) as [r|e] eqn:E; [|discriminate]. intros H; injection H as <-. exact (phrase_ok _ _ E).
    - cbn [o_execute]. destruct (o_search_glob _ _ _ _ _) as [r|e] eqn:E; [|discriminate]. intros H; injection H as <-. exact (glob_ok _ _ E).
    - injection Hm as <-. apply IH.
    - discriminate.
    - rewrite o_exec_NAnd.
      assert (G : forall L N L' N', all_ok L -> all_ok N -> o_and_loop l L N = Ok (L', N') -> all_ok L' /\ all_ok N').
      { induction IH as [|x l [Hx1 Hx2] Hl IHl]; intros L N L' N' HL HN E; [injection E as <- <-; auto|].
        destruct x as [w|ws|w|m|k|k]; cbn [o_and_loop] in E.
        4: destruct (o_exec m) as [r|e] eqn:Er; cbn [bind] in E; [|discriminate];
           apply (IHl L (o_add_part N r) L' N' HL); [|exact E]; apply add_part_ok; [exact HN|]; intros o' ->; exact (Hx1 m o' eq_refl Er).
        all: match type of E with context [o_exec ?x] => destruct (o_exec x) as [r|e] eqn:Er end; cbn [bind] in E; [|discriminate];
           apply (IHl (o_add_part L r) N L' N'); [|exact HN|exact E]; apply add_part_ok; [exact HL|]; intros o' ->; exact (Hx2 o' eq_refl). }
      destruct (o_and_loop l [] []) as [[L N]|e] eqn:E; cbn [bind]; [|discriminate].
      destruct (G [] [] L N ltac:(intros ? []) ltac:(intros ? []) E) as [HL HN].
      unfold o_and_combine. destruct (o_intersection read ix L) as [h|e] eqn:E2; cbn [bind]; [|discriminate].
      destruct N as [|p N].
      + intros H; injection H as <-. exact (inter_ok L h (all_ok_weaken L HL) E2).
      + destruct (o_union read ix (p :: N)); cbn [bind]; [|discriminate]. intros H; injection H as <-. left. eexists; reflexivity.
    - rewrite o_exec_NOr.
      assert (G : forall L L', all_ok L -> o_or_loop l L = Ok L' -> all_ok L').
      { induction IH as [|x l [Hx1 Hx2] Hl IHl]; intros L L' HL E; [injection E as <-; auto|]. cbn [o_or_loop] in E.
        destruct (o_exec x) as [r|e] eqn:Er; cbn [bind] in E; [|discriminate]. apply (IHl (o_add_part L r) L'); [|exact E].
        apply add_part_ok; [exact HL|]. intros o' ->. exact (Hx2 o' eq_refl). }
      destruct (o_or_loop l []) as [L|e] eqn:E; cbn [bind]; [|discriminate].
      destruct (o_union read ix L) as [r|e] eqn:E2; cbn [bind]; [|discriminate]. intros H; injection H as <-.
      exact (union_ok L r (all_ok_weaken L (G [] L ltac:(intros ? []) E)) E2).
  Qed.

  (** ** [apply] *)
  Variable space : char -> bool.
  Variable upper : str -> str.
  Variable qpipeline : list elem.
  Variable query_weight : sys V -> list ltext -> res F.
  Notation o_app := (o_apply read write space upper qpipeline pipeline sw_o query_weight s).
  Notation app := (apply space upper qpipeline pipeline sw query_weight s).

  Lemma own_loop items qw ix0 m :
    o_normalise_loop write items qw ix0 (Own m) = (ix0, rmap Own (normalise_loop items qw m)).
  Proof.
    revert m. induction items as [|[d v] items IH]; intros m; [reflexivity|]. cbn [o_normalise_loop normalise_loop].
    destruct (py_div v qw) as [q|e]; cbn [bind rmap]; [|reflexivity]. cbn [assign]. apply IH.
  Qed.

  Lemma apply_private q start count :
    (forall o, handed o -> private o) ->
    fst (o_app q) = s /\ private_answer (snd (o_app q)) /\ answer read (six (fst (o_app q))) (snd (o_app q)) = app q start count.
  Proof.
    intros H. unfold o_apply, apply, private_answer.
    destruct (parseQuery _ _ _ _ _) as [[tree ign]|e]; cbn [pbind]; [|split; [reflexivity|split; [intros o Ho; discriminate|reflexivity]]].
    destruct (exec_val tree) as [_ Hv]. rewrite Hv. destruct (exec_ok tree) as [_ Hok].
    destruct (o_exec tree) as [[o|]|e]; cbn [rmap option_map fst snd answer];
      [|split; [reflexivity|split; [discriminate|reflexivity]]|split; [reflexivity|split; [discriminate|reflexivity]]].
    assert (Hp : private o) by (destruct (Hok o eq_refl) as [Hp|Hp]; [exact Hp|exact (H o Hp)]).
    destruct Hp as [m ->]. cbn [M_alias.val]. destruct (is_empty m).
    - cbn [fst snd answer M_alias.val]. split; [reflexivity|split; [|reflexivity]]. intros o Ho. injection Ho as <-. exists m; reflexivity.
    - unfold normalise. destruct (query_weight s _) as [qw|e]; cbn [bind rmap fst snd];
        [|split; [reflexivity|split; [discriminate|reflexivity]]].
      rewrite own_loop. destruct (normalise_loop _ _ _) as [r|e]; cbn [rmap fst snd answer M_alias.val six];
        (split; [destruct s; reflexivity|split; [|reflexivity]]); intros o Ho; [|discriminate]. injection Ho as <-. exists r; reflexivity.
  Qed.
End Alias.

(** ** Okapi *)
Section Okapi.
  Context {F : Type} {AF : Arith F}.
  Variable sw : bindex Z -> list Z -> res (list (smap Z F * F)).
  Variable read : bindex Z -> Z -> smap Z F.
  Lemma okapi_vals ix wids : sw ix wids = rmap (vals_of read ix) (okapi_objs sw ix wids).
  Proof.
    unfold okapi_objs. destruct (sw ix wids) as [L|e]; [|reflexivity]. cbn [rmap]. f_equal. unfold vals_of. rewrite map_map.
    symmetry. erewrite map_ext; [apply map_id|]. intros [m w]. reflexivity.
  Qed.
  Lemma okapi_handed s o : handed (okapi_objs sw) s o -> private o.
  Proof.
    intros (wids & L & w & E & Hin & _). unfold okapi_objs in E. destruct (sw (six s) wids) as [L0|e]; [|discriminate].
    injection E as <-. apply in_map_iff in Hin as ([m w'] & E & _). injection E as <- <-. exists m. reflexivity.
  Qed.

  Variable write : Z -> Z -> F -> bindex Z -> bindex Z.
  Variables (space : char -> bool) (upper : str -> str) (qpipeline pipeline : list elem).
  Variable qweight : sys Z -> list ltext -> res F.
  Lemma okapi_quiet s q start count :
    let r := o_apply read write space upper qpipeline pipeline (okapi_objs sw) qweight s q in
    fst r = s /\ private_answer (snd r) /\
    answer read (six (fst r)) (snd r) = apply space upper qpipeline pipeline sw qweight s q start count.
  Proof. apply apply_private; [apply okapi_vals|]. intros o. apply okapi_handed. Qed.
  Lemma okapi_searches_private s :
    (forall t o, o_search read (six s) pipeline (okapi_objs sw) (slx s) t = Ok (Some o) -> private o) /\
    (forall t o, o_search_phrase read (six s) pipeline (okapi_objs sw) (slx s) t = Ok o -> private o) /\
    (forall t o, o_search_glob read (six s) (okapi_objs sw) (slx s) t = Ok o -> private o).
  Proof.
    assert (G : forall o, ok_obj (okapi_objs sw) s o -> private o) by (intros o [H|H]; [exact H|exact (okapi_handed s o H)]).
    split; [|split]; intros t o H; apply G.
    - exact (search_ok _ _ _ _ t o H).
    - exact (phrase_ok _ _ _ _ t o H).
    - exact (glob_ok _ _ _ t o H).
  Qed.
End Okapi.

(** ** Cosine *)
Section Cosine.
  Context {F : Type} {AF : Arith F}.
  Lemma mapM_rmap {A B C} (f : A -> res B) (g : B -> C) (h : A -> res C) l :
    (forall x, h x = rmap g (f x)) -> mapM h l = rmap (map g) (mapM f l).
  Proof.
    intros H. induction l as [|x l IH]; [reflexivity|]. cbn [mapM]. rewrite H. destruct (f x) as [y|e]; cbn [rmap bind]; [|reflexivity].
    rewrite IH. destruct (mapM f l); reflexivity.
  Qed.
  Lemma cos_obj_val (ix : bindex F) wid : cos_search_wid ix wid = rmap (fun p => (val cos_read ix (fst p), snd p)) (cos_obj ix wid).
  Proof.
    unfold cos_obj, cos_search_wid. destruct (mem wid (wordinfo ix)); cbn [negb]; [|reflexivity].
    unfold item. destruct (get (wordinfo ix) wid) as [p|] eqn:E; cbn [bind]; [|reflexivity].
    destruct (inverse_doc_frequency _ _) as [i|e]; cbn [bind rmap]; [|reflexivity].
    destruct (p_dict p) eqn:Ed; cbn [fst snd val]; [reflexivity|]. unfold cos_read. rewrite E. reflexivity.
  Qed.
  Lemma cos_vals (ix : bindex F) wids : cos_search_wids ix wids = rmap (vals_of cos_read ix) (cos_objs ix wids).
  Proof. unfold cos_search_wids, cos_objs. apply mapM_rmap. intros x. apply cos_obj_val. Qed.
  Lemma mapM_In {A B} (f : A -> res B) l r y : mapM f l = Ok r -> In y r -> exists x, In x l /\ f x = Ok y.
  Proof.
    revert r. induction l as [|x l IH]; intros r E Hy; [injection E as <-; destruct Hy|]. cbn [mapM] in E.
    destruct (f x) as [z|e] eqn:Ez; cbn [bind] in E; [|discriminate].
    destruct (mapM f l) as [r'|e] eqn:Er; cbn [bind] in E; [|discriminate]. injection E as <-.
    destruct Hy as [<-|Hy]; [exists x; split; [left; reflexivity|exact Ez]|].
    destruct (IH r' eq_refl Hy) as (x' & H1 & H2). exists x'. split; [right; exact H1|exact H2].
  Qed.
  (** a shared object is the BTree of a word whose weight is 1 *)
  Lemma cos_handed (s : sys F) o : handed cos_objs s o -> private o \/
    exists wid p i, o = Posting wid /\ get (wordinfo (six s)) wid = Some p /\ p_dict p = false /\
      inverse_doc_frequency (Zsize (p_map p)) (fofZ (Zsize (docweight (six s)))) = Ok i /\ feqb i f1 = true.
  Proof.
    intros (wids & L & w & E & Hin & Hw). unfold cos_objs in E.
    destruct (mapM_In _ _ _ _ E Hin) as (wid & _ & Hc). unfold cos_obj, cos_search_wid in Hc.
    destruct (mem wid (wordinfo (six s))); cbn [negb bind] in Hc; [|discriminate]. unfold item in Hc.
    destruct (get (wordinfo (six s)) wid) as [p|] eqn:Ep; cbn [bind] in Hc; [|discriminate].
    destruct (inverse_doc_frequency _ _) as [i|e] eqn:Ei; cbn [bind] in Hc; [|discriminate].
    injection Hc as Ho Hi. subst i. destruct (p_dict p) eqn:Ed.
    - left. eexists; symmetry; exact Ho.
    - right. exists wid, p, w. split; [symmetry; exact Ho|]. split; [exact Ep|]. split; [exact Ed|]. split; [exact Ei|exact Hw].
  Qed.
  (** assignments to a BTree of the index *)
  Definition is_tree (ix : bindex F) (wid : Z) : Prop := exists p, get (wordinfo ix) wid = Some p /\ p_dict p = false.
  Lemma tree_write ix wid d v : is_tree ix wid ->
    is_tree (cos_write wid d v ix) wid /\ cos_read (cos_write wid d v ix) wid = put d (f32 v) (cos_read ix wid).
  Proof.
    intros (p & E & Hd). unfold cos_write, cos_read, is_tree. rewrite E. cbn [wordinfo set_wordinfo]. rewrite get_put_same.
    split; [|unfold p_set; rewrite Hd; reflexivity]. eexists; split; [reflexivity|exact Hd].
  Qed.
  Lemma tree_loop items qw : forall ix wid, is_tree ix wid ->
    exists ix', o_normalise_loop cos_write items qw ix (Posting wid) = (ix', rmap (fun _ => Posting wid) (normalise_loop items qw (cos_read ix wid))) /\
      (forall m, normalise_loop items qw (cos_read ix wid) = Ok m -> cos_read ix' wid = m).
  Proof.
    induction items as [|[d v] items IH]; intros ix wid H.
    - exists ix. split; [reflexivity|]. intros m Hm. injection Hm as <-. reflexivity.
    - cbn [o_normalise_loop normalise_loop]. destruct (py_div v qw) as [q|e]; cbn [bind rmap]; [|eexists; split; [reflexivity|discriminate]].
      cbn [assign]. destruct (tree_write ix wid d q H) as [H1 H2]. rewrite <- H2. apply IH. exact H1.
  Qed.

  Variables (space : char -> bool) (upper : str -> str) (qpipeline pipeline : list elem).
  Notation qweight := (cos_query_weight (F := F) pipeline).
  Notation o_app := (o_apply cos_read cos_write space upper qpipeline pipeline cos_objs qweight).
  Notation app := (apply space upper qpipeline pipeline cos_search_wids qweight).
  (** the answer is that of the model without identity, also when the index changes *)
  Lemma cos_answer (s : sys F) q start count :
    answer cos_read (six (fst (o_app s q))) (snd (o_app s q)) = app s q start count.
  Proof.
    unfold o_apply, apply.
    destruct (parseQuery _ _ _ _ _) as [[tree ign]|e]; cbn [pbind]; [|reflexivity].
    destruct (exec_val cos_read pipeline cos_objs cos_search_wids s (cos_vals (six s)) tree) as [_ Hv]. rewrite Hv.
    destruct (exec_ok cos_read pipeline cos_objs s tree) as [_ Hok].
    destruct (o_execute cos_read (six s) pipeline cos_objs (slx s) tree) as [[o|]|e]; cbn [rmap option_map fst snd answer]; try reflexivity.
    destruct (is_empty (val cos_read (six s) o)) eqn:Ee; [reflexivity|].
    unfold normalise. destruct (qweight s _) as [qw|e]; cbn [bind fst snd answer]; [|reflexivity]. cbv zeta.
    set (qw' := fmul _ _). clearbody qw'. destruct o as [m|wid].
    - rewrite own_loop. cbn [val]. destruct (normalise_loop _ _ _) as [r|e]; reflexivity.
    - assert (Ht : is_tree (six s) wid).
      { destruct (Hok _ eq_refl) as [[m E]|Hh]; [discriminate|].
        destruct (cos_handed s _ Hh) as [[m E]|(wid' & p & i & E & Ep & Hp & _)]; [discriminate|].
        injection E as <-. exists p. auto. }
      cbn [val]. destruct (tree_loop (elts (cos_read (six s) wid)) qw' (six s) wid Ht) as (ix' & E & Hr). rewrite E.
      destruct (normalise_loop _ _ (cos_read (six s) wid)) as [r|e]; cbn [rmap fst snd answer val six]; [|reflexivity].
      rewrite (Hr r eq_refl). reflexivity.
  Qed.
  (** the words whose inverse document frequency is 1 *)
  Definition no_unit (s : sys F) : Prop := forall wid p i, get (wordinfo (six s)) wid = Some p -> p_dict p = false ->
    inverse_doc_frequency (Zsize (p_map p)) (fofZ (Zsize (docweight (six s)))) = Ok i -> feqb i f1 = false.
  Lemma no_unit_private s o : no_unit s -> handed cos_objs s o -> private o.
  Proof.
    intros Hn Hh. destruct (cos_handed s o Hh) as [H|(wid & p & i & _ & Ep & Hp & Ei & Hi)]; [exact H|].
    rewrite (Hn wid p i Ep Hp Ei) in Hi. discriminate.
  Qed.
  Lemma cos_quiet s q : no_unit s -> fst (o_app s q) = s /\ private_answer (snd (o_app s q)).
  Proof.
    intros Hn. destruct (apply_private cos_read cos_write pipeline cos_objs cos_search_wids s (cos_vals (six s)) space upper qpipeline
      qweight q 0 None (fun o => no_unit_private s o Hn)) as (H1 & H2 & _). split; assumption.
  Qed.
  Lemma ok_private s o : no_unit s -> ok_obj cos_objs s o -> private o.
  Proof. intros Hn [H|H]; [exact H|exact (no_unit_private s o Hn H)]. Qed.
  Lemma cos_searches_private s : no_unit s ->
    (forall t o, o_search cos_read (six s) pipeline cos_objs (slx s) t = Ok (Some o) -> private o) /\
    (forall t o, o_search_phrase cos_read (six s) pipeline cos_objs (slx s) t = Ok o -> private o) /\
    (forall t o, o_search_glob cos_read (six s) cos_objs (slx s) t = Ok o -> private o).
  Proof.
    intros Hn. split; [|split]; intros t o H; apply (ok_private s o Hn).
    - exact (search_ok _ _ _ _ t o H).
    - exact (phrase_ok _ _ _ _ t o H).
    - exact (glob_ok _ _ _ t o H).
  Qed.
End Cosine.

(** ** Histories with queries *)
Lemma q_run_updates {V} (update : top -> sx (sys V) unit) (query : sys V -> str -> sys V) :
  (forall s q, query s q = s) -> forall evs s, q_run update query evs s = siter update (updates evs) s.
Proof.
  intros H evs. unfold q_run. induction evs as [|[o|q] evs IH]; intros s; [reflexivity| |].
  - cbn [updates flat_map app siter]. unfold sbind. destruct (update o s) as [s1 [a|e]]; [apply IH|reflexivity].
  - cbn [siter]. unfold sbind at 1, smod. rewrite H. apply IH.
Qed.
