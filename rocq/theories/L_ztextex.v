(** * Examples: concurrent transactions on an Okapi text index *)
From Verif Require Import L_zokapi L_zfieldex S_ztext S_text SMap Ord.
Open Scope list_scope. Open Scope Z_scope.

Definition id_pipeline : list elem := [mkElem (fun l => l) None].
Definition wd (c : Z) : str := [c].
Definition tx (l : list Z) : ltext := TxList (map wd l).
(** Thirteen documents contain the word 122. *)
Definition zt_base : list top :=
  [TIndex 1 (tx [97; 98]); TIndex 2 (tx [99; 100]); TIndex 3 (tx [101; 102])] ++
  map (fun n => TIndex (Z.of_nat n) (tx [122])) (seq 11 13).
Definition zt_example : list (nat * nat * list top) :=
  [(0%nat, 0%nat, zt_base);
   (0%nat, 0%nat, [TIndex 4 (tx [97; 98; 122; 122])]);
   (1%nat, 1%nat, [TIndex 5 (tx [99; 122; 99]); TUnindex 2; TIndex 3 (tx [102])])].
Definition zt_show (st : ztext Z) : list (Z * list str) := elts (documents (zt_sys st)).
Definition is_some {A} (o : option A) : bool := match o with Some _ => true | None => false end.

Lemma nth_three {A} (l : list A) x : length l = 3%nat -> hd_error l = Some (nth 0 l x) /\ nth_error l 1 = Some (nth 1 l x).
Proof. destruct l as [|? [|? [|? [|]]]]; try discriminate. split; reflexivity. Qed.
Lemma schedule_ok_check p sch :
  forallb (fun o => match o with LCounter _ => false | LText _ => true end) (lex_hist (all_ops sch)) = true ->
  forallb (fun o => match o with TIndex _ t => Zlen (text_words p t) <=? 2 ^ 24 | _ => true end) (all_ops sch) = true ->
  (Zlen (distinct (words_of p (lex_hist (all_ops sch)))) <? 2 ^ 28) = true -> schedule_ok p sch.
Proof.
  intros H1 H2 H3. split; [|split; [|lia]].
  - intros n Hn. rewrite forallb_forall in H1. specialize (H1 _ Hn). discriminate.
  - intros d t Hd. rewrite forallb_forall in H2. specialize (H2 _ Hd). cbn in H2. lia.
Qed.
Lemma zt_example_ok :
  schedule_ok id_pipeline zt_example /\ clears_t (all_ops zt_example) = false /\ length (zo_run id_pipeline zt_example) = 4%nat /\
  forall st, hd_error (zo_run id_pipeline zt_example) = Some st -> firstn 4 (zt_show st) =
     [(1, [wd 97; wd 98]); (3, [wd 102]); (4, [wd 97; wd 98; wd 122; wd 122]); (5, [wd 99; wd 122; wd 99])].
Proof.
  split; [apply schedule_ok_check; vm_compute; reflexivity|]. split; [reflexivity|]. split; [vm_compute; reflexivity|].
  intros st E. assert (H : option_map (fun st => firstn 4 (zt_show st)) (hd_error (zo_run id_pipeline zt_example)) =
    Some [(1, [wd 97; wd 98]); (3, [wd 102]); (4, [wd 97; wd 98; wd 122; wd 122]); (5, [wd 99; wd 122; wd 99])]) by (vm_compute; reflexivity).
  rewrite E in H. cbn [option_map] in H. injection H as H. exact H.
Qed.
(** Old versions: a word with few documents, a document, a new word, a word that someone else has added. *)
Lemma zt_example_conflicts :
  let try i j ops := is_some (zo_commit id_pipeline (zo_run id_pipeline (firstn 2 zt_example)) i j ops) in
  schedule_ok id_pipeline (firstn 2 zt_example ++ [(1%nat, 1%nat, [TIndex 6 (tx [97])])]) /\
  try 1%nat 1%nat [TIndex 6 (tx [97])] = false /\ try 1%nat 1%nat [TIndex 4 (tx [122])] = false /\
  try 1%nat 1%nat [TIndex 6 (tx [103])] = true /\ try 1%nat 1%nat [TIndex 6 (tx [122])] = true /\ try 0%nat 0%nat [TIndex 6 (tx [97])] = true.
Proof. cbn zeta. split; [apply schedule_ok_check; vm_compute; reflexivity|]. vm_compute. repeat split. Qed.
(** the hypotheses of C71_serial *)
Lemma zt_serial_used : exists st cur snap,
  let ops := [TIndex 5 (tx [99; 122; 99]); TUnindex 2; TIndex 3 (tx [102])] in
  schedule_ok id_pipeline (firstn 2 zt_example ++ [(1%nat, 1%nat, ops)]) /\
  zo_commit id_pipeline (zo_run id_pipeline (firstn 2 zt_example)) 1 1 ops = Some st /\
  hd_error (zo_run id_pipeline (firstn 2 zt_example)) = Some cur /\ nth_error (zo_run id_pipeline (firstn 2 zt_example)) 1 = Some snap /\
  cleared_since_t snap cur = false /\ clears_t ops = false /\
  (forall d, In d (docs_of_t ops) -> get (documents (zt_sys cur)) d = get (documents (zt_sys snap)) d) /\
  get (documents (zt_sys cur)) 4 <> get (documents (zt_sys snap)) 4.
Proof.
  set (vs := zo_run id_pipeline (firstn 2 zt_example)).
  assert (H3 : length vs = 3%nat) by (vm_compute; reflexivity).
  destruct (zo_commit id_pipeline vs 1 1 [TIndex 5 (tx [99; 122; 99]); TUnindex 2; TIndex 3 (tx [102])]) as [st|] eqn:E.
  2:{ exfalso. assert (X : is_some (zo_commit id_pipeline vs 1 1 [TIndex 5 (tx [99; 122; 99]); TUnindex 2; TIndex 3 (tx [102])]) = true) by (vm_compute; reflexivity).
      rewrite E in X. discriminate. }
  exists st, (nth 0 vs zt_new), (nth 1 vs zt_new). cbn zeta.
  split; [apply schedule_ok_check; vm_compute; reflexivity|]. split; [exact E|].
  split; [exact (proj1 (nth_three vs zt_new H3))|]. split; [exact (proj2 (nth_three vs zt_new H3))|].
  split; [vm_compute; reflexivity|]. split; [reflexivity|]. split.
  - intros d [<-|[<-|[<-|[]]]]; vm_compute; reflexivity.
  - vm_compute. discriminate.
Qed.
(** the hypotheses of C71_new_word *)
Lemma zt_new_word_used : exists cur snap,
  let sch := [(0%nat, 0%nat, [TOther (LText (tx [97])); TIndex 1 (tx [98])]); (0%nat, 0%nat, [TIndex 2 (tx [97])])] in
  let ops := [TIndex 3 (tx [97; 98])] in
  schedule_ok id_pipeline (sch ++ [(1%nat, 1%nat, ops)]) /\
  hd_error (zo_run id_pipeline sch) = Some cur /\ nth_error (zo_run id_pipeline sch) 1 = Some snap /\
  cleared_since_t snap cur = false /\ clears_t ops = false /\
  ~ In (wd 97) (vocabulary (documents (zt_sys snap))) /\ In (wd 97) (vocabulary (documents (zt_sys cur))) /\
  In (wd 97) (vocabulary (fold_left (docs_step id_pipeline) ops (documents (zt_sys snap)))).
Proof.
  set (sch := [(0%nat, 0%nat, [TOther (LText (tx [97])); TIndex 1 (tx [98])]); (0%nat, 0%nat, [TIndex 2 (tx [97])])]).
  set (vs := zo_run id_pipeline sch). assert (H3 : length vs = 3%nat) by (vm_compute; reflexivity).
  exists (nth 0 vs zt_new), (nth 1 vs zt_new). cbn zeta. split; [apply schedule_ok_check; vm_compute; reflexivity|].
  split; [exact (proj1 (nth_three vs zt_new H3))|]. split; [exact (proj2 (nth_three vs zt_new H3))|].
  split; [vm_compute; reflexivity|]. split; [reflexivity|]. split; [|split].
  - vm_compute. intros [H|[]]. discriminate.
  - vm_compute. tauto.
  - vm_compute. tauto.
Qed.

(** Neither order. *)
Lemma zt_skew : exists base ta tb st v1 v2 v3,
  zo_run id_pipeline [(0%nat, 0%nat, base); (0%nat, 0%nat, ta); (1%nat, 1%nat, tb)] = [st; v1; v2; v3] /\
  (exists d, get (documents (zt_sys st)) d <> get (docs_of id_pipeline (base ++ ta ++ tb)) d) /\
  (exists d, get (documents (zt_sys st)) d <> get (docs_of id_pipeline (base ++ tb ++ ta)) d).
Proof.
  exists [TIndex 1 (tx [97]); TIndex 2 (tx [99]); TIndex 3 (tx [98; 100])], [TIndex 1 (tx [98]); TIndex 2 (tx [99])],
         [TIndex 1 (tx [97]); TIndex 2 (tx [100])].
  do 4 eexists. split; [apply (four_ok _ zt_new); vm_compute; reflexivity|].
  split; [exists 1|exists 2]; vm_compute; discriminate.
Qed.
(** A document indexed while someone else clears the index. *)
Lemma zt_clear_loses : exists base d t st v1 v2 v3,
  zo_run id_pipeline [(0%nat, 0%nat, base); (0%nat, 0%nat, [TClear]); (1%nat, 1%nat, [TIndex d t])] = [st; v1; v2; v3] /\
  has_doc (six (zt_sys st)) d = false /\
  get (docs_of id_pipeline (base ++ [TClear] ++ [TIndex d t])) d <> None /\
  totaldoclen (six (zt_sys st)) <> totaldoclen (six (zt_sys v1)).
Proof.
  exists [TIndex 1 (tx [97])], 2, (tx [97; 97]). do 4 eexists. split; [apply (four_ok _ zt_new); vm_compute; reflexivity|].
  split; [vm_compute; reflexivity|]. split; vm_compute; discriminate.
Qed.
(** the hypotheses of C71_commits *)
Lemma run_extends p a b : exists news, zo_run p (a ++ b) = news ++ zo_run p a.
Proof.
  induction b as [|t b [news IH]] using rev_ind; [exists []; rewrite app_nil_r; reflexivity|].
  rewrite app_assoc, zo_run_snoc, IH. unfold zt_step. destruct (zt_commit _ _ _ _ _ _ _ _) as [st|]; [exists (st :: news)|exists news]; reflexivity.
Qed.
Definition zt_before : list (nat * nat * list top) := [(0%nat, 0%nat, zt_base)].
Definition zt_since : list (nat * nat * list top) := [(0%nat, 0%nat, [TIndex 4 (tx [97; 98; 97]); TUnindex 1]); (1%nat, 1%nat, [TIndex 5 (tx [122])])].
Definition zt_ops : list top := [TUnindex 3; TIndex 2 (tx [100; 101; 103])].
Lemma zt_commits_used : exists cur snap seen,
  schedule_ok id_pipeline (zt_before ++ zt_since ++ [(2%nat, 0%nat, zt_ops)]) /\
  hd_error (zo_run id_pipeline zt_before) = Some snap /\ hd_error (zo_run id_pipeline (zt_before ++ zt_since)) = Some cur /\
  nth_error (zo_run id_pipeline (zt_before ++ zt_since)) 2 = Some snap /\
  nth_error (zo_run id_pipeline (zt_before ++ zt_since)) (Nat.min 2 0) = Some seen /\
  lexicon_admits id_pipeline (op_texts zt_ops) (slx (zt_sys snap)) (slx (zt_sys seen)) (slx (zt_sys cur)) /\
  new_words id_pipeline (op_texts zt_ops) (slx (zt_sys snap)) /\
  clears_t (all_ops zt_since) = false /\ clears_t zt_ops = false /\
  (forall d d', In d (docs_of_t zt_ops) -> In d' (docs_of_t (all_ops zt_since)) -> d <> d' /\
     forall w, word_given id_pipeline (all_ops (zt_before ++ zt_since ++ [(2%nat, 0%nat, zt_ops)])) d w ->
               word_given id_pipeline (all_ops (zt_before ++ zt_since ++ [(2%nat, 0%nat, zt_ops)])) d' w -> False).
Proof.
  set (vs := zo_run id_pipeline (zt_before ++ zt_since)).
  assert (H4 : length vs = 4%nat) by (vm_compute; reflexivity).
  assert (Hn : forall n, (n < 4)%nat -> nth_error vs n = Some (nth n vs zt_new)) by (intros n Hn; apply nth_error_nth'; rewrite H4; exact Hn).
  assert (Hs : hd_error (zo_run id_pipeline zt_before) = Some (nth 2 vs zt_new)).
  { destruct (run_extends id_pipeline zt_before zt_since) as [news Hnews]. fold vs in Hnews.
    assert (H2 : length (zo_run id_pipeline zt_before) = 2%nat) by (vm_compute; reflexivity).
    rewrite Hnews. rewrite Hnews, app_length, H2 in H4. rewrite app_nth2 by lia. replace (2 - length news)%nat with 0%nat by lia.
    destruct (zo_run id_pipeline zt_before); [discriminate|reflexivity]. }
  exists (nth 0 vs zt_new), (nth 2 vs zt_new), (nth 0 vs zt_new).
  split; [apply schedule_ok_check; vm_compute; reflexivity|]. split; [exact Hs|].
  split; [rewrite <- (Hn 0%nat) by lia; destruct vs; reflexivity|]. split; [apply Hn; lia|]. split; [apply (Hn 0%nat); lia|].
  split.
  { intros _. split; [reflexivity|]. intros t w [<-|[]] Hw. vm_compute in Hw. destruct Hw as [<-|[<-|[<-|[]]]]; vm_compute; congruence. }
  split; [exists (tx [100; 101; 103]), (wd 103); split; [left; reflexivity|]; split; [vm_compute; tauto|vm_compute; reflexivity]|].
  split; [reflexivity|]. split; [reflexivity|].
  assert (G2 : forall d w, In d [3; 2] -> word_given id_pipeline (all_ops (zt_before ++ zt_since ++ [(2%nat, 0%nat, zt_ops)])) d w -> In w [wd 99; wd 100; wd 101; wd 102; wd 103]).
  { intros d w Hd (t & Ht & Hw). vm_compute in Ht. destruct Hd as [<-|[<-|[]]];
    repeat (destruct Ht as [Ht|Ht]; [try discriminate Ht; injection Ht as <-; vm_compute in Hw; vm_compute; tauto|]); destruct Ht. }
  assert (G3 : forall d w, In d [4; 1; 5] -> word_given id_pipeline (all_ops (zt_before ++ zt_since ++ [(2%nat, 0%nat, zt_ops)])) d w -> In w [wd 97; wd 98; wd 122]).
  { intros d w Hd (t & Ht & Hw). vm_compute in Ht. destruct Hd as [<-|[<-|[<-|[]]]];
    repeat (destruct Ht as [Ht|Ht]; [try discriminate Ht; injection Ht as <-; vm_compute in Hw; vm_compute; tauto|]); destruct Ht. }
  intros d d' Hd Hd'. split.
  - vm_compute in Hd, Hd'. destruct Hd as [<-|[<-|[]]], Hd' as [<-|[<-|[<-|[]]]]; discriminate.
  - intros w W1 W2. apply (G2 d w Hd) in W1. apply (G3 d' w Hd') in W2. clear - W1 W2. vm_compute in W1, W2.
    destruct W1 as [<-|[<-|[<-|[<-|[<-|[]]]]]], W2 as [E|[E|[E|[]]]]; discriminate.
Qed.
(** the hypotheses of C71_clears *)
Lemma zt_clears_used : let sch := zt_before ++ [(0%nat, 0%nat, [TClear; TIndex 1 (tx [97])])] in
  let try i j ops := is_some (zo_commit id_pipeline (zo_run id_pipeline sch) i j ops) in
  length (zo_run id_pipeline sch) = 3%nat /\
  try 1%nat 1%nat [TUnindex 2; TIndex 1 (tx [98; 99])] = true /\ try 1%nat 1%nat [TClear] = false /\ try 1%nat 1%nat [TIndex 7 (tx [108])] = true.
Proof. vm_compute. repeat split. Qed.
