(** * Lemmas about the pipeline elements *)
From Verif Require Import S_lexicon S_split M_split Regex SMap Ord.

Section Split.
  Variable p : char -> bool.

  Lemma rx_word_hit c s : p c = true ->
    findall (rx_word p) (c :: s) = (c :: take_while p s) :: findall (rx_word p) (drop_while p s).
  Proof. apply findall_chr_star_hit. Qed.
  Lemma rx_word_skip c s : p c = false -> findall (rx_word p) (c :: s) = findall (rx_word p) s.
  Proof. apply findall_chr_star_skip. Qed.

  Lemma runs_findall s : runs p s (findall (rx_word p) s).
  Proof.
    remember (length s) as n eqn:En. assert (Hn : (length s <= n)%nat) by lia. clear En.
    revert s Hn; induction n as [|n IH]; intros s Hn.
    - destruct s; [constructor|cbn in Hn; lia].
    - destruct s as [|c s]; [constructor|]. cbn [length] in Hn. destruct (p c) eqn:Ec.
      + rewrite rx_word_hit by exact Ec. rewrite <- (take_drop p s) at 1.
        change (c :: take_while p s ++ drop_while p s) with ((c :: take_while p s) ++ drop_while p s).
        constructor; [discriminate|constructor; [exact Ec|apply take_while_all]| |].
        * intros c' s' H. eapply drop_while_head; exact H.
        * apply IH. pose proof (drop_while_length p s). lia.
      + rewrite rx_word_skip by exact Ec. constructor; [exact Ec|]. apply IH. lia.
  Qed.
  Lemma take_while_run w s : Forall (fun c => p c = true) w -> (forall c s', s = c :: s' -> p c = false) ->
    take_while p (w ++ s) = w /\ drop_while p (w ++ s) = s.
  Proof.
    intros Hw Hs. rewrite take_while_app_all, drop_while_app_all by exact Hw. destruct s as [|c s]; cbn.
    - rewrite app_nil_r; auto.
    - rewrite (Hs c s eq_refl), app_nil_r. auto.
  Qed.
  Lemma findall_run w s : w <> [] -> Forall (fun c => p c = true) w -> (forall c s', s = c :: s' -> p c = false) ->
    findall (rx_word p) (w ++ s) = w :: findall (rx_word p) s.
  Proof.
    intros Hne Hw Hs. destruct w as [|c w]; [contradiction|]. inversion Hw as [|? ? Hc Hw']; subst. cbn [app].
    rewrite rx_word_hit by exact Hc. destruct (take_while_run w s Hw' Hs) as [-> ->]. reflexivity.
  Qed.
  Lemma runs_unique s ws : runs p s ws -> ws = findall (rx_word p) s.
  Proof.
    induction 1 as [|c s ws Hc _ IH|w s ws Hne Hw Hs _ IH].
    - reflexivity.
    - rewrite rx_word_skip by exact Hc. exact IH.
    - rewrite findall_run by assumption. rewrite <- IH. reflexivity.
  Qed.
  Lemma findall_sep a c b : p c = false ->
    findall (rx_word p) (a ++ c :: b) = findall (rx_word p) a ++ findall (rx_word p) b.
  Proof.
    intros Hc. assert (H : forall s ws, runs p s ws -> runs p (s ++ c :: b) (ws ++ findall (rx_word p) b)).
    { induction 1 as [|c' s ws Hc' _ IH|w s ws Hne Hw Hs _ IH]; cbn [app].
      - apply runs_sep; [exact Hc|apply runs_findall].
      - apply runs_sep; assumption.
      - rewrite <- app_assoc. apply runs_word; try assumption. intros c' s' E. destruct s as [|x s].
        + injection E as <- <-. exact Hc.
        + injection E as <- <-. apply (Hs x s eq_refl). }
    symmetry. apply runs_unique, H, runs_findall.
  Qed.
  Lemma findall_words s : Forall (fun w => w <> [] /\ Forall (fun c => p c = true) w) (findall (rx_word p) s).
  Proof. induction (runs_findall s); auto. Qed.
  Lemma findall_one w : w <> [] -> Forall (fun c => p c = true) w -> findall (rx_word p) w = [w].
  Proof.
    intros H1 H2. rewrite <- (app_nil_r w) at 1. rewrite findall_run by (auto; discriminate). reflexivity.
  Qed.
  Lemma process_words l : Forall (fun w => w <> [] /\ Forall (fun c => p c = true) w) (splitter_process p l).
  Proof.
    unfold splitter_process. induction l as [|s l IH]; cbn [flat_map]; [constructor|].
    apply Forall_app. split; [apply findall_words|exact IH].
  Qed.
  Lemma process_id l : Forall (fun w => w <> [] /\ Forall (fun c => p c = true) w) l -> splitter_process p l = l.
  Proof.
    unfold splitter_process. induction 1 as [|w l [H1 H2] _ IH]; cbn [flat_map]; [reflexivity|].
    rewrite findall_one, IH by assumption. reflexivity.
  Qed.
  Lemma splitter_idempotent l : splitter_process p (splitter_process p l) = splitter_process p l.
  Proof. apply process_id, process_words. Qed.

  (** Globs *)
  Lemma glob_class c : word_or_glob p c = true <-> p c = true \/ c = chr_star \/ c = chr_qm.
  Proof. unfold word_or_glob, is_glob_char. rewrite !orb_true_iff, !Z.eqb_eq. reflexivity. Qed.
  Lemma drop_drop s : drop_while (word_or_glob p) (drop_while p s) = drop_while (word_or_glob p) s.
  Proof.
    induction s as [|c s IH]; cbn [drop_while]; [reflexivity|]. destruct (p c) eqn:E; [|reflexivity].
    rewrite IH. unfold word_or_glob at 2. rewrite E. reflexivity.
  Qed.
  Lemma rx_glob_match s : re_match (rx_glob p) s =
    match s with c :: s' => if p c then Some (drop_while (word_or_glob p) s') else None | [] => None end.
  Proof.
    unfold rx_glob. destruct s as [|c s]; [reflexivity|].
    pose proof (re_match_chr_star p p (c :: s)) as Hm. cbv beta iota in Hm.
    fold (RPlus (RChr p)) in Hm. unfold re_match in Hm. destruct (p c) eqn:Ec.
    - destruct (mt (RPlus (RChr p)) (c :: s)) as [|s1 l] eqn:El; [discriminate|]. injection Hm as ->.
      rewrite (re_match_seq_first _ _ _ _ _ El).
      + unfold re_match. rewrite mt_star_chr. destruct (munch_hd (word_or_glob p) (drop_while p s)) as [l' [-> _]].
        cbn. rewrite drop_drop. reflexivity.
      + rewrite mt_star_chr. destruct (munch_hd (word_or_glob p) (drop_while p s)) as [l' [-> _]]. discriminate.
    - unfold re_match. change (mt (RSeq (RPlus (RChr p)) (RStar (RChr (word_or_glob p)))) (c :: s))
        with (flat_map (mt (RStar (RChr (word_or_glob p)))) (mt (RPlus (RChr p)) (c :: s))).
      destruct (mt (RPlus (RChr p)) (c :: s)) as [|s1 l]; [reflexivity|discriminate].
  Qed.
  Lemma rx_glob_eq s : findall (rx_glob p) s = findall (RSeq (RChr p) (RStar (RChr (word_or_glob p)))) s.
  Proof.
    unfold findall. generalize (length s) as n. intros n. revert s; induction n as [|n IH]; intros s; cbn [findall_aux]; [reflexivity|].
    destruct s as [|c s]; [reflexivity|]. rewrite rx_glob_match, re_match_chr_star. cbv beta iota.
    destruct (p c); [|apply IH]. destruct (_ <? _)%nat; [|apply IH]. f_equal. apply IH.
  Qed.
  Lemma gruns_findall s : glob_runs p s (findall (rx_glob p) s).
  Proof.
    rewrite rx_glob_eq.
    remember (length s) as n eqn:En. assert (Hn : (length s <= n)%nat) by lia. clear En.
    revert s Hn; induction n as [|n IH]; intros s Hn.
    - destruct s; [constructor|cbn in Hn; lia].
    - destruct s as [|c s]; [constructor|]. cbn [length] in Hn. destruct (p c) eqn:Ec.
      + rewrite findall_chr_star_hit by exact Ec. rewrite <- (take_drop (word_or_glob p) s) at 1.
        constructor; [exact Ec| | |].
        * eapply Forall_impl; [|apply take_while_all]. intros x Hx. apply glob_class, Hx.
        * intros c' s' H. apply drop_while_head in H. rewrite <- not_true_iff_false, glob_class in H. 
          destruct (p c'); intuition congruence.
        * apply IH. pose proof (drop_while_length (word_or_glob p) s). lia.
      + rewrite findall_chr_star_skip by exact Ec. constructor; [exact Ec|]. apply IH. lia.
  Qed.
  Lemma gruns_unique s ws ws' : glob_runs p s ws -> glob_runs p s ws' -> ws = ws'.
  Proof.
    assert (H : forall s ws, glob_runs p s ws -> ws = findall (rx_glob p) s); [|intros H1 H2; apply H in H1, H2; congruence].
    clear s ws ws'. intros s ws. rewrite rx_glob_eq. induction 1 as [|c s ws Hc _ IH|c w s ws Hc Hw Hs _ IH].
    - reflexivity.
    - rewrite findall_chr_star_skip by exact Hc. exact IH.
    - rewrite findall_chr_star_hit by exact Hc.
      assert (Hw' : Forall (fun c => word_or_glob p c = true) w) by (eapply Forall_impl; [|exact Hw]; intros x; apply glob_class).
      rewrite take_while_app_all, drop_while_app_all by exact Hw'. destruct s as [|x s]; cbn [take_while drop_while].
      + rewrite app_nil_r. congruence.
      + assert (E : word_or_glob p x = false).
        { rewrite <- not_true_iff_false, glob_class. destruct (Hs x s eq_refl) as (? & ? & ?). intuition congruence. }
        rewrite E, app_nil_r. congruence.
  Qed.
  Lemma glob_findall_sep a c b : p c = false -> c <> chr_star -> c <> chr_qm ->
    findall (rx_glob p) (a ++ c :: b) = findall (rx_glob p) a ++ findall (rx_glob p) b.
  Proof.
    intros Hc Hc1 Hc2. assert (H : forall s ws, glob_runs p s ws -> glob_runs p (s ++ c :: b) (ws ++ findall (rx_glob p) b)).
    { induction 1 as [|c' s ws Hc' _ IH|c' w s ws Hc' Hw Hs _ IH]; cbn [app].
      - apply gruns_sep; [exact Hc|apply gruns_findall].
      - apply gruns_sep; assumption.
      - rewrite <- app_assoc. apply gruns_word; try assumption. intros x s' E. destruct s as [|y s].
        + injection E as <- <-. auto.
        + injection E as <- <-. apply (Hs y s eq_refl). }
    eapply gruns_unique; [apply gruns_findall|apply H, gruns_findall].
  Qed.
  Lemma glob_output l : Forall (fun w => exists c w', w = c :: w' /\ p c = true /\
     Forall (fun c => p c = true \/ c = chr_star \/ c = chr_qm) w') (splitter_processGlob p l).
  Proof.
    unfold splitter_processGlob. induction l as [|s l IH]; cbn [flat_map]; [constructor|]. apply Forall_app. split; [|exact IH].
    induction (gruns_findall s) as [|c s ws Hc _ IH'|c w s ws Hc Hw Hs _ IH']; [constructor|exact IH'|].
    constructor; [|exact IH']. eauto.
  Qed.
  Lemma glob_no_wildcards l : (forall s c, In s l -> In c s -> c <> chr_star /\ c <> chr_qm) ->
    splitter_processGlob p l = splitter_process p l.
  Proof.
    unfold splitter_processGlob, splitter_process. intros H. rewrite !flat_map_concat_map. f_equal. apply map_ext_in. intros s Hs.
    specialize (fun c => H s c Hs). apply runs_unique. clear l Hs.
    induction (gruns_findall s) as [|c s ws Hc _ IH|c w s ws Hc Hw Hs _ IH].
    - constructor.
    - constructor; [exact Hc|]. apply IH. intros x Hx. apply H. right; exact Hx.
    - change (c :: w ++ s) with ((c :: w) ++ s). apply runs_word.
      + discriminate.
      + constructor; [exact Hc|]. rewrite Forall_forall in *. intros x Hx. destruct (Hw x Hx) as [?|?]; [assumption|].
        destruct (H x); [right; apply in_or_app; left; exact Hx|tauto].
      + intros x s' E. apply (Hs x s' E).
      + apply IH. intros x Hx. apply H. right. apply in_or_app; right; exact Hx.
  Qed.
  (** Globs from the splitter always have a literal prefix that [globToWordIds]
      treats literally. *)
  Lemma glob_output_plain l g : (forall c, p c = true -> ~ In c re_meta) -> In g (splitter_processGlob p l) ->
    exists prefix rest, g = prefix ++ rest /\ prefix <> [] /\ plain prefix /\
      (rest = [] \/ exists c r, rest = c :: r /\ (c = chr_star \/ c = chr_qm)).
  Proof.
    intros Hp Hg. pose proof (glob_output l) as H. rewrite Forall_forall in H.
    destruct (H g Hg) as (c & w & -> & Hc & Hw). clear H Hg.
    assert (Hx : exists pre rest, w = pre ++ rest /\ plain pre /\ (rest = [] \/ exists c r, rest = c :: r /\ (c = chr_star \/ c = chr_qm))).
    { induction Hw as [|x w Hx Hw IH].
      - exists [], []. splits; auto. intros y [].
      - destruct (p x) eqn:Ex.
        + destruct IH as (pre & rest & -> & Hpl & Hr). exists (x :: pre), rest. splits; auto.
          intros y [<-|Hy]; [apply Hp, Ex|apply Hpl, Hy].
        + exists [], (x :: w). splits; [reflexivity|intros y []|]. right. exists x, w. split; [reflexivity|]. 
          destruct Hx as [Hx|Hx]; [congruence|exact Hx]. }
    destruct Hx as (pre & rest & -> & Hpl & Hr). exists (c :: pre), rest. splits; auto; [discriminate|].
    intros y [<-|Hy]; [apply Hp, Hc|apply Hpl, Hy].
  Qed.
End Split.

(** ** Stop words *)
Lemma remove_in_app d l1 l2 : remove_in d (l1 ++ l2) = remove_in d l1 ++ remove_in d l2.
Proof. apply filter_app. Qed.
Lemma stopdict_mem w : mem w stopdict = true <-> In w english_stop_words.
Proof. unfold stopdict. rewrite mem_set_of_list. apply existsb_eqb_In. Qed.
Lemma stopdict1_mem w : mem w stopdict1 = true <-> In w english_stop_words \/ exists c, w = [c] /\ 0 <= c < 255.
Proof.
  unfold stopdict1. assert (H : forall (l : list nat) d, mem w (fold_left (fun d c => sadd [Z.of_nat c] d) l d) = true <->
    mem w d = true \/ exists c, w = [Z.of_nat c] /\ In c l).
  { induction l as [|n l IH]; intros d; cbn [fold_left].
    - split; [auto|]. intros [H|(c & _ & [])]; exact H.
    - rewrite IH, mem_sadd, orb_true_iff, eqb_eq. split.
      + intros [[->|H]|(c & -> & H)]; [right; exists n; cbn; auto|auto|right; exists c; cbn; auto].
      + intros [H|(c & -> & [->|H])]; [auto|auto|right; eauto]. }
  rewrite H, stopdict_mem. split; (intros [Hs|Hs]; [left; exact Hs|right]).
  - destruct Hs as (c & -> & Hc). apply in_seq in Hc. exists (Z.of_nat c). split; [reflexivity|lia].
  - destruct Hs as (c & -> & Hc). exists (Z.to_nat c). split; [f_equal; lia|]. apply in_seq. lia.
Qed.
Lemma remove_in_spec d (P : str -> Prop) l : (forall w, mem w d = true <-> P w) ->
  forall l1 w l2, l = l1 ++ w :: l2 ->
   (P w -> remove_in d l = remove_in d l1 ++ remove_in d l2) /\
   (~ P w -> remove_in d l = remove_in d l1 ++ w :: remove_in d l2).
Proof.
  intros H l1 w l2 ->. rewrite remove_in_app.
  assert (E : remove_in d (w :: l2) = if mem w d then remove_in d l2 else w :: remove_in d l2).
  { unfold remove_in. cbn [filter]. destruct (mem w d); reflexivity. }
  rewrite E. split.
  - intros Hw. apply H in Hw. rewrite Hw. reflexivity.
  - intros Hw. destruct (mem w d) eqn:Em; [apply H in Em; contradiction|]. reflexivity.
Qed.

(** ** HTML *)
Section Html.
  Variable p : char -> bool.
  Variable lower : str -> str.
  Hypothesis Hlow : lower_ok lower.
  Variable rx : regex.
  Hypothesis Hsep : forall a b, findall rx (a ++ 32 :: b) = findall rx a ++ findall rx b.

  Definition markup1 := RSeq (lit 60) (RSeq (RStar (RChr not_angle)) (lit 62)).
  Definition markup2 := RSeq (lit 38) (RSeq (RPlus (RChr ascii_letter)) (lit 59)).

  (** A greedy run followed by a character outside the class. *)
  Lemma run_then q x s : q x = false ->
    mt (RSeq (RStar (RChr q)) (lit x)) s =
    match drop_while q s with c :: s' => if c =? x then [s'] else [] | [] => [] end.
  Proof.
    intros Hq. change (mt (RSeq (RStar (RChr q)) (lit x)) s) with (flat_map (mt (lit x)) (mt (RStar (RChr q)) s)).
    rewrite mt_star_chr. destruct (munch_hd q s) as (l & -> & Hl). cbn [flat_map].
    replace (flat_map (mt (lit x)) l) with (@nil str).
    - rewrite app_nil_r. cbn. destruct (drop_while q s); reflexivity.
    - symmetry. clear -Hl Hq. induction l as [|s' l IH]; [reflexivity|]. cbn [flat_map].
      destruct (Hl s' (or_introl eq_refl)) as (c & s'' & -> & Hc). cbn.
      destruct (c =? x) eqn:E; [apply Z.eqb_eq in E; subst; congruence|]. cbn.
      apply IH. intros s1 Hs1. apply Hl. right; exact Hs1.
  Qed.
  Lemma markup1_match s : mt markup1 s =
    match s with
    | c :: s' => if c =? 60 then match drop_while not_angle s' with c' :: s'' => if c' =? 62 then [s''] else [] | [] => [] end else []
    | [] => []
    end.
  Proof.
    unfold markup1. destruct s as [|c s]; [reflexivity|].
    change (mt (RSeq (lit 60) (RSeq (RStar (RChr not_angle)) (lit 62))) (c :: s))
      with (flat_map (mt (RSeq (RStar (RChr not_angle)) (lit 62))) (if c =? 60 then [s] else [])).
    destruct (c =? 60); [|reflexivity]. cbn [flat_map]. rewrite app_nil_r. apply run_then. reflexivity.
  Qed.
  Lemma markup2_match s : mt markup2 s =
    match s with
    | c :: c1 :: s' => if (c =? 38) && ascii_letter c1
        then match drop_while ascii_letter s' with c' :: s'' => if c' =? 59 then [s''] else [] | [] => [] end else []
    | _ => []
    end.
  Proof.
    unfold markup2. destruct s as [|c s]; [reflexivity|].
    change (mt (RSeq (lit 38) (RSeq (RPlus (RChr ascii_letter)) (lit 59))) (c :: s))
      with (flat_map (mt (RSeq (RPlus (RChr ascii_letter)) (lit 59))) (if c =? 38 then [s] else [])).
    destruct (c =? 38); [|destruct s; reflexivity]. cbn [flat_map andb]. rewrite app_nil_r.
    destruct s as [|c1 s]; [reflexivity|].
    change (mt (RSeq (RPlus (RChr ascii_letter)) (lit 59)) (c1 :: s))
      with (flat_map (mt (lit 59)) (flat_map (mt (RStar (RChr ascii_letter))) (if ascii_letter c1 then [s] else []))).
    destruct (ascii_letter c1); [|reflexivity]. cbn [flat_map]. rewrite app_nil_r.
    change (flat_map (mt (lit 59)) (mt (RStar (RChr ascii_letter)) s)) with (mt (RSeq (RStar (RChr ascii_letter)) (lit 59)) s).
    apply run_then. reflexivity.
  Qed.
  Definition tag_at (s : str) : option str :=
    match s with
    | c :: s' =>
        if c =? 60 then match drop_while not_angle s' with c' :: s'' => if c' =? 62 then Some s'' else None | [] => None end
        else match s' with
             | c1 :: s2 => if (c =? 38) && ascii_letter c1
                 then match drop_while ascii_letter s2 with c' :: s'' => if c' =? 59 then Some s'' else None | [] => None end else None
             | [] => None
             end
    | [] => None
    end.
  Lemma markup_match s : re_match rx_markup s = tag_at s.
  Proof.
    unfold re_match. change (mt rx_markup s) with (mt markup1 s ++ mt markup2 s).
    rewrite markup1_match, markup2_match. unfold tag_at. destruct s as [|c s]; [reflexivity|].
    destruct (c =? 60) eqn:E.
    - apply Z.eqb_eq in E; subst c. cbn [Z.eqb andb].
      destruct (drop_while not_angle s) as [|c' s'']; [destruct s; reflexivity|]. destruct (c' =? 62); [reflexivity|destruct s; reflexivity].
    - cbn [app]. destruct s as [|c1 s]; [reflexivity|]. destruct ((c =? 38) && ascii_letter c1); [|reflexivity].
      destruct (drop_while ascii_letter s) as [|c' s'']; [reflexivity|]. destruct (c' =? 59); reflexivity.
  Qed.
  Lemma tag_at_shorter s rest : tag_at s = Some rest -> (length rest < length s)%nat.
  Proof.
    unfold tag_at. destruct s as [|c s]; [discriminate|]. destruct (c =? 60).
    - pose proof (drop_while_length not_angle s) as Hl. destruct (drop_while not_angle s) as [|c' s'']; [discriminate|].
      destruct (c' =? 62); [|discriminate]. intros [= <-]. cbn in *. lia.
    - destruct s as [|c1 s]; [discriminate|]. destruct ((c =? 38) && ascii_letter c1); [|discriminate].
      pose proof (drop_while_length ascii_letter s) as Hl. destruct (drop_while ascii_letter s) as [|c' s'']; [discriminate|].
      destruct (c' =? 59); [|discriminate]. intros [= <-]. cbn in *. lia.
  Qed.
  Lemma sub_hit s rest : tag_at s = Some rest -> re_sub rx_markup [32] s = 32 :: re_sub rx_markup [32] rest.
  Proof.
    intros H. rewrite (re_sub_match _ _ _ rest).
    - reflexivity.
    - rewrite markup_match. exact H.
    - apply tag_at_shorter, H.
  Qed.
  Lemma sub_miss c s : tag_at (c :: s) = None -> re_sub rx_markup [32] (c :: s) = c :: re_sub rx_markup [32] s.
  Proof. intros H. apply re_sub_skip. rewrite markup_match. exact H. Qed.

  (** Reading up to a character outside the class. *)
  Lemma drop_while_stop_app q s x t : q x = false ->
    drop_while q (s ++ x :: t) = match drop_while q s with [] => x :: t | _ :: _ => drop_while q s ++ x :: t end.
  Proof.
    intros Hx. induction s as [|c s IH]; cbn [app drop_while].
    - rewrite Hx. reflexivity.
    - destruct (q c); [exact IH|reflexivity].
  Qed.
  (** Markup that begins inside [s] ends inside [s] when what follows begins with
      '<', or with '&' while no tag is open. *)
  Lemma tag_at_app s x t : s <> [] -> x = 60 \/ (x = 38 /\ no_open_tag s) ->
    tag_at (s ++ x :: t) = match tag_at s with Some r => Some (r ++ x :: t) | None => None end.
  Proof.
    intros Hne Hx. destruct s as [|c s]; [contradiction|]. cbn [app tag_at]. destruct (c =? 60) eqn:Ec.
    - apply Z.eqb_eq in Ec; subst c. destruct Hx as [->|[-> Ho]].
      + rewrite drop_while_stop_app by reflexivity. destruct (drop_while not_angle s) as [|c' s'']; [reflexivity|].
        cbn [app]. destruct (c' =? 62); reflexivity.
      + assert (Hin : In 62 s) by (apply (Ho [] s); reflexivity).
        assert (E : drop_while not_angle (s ++ 38 :: t) = drop_while not_angle s ++ 38 :: t /\ drop_while not_angle s <> []).
        { clear -Hin. induction s as [|c s IH]; [destruct Hin|]. cbn [app drop_while]. destruct (not_angle c) eqn:E.
          - apply IH. destruct Hin as [->|Hin]; [discriminate|exact Hin].
          - split; [reflexivity|discriminate]. }
        destruct E as [-> Hd]. destruct (drop_while not_angle s) as [|c' s'']; [contradiction|].
        cbn [app]. destruct (c' =? 62); reflexivity.
    - assert (Hlx : ascii_letter x = false) by (destruct Hx as [->|[-> _]]; reflexivity).
      destruct s as [|c1 s]; cbn [app].
      + rewrite Hlx, andb_false_r. reflexivity.
      + destruct ((c =? 38) && ascii_letter c1); [|reflexivity]. rewrite drop_while_stop_app by exact Hlx.
        assert (Hx59 : x =? 59 = false) by (destruct Hx as [->|[-> _]]; reflexivity).
        destruct (drop_while ascii_letter s) as [|c' s'']; cbn [app]; [rewrite Hx59; reflexivity|]. destruct (c' =? 59); reflexivity.
  Qed.
  Lemma no_open_tag_suffix u s : no_open_tag (u ++ s) -> no_open_tag s.
  Proof. intros H a b ->. apply (H (u ++ a) b). rewrite <- app_assoc. reflexivity. Qed.
  Lemma tag_at_suffix s r : tag_at s = Some r -> exists u, s = u ++ r.
  Proof.
    unfold tag_at. destruct s as [|c s]; [discriminate|]. destruct (c =? 60).
    - pose proof (take_drop not_angle s) as Hl. destruct (drop_while not_angle s) as [|c' s'']; [discriminate|].
      destruct (c' =? 62); [|discriminate]. intros [= <-]. exists (c :: take_while not_angle s ++ [c']).
      cbn. rewrite <- app_assoc. cbn. rewrite Hl. reflexivity.
    - destruct s as [|c1 s]; [discriminate|]. destruct ((c =? 38) && ascii_letter c1); [|discriminate].
      pose proof (take_drop ascii_letter s) as Hl. destruct (drop_while ascii_letter s) as [|c' s'']; [discriminate|].
      destruct (c' =? 59); [|discriminate]. intros [= <-]. exists (c :: c1 :: take_while ascii_letter s ++ [c']).
      cbn. rewrite <- app_assoc. cbn. rewrite Hl. reflexivity.
  Qed.
  Lemma sub_app s x t : x = 60 \/ (x = 38 /\ no_open_tag s) ->
    re_sub rx_markup [32] (s ++ x :: t) = re_sub rx_markup [32] s ++ re_sub rx_markup [32] (x :: t).
  Proof.
    remember (length s) as n eqn:En. assert (Hn : (length s <= n)%nat) by lia. clear En.
    revert s Hn; induction n as [|n IH]; intros s Hn Hx.
    - destruct s; [reflexivity|cbn in Hn; lia].
    - destruct s as [|c s]; [reflexivity|].
      pose proof (tag_at_app (c :: s) x t ltac:(discriminate) Hx) as Ht. destruct (tag_at (c :: s)) as [r|] eqn:E.
      + rewrite (sub_hit _ _ Ht), (sub_hit _ _ E). cbn [app]. f_equal. apply IH.
        * apply tag_at_shorter in E. lia.
        * destruct Hx as [Hx|[Hx Ho]]; [auto|]. right. split; [exact Hx|].
          destruct (tag_at_suffix _ _ E) as [u Hu]. rewrite Hu in Ho. eapply no_open_tag_suffix; exact Ho.
      + cbn [app] in *. rewrite (sub_miss _ _ Ht), (sub_miss _ _ E). cbn [app]. f_equal. apply IH; [cbn in Hn; lia|].
        destruct Hx as [Hx|[Hx Ho]]; [auto|]. right. split; [exact Hx|]. apply (no_open_tag_suffix [c] s Ho).
  Qed.
  Lemma drop_while_all q m c s : Forall (fun c => q c = true) m -> q c = false -> drop_while q (m ++ c :: s) = c :: s.
  Proof. intros H Hc. rewrite drop_while_app_all by exact H. cbn. rewrite Hc. reflexivity. Qed.

  Lemma html_tag a m b : (forall c, In c m -> c <> 60 /\ c <> 62) ->
    html_split lower rx (a ++ 60 :: m ++ 62 :: b) =
    html_split lower rx a ++ html_split lower rx b.
  Proof.
    intros Hm. unfold html_split.
    rewrite (lower_app _ Hlow 60) by (cbn; tauto). rewrite (lower_app _ Hlow 62) by (cbn; tauto).
    rewrite sub_app by auto. rewrite (sub_hit (60 :: _) (lower b)).
    - apply Hsep.
    - cbn [tag_at Z.eqb Pos.eqb]. rewrite drop_while_all; [reflexivity| |reflexivity].
      apply Forall_forall. intros c Hc. unfold not_angle. destruct (c =? 60) eqn:E1.
      + apply Z.eqb_eq in E1; subst c. rewrite (lower_In _ Hlow 60) in Hc by (cbn; tauto). apply Hm in Hc. tauto.
      + destruct (c =? 62) eqn:E2; [|reflexivity].
        apply Z.eqb_eq in E2; subst c. rewrite (lower_In _ Hlow 62) in Hc by (cbn; tauto). apply Hm in Hc. tauto.
  Qed.
  Lemma lower_no_open a : no_open_tag a -> no_open_tag (lower a).
  Proof.
    intros H u v E.
    (* the last '<' of [a] corresponds to the last '<' of [lower a] *)
    assert (G : forall a, no_open_tag a <-> (~ In 60 a \/ exists u v, a = u ++ 62 :: v /\ ~ In 60 v)).
    { clear. intros a. split.
      - intros H. induction a as [|c a IH] using rev_ind; [left; intros []|].
        destruct (Z.eq_dec c 62) as [->|Hc].
        + right. exists a, []. split; [reflexivity|intros []].
        + destruct (Z.eq_dec c 60) as [->|Hc'].
          * destruct (H a []); reflexivity.
          * destruct IH as [IH|(u & v & -> & Hv)].
            -- intros u v ->. specialize (H u (v ++ [c])). rewrite <- app_assoc in H. specialize (H eq_refl).
               apply in_app_iff in H as [H|[H|[]]]; [exact H|congruence].
            -- left. rewrite in_app_iff. cbn. intuition congruence.
            -- right. exists u, (v ++ [c]). split; [rewrite <- app_assoc; reflexivity|]. rewrite in_app_iff. cbn. intuition congruence.
      - intros [H|(u & v & -> & Hv)] u' v' E.
        + destruct H. rewrite E. apply in_or_app. right; left; reflexivity.
        + clear -E Hv. revert u' E. induction u as [|x u IH]; intros u' E.
          * destruct u' as [|y u']; [discriminate|]. injection E as _ E. destruct Hv. rewrite E. apply in_or_app. right; left; reflexivity.
          * destruct u' as [|y u']; [injection E as _ E; subst v'; apply in_or_app; right; left; reflexivity|].
            injection E as _ E. eapply IH; exact E. }
    apply G in H. apply (proj2 (G (lower a))) with (u := u); [|exact E].
    destruct H as [H|(u' & v' & -> & Hv)].
    - left. rewrite (lower_In _ Hlow) by (cbn; tauto). exact H.
    - right. exists (lower u'), (lower v'). split; [apply (lower_app _ Hlow); cbn; tauto|].
      rewrite (lower_In _ Hlow) by (cbn; tauto). exact Hv.
  Qed.
  Lemma letters_ascii t : Forall letter t -> Forall (fun c => ascii_letter c = true) t.
  Proof. apply Forall_impl. clear. intros c H. unfold letter in H. unfold ascii_letter. lia. Qed.
  Lemma html_entity a m b : m <> [] -> Forall letter m -> no_open_tag a ->
    html_split lower rx (a ++ 38 :: m ++ 59 :: b) =
    html_split lower rx a ++ html_split lower rx b.
  Proof.
    intros Hne Hm Ho. unfold html_split.
    rewrite (lower_app _ Hlow 38) by (cbn; tauto). rewrite (lower_app _ Hlow 59) by (cbn; tauto).
    rewrite sub_app by (right; split; [reflexivity|apply lower_no_open, Ho]).
    destruct (lower_letters _ Hlow m Hne Hm) as [Hne' Hm']. apply letters_ascii in Hm'. rewrite (sub_hit (38 :: _) (lower b)).
    - apply Hsep.
    - destruct (lower m) as [|c1 m']; [contradiction|]. inversion Hm' as [|? ? H1 H2]; subst.
      cbn [app tag_at Z.eqb Pos.eqb andb]. rewrite H1. rewrite drop_while_all; [reflexivity|exact H2|reflexivity].
  Qed.
  Lemma sub_plain s : ~ In 60 s -> ~ In 38 s -> re_sub rx_markup [32] s = s.
  Proof.
    induction s as [|c s IH]; intros H1 H2; [reflexivity|]. rewrite sub_miss.
    - f_equal. apply IH; intros H; [apply H1|apply H2]; right; exact H.
    - cbn [tag_at]. destruct (c =? 60) eqn:E; [apply Z.eqb_eq in E; subst; destruct H1; left; reflexivity|].
      destruct s as [|c1 s]; [reflexivity|]. destruct (c =? 38) eqn:E2; [apply Z.eqb_eq in E2; subst; destruct H2; left; reflexivity|].
      reflexivity.
  Qed.
  Lemma html_plain l : (forall s, In s l -> ~ In 60 s /\ ~ In 38 s) ->
    flat_map (html_split lower rx) l = flat_map (findall rx) (map lower l).
  Proof.
    intros H. rewrite flat_map_concat_map.
    rewrite (flat_map_concat_map _ (map lower l)), map_map. f_equal. apply map_ext_in. intros s Hs.
    unfold html_split. destruct (H s Hs) as [H1 H2]. rewrite sub_plain; [reflexivity| |];
      rewrite (lower_In _ Hlow) by (cbn; tauto); assumption.
  Qed.
  Lemma html_process_app l1 l2 : html_process p lower (l1 ++ l2) = html_process p lower l1 ++ html_process p lower l2.
  Proof. apply flat_map_app. Qed.
  Lemma html_words l : Forall (fun w => w <> [] /\ Forall (fun c => p c = true) w) (html_process p lower l).
  Proof.
    unfold html_process. induction l as [|s l IH]; cbn [flat_map]; [constructor|].
    apply Forall_app. split; [apply findall_words|exact IH].
  Qed.
End Html.

Lemma glob_sep32 p (Hsp : p 32 = false) a b : findall (rx_glob p) (a ++ 32 :: b) = findall (rx_glob p) a ++ findall (rx_glob p) b.
Proof. apply glob_findall_sep; [exact Hsp|discriminate|discriminate]. Qed.
Lemma html_markup p lower a m b : lower_ok lower -> p 32 = false ->
  (exists t, m = 60 :: t ++ [62] /\ forall c, In c t -> c <> 60 /\ c <> 62) \/
  (exists t, m = 38 :: t ++ [59] /\ t <> [] /\ Forall letter t) /\ no_open_tag a ->
  html_process p lower [a ++ m ++ b] = html_process p lower [a] ++ html_process p lower [b] /\
  html_processGlob p lower [a ++ m ++ b] = html_processGlob p lower [a] ++ html_processGlob p lower [b].
Proof.
  intros Hlow Hsp Hm. unfold html_process, html_processGlob. cbn [flat_map]. rewrite !app_nil_r.
  destruct Hm as [(t & -> & Ht)|[(t & -> & Hne & Ht) Ho]]; cbn [app]; rewrite <- app_assoc; cbn [app]; split.
  - eapply html_tag; eauto. intros; apply findall_sep; assumption.
  - eapply html_tag; eauto. intros; apply glob_sep32; assumption.
  - eapply html_entity; eauto. intros; apply findall_sep; assumption.
  - eapply html_entity; eauto. intros; apply glob_sep32; assumption.
Qed.

Lemma ascii_lower_ok : lower_ok ascii_lower.
Proof.
  constructor.
  - intros c a b Hc. unfold ascii_lower. rewrite map_app. cbn [map]. f_equal. f_equal.
    cbn in Hc. repeat (destruct Hc as [<-|Hc]; [reflexivity|]). destruct Hc.
  - intros c s Hc. unfold ascii_lower. rewrite in_map_iff. split.
    + intros (x & E & Hx). destruct ((65 <=? x) && (x <=? 90)) eqn:Ex; [|subst; exact Hx].
      cbn in Hc. lia.
    + intros Hin. exists c. split; [|exact Hin]. cbn in Hc. repeat (destruct Hc as [<-|Hc]; [reflexivity|]). destruct Hc.
  - intros s Hne Hs. split; [destruct s; [contradiction|discriminate]|]. unfold ascii_lower. apply Forall_map.
    eapply Forall_impl; [|exact Hs]. intros c. unfold letter. cbn. destruct ((65 <=? c) && (c <=? 90)) eqn:E; lia.
Qed.

(** ** What the property file uses *)
Lemma splitter_runs p l : exists wss, Forall2 (runs p) l wss /\ splitter_process p l = concat wss.
Proof.
  exists (map (findall (rx_word p)) l). split; [|apply flat_map_concat_map].
  induction l; constructor; [apply runs_findall|assumption].
Qed.
Lemma splitter_glob_runs p l : exists wss, Forall2 (glob_runs p) l wss /\ splitter_processGlob p l = concat wss.
Proof.
  exists (map (findall (rx_glob p)) l). split; [|apply flat_map_concat_map].
  induction l; constructor; [apply gruns_findall|assumption].
Qed.
Lemma runs_functional p s ws ws' : runs p s ws -> runs p s ws' -> ws = ws'.
Proof. intros H1 H2. apply runs_unique in H1, H2. congruence. Qed.
Lemma stop_spec l1 w l2 :
  (In w english_stop_words -> stop_process (l1 ++ w :: l2) = stop_process l1 ++ stop_process l2) /\
  (~ In w english_stop_words -> stop_process (l1 ++ w :: l2) = stop_process l1 ++ w :: stop_process l2).
Proof. apply (remove_in_spec stopdict (fun w => In w english_stop_words) _ stopdict_mem). reflexivity. Qed.
Lemma stop1_spec l1 w l2 :
  (In w english_stop_words \/ (exists c, w = [c] /\ 0 <= c < 255) ->
     stop1_process (l1 ++ w :: l2) = stop1_process l1 ++ stop1_process l2) /\
  (~ (In w english_stop_words \/ (exists c, w = [c] /\ 0 <= c < 255)) ->
     stop1_process (l1 ++ w :: l2) = stop1_process l1 ++ w :: stop1_process l2).
Proof. apply (remove_in_spec stopdict1 (fun w => In w english_stop_words \/ exists c, w = [c] /\ 0 <= c < 255) _ stopdict1_mem). reflexivity. Qed.
Lemma html_like_plain p lower l : lower_ok lower -> (forall s, In s l -> ~ In 60 s /\ ~ In 38 s) ->
  html_process p lower l = splitter_process p (map lower l) /\
  html_processGlob p lower l = splitter_processGlob p (map lower l).
Proof. intros H1 H2. split; apply html_plain; assumption. Qed.
Lemma splitter_pipeline p t :
  run_pipeline [Splitter p] (text2list t) = splitter_process p (text2list t) /\
  parseTerms [Splitter p] t = splitter_processGlob p (text2list t).
Proof. split; reflexivity. Qed.
Lemma stop_pipeline (lower : str -> str) (pipeline : list elem) (l : list str) :
  run_pipeline (StopWordRemover :: pipeline) l = run_pipeline pipeline (stop_process l) /\
  run_pipeline_glob (StopWordRemover :: pipeline) l = run_pipeline_glob pipeline (stop_process l) /\
  run_pipeline (StopWordAndSingleCharRemover :: pipeline) l = run_pipeline pipeline (stop1_process l) /\
  run_pipeline_glob (StopWordAndSingleCharRemover :: pipeline) l = run_pipeline_glob pipeline (stop1_process l) /\
  run_pipeline (CaseNormalizer lower :: pipeline) l = run_pipeline pipeline (map lower l) /\
  run_pipeline_glob (CaseNormalizer lower :: pipeline) l = run_pipeline_glob pipeline (map lower l).
Proof. repeat split; reflexivity. Qed.
Lemma html_pipeline p lower (pipeline : list elem) l :
  run_pipeline (HTMLWordSplitter p lower :: pipeline) l = run_pipeline pipeline (html_process p lower l) /\
  run_pipeline_glob (HTMLWordSplitter p lower :: pipeline) l = run_pipeline_glob pipeline (html_processGlob p lower l).
Proof. split; reflexivity. Qed.
