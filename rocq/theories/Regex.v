(** * Regex: the fragment of Python's [re] used by the code.

    Patterns are ASTs; [mt r s] lists, in the priority order of Python's
    backtracking matcher, the suffixes of [s] left over after a match of [r] at
    the beginning of [s].  The first element is what [re] reports.
    Simplification: no look-behind, no groups, no anchors except [$]; an
    iteration of a starred expression that consumes nothing is not repeated. *)
From Verif Require Export Prelude.

Inductive regex :=
| RChr (p : char -> bool)        (* one character of a class *)
| REps
| RSeq (r1 r2 : regex)
| RAlt (r1 r2 : regex)           (* r1|r2, r1 preferred *)
| RStar (r : regex)              (* r*, greedy *)
| ROpt (r : regex)               (* r?, greedy *)
| REnd.                          (* $ without MULTILINE: end, or before a final newline *)

Definition RPlus (r : regex) : regex := RSeq r (RStar r).

Fixpoint star (m : str -> list str) (fuel : nat) (s : str) : list str :=
  match fuel with
  | O => [s]
  | S n =>
      flat_map (fun s' => if (length s' <? length s)%nat then star m n s' else []) (m s)
      ++ [s]
  end.

Fixpoint mt (r : regex) (s : str) : list str :=
  match r with
  | RChr p => match s with c :: s' => if p c then [s'] else [] | [] => [] end
  | REps => [s]
  | RSeq r1 r2 => flat_map (mt r2) (mt r1 s)
  | RAlt r1 r2 => mt r1 s ++ mt r2 s
  | RStar r => star (mt r) (length s) s
  | ROpt r => mt r s ++ [s]
  | REnd => match s with [] => [s] | [c] => if c =? 10 then [s] else [] | _ => [] end
  end.

(** [prog.match(s)]: the rest after the preferred match at position 0, if any. *)
Definition re_match (r : regex) (s : str) : option str := hd_error (mt r s).

(** [prog.findall(s)] for patterns without groups.  All patterns used in the code
    match non-empty strings only; an empty match is skipped here. *)
Fixpoint findall_aux (r : regex) (fuel : nat) (s : str) : list str :=
  match fuel with
  | O => []
  | S n =>
      match s with
      | [] => []
      | c :: s' =>
          match re_match r s with
          | Some rest =>
              if (length rest <? length s)%nat
              then firstn (length s - length rest) s :: findall_aux r n rest
              else findall_aux r n s'
          | None => findall_aux r n s'
          end
      end
  end.
Definition findall (r : regex) (s : str) : list str := findall_aux r (length s) s.

(** [prog.sub(repl, s)] with a constant replacement, same restriction. *)
Fixpoint sub_aux (r : regex) (repl : str) (fuel : nat) (s : str) : str :=
  match fuel with
  | O => s
  | S n =>
      match s with
      | [] => []
      | c :: s' =>
          match re_match r s with
          | Some rest =>
              if (length rest <? length s)%nat
              then repl ++ sub_aux r repl n rest
              else c :: sub_aux r repl n s'
          | None => c :: sub_aux r repl n s'
          end
      end
  end.
Definition re_sub (r : regex) (repl : str) (s : str) : str := sub_aux r repl (length s) s.

(** ** Facts *)

(** Longest prefix of characters satisfying [p], and the rest. *)
Fixpoint take_while (p : char -> bool) (s : str) : str :=
  match s with c :: s' => if p c then c :: take_while p s' else [] | [] => [] end.
Fixpoint drop_while (p : char -> bool) (s : str) : str :=
  match s with c :: s' => if p c then drop_while p s' else s | [] => [] end.

Lemma take_drop p s : take_while p s ++ drop_while p s = s.
Proof. induction s as [|c s IH]; simpl; [reflexivity|]. destruct (p c); simpl; congruence. Qed.

Lemma take_while_all p s : Forall (fun c => p c = true) (take_while p s).
Proof.
  induction s as [|c s IH]; simpl; [constructor|]. destruct (p c) eqn:E; constructor; assumption.
Qed.

Lemma drop_while_head p s c s' : drop_while p s = c :: s' -> p c = false.
Proof.
  induction s as [|c0 s IH]; simpl; [discriminate|].
  destruct (p c0) eqn:E; [exact IH|]. intros H; injection H as -> ->; exact E.
Qed.

Lemma drop_while_length p s : (length (drop_while p s) <= length s)%nat.
Proof. induction s as [|c s IH]; simpl; [lia|]. destruct (p c); simpl; lia. Qed.

Lemma take_while_app_all p l s :
  Forall (fun c => p c = true) l -> take_while p (l ++ s) = l ++ take_while p s.
Proof.
  induction 1 as [|c l Hc Hl IH]; simpl; [reflexivity|]. rewrite Hc, IH; reflexivity.
Qed.

Lemma drop_while_app_all p l s :
  Forall (fun c => p c = true) l -> drop_while p (l ++ s) = drop_while p s.
Proof.
  induction 1 as [|c l Hc Hl IH]; simpl; [reflexivity|]. rewrite Hc; exact IH.
Qed.

Lemma take_while_stop p c s : p c = false -> take_while p (c :: s) = [].
Proof. intros H; simpl; rewrite H; reflexivity. Qed.

Lemma drop_while_stop p c s : p c = false -> drop_while p (c :: s) = c :: s.
Proof. intros H; simpl; rewrite H; reflexivity. Qed.

Lemma firstn_take p s : firstn (length s - length (drop_while p s)) s = take_while p s.
Proof.
  rewrite <- (take_drop p s) at 1 3. rewrite app_length.
  replace (length (take_while p s) + length (drop_while p s) - length (drop_while p s))%nat
    with (length (take_while p s)) by lia.
  rewrite firstn_app, Nat.sub_diag. simpl. rewrite firstn_all, app_nil_r. reflexivity.
Qed.

Lemma hd_error_app {A} (l1 l2 : list A) :
  hd_error (l1 ++ l2) = match hd_error l1 with Some x => Some x | None => hd_error l2 end.
Proof. destruct l1; reflexivity. Qed.

(** Greedy star of a character class: the results are the suffixes, longest
    match first. *)
Fixpoint munch (p : char -> bool) (s : str) : list str :=
  match s with
  | c :: s' => if p c then munch p s' ++ [s] else [s]
  | [] => [[]]
  end.

Lemma star_chr p n s : (length s <= n)%nat -> star (mt (RChr p)) n s = munch p s.
Proof.
  revert s; induction n as [|n IH]; intros s Hn.
  - destruct s; [reflexivity|simpl in Hn; lia].
  - destruct s as [|c s]; [reflexivity|]. cbn [star mt munch].
    destruct (p c) eqn:E; [|reflexivity]. cbn [flat_map].
    assert (Hlt : (length s <? length (c :: s))%nat = true) by (apply Nat.ltb_lt; simpl; lia).
    rewrite Hlt, app_nil_r. rewrite IH by (simpl in Hn; lia). reflexivity.
Qed.

Lemma mt_star_chr p s : mt (RStar (RChr p)) s = munch p s.
Proof. simpl. apply star_chr; lia. Qed.

Lemma munch_hd p s : exists l, munch p s = drop_while p s :: l /\
  (forall s', In s' l -> exists c s'', s' = c :: s'' /\ p c = true).
Proof.
  induction s as [|c s IH]; simpl.
  - exists []; split; [reflexivity|intros ? []].
  - destruct (p c) eqn:E.
    + destruct IH as [l [-> Hl]]. exists (l ++ [c :: s]); split; [reflexivity|].
      intros s' Hin; apply in_app_iff in Hin as [Hin|[<-|[]]]; [apply Hl; exact Hin|].
      exists c, s; auto.
    + exists []; split; [reflexivity|intros ? []].
Qed.

(** A sequence whose first part matches greedily and whose second part cannot
    start with a character of the class. *)
Lemma re_match_seq_first r1 r2 s s1 l :
  mt r1 s = s1 :: l -> mt r2 s1 <> [] -> re_match (RSeq r1 r2) s = re_match r2 s1.
Proof.
  intros H1 H2. unfold re_match. simpl. rewrite H1. simpl.
  destruct (mt r2 s1) as [|x l']; [contradiction|reflexivity].
Qed.

Lemma re_match_chr_star p q s :
  re_match (RSeq (RChr p) (RStar (RChr q))) s =
  match s with
  | c :: s' => if p c then Some (drop_while q s') else None
  | [] => None
  end.
Proof.
  destruct s as [|c s]; [reflexivity|].
  unfold re_match.
  change (mt (RSeq (RChr p) (RStar (RChr q))) (c :: s))
    with (flat_map (mt (RStar (RChr q))) (if p c then [s] else [])).
  destruct (p c); [|reflexivity].
  cbn [flat_map]. rewrite app_nil_r, mt_star_chr.
  destruct (munch_hd q s) as [l [-> _]]. reflexivity.
Qed.

Lemma findall_aux_fuel r n m s :
  (length s <= n)%nat -> (length s <= m)%nat -> findall_aux r n s = findall_aux r m s.
Proof.
  revert m s; induction n as [|n IH]; intros m s Hn Hm.
  - destruct s; [|simpl in Hn; lia]. destruct m; reflexivity.
  - destruct m as [|m]; [destruct s; [reflexivity|simpl in Hm; lia]|].
    destruct s as [|c s]; [reflexivity|]. cbn [findall_aux].
    destruct (re_match r (c :: s)) as [rest|].
    + destruct (Nat.ltb_spec (length rest) (length (c :: s))) as [Hlt|Hlt].
      * f_equal. apply IH; simpl in *; lia.
      * apply IH; simpl in *; lia.
    + apply IH; simpl in *; lia.
Qed.

Lemma findall_nil r : findall r [] = [].
Proof. reflexivity. Qed.

Lemma findall_match r s rest :
  re_match r s = Some rest -> (length rest < length s)%nat ->
  findall r s = firstn (length s - length rest) s :: findall r rest.
Proof.
  intros Hm Hl. unfold findall. destruct s as [|c s]; [simpl in Hl; lia|].
  cbn [findall_aux length]. cbn [length] in Hm. rewrite Hm.
  apply Nat.ltb_lt in Hl as Hl'. cbn [length] in Hl'. rewrite Hl'.
  f_equal. apply findall_aux_fuel; simpl in Hl; lia.
Qed.

Lemma findall_skip r c s :
  re_match r (c :: s) = None -> findall r (c :: s) = findall r s.
Proof.
  intros Hm. unfold findall. cbn [findall_aux length]. rewrite Hm. reflexivity.
Qed.

Lemma sub_aux_fuel r repl n m s :
  (length s <= n)%nat -> (length s <= m)%nat -> sub_aux r repl n s = sub_aux r repl m s.
Proof.
  revert m s; induction n as [|n IH]; intros m s Hn Hm.
  - destruct s; [|simpl in Hn; lia]. destruct m; reflexivity.
  - destruct m as [|m]; [destruct s; [reflexivity|simpl in Hm; lia]|].
    destruct s as [|c s]; [reflexivity|]. cbn [sub_aux].
    destruct (re_match r (c :: s)) as [rest|].
    + destruct (Nat.ltb_spec (length rest) (length (c :: s))) as [Hlt|Hlt].
      * f_equal. apply IH; simpl in *; lia.
      * f_equal. apply IH; simpl in *; lia.
    + f_equal. apply IH; simpl in *; lia.
Qed.

Lemma re_sub_match r repl s rest :
  re_match r s = Some rest -> (length rest < length s)%nat ->
  re_sub r repl s = repl ++ re_sub r repl rest.
Proof.
  intros Hm Hl. unfold re_sub. destruct s as [|c s]; [simpl in Hl; lia|].
  cbn [sub_aux length]. cbn [length] in Hm. rewrite Hm.
  apply Nat.ltb_lt in Hl as Hl'. cbn [length] in Hl'. rewrite Hl'.
  f_equal. apply sub_aux_fuel; simpl in Hl; lia.
Qed.

Lemma re_sub_skip r repl c s :
  re_match r (c :: s) = None -> re_sub r repl (c :: s) = c :: re_sub r repl s.
Proof.
  intros Hm. unfold re_sub. cbn [sub_aux length]. rewrite Hm. reflexivity.
Qed.

(** findall for a class followed by a star of a class. *)
Lemma findall_chr_star_hit p q c s :
  p c = true ->
  findall (RSeq (RChr p) (RStar (RChr q))) (c :: s) =
  (c :: take_while q s) :: findall (RSeq (RChr p) (RStar (RChr q))) (drop_while q s).
Proof.
  intros Hp. pose proof (re_match_chr_star p q (c :: s)) as Hm. cbv beta iota in Hm.
  rewrite Hp in Hm. pose proof (drop_while_length q s) as Hl.
  rewrite (findall_match _ _ _ Hm) by (simpl; lia).
  f_equal. cbn [length].
  replace (S (length s) - length (drop_while q s))%nat
    with (S (length s - length (drop_while q s)))%nat by lia.
  cbn [firstn]. f_equal. apply firstn_take.
Qed.

Lemma findall_chr_star_skip p q c s :
  p c = false ->
  findall (RSeq (RChr p) (RStar (RChr q))) (c :: s) =
  findall (RSeq (RChr p) (RStar (RChr q))) s.
Proof.
  intros Hp. apply findall_skip. rewrite re_match_chr_star, Hp. reflexivity.
Qed.
