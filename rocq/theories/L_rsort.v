(** * A range query followed by a sort *)
From Verif Require Import S_rsort S_field M_field L_field L_fieldsort SMap PyVal Ord.

Section RSort.
  Context {T : Type} `{OT : Ord T}.

  Lemma asc_sorted_NoDup (m : smap Z (pyval T)) l : StronglySorted (asc_order m) l -> NoDup l.
  Proof.
    induction 1 as [|x l H IH F]; constructor; [|exact IH]. intros Hx. rewrite Forall_forall in F.
    exact (asc_order_asym m x x (F x Hx) (F x Hx)).
  Qed.
  Lemma answer_no_type_error (h : list (fop T)) (docids : list Z) : no_none (current h) ->
    (forall d, In d docids -> exists v, get (current h) d = Some v) -> ~ full_type_error (current h) docids.
  Proof.
    intros Hn Hi [(a & b & _ & _ & _ & E)|(a & b & t & Ha & _ & E & _)]; [exact (Hn a E)|].
    destruct (Hi a Ha) as [v E2]. congruence.
  Qed.

  Lemma range_then_sort (heur : Z -> Z -> bool) (ovl ovn : bool) (h : list (fop T)) (lo hi : pyval T) (limit : option Z) :
    no_none (current h) -> orderable_in lo (current h) -> orderable_in hi (current h) -> limit_ok limit ->
    exists s l, f_apply (QTuple [lo; hi]) (f_run h) = Ok s /\ range_sorted lo hi (current h) l /\
      (forall l', range_sorted lo hi (current h) l' -> l' = l) /\
      forall docids, (forall d, In d docids <-> mem d s = true) ->
        f_sort heur ovl ovn docids false limit (f_run h) = Ok (truncate limit l).
  Proof.
    intros Hn Hlo Hhi Hl. destruct (f_apply_exact h lo hi Hlo Hhi) as (s & Es & Hs).
    assert (Hk : forall d, In d (keys s) <-> mem d s = true).
    { intros d. rewrite keys_In, mem_get. reflexivity. }
    assert (K : forall docids l, (forall d, In d docids <-> mem d s = true) ->
                  range_sorted lo hi (current h) l <-> sorted_list asc_order (current h) docids l).
    { intros docids l Hd. split.
      - intros [A1 A2]. split; [exact A1|]. split; [exact (asc_sorted_NoDup _ _ A1)|]. intros d. rewrite A2, Hd, Hs. split.
        + intros (v & E & R). split; eauto.
        + tauto.
      - intros [A1 [_ A2]]. split; [exact A1|]. intros d. rewrite A2, Hd, Hs. split; [tauto|]. intros (v & E & R). split; eauto. }
    pose proof (asc_sorted (current h) (keys s)) as Hsort.
    eexists. eexists. split; [exact Es|]. split; [apply (K (keys s) _ Hk); exact Hsort|]. split.
    - intros l' H'. apply (K (keys s) _ Hk) in H'. exact (sorted_list_unique _ _ (keys s) _ _ (asc_order_asym _) H' Hsort).
    - intros docids Hd. apply (K (keys s) _ Hk), (K docids _ Hd) in Hsort.
      destruct (f_sort_asc heur ovl ovn docids limit h _ Hl Hsort) as [E|[_ B]]; [exact E|]. exfalso.
      apply (answer_no_type_error h docids Hn); [|exact B]. intros d D. apply Hd, Hs in D as (v & E & _). eauto.
  Qed.

  Lemma range_then_sort_desc (heur : Z -> Z -> bool) (ovl ovn : bool) (h : list (fop T)) (lo hi : pyval T) (limit : option Z) :
    no_none (current h) -> orderable_in lo (current h) -> orderable_in hi (current h) -> limit_ok limit ->
    (limit = None -> ovn = false) ->
    exists s, f_apply (QTuple [lo; hi]) (f_run h) = Ok s /\
      forall docids, (forall d, In d docids <-> mem d s = true) ->
      exists r, f_sort heur ovl ovn docids true limit (f_run h) = Ok r /\
        StronglySorted (value_desc (current h)) r /\ NoDup r /\
        (forall d, In d r -> within lo hi (current h) d) /\
        Zlen r = match limit with Some k => Z.min k (Zsize s) | None => Zsize s end /\
        (forall d d', In d r -> within lo hi (current h) d' -> ~ In d' r -> value_desc (current h) d d').
  Proof.
    intros Hn Hlo Hhi Hl Hv. destruct (f_apply_exact h lo hi Hlo Hhi) as (s & Es & Hs). exists s. split; [exact Es|].
    intros docids Hd.
    assert (Hi : forall d, In d docids <-> within lo hi (current h) d) by (intros d; rewrite Hd; apply Hs).
    destruct (sort_total heur ovl ovn docids true limit h Hl) as (r & Er & _); [|auto|].
    { apply answer_no_type_error; [exact Hn|]. intros d D. apply Hi in D as (v & E & _). eauto. }
    exists r. split; [exact Er|]. destruct (f_sort_desc_props heur ovl ovn docids limit h r Hl Er) as (A1 & A2 & A3 & (all & [B1 B2] & A4) & A5).
    split; [exact A1|]. split; [exact A2|]. split; [intros d D; apply Hi, A3, D|]. split.
    - rewrite A4. assert (E : Zlen all = Zsize s); [|rewrite E; reflexivity].
      assert (Hp : Permutation.Permutation all (keys s)).
      { apply Permutation.NoDup_Permutation; [exact B1|apply keys_NoDup|]. intros d. rewrite B2, Hd, keys_In, <- (mem_get s d). split; [tauto|].
        intros M. split; [exact M|]. apply Hs in M as (v & E & _). eauto. }
      apply Permutation.Permutation_length in Hp. unfold Zlen, Zsize, keys in *. rewrite map_length in Hp. rewrite Hp. reflexivity.
    - intros d d' D D' N. apply A5; [exact D|apply Hi, D'|exact N|]. destruct D' as (v & E & _). eauto.
  Qed.
End RSort.
