(** * Concurrent transactions on the field index: examples *)
From Verif Require Import S_field M_zodb S_zodb SMap Ord.

(** Computation reads back small values only: the versions contain proofs. *)
Lemma some_ok {A} (o : option A) : (match o with Some _ => true | None => false end) = true -> exists x, o = Some x.
Proof. destruct o; [eauto|discriminate]. Qed.
Lemma four_ok {A} (l : list A) x : length l = 4%nat -> l = [nth 0 l x; nth 1 l x; nth 2 l x; nth 3 l x].
Proof. destruct l as [|? [|? [|? [|? [|]]]]]; try discriminate. reflexivity. Qed.
Definition found_b {T} `{Ord T} (v : pyval T) (st : fstate T) (d : Z) : option bool :=
  match f_apply (QTuple [v; v]) st with Ok s => Some (mem d s) | Raise _ => None end.
Lemma found_b_true {T} `{Ord T} (v : pyval T) st d : found_b v st d = Some true -> in_answer v v st d.
Proof. unfold found_b, in_answer. destruct (f_apply _ st) as [s|]; [|discriminate]. intros [= E]. eauto. Qed.
Lemma found_b_false {T} `{Ord T} (v : pyval T) st d : found_b v st d = Some false -> ~ in_answer v v st d.
Proof. unfold found_b, in_answer. intros E (s & Hs & Hm). rewrite Hs in E. congruence. Qed.

Lemma found_b_no {T} `{Ord T} (v : pyval T) st d : found_b v st d = Some false ->
  exists s, f_apply (QTuple [v; v]) st = Ok s /\ mem d s = false.
Proof. unfold found_b. destruct (f_apply _ st) as [s|]; [|discriminate]. intros [= E]. eauto. Qed.
Lemma none_ok {X} (m : smap Z X) k : elts m = [] -> get m k = None.
Proof. intros E. unfold get. rewrite E. reflexivity. Qed.

Lemma zf_skew : exists base ta tb st v1 v2 v3,
  @zf_run Z _ [(0%nat, base); (0%nat, ta); (1%nat, tb)] = [st; v1; v2; v3] /\
  (exists v d, in_answer (VInt v) (VInt v) (zf_view st) d /\ ~ in_answer (VInt v) (VInt v) (f_run (base ++ ta ++ tb)) d) /\
  (exists v d, in_answer (VInt v) (VInt v) (zf_view st) d /\ ~ in_answer (VInt v) (VInt v) (f_run (base ++ tb ++ ta)) d).
Proof.
  exists [FIndex 1 (VInt 10); FIndex 2 (VInt 20)], [FIndex 1 (VInt 11); FIndex 2 (VInt 20)],
         [FIndex 1 (VInt 10); FIndex 2 (VInt 22)].
  do 4 eexists. split; [apply (four_ok _ z_new); vm_compute; reflexivity|].
  split; [exists 11, 1|exists 22, 2]; (split; [apply found_b_true|apply found_b_false]); vm_compute; reflexivity.
Qed.

Lemma zf_clear_loses : exists base d v st v1 v2 v3,
  @zf_run Z _ [(0%nat, base); (0%nat, [FClear]); (1%nat, [FIndex d (VInt v)])] = [st; v1; v2; v3] /\
  (forall d', get (zrev st) d' = None) /\
  (exists s, f_apply (QTuple [VInt v; VInt v]) (zf_view st) = Ok s /\ mem d s = false) /\
  in_answer (VInt v) (VInt v) (f_run (base ++ [FClear] ++ [FIndex d (VInt v)])) d /\
  in_answer (VInt v) (VInt v) (f_run (base ++ [FIndex d (VInt v)])) d.
Proof.
  exists [FIndex 1 (VInt 10)], 2, 20. do 4 eexists. split; [apply (four_ok _ z_new); vm_compute; reflexivity|].
  split; [intros d'; apply none_ok; vm_compute; reflexivity|]. split; [apply found_b_no; vm_compute; reflexivity|].
  split; apply found_b_true; vm_compute; reflexivity.
Qed.

(** Concurrent transactions that commit, and some, from an old version, that meet a conflict. *)
Definition zf_example : list (nat * list (fop Z)) := [
  (0%nat, [FIndex 1 (VInt 10); FIndex 2 (VInt 20); FIndex 3 (VInt 10); FIndex 6 (VInt 20)]);
  (0%nat, [FIndex 1 (VInt 20); FIndex 4 (VInt 30)]);
  (1%nat, [FUnindex 2; FIndex 5 (VInt 10)])].
Definition zf_documents (sch : list (nat * list (fop Z))) : option (list (Z * pyval Z)) :=
  match zf_run sch with st :: _ => Some (elts (zrev st)) | [] => None end.
Lemma zf_example_ok :
  length (zf_run zf_example) = 4%nat /\
  zf_documents zf_example = Some [(1, VInt 20); (3, VInt 10); (4, VInt 30); (5, VInt 10); (6, VInt 20)] /\
  (exists st, zf_commit (zf_run zf_example) 2 [FIndex 8 (VInt 20); FIndex 9 (VInt 50)] = Some st) /\
  zf_commit (zf_run zf_example) 2 [FIndex 1 (VInt 30)] = None /\
  zf_commit (zf_run zf_example) 2 [FIndex 4 (VInt 40)] = None /\
  zf_commit (zf_run zf_example) 2 [FIndex 7 (VInt 30)] = None /\
  zf_commit (zf_run zf_example) 2 [FUnindex 2; FUnindex 6] = None.
Proof.
  split; [vm_compute; reflexivity|]. split; [vm_compute; reflexivity|]. split; [apply some_ok; vm_compute; reflexivity|].
  repeat (split; [vm_compute; reflexivity|]). vm_compute; reflexivity.
Qed.

(** The third transaction of [zf_example] meets the conditions for serial effect. *)
Lemma zf_serial_example : exists cur snap st,
  let before := firstn 2 zf_example in let ops := [FUnindex 2; FIndex 5 (VInt 10)] in
  zf_commit (zf_run before) 1 ops = Some st /\
  hd_error (zf_run before) = Some cur /\ nth_error (zf_run before) 1 = Some snap /\ get (zrev cur) 4 <> get (zrev snap) 4 /\
  cleared_since snap cur = false /\ clears_f ops = false /\
  (forall d, In d (docs_of ops) -> get (zrev cur) d = get (zrev snap) d) /\
  (forall v w, In v (values_of ops) ->
     (exists d, get (zrev snap) d = Some w) \/ (exists d, get (zrev cur) d = Some w) \/ In w (values_of ops) ->
     key_ok v w = true).
Proof.
  cbn zeta. set (vs := zf_run (firstn 2 zf_example)). set (ops := [FUnindex 2; FIndex 5 (VInt 10)]).
  assert (Ex : exists st, zf_commit vs 1 ops = Some st) by (apply some_ok; vm_compute; reflexivity).
  destruct Ex as [st E]. exists (nth 0 vs z_new), (nth 1 vs z_new), st. split; [exact E|].
  assert (Hn : (length vs = 3)%nat) by (vm_compute; reflexivity).
  split; [destruct vs; [discriminate|reflexivity]|]. split; [destruct vs as [|? [|]]; try discriminate; reflexivity|].
  split; [vm_compute; discriminate|]. split; [vm_compute; reflexivity|]. split; [reflexivity|]. split.
  - intros d [<-|[<-|[]]]; vm_compute; reflexivity.
  - assert (Hk : forallb (fun v => forallb (key_ok v) (vals (zrev (nth 0 vs z_new)) ++ vals (zrev (nth 1 vs z_new)) ++ values_of ops))
                   (values_of ops) = true) by (vm_compute; reflexivity).
    intros v w Hv Hw. rewrite forallb_forall in Hk. specialize (Hk v Hv). rewrite forallb_forall in Hk. apply Hk.
    rewrite !in_app_iff. destruct Hw as [[d H]|[[d H]|H]]; [right; left|left|right; right; exact H];
      apply get_In in H; apply (in_map snd) in H; exact H.
Qed.
