(** * Concurrent transactions on the keyword index: examples *)
From Verif Require Import S_keyword L_keyword M_zodb S_zodb L_zodb L_zkeyword L_zfieldex SMap Ord.

(** A sufficient, computable condition: transactions see few documents. *)
Section Check.
  Context {W : Type} `{OW : Ord W}.
  Variable normalize : list W -> list W.
  Variable thr : Z.
  Implicit Types (vs : list (zstate W (sset W))) (m : smap Z (sset W)) (ops : list (kop W)).
  Fixpoint check_ops ops m : bool :=
    (Zsize m <? thr) && match ops with [] => true | o :: ops' => check_ops ops' (kw_step normalize m o) end.
  Fixpoint check_schedule (sch : list (nat * list (kop W))) vs : bool :=
    match sch with
    | [] => true
    | (i, ops) :: sch' =>
        match nth_error vs i with Some snap => check_ops ops (zrev snap) | None => true end &&
        check_schedule sch' (db_step set_same (fun _ _ => true) (zk_step normalize thr) vs (i, ops))
    end.
  Lemma check_ops_ok ops m : check_ops ops m = true -> forall ops1 ops2, ops = ops1 ++ ops2 ->
    all_below thr (fold_left (kw_step normalize) ops1 m).
  Proof.
    intros Hc ops1. revert ops m Hc; induction ops1 as [|o ops1 IH]; intros ops m Hc ops2 E.
    - assert (Hz : Zsize m < thr) by (destruct ops; cbn in Hc; apply andb_true_iff in Hc as [Hc _]; lia).
      intros w. cbn [fold_left]. eapply Z.le_lt_trans; [|exact Hz]. unfold Zlen, Zsize, size.
      apply inj_le. induction (elts m) as [|p l IHl]; [reflexivity|]. cbn. destruct (mem w (snd p)); cbn; lia.
    - subst. cbn in Hc. apply andb_true_iff in Hc as [_ Hc]. cbn [fold_left]. eapply IH; [exact Hc|reflexivity].
  Qed.
  Lemma check_schedule_ok sch : check_schedule sch [z_new] = true -> stays_below normalize thr sch.
  Proof.
    intros Hc sch1 i ops sch2 -> snap Hs ops1 ops2 E.
    assert (H : forall vs, check_schedule (sch1 ++ (i, ops) :: sch2) vs = true ->
      forall snap, nth_error (fold_left (db_step set_same (fun _ _ => true) (zk_step normalize thr)) sch1 vs) i = Some snap ->
      check_ops ops (zrev snap) = true).
    { clear. induction sch1 as [|[j o] sch1 IH]; intros vs Hc snap Hs; cbn [app check_schedule fold_left] in *;
        apply andb_true_iff in Hc as [Hc1 Hc2].
      - rewrite Hs in Hc1. exact Hc1.
      - eapply IH; eassumption. }
    eapply check_ops_ok; [eapply H; eassumption|exact E].
  Qed.
End Check.

Definition zk_documents (thr : Z) (sch : list (nat * list (kop Z))) : option (list (Z * list Z)) :=
  match zk_run normalize_id thr sch with st :: _ => Some (map (fun p => (fst p, selems (snd p))) (elts (zrev st))) | [] => None end.
Definition zk_example : list (nat * list (kop Z)) := [
  (0%nat, [KIndex 1 (SeqList [7; 8]); KIndex 2 (SeqList [7]); KIndex 3 (SeqList [8; 9])]);
  (0%nat, [KIndex 1 (SeqList [7; 10]); KIndex 4 (SeqList [7])]);
  (1%nat, [KUnindex 2; KOptimize; KIndex 5 (SeqList [7; 8; 11])])].
Lemma zk_example_ok :
  normal_schedule normalize_id zk_example /\ stays_below normalize_id 64 zk_example /\
  (forall thr, thr = 64 \/ thr = 1 ->
    length (zk_run normalize_id thr zk_example) = 4%nat /\
    zk_documents thr zk_example = Some [(1, [7; 10]); (3, [8; 9]); (4, [7]); (5, [7; 8; 11])] /\
    zk_commit normalize_id thr (zk_run normalize_id thr zk_example) 2 [KIndex 1 (SeqList [7])] = None /\
    zk_commit normalize_id thr (zk_run normalize_id thr zk_example) 2 [KIndex 6 (SeqList [11])] = None).
Proof.
  split; [apply Forall_forall; intros t _; apply id_normal|]. split; [apply check_schedule_ok; vm_compute; reflexivity|].
  intros thr [-> | ->]; repeat (split; [vm_compute; reflexivity|]); vm_compute; reflexivity.
Qed.

(** ** The conversion of a posting set loses documents *)
Definition docs_with_7 (n : nat) : list (kop Z) := map (fun i => KIndex (Z.of_nat i) (SeqList [7])) (seq 1 n).
Definition looks (w d : Z) (st : kstate Z) : option bool :=
  match k_search normalize_id (KWord w) OpAnd st with Ok s => Some (mem d s) | Raise _ => None end.
Lemma looks_no w d st : looks w d st = Some false ->
  exists s, k_search normalize_id (KWord w) OpAnd st = Ok s /\ mem d s = false.
Proof. unfold looks. destruct (k_search _ _ _ st) as [s|]; [|discriminate]. intros [= E]. eauto. Qed.
Definition has_kw (w d : Z) (st : zstate Z (sset Z)) : bool :=
  match get (zrev st) d with Some kw => mem w kw | None => false end.
Lemma has_kw_ok w d st : has_kw w d st = true -> exists kw, get (zrev st) d = Some kw /\ mem w kw = true.
Proof. unfold has_kw. destruct (get (zrev st) d) as [kw|]; [eauto|discriminate]. Qed.

Definition still_has thr (vs : list (zstate Z (sset Z))) d : bool :=
  match zk_commit normalize_id thr vs 0 [KUnindex d] with Some st => k_has_doc d (zk_view thr st) | None => false end.
Lemma still_has_ok thr vs d : still_has thr vs d = true ->
  exists st, zk_commit normalize_id thr vs 0 [KUnindex d] = Some st /\ k_has_doc d (zk_view thr st) = true.
Proof. unfold still_has. destruct (zk_commit _ _ _ _ _) as [st|]; [eauto|discriminate]. Qed.

Lemma five_ok {A} (l : list A) x : length l = 5%nat -> l = [nth 0 l x; nth 1 l x; nth 2 l x; nth 3 l x; nth 4 l x].
Proof. destruct l as [|? [|? [|? [|? [|? [|]]]]]]; try discriminate. reflexivity. Qed.

Lemma zk_conversion_loses : exists (base : list (kop Z)) d1 d2 d3 w st v1 v2 v3 v4,
  let vs := zk_run normalize_id 64 [(0%nat, base);
              (0%nat, [KIndex d1 (SeqList [w])]); (0%nat, [KIndex d2 (SeqList [w])]); (2%nat, [KIndex d3 (SeqList [w])])] in
  vs = [st; v1; v2; v3; v4] /\
  (exists kw, get (zrev st) d3 = Some kw /\ mem w kw = true) /\ k_has_doc d3 (zk_view 64 st) = true /\
  (exists s, k_search normalize_id (KWord w) OpAnd (zk_view 64 st) = Ok s /\ mem d3 s = false) /\
  exists st', zk_commit normalize_id 64 vs 0 [KUnindex d3] = Some st' /\ k_has_doc d3 (zk_view 64 st') = true.
Proof.
  exists (docs_with_7 62), 63, 64, 65, 7. do 5 eexists. cbn zeta. split; [apply (five_ok _ z_new); vm_compute; reflexivity|].
  split; [apply has_kw_ok; vm_compute; reflexivity|]. split; [vm_compute; reflexivity|].
  split; [apply looks_no; vm_compute; reflexivity|]. apply still_has_ok. vm_compute. reflexivity.
Qed.
Lemma zk_optimize_loses : exists (base : list (kop Z)) d w st v1 v2 v3,
  zk_run normalize_id 64 [(0%nat, base); (0%nat, [KOptimize]); (1%nat, [KIndex d (SeqList [w])])] = [st; v1; v2; v3] /\
  (exists kw, get (zrev st) d = Some kw /\ mem w kw = true) /\ k_has_doc d (zk_view 64 st) = true /\
  (exists s, k_search normalize_id (KWord w) OpAnd (zk_view 64 st) = Ok s /\ mem d s = false).
Proof.
  exists (docs_with_7 64 ++ [KUnindex 64; KUnindex 63]), 65, 7. do 4 eexists. split; [apply (four_ok _ z_new); vm_compute; reflexivity|].
  split; [apply has_kw_ok; vm_compute; reflexivity|]. split; [vm_compute; reflexivity|].
  apply looks_no; vm_compute; reflexivity.
Qed.

Lemma zk_serial_example : exists cur snap st,
  let before := firstn 2 zk_example in let ops := [KUnindex 2; KOptimize; KIndex 5 (SeqList [7; 8; 11])] in
  normal_schedule normalize_id (before ++ [(1%nat, ops)]) /\ stays_below normalize_id 64 (before ++ [(1%nat, ops)]) /\
  zk_commit normalize_id 64 (zk_run normalize_id 64 before) 1 ops = Some st /\
  hd_error (zk_run normalize_id 64 before) = Some cur /\ nth_error (zk_run normalize_id 64 before) 1 = Some snap /\
  get (zrev cur) 4 <> get (zrev snap) 4 /\
  cleared_since snap cur = false /\ clears_k ops = false /\ sets_threshold ops = false /\
  (forall d, In d (docs_of_k ops) -> get (zrev cur) d = get (zrev snap) d).
Proof.
  cbn zeta. set (vs := zk_run normalize_id 64 (firstn 2 zk_example)). set (ops := [KUnindex 2; KOptimize; KIndex 5 (SeqList [7; 8; 11])]).
  assert (Ex : exists st, zk_commit normalize_id 64 vs 1 ops = Some st).
  { destruct (zk_commit normalize_id 64 vs 1 ops) eqn:E; [eauto|exfalso].
    assert (H : match zk_commit normalize_id 64 vs 1 ops with Some _ => true | None => false end = true) by (vm_compute; reflexivity).
    rewrite E in H. discriminate. }
  destruct Ex as [st E]. exists (nth 0 vs z_new), (nth 1 vs z_new), st.
  split; [apply Forall_forall; intros t _; apply id_normal|]. split; [apply check_schedule_ok; vm_compute; reflexivity|]. split; [exact E|].
  assert (Hn : (length vs = 3)%nat) by (vm_compute; reflexivity).
  split; [destruct vs; [discriminate|reflexivity]|]. split; [destruct vs as [|? [|]]; try discriminate; reflexivity|].
  split; [vm_compute; discriminate|]. split; [vm_compute; reflexivity|]. split; [reflexivity|]. split; [reflexivity|].
  intros d [<-|[<-|[]]].
  - assert (H : forall x y : option (sset Z), opt_same set_same x y = true -> x = y) by (intros x y H; apply (opt_same_eq _ set_same_eq), H).
    apply H. vm_compute. reflexivity.
  - vm_compute. reflexivity.
Qed.
