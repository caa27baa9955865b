(** * Lemmas: what document ids out of range break in text indexes *)
From Verif Require Import IEEE Text S_range S_rtext S_textapi M_rtext L_rtext L_textex SMap Ord.
Open Scope string_scope.
Open Scope list_scope.
Open Scope Z_scope.

Definition huge : Z := 2 ^ 40.
Definition text (x : String.string) : ltext := TxStr (txt x).
Definition AB : Arith b64 := Arith_b64 (fun x => x).
Definition okapi_found (s : sys Z) (q : ltext) : res (list Z) :=
  do r <- search (AF := AB) ascii_pipeline (python_search_wids (AF := AB) (b64_ofZ 1) (b64_ofZ 1)) s q;
  Ok (match r with Some m => keys m | None => [] end).
Definition cos_found (s : sys b64) (q : ltext) : res (list Z) :=
  do r <- search (AF := AB) ascii_pipeline (r_cos_search_wids (AF := AB) fits32) s q;
  Ok (match r with Some m => keys m | None => [] end).

Lemma unchanged_refuted : exists h d t q,
  history_ok ascii_pipeline (h ++ [TIndex d t]) /\ others_fine fits32 (r_okapi_step fits32 ascii_pipeline) (h ++ [TIndex d t]) /\ fits32 d = false /\
  let s := r_okapi_run fits32 ascii_pipeline h in let s' := r_okapi_run fits32 ascii_pipeline (h ++ [TIndex d t]) in
  okapi_found s q = Ok [1] /\ okapi_found s' q = Raise KeyError /\ wordCount (six s') <> wordCount (six s).
Proof.
  exists [TIndex 1 (text "apple")], huge, (text "apple kiwi"), (text "apple").
  split; [apply check_history_ok; vm_compute; reflexivity|]. split; [apply check_fine_ok; vm_compute; reflexivity|].
  split; [reflexivity|]. vm_compute. repeat split; discriminate.
Qed.
Lemma later_refuted : exists d t h o,
  history_ok ascii_pipeline (TIndex d t :: h ++ [o]) /\ others_fine fits32 (r_okapi_step fits32 ascii_pipeline) (TIndex d t :: h) /\
  (forall o', In o' (h ++ [o]) -> refused fits32 o' = false) /\
  snd (r_okapi_step fits32 ascii_pipeline o (r_okapi_run fits32 ascii_pipeline (TIndex d t :: h))) = Raise TypeError.
Proof.
  exists huge, (text "kiwi"), (map (fun d => TIndex d (text "kiwi")) [1; 2; 3; 4; 5; 6; 7; 8; 9]), (TIndex 10 (text "kiwi")).
  split; [apply check_history_ok; vm_compute; reflexivity|]. split; [apply check_fine_ok; vm_compute; reflexivity|].
  split; [|vm_compute; reflexivity]. intros o' H. repeat destruct H as [<-|H]; try reflexivity. destruct H.
Qed.
