(** * Property C87: what a field index returns is the caller's own (field/index.py)

    [h_run evs]: an empty field index and the sets its queries returned, as objects, after the
    events [evs]: calls that change the index, queries, and changes the caller makes to a set
    that a query returned earlier, of any kind (M_fheap.v).  [h_answers] are those sets as the
    caller finds them in the end.  [own_answers evs] are the calls made to the index and, for
    each answered query, the answer at the time with the caller's own changes (S_fheap.v);
    [f_run h] is the index after the calls [h] without any sharing (M_field.v). *)
From Verif Require Import S_fheap M_fheap M_pindex M_field L_fheap SMap PyVal Ord.

(** C87: no change to an answer reaches the index or another answer, and no call changes an
    answer that was given. *)
Theorem C87_answers : forall (T : Type) (OT : Ord T) (evs : list (hevent T)),
  pf_live (fst (h_run evs)) = f_run (fst (own_answers evs)) /\
  h_answers (h_run evs) = snd (own_answers evs).
Proof. exact @h_run_ok. Qed.
Print Assumptions C87_answers.
(** Two queries with one set in range, one with two sets and one that raises; the first answer
    is emptied, the second grows, both also after the index was changed and cleared. *)
Definition fh_evs : list (hevent Z) :=
  [HCall (FIndex 1 (VInt 10)); HCall (FIndex 2 (VInt 10)); HCall (FIndex 3 (VInt 20));
   HQuery (QTuple [VInt 10; VInt 10]); HQuery (QTuple [VInt 10; VInt 10]); HQuery (QTuple [VInt 10]);
   HChange 0 (fun _ => empty); HCall (FUnindex 2); HCall (FIndex 4 (VInt 10)); HQuery (QTuple [VInt 10; VInt 20]);
   HChange 1 (put 8 tt); HChange 7 (put 9 tt); HQuery (QTuple [VInt 10; VInt 10]); HCall FClear; HCall (FIndex 5 (VInt 10));
   HChange 2 (del 3); HChange 0 (put 6 tt)].
Example C87_answers_ex :
  map keys (h_answers (h_run fh_evs)) = [[6]; [1; 2; 8]; [1; 4]; [1; 4]] /\
  map (fun p => (fst p, keys (snd p))) (elts (fwd (pf_live (fst (h_run fh_evs))))) = [(VInt 10, [5])] /\
  fst (own_answers fh_evs) = [FIndex 1 (VInt 10); FIndex 2 (VInt 10); FIndex 3 (VInt 20); FUnindex 2; FIndex 4 (VInt 10);
                              FClear; FIndex 5 (VInt 10)].
Proof. vm_compute. repeat split; reflexivity. Qed.
