(** * Properties C09-C11: NBest (nbest.py), for any totally ordered scores *)
From Verif Require Import S_nbest L_nbest.

(** C09: getbest() is the first N pairs of the stable descending sort of
    everything added, and len() the number of them. *)
Theorem C09_getbest : forall (A S : Type) (OS : Ord S) (N : Z) (os : list (nb_op A S)),
  1 <= N -> no_pop os ->
  exists nb0, nb_new N = Ok nb0 /\
    exists s, stable_sort_of score_desc (added os) s /\
      nb_getbest (nb_exec nb0 os) = firstn (Z.to_nat N) s /\
      nb_len (nb_exec nb0 os) = Z.min N (Zlen (added os)).
Proof. exact @nbest_getbest. Qed.
Print Assumptions C09_getbest.
Example C09_getbest_ex :
  (do nb0 <- nb_new 2;
   Ok (nb_getbest (nb_exec nb0 [NAdd 10 5; NAddMany [(11, 7); (12, 7)]; NAdd 13 6]))) = Ok [(11, 7); (12, 7)].
Proof. vm_compute; reflexivity. Qed.

(** C09: the specification determines the sorted list. *)
Theorem C09_spec_unique : forall (A S : Type) (OS : Ord S) (l s1 s2 : list (A * S)),
  stable_sort_of score_desc l s1 -> stable_sort_of score_desc l s2 -> s1 = s2.
Proof.
  exact (fun A S OS => stable_sort_unique _ (@score_desc_total A S OS)).
Qed.
Print Assumptions C09_spec_unique.

(** C09: capacities below 1 are rejected. *)
Theorem C09_bad_capacity : forall (A S : Type) (N : Z),
  N < 1 -> @nb_new A S N = Raise ValueError.
Proof. exact @nbest_new_bad. Qed.
Print Assumptions C09_bad_capacity.

(** C10: for every interleaving of calls the results are those of the abstract
    machine of S_nbest. *)
Theorem C10_refines : forall (A S : Type) (OS : Ord S) (N : Z) (os : list (nb_op A S)),
  1 <= N ->
  exists nb0, nb_new N = Ok nb0 /\ nb_run nb0 os = best_run (Z.to_nat N) [] os.
Proof. exact @nbest_refines. Qed.
Print Assumptions C10_refines.
Example C10_refines_ex :
  best_run 2 [] [NAdd 1 5; NAdd 2 3; NPop; NAdd 3 9; NAdd 4 9; NGetbest; NPop; NPop; NPop; NLen]
  = [ODone; ODone; OPair (2, 3); ODone; ODone; OList [(3, 9); (4, 9)]; OPair (4, 9); OPair (3, 9);
     OExc IndexError; OLen 0].
Proof. vm_compute; reflexivity. Qed.

(** C10: the abstract machine holds at most N pairs, best first, and pops a pair
    of minimal score. *)
Theorem C10_machine_sorted : forall (A S : Type) (OS : Ord S) (os : list (nb_op A S)) (N : nat) (l : list (A * S)),
  (length l <= N)%nat -> StronglySorted (fun p q => score_desc p q = true) l ->
  (length (best_exec N l os) <= N)%nat /\
  StronglySorted (fun p q => score_desc p q = true) (best_exec N l os).
Proof. exact @best_exec_inv. Qed.
Print Assumptions C10_machine_sorted.
Theorem C10_pop_minimal : forall (A S : Type) (OS : Ord S) (N : nat) (os : list (nb_op A S)) p l',
  best_step N (best_exec N [] os) NPop = (l', OPair p) ->
  Permutation (best_exec N [] os) (p :: l') /\
  Forall (fun q => le (snd p) (snd q)) (best_exec N [] os).
Proof. exact @best_pop_minimal. Qed.
Print Assumptions C10_pop_minimal.
Example C10_pop_minimal_ex :
  best_step 3 (best_exec 3 [] [NAdd 1 5; NAdd 2 3]) NPop = ([(1, 5)], OPair (2, 3)).
Proof. vm_compute; reflexivity. Qed.

(** C11: adding at most N pairs and popping them all sorts them. *)
Theorem C11_priority_queue : forall (A S : Type) (OS : Ord S) (N : Z) (ps : list (A * S)),
  1 <= N -> Zlen ps <= N ->
  exists nb0 nb1 out nb2, nb_new N = Ok nb0 /\ nb_addmany nb0 ps = Ok nb1 /\
    nb_popall (length ps) nb1 = (out, nb2) /\ nb_len nb2 = 0 /\
    nb_pop_smallest nb2 = Raise IndexError /\
    Permutation out ps /\ StronglySorted (fun p q => le (snd p) (snd q)) out.
Proof. exact @nbest_pq. Qed.
Print Assumptions C11_priority_queue.
Example C11_priority_queue_ex :
  (do nb0 <- nb_new 3; do nb1 <- nb_addmany nb0 [(1, 5); (2, 3); (3, 4)];
   Ok (fst (nb_popall 3 nb1))) = Ok [(2, 3); (3, 4); (1, 5)].
Proof. vm_compute; reflexivity. Qed.
