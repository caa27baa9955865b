(** * Environments for the examples of C82 *)
From Verif Require Import Prelude Arith M_okascore S_okascore SMap Ord.

(** [score({}, [(7, 2), (9, 1)], {7: 5, 9: 4}, idf, mean)]: the arguments are the objects 1, 2
    and 3, the tuples 10 and 11, their second items 20 and 21, the lengths 30 and 31, and None is 0.
    Document ids are themselves; every float made is 40.  Any of the calls can be told to fail. *)
Definition ex_items : list (Z * Z) := [(7, 2); (9, 1)].
Definition ex_lens : smap Z Z := put 7 5 (put 9 4 empty).
Section Ex.
  Context {F : Type} {AF : Arith F}.
  Definition ex_env (has_len has_number has_doc : bool) : env F := {|
    e_parse := Some (1, 2, 3, f1, f1);
    e_length := fun _ _ => if has_len then Some 2 else None;
    e_getitem := fun _ _ i => Some (10 + i);
    e_pair := fun t => if Z.eqb t 10 then Some (7, 20) else if Z.eqb t 11 then Some (9, 21) else None;
    e_double := fun _ o => if has_number then Some (fofZ (if Z.eqb o 20 then 2 else if Z.eqb o 21 then 1 else if Z.eqb o 30 then 5 else 4)) else None;
    e_subscript := fun _ _ d => if has_doc then if Z.eqb d 7 then Some 30 else if Z.eqb d 9 then Some 31 else None else None;
    e_float := fun _ _ => Some 40;
    e_setitem := fun _ _ _ _ => true |}.

  Lemma ex_proper : proper (ex_env true true true) 1 2 3 (fun d => d) ex_items ex_lens.
  Proof.
    constructor; cbn [ex_env e_length e_getitem e_pair e_double e_subscript e_float e_setitem].
    - reflexivity.
    - intros _ i d f H. destruct i as [|[|[|i]]]; cbn in H; try discriminate; injection H as <- <-.
      + exists 10, 7, 20. repeat split.
      + exists 11, 9, 21. repeat split.
    - intros _ a n H. unfold ex_lens in H. rewrite !get_put, get_empty in H.
      destruct (Z.eqb_spec a 7) as [->|N7]; [injection H as <-; exists 30; split; reflexivity|].
      destruct (Z.eqb_spec a 9) as [->|N9]; [injection H as <-; exists 31; split; reflexivity|].
      apply (proj2 (eqb_neq _ _)) in N7. apply (proj2 (eqb_neq _ _)) in N9. change obj with Z in *. rewrite N7, N9 in H. discriminate.
    - intros _ a H. unfold ex_lens in H. rewrite !get_put, get_empty in H.
      destruct (Z.eqb_spec a 7) as [->|N7]; [discriminate|]. destruct (Z.eqb_spec a 9) as [->|N9]; [discriminate|]. reflexivity.
    - discriminate.
    - reflexivity.
  Qed.
End Ex.
