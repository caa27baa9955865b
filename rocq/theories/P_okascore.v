(** * Property C82: the C scorer leaks no references, uses no freed object and reports errors

    The C function [score] is run in an arbitrary environment ([env], M_okascore.v): every
    API call may fail or answer anything, and its answer may depend on all that happened before.
    The trace of events and the bookkeeping of references are in S_okascore.v. *)
From Verif Require Import Prelude Arith M_okapi M_okascore S_okascore L_okascore L_okasex SMap Ord.

(** Whatever fails, at the end it owns no reference, but for the one to None that it
    returns, if it returns at all and not NULL. *)
Theorem C82_balanced : forall F (AF : Arith F) (K1 B : F) none E r s, score K1 B none E = (r, s) ->
  (r = None /\ forall o, held o (trace s) = 0) \/
  (r = Some none /\ forall o, held o (trace s) = if Z.eqb o none then 1 else 0).
Proof. intros F AF K1 B none E r s H. destruct (score_held K1 B none E r s H) as (H1 & [-> | ->]); [left|right]; exact (conj eq_refl H1). Qed.
Print Assumptions C82_balanced.

(** It uses no object that can have been freed, and gives back no reference that it does not own. *)
Theorem C82_alive : forall F (AF : Arith F) (K1 B : F) none E r s, score K1 B none E = (r, s) ->
  disciplined (match e_parse E with Some (result, d2fitems, d2len, _, _) => [result; d2fitems; d2len] | None => [] end)
    (e_pair E) (trace s).
Proof. exact (fun F AF K1 B none E r s H => score_disc K1 B none E r s H). Qed.
Print Assumptions C82_alive.

(** When it returns NULL an exception is set; when it returns None none is, provided that the
    second argument has a length and what stands for a number is one. *)
Theorem C82_null : forall F (AF : Arith F) (K1 B : F) none E s, score K1 B none E = (None, s) -> err s = true.
Proof. exact (fun F AF K1 B none E s H => score_null K1 B none E s H). Qed.
Print Assumptions C82_null.
Theorem C82_value : forall F (AF : Arith F) (K1 B : F) none E x s,
  (forall tr o, e_double E tr o <> None) -> (forall tr o, e_length E tr o <> None) ->
  score K1 B none E = (Some x, s) -> err s = false.
Proof. exact (fun F AF K1 B none E x s H1 H2 H => score_value K1 B none E x s H1 H2 H). Qed.
Print Assumptions C82_value.

(** Without that it is false: neither the length nor the conversions to double are checked, so that
    None is returned with an exception set, which Python reports as a SystemError. *)
Theorem C82_value_refuted : forall F (AF : Arith F) (K1 B : F) none,
  (exists E x s, (forall tr o, e_double E tr o <> None) /\ score K1 B none E = (Some x, s) /\ err s = true) /\
  (exists E x s, (forall tr o, e_length E tr o <> None) /\ score K1 B none E = (Some x, s) /\ err s = true /\ writes s <> []).
Proof.
  intros F AF K1 B none. split.
  - exists (ex_env false true true). eexists _, _. split; [discriminate|]. split; reflexivity.
  - exists (ex_env true false true). eexists _, _. split; [discriminate|]. split; [reflexivity|]. split; [reflexivity|discriminate].
Qed.
Print Assumptions C82_value_refuted.
(** That is what always happens when the second argument has no length; nothing is stored then. *)
Theorem C82_no_length : forall F (AF : Arith F) (K1 B : F) none E result d2fitems d2len idf meandoclen,
  e_parse E = Some (result, d2fitems, d2len, idf, meandoclen) -> e_length E [] d2fitems = None ->
  exists s, score K1 B none E = (Some none, s) /\ err s = true /\ writes s = [].
Proof. exact (fun F AF K1 B none E result d2f d2l idf mean H1 H2 => score_no_length K1 B none E result d2f d2l idf mean H1 H2). Qed.
Print Assumptions C82_no_length.

(** With proper arguments, and fewer than 2^31 of them, what it leaves in an empty [result] is what
    the loop of M_okapi.v computes, on which C55 to C58 and C62 rest; and where that
    raises it returns NULL with an exception set. *)
Theorem C82_computes : forall F (AF : Arith F) (K1 B : F) none E result d2fitems d2len idf meandoclen docid items lens,
  e_parse E = Some (result, d2fitems, d2len, idf, meandoclen) -> proper E result d2fitems d2len docid items lens ->
  Z.of_nat (length items) < 2 ^ 31 ->
  let '(r, s) := score K1 B none E in
  match c_score K1 B empty items lens idf meandoclen with
  | Ok m => r = Some none /\ err s = false /\ stored docid (writes s) = m
  | Raise _ => r = None /\ err s = true
  end.
Proof. exact (fun F AF K1 B none E result d2f d2l idf mean docid items lens H1 H2 H3 => score_proper K1 B none E result d2f d2l idf mean docid items lens H1 H2 H3). Qed.
Print Assumptions C82_computes.

(** Two documents, all well; and the second argument naming a document without a length. *)
Example C82_ex : forall F (AF : Arith F) (K1 B : F),
  proper (ex_env true true true) 1 2 3 (fun d => d) ex_items ex_lens /\ Z.of_nat (length ex_items) < 2 ^ 31 /\
  (let '(r, s) := score K1 B 0 (ex_env true true true) in
     r = Some 0 /\ err s = false /\ map fst (writes s) = [9; 7] /\ length (trace s) = 32%nat) /\
  (let '(r, s) := score K1 B 0 (ex_env true true false) in
     r = None /\ err s = true /\ map (fun o => held o (trace s)) [1; 2; 3; 7; 10; 20] = [0; 0; 0; 0; 0; 0]).
Proof. intros F AF K1 B. split; [exact ex_proper|]. split; [reflexivity|]. split; (split; [reflexivity|split; [reflexivity|]]); [split|]; reflexivity. Qed.
