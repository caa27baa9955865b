(** * An example for C81 *)
From Verif Require Import Text S_textapi S_score S_tree S_parser S_split S_textindex S_finite L_textapi L_costext L_textex L_textscore L_textindex Arith IEEE L_ieee L_ieeetext L_unit L_finite L_finb64 SMap Ord.
From Flocq Require Import IEEE754.BinarySingleNaN.
Open Scope string_scope.
Open Scope list_scope.
Open Scope Z_scope.
Local Notation parse space upper qp := (parseQuery space upper (fun t => query_words qp (TxStr t)) has_wildcard).

Definition fin_query : str := txt "fox OR (qu* AND NOT zebra)".
Definition fin_tree : node := NOr [NAtom (txt "fox"); NAnd [NGlob (txt "qu*"); NNot (NAtom (txt "zebra"))]].
Lemma fin_parse : parse ascii_space ascii_upper ascii_pipeline fin_query = POk (fin_tree, []).
Proof. vm_compute. reflexivity. Qed.
Lemma fin_docs : get (docs_of ascii_pipeline ex_hist) 1 = Some [txt "brown"; txt "dog"; txt "brown"; txt "fox"].
Proof. vm_compute. reflexivity. Qed.
Lemma fin_sat ph : satisfies ascii_pipeline ph [txt "brown"; txt "dog"; txt "brown"; txt "fox"] fin_tree.
Proof. cbn [satisfies fin_tree]. left. exists (txt "fox"). split; [vm_compute; auto|]. right. right. right. left. reflexivity. Qed.
Lemma fin_go : ~ stopped ascii_pipeline fin_tree.
Proof. intros H. cbn [stopped fin_tree] in H. exact H. Qed.
Lemma fin_size lx : lx = lex_run ascii_pipeline (lex_hist ex_hist) -> query_size ascii_pipeline lx fin_tree = 9.
Proof. intros ->. vm_compute. reflexivity. Qed.

Lemma fin_okapi : exists m, apply (AF := Arith_b64 b64_ln) ascii_space ascii_upper ascii_pipeline ascii_pipeline (python_search_wids (AF := Arith_b64 b64_ln) K1_b64 B_b64)
    (okapi_query_weight (AF := Arith_b64 b64_ln) ascii_pipeline K1_b64) (okapi_state ascii_pipeline ex_hist) fin_query 0 None = POk (Some m) /\ mem 1 m = true.
Proof.
  pose proof (okapi_queries_b64 b64_ln b64_ln_sane ascii_space ascii_upper eq_refl ascii_word ascii_lower ascii_no_meta eq_refl ascii_lower_plain ex_hist fin_query 0 None ex_hist_ok ex_hist_small) as G.
  cbv zeta in G. change (default_pipeline ascii_word ascii_lower) with ascii_pipeline in G.
  rewrite (fin_parse : parseQuery ascii_space ascii_upper (fun t => parseTerms ascii_pipeline (TxStr t)) isGlob fin_query = _) in G. destruct G as (r & Er & Hn & Hr).
  destruct r as [m|]; [|destruct (fin_go (proj1 Hn eq_refl))]. exists m. split; [exact Er|]. apply (Hr m eq_refl). eexists. split; [exact fin_docs|apply fin_sat].
Qed.
Lemma fin_cosine : exists m, apply (AF := Arith_b64 b64_ln) ascii_space ascii_upper ascii_pipeline ascii_pipeline (cos_search_wids (AF := Arith_b64 b64_ln))
    (cos_query_weight (AF := Arith_b64 b64_ln) ascii_pipeline) (cos_state (AF := Arith_b64 b64_ln) ascii_pipeline ex_hist) fin_query 0 None = POk (Some m) /\ mem 1 m = true.
Proof.
  pose proof (cosine_queries_b64 b64_ln b64_ln_sane ascii_space ascii_upper eq_refl ascii_word ascii_lower ascii_no_meta eq_refl ascii_lower_plain ex_hist fin_query 0 None ex_hist_ok) as G.
  cbv zeta in G. change (default_pipeline ascii_word ascii_lower) with ascii_pipeline in G.
  rewrite (fin_parse : parseQuery ascii_space ascii_upper (fun t => parseTerms ascii_pipeline (TxStr t)) isGlob fin_query = _) in G. destruct G as (r & Er & Hn & Hr).
  destruct r as [m|]; [|destruct (fin_go (proj1 Hn eq_refl))]. exists m. split; [exact Er|]. apply (Hr m eq_refl). eexists. split; [exact fin_docs|apply fin_sat].
Qed.
Lemma fin_small : query_size ascii_pipeline (slx (okapi_state ascii_pipeline ex_hist)) fin_tree <= 2 ^ 24 /\
  query_size ascii_pipeline (slx (cos_state (AF := Arith_b64 b64_ln) ascii_pipeline ex_hist)) fin_tree <= 2 ^ 24.
Proof.
  destruct (okapi_state_ok ascii_pipeline ex_hist ex_hist_ok) as (_ & E1 & _).
  destruct (cos_state_ok (AF := Arith_b64 b64_ln) (SF := safe_b64 b64_ln b64_ln_sane) (EF := sound_b64 b64_ln) ascii_pipeline ex_hist ex_hist_ok) as (_ & E2 & _).
  rewrite (fin_size _ E1), (fin_size _ E2). lia.
Qed.
