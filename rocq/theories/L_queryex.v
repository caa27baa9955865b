(** * Refutations and corollaries about query strings *)
From Verif Require Import S_parser M_parser L_parser L_token L_query Text SMap Ord.
Open Scope string_scope.
Open Scope list_scope.
Open Scope Z_scope.

Lemma query_reading : forall space upper terms glob, space 45 = false -> forall query c,
  u_or c = symbols upper (tokenize space query) ->
  match outcome terms glob c with
  | POk n => exists ign, parseQuery space upper terms glob query = POk (n, ign)
  | PErr e => parseQuery space upper terms glob query = PErr e
  end.
Proof.
  intros space upper terms glob Hh q c Hc. rewrite (query_reads space upper terms glob Hh q c Hc).
  destruct (outcome terms glob c); eauto.
Qed.
Lemma grammar_unambiguous : forall s, OrExpr s -> exists! c, u_or c = s.
Proof.
  intros s H. apply OrExpr_iff in H as [c Hc]. exists c. split; [exact Hc|]. intros c' Hc'. apply tree_unique. congruence.
Qed.

Lemma syntax_error_refuted : exists query,
  ~ OrExpr (symbols ascii_upper (tokenize ascii_space query)) /\ ascii_query query = PErr PPositive.
Proof.
  exists (txt "-foo )"). split; [|vm_compute; reflexivity].
  intros H. assert (E : exists q, symbols ascii_upper (tokenize ascii_space (txt "-foo )")) = symbols ascii_upper (tokenize ascii_space q) /\
     parseQuery ascii_space ascii_upper (fun a => []) isGlob q = PErr PRequired).
  { exists (txt "-foo )"). split; [reflexivity|vm_compute; reflexivity]. }
  destruct E as (q & Eq & E). rewrite Eq in H.
  destruct (query_accepts ascii_space ascii_upper (fun a => []) isGlob eq_refl q H) as [[r Hr]|[Hr|Hr]]; congruence.
Qed.

Lemma all_reported_refuted : exists query n ign,
  ascii_query query = POk (n, ign) /\
  exists a w, In a (atoms (symbols ascii_upper (tokenize ascii_space query))) /\
    leaf ascii_terms isGlob a = Some w /\ ~ In a ign /\ ~ In w (leaves n).
Proof.
  exists (txt "the NOT foo OR bar"), (NAtom (txt "bar")), [txt "the"]. split; [vm_compute; reflexivity|].
  exists (txt "foo"), (NAtom (txt "foo")). vm_compute. splits; auto; intros [H|[]]; discriminate.
Qed.
