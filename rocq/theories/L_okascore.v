(** * Lemmas for C82 *)
From Verif Require Import Prelude Arith M_okapi M_okascore S_okascore SMap Ord.

Section Score.
  Context {F : Type} {AF : Arith F}.
  Variables (K1 B : F) (none : obj) (E : env F).
  Variables (result d2f d2l : obj) (idf mean : F).
  Notation args := [result; d2f; d2l].
  Notation body := (body K1 B E result d2f d2l idf mean).
  Notation loop := (loop K1 B none E result d2f d2l idf mean).

  Ltac bools := repeat match goal with |- context [if Z.eqb ?a ?b then _ else _] => destruct (Z.eqb_spec a b) end.

  (** One round: what is held is as before, the discipline is kept, and errors are reported. *)
  Lemma body_held i (s : cst (F := F)) : forall x s', body i s = (x, s') -> forall o, held o (trace s') = held o (trace s).
  Proof.
    intros x s'. unfold M_okascore.body, as_double.
    destruct (e_getitem _ _ _ _) as [t|]; [|intros [= <- <-] o; reflexivity].
    destruct (e_pair _ _) as [[d f]|]; [|intros [= <- <-] o; cbn; bools; lia].
    destruct (e_double _ _ f) as [fv|].
    all: destruct (e_subscript _ _ _ _) as [dl|]; [|intros [= <- <-] o; cbn; bools; lia].
    all: destruct (e_double _ _ dl) as [lv|].
    all: destruct (e_float _ _ _) as [fo|]; [|intros [= <- <-] o; cbn; bools; lia].
    all: destruct (e_setitem _ _ _ _ _); intros [= <- <-] o; cbn; bools; lia.
  Qed.

  Lemma body_disc i (s : cst (F := F)) : (forall o, held o (trace s) = 0) -> disciplined args (e_pair E) (trace s) ->
    forall x s', body i s = (x, s') -> disciplined args (e_pair E) (trace s').
  Proof.
    intros H0 Hd x s'.
    assert (R : forall o, Z.eqb o o = true) by (intros; apply Z.eqb_refl).
    assert (A : forall tr o, In o args -> alive args (e_pair E) tr o) by (intros; left; assumption).
    assert (L : forall tr o, 0 < held o tr -> alive args (e_pair E) tr o) by (intros; right; left; assumption).
    assert (P : forall tr o t a b, 0 < held t tr -> e_pair E t = Some (a, b) -> o = a \/ o = b -> alive args (e_pair E) tr o)
      by (intros; right; right; eauto 10).
    unfold M_okascore.body, as_double.
    destruct (e_getitem _ _ _ _) as [t|]; [|intros [= <- <-]; cbn -[alive]; split; [apply A; cbn; tauto|exact Hd]].
    destruct (e_pair E t) as [[d f]|] eqn:Ep; [|intros [= <- <-]; cbn -[alive]; repeat split;
      [rewrite R, H0; lia|apply L; cbn; rewrite R, H0; lia|apply A; cbn; tauto|exact Hd]].
    Ltac al H0 R Ep A P L d f t :=
      match goal with
      | |- alive _ _ _ ?o => first [ apply A; cbn; tauto | apply L; cbn; rewrite ?R, ?H0; bools; lia
                               | apply (P _ _ t d f); [cbn; rewrite ?R, ?H0; bools; lia|exact Ep|tauto] ]
      | |- 0 < _ => rewrite ?R, ?H0; bools; lia
      | |- _ => assumption
      end.
    destruct (e_double _ _ f) as [fv|].
    all: destruct (e_subscript _ _ _ _) as [dl|]; [|intros [= <- <-]; cbn -[alive]; repeat split; al H0 R Ep A P L d f t].
    all: destruct (e_double _ _ dl) as [lv|].
    all: destruct (e_float _ _ _) as [fo|]; [|intros [= <- <-]; cbn -[alive]; repeat split; al H0 R Ep A P L d f t].
    all: destruct (e_setitem _ _ _ _ _); intros [= <- <-]; cbn -[alive]; repeat split; al H0 R Ep A P L d f t.
  Qed.

  Lemma body_null i (s : cst (F := F)) : forall r s', body i s = (Ret r, s') -> r = None /\ err s' = true.
  Proof.
    intros r s'. unfold M_okascore.body, as_double.
    destruct (e_getitem _ _ _ _) as [t|]; [|intros [= <- <-]; split; reflexivity].
    destruct (e_pair _ _) as [[d f]|]; [|intros [= <- <-]; split; reflexivity].
    destruct (e_double _ _ f) as [fv|].
    all: destruct (e_subscript _ _ _ _) as [dl|]; [|intros [= <- <-]; split; reflexivity].
    all: destruct (e_double _ _ dl) as [lv|].
    all: destruct (e_float _ _ _) as [fo|]; [|intros [= <- <-]; split; reflexivity].
    all: destruct (e_setitem _ _ _ _ _); [intros [=]|intros [= <- <-]; split; reflexivity].
  Qed.

  Lemma body_go i (s : cst (F := F)) : (forall tr o, e_double E tr o <> None) -> forall s', body i s = (Go, s') -> err s' = err s.
  Proof.
    intros Hd s'. unfold M_okascore.body, as_double.
    destruct (e_getitem _ _ _ _) as [t|]; [|intros [=]].
    destruct (e_pair _ _) as [[d f]|]; [|intros [=]].
    destruct (e_double E _ f) as [fv|] eqn:E1; [|destruct (Hd _ _ E1)].
    destruct (e_subscript _ _ _ _) as [dl|]; [|intros [=]].
    destruct (e_double E _ dl) as [lv|] eqn:E2; [|destruct (Hd _ _ E2)].
    destruct (e_float _ _ _) as [fo|]; [|intros [=]].
    destruct (e_setitem _ _ _ _ _); [intros [= <-]; reflexivity|intros [=]].
  Qed.

  Definition owed (r : option obj) (o : obj) : Z := match r with Some x => if Z.eqb o x then 1 else 0 | None => 0 end.

  Lemma loop_held n : forall i (s : cst (F := F)) r s', loop n i s = (r, s') ->
    (forall o, held o (trace s') = held o (trace s) + owed r o) /\ (r = None \/ r = Some none).
  Proof.
    induction n as [|n IH]; intros i s r s'; cbn [M_okascore.loop].
    - intros [= <- <-]. split; [intros o; reflexivity|auto].
    - destruct (body i s) as [[|r'] s1] eqn:Eb; intros H.
      + destruct (IH _ _ _ _ H) as (H1 & H2). split; [|exact H2]. intros o. rewrite H1, (body_held _ _ _ _ Eb). reflexivity.
      + injection H as <- <-. destruct (body_null _ _ _ _ Eb) as (-> & _). split; [|auto]. intros o. rewrite (body_held _ _ _ _ Eb). cbn. lia.
  Qed.

  Lemma loop_disc n : forall i (s : cst (F := F)) r s', (forall o, held o (trace s) = 0) -> disciplined args (e_pair E) (trace s) ->
    loop n i s = (r, s') -> disciplined args (e_pair E) (trace s').
  Proof.
    induction n as [|n IH]; intros i s r s' H0 Hd; cbn [M_okascore.loop].
    - intros [= <- <-]. exact Hd.
    - destruct (body i s) as [[|r'] s1] eqn:Eb; intros H.
      + eapply IH; [|eapply body_disc; eassumption|exact H]. intros o. rewrite (body_held _ _ _ _ Eb). apply H0.
      + injection H as <- <-. eapply body_disc; eassumption.
  Qed.

  Lemma loop_null n : forall i (s : cst (F := F)) s', loop n i s = (None, s') -> err s' = true.
  Proof.
    induction n as [|n IH]; intros i s s'; cbn [M_okascore.loop]; [intros [=]|].
    destruct (body i s) as [[|r'] s1] eqn:Eb; intros H; [eapply IH; exact H|]. injection H as -> <-. apply (body_null _ _ _ _ Eb).
  Qed.

  Lemma loop_go n : (forall tr o, e_double E tr o <> None) -> forall i (s : cst (F := F)) x s', loop n i s = (Some x, s') -> err s' = err s.
  Proof.
    intros Hd. induction n as [|n IH]; intros i s x s'; cbn [M_okascore.loop]; [intros [= <- <-]; reflexivity|].
    destruct (body i s) as [[|r'] s1] eqn:Eb; intros H.
    - rewrite (IH _ _ _ _ H). apply (body_go _ _ Hd _ Eb).
    - injection H as -> <-. destruct (body_null _ _ _ _ Eb) as ([=] & _).
  Qed.

  (** With proper arguments it is the loop of M_okapi.v. *)
  Section Proper.
    Variables (docid : obj -> Z) (lens : smap Z Z).

    Lemma loop_proper all : proper E result d2f d2l docid all lens ->
      forall rest pre (s : cst (F := F)), all = pre ++ rest -> err s = false ->
      let '(r, s') := loop (length rest) (Z.of_nat (length pre)) s in
      match c_score K1 B (stored docid (writes s)) rest lens idf mean with
      | Ok m => r = Some none /\ err s' = false /\ stored docid (writes s') = m
      | Raise _ => r = None /\ err s' = true
      end.
    Proof.
      intros Hp. induction rest as [|[d f] rest IH]; intros pre s Ha Hs; cbn [M_okascore.loop length c_score].
      - cbn. auto.
      - assert (Hn : nth_error all (length pre) = Some (d, f)) by (rewrite Ha, nth_error_app2, PeanoNat.Nat.sub_diag by lia; reflexivity).
        assert (Hx : forall tr, exists t a b, e_getitem E tr d2f (Z.of_nat (length pre)) = Some t /\ e_pair E t = Some (a, b) /\
          docid a = d /\ forall tr', e_double E tr' b = Some (fofZ f)) by (intros tr; exact (pr_item _ _ _ _ _ _ _ Hp tr _ _ _ Hn)).
        destruct (Hx (trace s)) as (t & a & b & E1 & E2 & E3 & E4).
        destruct (get lens d) as [dl|] eqn:Eg.
        + assert (exists s1, body (Z.of_nat (length pre)) s = (Go, s1) /\ err s1 = false /\
             stored docid (writes s1) = put d (f32 (fmul (fdiv (fmul (fofZ f) (fadd K1 f1)) (fadd (fofZ f) (fmul K1 (fadd (fsub f1 B) (fdiv (fmul B (fofZ dl)) mean))))) idf)) (stored docid (writes s))) as (s1 & Eb & Es & Ew).
          { unfold M_okascore.body, as_double. rewrite E1, E2, E4.
            destruct (pr_found _ _ _ _ _ _ _ Hp (trace (emit (EUse b) (emit (EUse t) (emit (ETake t) (emit (EUse d2f) s))))) a dl) as (o & E5 & E6).
            { rewrite E3. exact Eg. }
            rewrite E5, E6.
            match goal with |- context [e_float E ?tr ?v] => pose proof (pr_float _ _ _ _ _ _ _ Hp tr v) as Hf; destruct (e_float E tr v) as [fo|]; [clear Hf|destruct (Hf eq_refl)] end.
            rewrite (pr_setitem _ _ _ _ _ _ _ Hp). eexists. split; [reflexivity|]. cbn [err writes emit wrote stored fst snd]. rewrite E3. auto. }
          rewrite Eb. unfold item at 1. rewrite Eg. cbn [bind].
          specialize (IH (pre ++ [(d, f)]) s1). rewrite <- app_assoc in IH. specialize (IH Ha Es). rewrite Ew in IH.
          rewrite app_length in IH. cbn [length] in IH. replace (Z.of_nat (length pre + 1)) with (Z.of_nat (length pre) + 1) in IH by lia. exact IH.
        + unfold item at 1. rewrite Eg. cbn [bind].
          assert (exists s1, body (Z.of_nat (length pre)) s = (Ret None, s1) /\ err s1 = true) as (s1 & Eb & Es).
          { unfold M_okascore.body, as_double. rewrite E1, E2, E4.
            rewrite (pr_missing _ _ _ _ _ _ _ Hp) by (rewrite E3; exact Eg). eexists. split; reflexivity. }
          rewrite Eb. auto.
    Qed.
  End Proper.
End Score.

Lemma to_int_id n : 0 <= n < 2 ^ 31 -> to_int n = n.
Proof. intros H. unfold to_int. rewrite Z.mod_small by lia. lia. Qed.

Section Top.
  Context {F : Type} {AF : Arith F}.
  Variables (K1 B : F) (none : obj) (E : env F).

  Lemma score_held r s : score K1 B none E = (r, s) ->
    (forall o, held o (trace s) = owed r o) /\ (r = None \/ r = Some none).
  Proof.
    unfold score. destruct (e_parse E) as [[[[[a b] c] i] m]|]; [|intros [= <- <-]; split; auto].
    destruct (e_length E _ b) as [n|]; intros H; apply loop_held in H as (H & H'); (split; [|exact H']); intros o; rewrite H; cbn; reflexivity.
  Qed.
  Lemma score_disc r s : score K1 B none E = (r, s) ->
    disciplined (match e_parse E with Some (a, b, c, _, _) => [a; b; c] | None => [] end) (e_pair E) (trace s).
  Proof.
    unfold score. destruct (e_parse E) as [[[[[a b] c] i] m]|]; [|intros [= <- <-]; exact Logic.I].
    assert (A : alive [a; b; c] (e_pair E) [] b) by (left; cbn; tauto).
    destruct (e_length E _ b) as [n|]; intros H; refine (loop_disc K1 B none E a b c i m _ _ _ r s _ _ H); cbn; auto.
  Qed.
  Lemma score_null s : score K1 B none E = (None, s) -> err s = true.
  Proof.
    unfold score. destruct (e_parse E) as [[[[[a b] c] i] m]|]; [|intros [= <-]; reflexivity].
    destruct (e_length E _ b) as [n|]; apply loop_null.
  Qed.
  Lemma score_value x s : (forall tr o, e_double E tr o <> None) -> (forall tr o, e_length E tr o <> None) ->
    score K1 B none E = (Some x, s) -> err s = false.
  Proof.
    intros Hd Hl. unfold score. destruct (e_parse E) as [[[[[a b] c] i] m]|]; [|intros [=]].
    destruct (e_length E _ b) as [n|] eqn:El; [|destruct (Hl _ _ El)]. intros H. apply loop_go in H; [exact H|exact Hd].
  Qed.
  Lemma score_no_length result d2f d2l idf mean : e_parse E = Some (result, d2f, d2l, idf, mean) -> e_length E [] d2f = None ->
    exists s, score K1 B none E = (Some none, s) /\ err s = true /\ writes s = [].
  Proof. intros Ep El. unfold score. rewrite Ep. cbn [trace]. rewrite El. eexists. split; [reflexivity|]. split; reflexivity. Qed.
  Lemma score_proper result d2f d2l idf mean docid items lens :
    e_parse E = Some (result, d2f, d2l, idf, mean) -> proper E result d2f d2l docid items lens -> Z.of_nat (length items) < 2 ^ 31 ->
    let '(r, s) := score K1 B none E in
    match c_score K1 B empty items lens idf mean with
    | Ok m => r = Some none /\ err s = false /\ stored docid (writes s) = m
    | Raise _ => r = None /\ err s = true
    end.
  Proof.
    intros Ep Hp Hn. unfold score. rewrite Ep, (pr_length _ _ _ _ _ _ _ Hp), to_int_id by lia. rewrite Nat2Z.id.
    exact (loop_proper K1 B none E result d2f d2l idf mean docid lens items Hp items [] (emit (EUse d2f) (mkC [] false [])) eq_refl eq_refl).
  Qed.
End Top.
