(** * Lemmas: concurrent transactions on a cosine text index in IEEE arithmetic *)
From Verif Require Import Arith IEEE L_ieee S_textapi S_zcos M_zcos L_zcos L_ztextex L_zcosex S_text SMap Ord.
From Flocq Require Import IEEE754.BinarySingleNaN.
Open Scope list_scope.
Open Scope Z_scope.

(** Two numbers are the same. *)
Definition b64_same (x y : b64) : bool :=
  match x, y with
  | B754_zero s, B754_zero s' => Bool.eqb s s'
  | B754_infinity s, B754_infinity s' => Bool.eqb s s'
  | B754_nan, B754_nan => true
  | B754_finite s m e _, B754_finite s' m' e' _ => Bool.eqb s s' && Pos.eqb m m' && Z.eqb e e'
  | _, _ => false
  end.
Lemma b64_same_eq x y : b64_same x y = true <-> x = y.
Proof.
  split.
  - destruct x as [s|s| |s m e p], y as [s'|s'| |s' m' e' p']; cbn [b64_same]; intros H; try discriminate; try reflexivity.
    + apply Bool.eqb_prop in H as ->. reflexivity.
    + apply Bool.eqb_prop in H as ->. reflexivity.
    + apply andb_prop in H as [H H3]. apply andb_prop in H as [H1 H2]. apply Bool.eqb_prop in H1 as ->. apply Pos.eqb_eq in H2 as ->. apply Z.eqb_eq in H3 as ->.
      f_equal. apply Eqdep_dec.UIP_dec, Bool.bool_dec.
  - intros <-. destruct x as [s|s| |s m e p]; cbn [b64_same]; try reflexivity; try apply Bool.eqb_reflx.
    rewrite Bool.eqb_reflx, Pos.eqb_refl, Z.eqb_refl. reflexivity.
Qed.
Section Ieee.
  Variable ln : b64 -> b64.
  Hypothesis Hln : sane_ln ln.
  Lemma zc_ieee pipeline sch st : cos_schedule_ok pipeline sch -> In st (zc_run (AF := Arith_b64 ln) b64_same pipeline sch) ->
    exists h, history_ok pipeline h /\ no_clear h /\ docs_of pipeline h = documents (zt_sys st) /\
      cos_same (AF := Arith_b64 ln) pipeline (cos_state (AF := Arith_b64 ln) pipeline h) (zt_sys st).
  Proof using Hln. exact (@zc_consistent b64 (Arith_b64 ln) (safe_b64 ln Hln) (sound_b64 ln) b64_same b64_same_eq pipeline sch st). Qed.
End Ieee.

(** ** A weight that survives its text *)
(** the logarithms of 2 and 4 *)
Definition some_ln (x : b64) : b64 :=
  if Beqb x (b64_of 2 0) then b64_of 6243314768165359 (-53) else if Beqb x (b64_of 4 0) then b64_of 6243314768165359 (-52) else B754_zero false.
Lemma some_ln_sane : sane_ln some_ln.
Proof. intros x _. unfold some_ln. destruct (Beqb x _); [reflexivity|]. destruct (Beqb x _); reflexivity. Qed.
Local Notation AS := (Arith_b64 some_ln).
Definition old_text : ltext := tx [97; 98; 98; 99; 99; 100; 100; 100; 100].
Definition new_text : ltext := tx [97; 98; 98; 100; 100; 100; 100; 99; 99].
Definition old_weight : b64 := cosine_weight (AF := AS) (wd 97) (text_words id_pipeline old_text).
Definition new_weight : b64 := cosine_weight (AF := AS) (wd 97) (text_words id_pipeline new_text).
Definition zc_many : list top := map (fun d => TIndex d (tx [97])) [2; 3; 4; 5; 6; 7; 8; 9; 10; 11].
(** The word 97 has eleven documents.  Someone gives document 1 another text, while someone
    else unindexes all of them and then indexes document 1 as it was. *)
Definition zc_revived : list (nat * nat * list top) :=
  [(0%nat, 0%nat, TIndex 12 (tx [98; 99; 100]) :: TIndex 1 old_text :: zc_many);
   (0%nat, 0%nat, [TIndex 1 new_text]);
   (1%nat, 1%nat, map TUnindex [1; 2; 3; 4; 5; 6; 7; 8; 9; 10; 11] ++ [TIndex 1 old_text])].
Definition zc_word_97 (st : ztext b64) : option (bool * bool * bool) :=
  match get (wordinfo (six (zt_sys st))) (get_wid (slx (zt_sys st)) (wd 97)) with
  | Some p => match get (p_map p) 1 with Some v => Some (p_dict p, b64_same v old_weight, b64_same v new_weight) | None => None end
  | None => None
  end.
Lemma zc_old_weight :
  sane_ln some_ln /\ cos_schedule_ok id_pipeline zc_revived /\
  b64_same (f32 (Arith := AS) old_weight) (f32 (Arith := AS) new_weight) = true /\
  length (zc_run (AF := AS) b64_same id_pipeline zc_revived) = 4%nat /\
  forall st, hd_error (zc_run (AF := AS) b64_same id_pipeline zc_revived) = Some st ->
    get (documents (zt_sys st)) 1 = Some (text_words id_pipeline new_text) /\ zc_word_97 st = Some (true, true, false).
Proof.
  split; [exact some_ln_sane|]. split; [apply cschedule_check; vm_compute; reflexivity|]. split; [vm_compute; reflexivity|]. split; [vm_compute; reflexivity|].
  intros st E. assert (H : option_map (fun st => (get (documents (zt_sys st)) 1, zc_word_97 st)) (hd_error (zc_run (AF := AS) b64_same id_pipeline zc_revived)) =
    Some (Some (text_words id_pipeline new_text), Some (true, true, false))) by (vm_compute; reflexivity).
  rewrite E in H. cbn [option_map] in H. injection H as H1 H2. auto.
Qed.
Lemma zc_stored : exists ln, sane_ln ln /\ exists schedule st d w ws p v, cos_schedule_ok id_pipeline schedule /\
  In st (zc_run (AF := Arith_b64 ln) b64_same id_pipeline schedule) /\ get (documents (zt_sys st)) d = Some ws /\
  get (wordinfo (six (zt_sys st))) (get_wid (slx (zt_sys st)) w) = Some p /\ p_dict p = true /\ get (p_map p) d = Some v /\
  v <> cosine_weight (AF := Arith_b64 ln) w ws.
Proof.
  exists some_ln. destruct zc_old_weight as (H1 & H2 & _ & H3 & H). split; [exact H1|].
  destruct (hd_error (zc_run (AF := AS) b64_same id_pipeline zc_revived)) as [st|] eqn:E; [|destruct (zc_run _ _ _); discriminate].
  destruct (H st eq_refl) as [Hd Hw]. clear H. unfold zc_word_97 in Hw. destruct (get (wordinfo _) _) as [p|] eqn:Ep; [|discriminate].
  destruct (get (p_map p) 1) as [v|] eqn:Ev; [|discriminate]. injection Hw as Hp _ Hw.
  exists zc_revived, st, 1, (wd 97), (text_words id_pipeline new_text), p, v. split; [exact H2|]. split; [destruct (zc_run _ _ _); [discriminate|injection E as ->; left; reflexivity]|].
  split; [exact Hd|]. split; [exact Ep|]. split; [exact Hp|]. split; [exact Ev|]. intros X. fold new_weight in X. apply b64_same_eq in X. congruence.
Qed.
