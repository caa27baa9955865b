(** * Specification of a field or keyword index stored in a database *)
From Verif Require Export M_pindex M_field M_keyword SMap PyVal Ord.

(** The calls that are in force after the events: those of the committed transactions,
    and, in memory, those made since. *)
Definition force_event {K} `{Ord K} {O} (c : list O * list O) (e : ievent K O) : list O * list O :=
  match e with
  | ICall o => (fst c ++ [o], snd c)
  | ICommit _ => (fst c, fst c)
  | IAbort _ | IRestart => (snd c, snd c)
  | IEvict _ => c
  end.
Definition calls_in_force {K} `{Ord K} {O} (evs : list (ievent K O)) : list O := fst (fold_left force_event evs ([], [])).
Definition calls_committed {K} `{Ord K} {O} (evs : list (ievent K O)) : list O := snd (fold_left force_event evs ([], [])).
(** What calls return when they are made to an index in memory: each after those in force
    when it is made. *)
Fixpoint outcomes_from {K} `{Ord K} {O S} (step : S -> O -> S * res unit) (new : S) (past : list (ievent K O)) (evs : list (ievent K O)) : list (res unit) :=
  match evs with
  | [] => []
  | e :: evs' =>
      match e with
      | ICall o => [snd (step (fold_left (fun s o => fst (step s o)) (calls_in_force past) new) o)]
      | _ => []
      end ++ outcomes_from step new (past ++ [e]) evs'
  end.
