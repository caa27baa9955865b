(** * Specification: queries as events of a history *)
From Verif Require Export M_alias S_textapi M_textindex Arith SMap Ord.

(** What a query returns, as a value: [ix] is the index afterwards. *)
Definition answer {V F} (read : bindex V -> Z -> smap Z F) (ix : bindex V) (r : pres (option (mobj F))) : pres (option (smap Z F)) :=
  match r with
  | PErr e => PErr e
  | POk None => POk None
  | POk (Some o) => POk (Some (val read ix o))
  end.

(** A mapping that nobody else has: no later call changes it, and changing it does not
    change the index. *)
Definition private {F} (o : mobj F) : Prop := exists m, o = Own m.
Definition private_answer {F} (r : pres (option (mobj F))) : Prop := forall o, r = POk (Some o) -> private o.

(** Updates and queries in some order.  [query] gives the index after a query. *)
Inductive qevent := Update (o : top) | Query (q : str).
Definition updates (evs : list qevent) : list top := flat_map (fun e => match e with Update o => [o] | Query _ => [] end) evs.
Definition q_run {V} (update : top -> sx (sys V) unit) (query : sys V -> str -> sys V) (evs : list qevent) : sx (sys V) unit :=
  siter (fun e => match e with Update o => update o | Query q => smod (fun s => query s q) end) evs.
