(** * Model of the C function [score] (/repo/src/zope/index/text/okascore.c), with
    reference counts and the error indicator

    M_okapi.v models the numbers [score] computes.  Here it is modelled as a C program that
    calls the Python C API: every reference it takes and gives back, every use it makes of
    an object, and the error indicator.  What the API calls answer is arbitrary and may
    depend on everything that happened before, for they may run Python code; a call that
    fails sets the error indicator, and [PyFloat_AsDouble] then returns -1.0. *)
From Verif Require Import Arith SMap Ord.

(** Objects, by their addresses. *)
Definition obj := Z.

Inductive event :=
| ETake (o : obj)   (* a new reference: returned by the API, or [Py_INCREF] *)
| EGive (o : obj)   (* [Py_DECREF] *)
| EUse (o : obj).   (* an object is passed to the API or looked into *)

(** What is outside the function. *)
Record env (F : Type) := mkEnv {
  e_parse : option (obj * obj * obj * F * F);        (* PyArg_ParseTuple: result, d2fitems, d2len, idf, meandoclen *)
  e_length : list event -> obj -> option Z;          (* PyObject_Length *)
  e_getitem : list event -> obj -> Z -> option obj;  (* PySequence_GetItem: a new reference *)
  e_pair : obj -> option (obj * obj);                (* a tuple of length 2, and its items *)
  e_double : list event -> obj -> option F;          (* PyFloat_AsDouble *)
  e_subscript : list event -> obj -> obj -> option obj; (* PyObject_GetItem: a new reference *)
  e_float : list event -> F -> option obj;           (* PyFloat_FromDouble: a new reference *)
  e_setitem : list event -> obj -> obj -> obj -> bool (* PyObject_SetItem *)
}.
Arguments e_parse {F}. Arguments e_length {F}. Arguments e_getitem {F}. Arguments e_pair {F}.
Arguments e_double {F}. Arguments e_subscript {F}. Arguments e_float {F}. Arguments e_setitem {F}.
Arguments mkEnv {F}.

Section Score.
  Context {F : Type} {AF : Arith F}.
  Variables K1 B : F. (* okascore.c:38-39 *)
  Variable py_none : obj.
  Variable E : env F.

  (** What has happened, latest first; whether the error indicator is set; and the items set
      in [result], latest first, each with the number in the float object. *)
  Record cst := mkC { trace : list event; err : bool; writes : list (obj * F) }.
  Definition emit (e : event) (s : cst) : cst := mkC (e :: trace s) (err s) (writes s).
  Definition fail (s : cst) : cst := mkC (trace s) true (writes s).
  Definition wrote (d : obj) (v : F) (s : cst) : cst := mkC (trace s) (err s) ((d, v) :: writes s).

  (** [PyFloat_AsDouble(o)] *)
  Definition as_double (o : obj) (s : cst) : F * cst :=
    match e_double E (trace s) o with
    | Some v => (v, emit (EUse o) s)
    | None => (fsub f0 f1, fail (emit (EUse o) s))
    end.

  Inductive outcome := Go | Ret (r : option obj). (* next round, or [return]; NULL is None *)

  (** okascore.c:68-107: the body of the loop *)
  Definition body (result d2fitems d2len : obj) (idf meandoclen : F) (i : Z) (s : cst) : outcome * cst :=
    let B_FROM1 := fsub f1 B in
    let K1_PLUS1 := fadd K1 f1 in
    match e_getitem E (trace s) d2fitems i with
    | None => (Ret None, fail (emit (EUse d2fitems) s))
    | Some d_and_f =>
        let s := emit (ETake d_and_f) (emit (EUse d2fitems) s) in
        let s := emit (EUse d_and_f) s in
        match e_pair E d_and_f with
        | None => (Ret None, emit (EGive d_and_f) (fail s)) (* TypeError *)
        | Some (d, f_obj) =>
            let '(f, s) := as_double f_obj s in
            match e_subscript E (trace s) d2len d with
            | None => (Ret None, emit (EGive d_and_f) (fail (emit (EUse d) (emit (EUse d2len) s))))
            | Some doclen =>
                let s := emit (ETake doclen) (emit (EUse d) (emit (EUse d2len) s)) in
                let '(len, s) := as_double doclen s in
                let lenweight := fadd B_FROM1 (fdiv (fmul B len) meandoclen) in
                let tf := fdiv (fmul f K1_PLUS1) (fadd f (fmul K1 lenweight)) in
                let '(doc_score, s) :=
                  match e_float E (trace s) (fmul tf idf) with
                  | None => (None, fail s)
                  | Some o => (Some o, emit (ETake o) s)
                  end in
                let '(status, s) :=
                  match doc_score with
                  | None => (-1, s)
                  | Some o =>
                      let s' := emit (EUse o) (emit (EUse d) (emit (EUse result) s)) in
                      if e_setitem E (trace s) result d o then (0, wrote d (fmul tf idf) s') else (-1, fail s')
                  end in
                let s := emit (EGive d_and_f) s in
                let s := emit (EGive doclen) s in
                let s := match doc_score with Some o => emit (EGive o) s | None => s end in (* Py_XDECREF *)
                if status <? 0 then (Ret None, s) else (Go, s)
            end
        end
    end.

  (** okascore.c:67: [for (i = 0; i < n; ++i)] *)
  Fixpoint loop (result d2fitems d2len : obj) (idf meandoclen : F) (rounds : nat) (i : Z) (s : cst) : option obj * cst :=
    match rounds with
    | O => (Some py_none, emit (ETake py_none) s) (* okascore.c:109-110 *)
    | S rounds' =>
        match body result d2fitems d2len idf meandoclen i s with
        | (Ret r, s) => (r, s)
        | (Go, s) => loop result d2fitems d2len idf meandoclen rounds' (i + 1) s
        end
    end.

  (** The [Py_ssize_t] returned by [PyObject_Length] is assigned to an [int]. *)
  Definition to_int (n : Z) : Z := (n + 2 ^ 31) mod 2 ^ 32 - 2 ^ 31.

  (** okascore.c:45-111 [score] *)
  Definition score : option obj * cst :=
    let s := mkC [] false [] in
    match e_parse E with
    | None => (None, fail s)
    | Some (result, d2fitems, d2len, idf, meandoclen) =>
        let '(n, s) :=
          match e_length E (trace s) d2fitems with
          | Some n => (to_int n, emit (EUse d2fitems) s)
          | None => (-1, fail (emit (EUse d2fitems) s))
          end in
        loop result d2fitems d2len idf meandoclen (Z.to_nat n) 0 s
    end.
End Score.
Arguments trace {F}. Arguments err {F}. Arguments writes {F}.
