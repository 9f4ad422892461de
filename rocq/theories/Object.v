(** Model of a program that uses the single and the list fields of one object (core.py:118-131, fields.py:661-849). *)
From Coq Require Import String ZArith.
From Verif Require Export Record ListSpec.
From Verif Require Import XPathEval.

(** a statement: one of a single field, an operation on the list [obj.k], or reading it ([list(obj.k)]).
    A NodeList keeps no items (fields.py:690-705: [matches] and [data] evaluate the XPath each time), so a list got from the
    object earlier behaves as [obj.k] does. *)
Inductive gop := GVar (o : rop) | GList (k : str) (o : xop) | GRead (k : str).
Inductive gval := GV (v : pyval) | GO (v : option pyval) | GL (vs : list pyval).

(** core.py:118-131 with NodeListManager (fields.py:829-849) *)
Definition run_gop (E : env) (tbl ltbl : field_table) (o : gop) (d : node) : node * res gval :=
  match o with
  | GVar o => let (d', r) := run_rop E tbl o d in (d', match r with Ret v => Ret (GV v) | Exc x => Exc x end)
  | GList k o =>
    match lookup k ltbl with
    | Some (s, m) => let (d', r) := with_xpath s (fun e => field_xop E e m o) d in (d', match r with Ret v => Ret (GO v) | Exc x => Exc x end)
    | None => (d, Exc XAttr)
    end
  | GRead k =>
    (d, match lookup k ltbl with
        | Some (s, m) => match parse s with Ok e => match list_data E e m d with Ret vs => Ret (GL vs) | Exc x => Exc x end | _ => Exc XParse end
        | None => Exc XAttr
        end)
  end.
Fixpoint run_gops (E : env) (tbl ltbl : field_table) (os : list gop) (d : node) : node * list (res gval) :=
  match os with
  | [] => (d, [])
  | o :: os => let (d', r) := run_gop E tbl ltbl o d in let (d'', rs) := run_gops E tbl ltbl os d' in (d'', r :: rs)
  end.
