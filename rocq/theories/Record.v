(** Model of a program that uses the single fields of one object: assignments, deletions and reads (core.py:118-131). *)
From Coq Require Import String ZArith.
From Verif Require Export Construct.
From Verif Require Import XPathEval.

(** core.py:130-131 [__delete__] of the descriptor on the attribute [k]: the manager deletes what the XPath finds (fields.py:80-81, 654-658).
    Simplification: a name that is no field is an AttributeError here (an ordinary attribute would be deleted). *)
Definition del_attribute (E : env) (tbl : field_table) (k : str) : M unit :=
  match lookup k tbl with
  | Some (s, _) => with_xpath s (mgr_delete E)
  | None => raise XAttr
  end.

Inductive rop := RSet (k : str) (v : pyval) (* obj.k = v *) | RDel (k : str) (* del obj.k *) | RGet (k : str). (* obj.k *)
Definition rop_field (o : rop) : str := match o with RSet k _ | RDel k | RGet k => k end.

(** one statement of the program: the document afterwards, and its value or exception (core.py:118-131) *)
Definition run_rop (E : env) (tbl : field_table) (o : rop) (d : node) : node * res pyval :=
  match o with
  | RSet k v => let (d', r) := set_attribute E tbl (k, v) d in (d', match r with Ret _ => Ret PNone | Exc x => Exc x end)
  | RDel k => let (d', r) := del_attribute E tbl k d in (d', match r with Ret _ => Ret PNone | Exc x => Exc x end)
  | RGet k => (d, get_attribute E tbl k d)
  end.
Fixpoint run_rops (E : env) (tbl : field_table) (os : list rop) (d : node) : node * list (res pyval) :=
  match os with
  | [] => (d, [])
  | o :: os => let (d', r) := run_rop E tbl o d in let (d'', rs) := run_rops E tbl os d' in (d'', r :: rs)
  end.
