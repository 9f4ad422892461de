(** Specification side of C85: an object as a Python object with plain attributes, some of them lists. *)
From Coq Require Import String ZArith.
From Verif Require Export RecordSpec Object.
From Verif Require Import XPathEval.

(** the variables and the lists *)
Definition lists := str -> list pyval.
Definition put_list (l : lists) (k : str) (vs : list pyval) : lists := fun k' => if str_eqb k' k then vs else l k'.

(** the same statement on variables and Python lists ([py_xop], ListSpec.v) *)
Definition py_gop (tbl : field_table) (o : gop) (st : variables * lists) : (variables * lists) * res gval :=
  match o with
  | GVar o => let (s', w) := rec_op (field_type tbl) o (fst st) in ((s', snd st), Ret (GV w))
  | GList k o => let (vs', r) := py_xop o (snd st k) in ((fst st, put_list (snd st) k vs'), match r with Ret v => Ret (GO v) | Exc x => Exc x end)
  | GRead k => (st, Ret (GL (snd st k)))
  end.
Fixpoint py_gops (tbl : field_table) (os : list gop) (st : variables * lists) : (variables * lists) * list (res gval) :=
  match os with
  | [] => (st, [])
  | o :: os => let (st', r) := py_gop tbl o st in let (st'', rs) := py_gops tbl os st' in (st'', r :: rs)
  end.
