(** Specification side of C84: an object as a record of its fields. *)
From Coq Require Import String Arith.
From Verif Require Export FieldSpec ForkSpec UndoSpec Record.
From Verif Require Import XPathEval FieldSpec DocSpec.

(** no repetition along the path: each leading part of it, and the path itself, finds at most one node, and an element
    found by the whole path holds no child elements (such an element is not a place for a value) *)
Definition settled (E : env) (e : expr) (d : node) : Prop :=
  (forall l, In l (e :: lefts e) -> length (selects E l d) <= 1) /\ (forall b n, In (IElem b n) (selects E e d) -> kids_of n = []).

(** the field's XPath: in the supported class, ending in an element or an attribute; predicates the field can write
    (C10), and no predicate compares an attribute further down (deleting through such a predicate is C20's KeyError) *)
Definition sound_path (E : env) (e : expr) : Prop :=
  supported_path E e = true /\ lkind E e <> Some KText /\ lkind E e <> None /\ tame E xml_valid e = true /\ bare_end E e = true /\ own_attrs E e = true.

(** a record: one variable per field name *)
Definition variables := str -> pyval.
Definition rec_put (s : variables) (k : str) (v : pyval) : variables := fun k' => if str_eqb k' k then v else s k'.

(** the value of a variable that was assigned [v]: [v] itself, except that a normalizing string field tidies the spaces *)
Definition stored_value (m : mapper) (v : pyval) : pyval :=
  match m, v with MString true, PStr s => PStr (normalize_space s) | _, _ => v end.
(** the value of a variable that was deleted *)
Definition unset (m : mapper) : pyval := match m with MBool _ None => PBool false | _ => PNone end.

(** the mapper the class table gives the field *)
Definition field_type (tbl : field_table) (k : str) : mapper := match lookup k tbl with Some (_, m) => m | None => MNull end.
(** the same program on a record *)
Definition rec_op (ty : str -> mapper) (o : rop) (s : variables) : variables * pyval :=
  match o with
  | RSet k v => (rec_put s k (stored_value (ty k) v), PNone)
  | RDel k => (rec_put s k (unset (ty k)), PNone)
  | RGet k => (s, s k)
  end.
Fixpoint rec_ops (ty : str -> mapper) (os : list rop) (s : variables) : variables * list pyval :=
  match os with
  | [] => (s, [])
  | o :: os => let (s', r) := rec_op ty o s in let (s'', rs) := rec_ops ty os s' in (s'', r :: rs)
  end.
