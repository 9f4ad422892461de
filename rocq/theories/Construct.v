(** Model of building an object from keyword arguments: core.py:311-348. *)
From Coq Require Import String ZArith.
From Verif Require Export Mappers.
From Verif Require Import XPathEval.

(** the single fields of a class: attribute name, XPath, mapper (core.py:140-190, the class table is C34's) *)
Definition field_table := list (str * (str * mapper)).

(** core.py:335-337 [setattr(self, field, value)]: a field name goes to the field's [__set__] (fields.py:94-95,
    627-644); any other name becomes an ordinary attribute of the Python object and leaves the XML alone.
    Simplification: names of other class attributes (methods, read-only properties, list fields) are not modelled. *)
Definition set_attribute (E : env) (tbl : field_table) (kv : str * pyval) : M unit :=
  match lookup (fst kv) tbl with
  | Some (s, m) => with_xpath s (fun e => typed_set E e m (snd kv))
  | None => ret tt
  end.

(** core.py:339-348 [_build_root_element]: an element with the class's name and namespace and no content
    (the namespace declarations of [nsmap] are in the context [E], not in the tree) *)
Definition new_root (root : qname) : node := Elem root [] None [].

(** core.py:311-337 with [node=None]: the document of the new object and the outcome (an exception of a [setattr]
    propagates: there is no object then) *)
Definition construct (E : env) (root : qname) (tbl : field_table) (kw : list (str * pyval)) : node * res unit :=
  iterM (set_attribute E tbl) kw (new_root root).

(** reading the attribute afterwards *)
Definition get_attribute (E : env) (tbl : field_table) (k : str) (d : node) : res pyval :=
  match lookup k tbl with
  | Some (s, m) => match parse s with Ok e => field_get E e m d | _ => Exc XParse end
  | None => Exc XUnmodelled                     (* an ordinary Python attribute: what a keyword put there, else AttributeError *)
  end.
