(** Specification for C20: paths all of whose predicates, at every depth, compare with a value, and elements that hold more than
    the predicates of their step name. *)
From Coq Require Import String Arith.
From Verif Require Export FieldSpec LostSpec.

(** every predicate, also inside the paths that predicates compare, has the form [path = value] *)
Fixpoint value_preds (e : expr) : bool :=
  match e with
  | EStep _ _ ps => forallb (fun p => match p with EBin _ op _ => str_eqb op (u "=") | _ => false end && value_preds p) ps
  | EBin l _ r => value_preds l && value_preds r
  | _ => true
  end.

(** no predicate, at any depth, compares an attribute of a child ([b/@t = value]): its removal can raise KeyError, see
    C20_key_error_refuted *)
Fixpoint own_attrs (E : env) (e : expr) : bool :=
  match e with
  | EStep _ _ ps => forallb (own_attrs E) ps
  | EBin l op r => own_attrs E l && own_attrs E r && negb (str_eqb op (u "=") && negb (is_estep l) && match lkind E l with Some (KAttr _) => true | _ => false end)
  | _ => true
  end.

(** what the predicates of a step name: the elements and attributes on the compared paths *)
Definition named_by (E : env) (ps : list expr) : list (list named) :=
  flat_map (fun p => match p with EBin l op _ => if str_eqb op (u "=") then mentioned E l else [] | _ => [] end) ps.
(** an element that holds an element, attribute, comment or processing instruction beyond those *)
Definition holds_more (E : env) (l : expr) (n : node) : Prop := last_step l = None \/ own_attrs E l = true /\ ~ part_of (contents n) (named_by E (end_preds l)).
