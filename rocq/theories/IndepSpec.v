(** Specification side of C56: the operations a field (single or list) offers, and the part of its
    object's own element that a field's XPath enters first. *)
From Coq Require Import String Arith ZArith.
From Verif Require Export FieldSpec DocSpec NodeList ListSpec.
From Verif Require Import XPathEval FieldSpec DocSpec.

(** what the first step of a path selects from the object's own element: its children of one name, one of
    its attributes, or its text *)
Definition first_kind (E : env) (e : expr) : option skind := match steps_of e with s :: _ => kind E s | [] => None end.

(** everything a program can do to a field with XPath [e] and mapper [m] *)
Inductive fop :=
| FSet (e : expr) (m : mapper) (v : pyval)               (* obj.f = v *)
| FCreate (e : expr)                                     (* obj.create_f() *)
| FDelete (e : expr)                                     (* del obj.f *)
| FListOp (e : expr) (m : mapper) (o : lop)              (* obj.l[k] = v, append, extend, del, pop, remove *)
| FListInsert (e : expr) (m : mapper) (k : Z) (v : pyval) (* obj.l.insert(k, v) *)
| FListAssign (e : expr) (m : mapper) (vs : list pyval)  (* obj.l = vs *)
| FListDelete (e : expr) (m : mapper).                   (* del obj.l *)
Definition fop_path (o : fop) : expr :=
  match o with FSet e _ _ | FCreate e | FDelete e | FListOp e _ _ | FListInsert e _ _ _ | FListAssign e _ _ | FListDelete e _ => e end.
(** the new document, whatever the outcome (exceptions are caught by the program) *)
Definition run_fop (E : env) (o : fop) (d : node) : node :=
  match o with
  | FSet e m v => fst (typed_set E e m v d)
  | FCreate e => fst (mgr_create E e d)
  | FDelete e => fst (mgr_delete E e d)
  | FListOp e m o => fst (field_op E e m o d)
  | FListInsert e m k v => fst (list_insert E e m k v d)
  | FListAssign e m vs => fst (lmgr_set E e m vs d)
  | FListDelete e m => fst (lmgr_delete E e m d)
  end.
Definition run_fops (E : env) (os : list fop) (d : node) : node := fold_left (fun d o => run_fop E o d) os d.

(** a supported field that enters by [k], a child name or an attribute *)
Definition enters (E : env) (e : expr) (k : skind) : Prop := supported_path E e = true /\ first_kind E e = Some k /\ k <> KText.
(** an operation of a field that enters elsewhere *)
Definition elsewhere (E : env) (k : skind) (o : fop) : Prop := exists k', enters E (fop_path o) k' /\ k' <> k.
