(** Specification side of C86: an object whose fields are the attributes and the text of its own element. *)
From Coq Require Import String Arith.
From Verif Require Export RecordSpec.
From Verif Require Import XPathEval FieldSpec DocSpec.

(** a field with XPath [text()], and one with XPath [.] *)
Inductive part := OwnText | Whole.
Definition part_path (p : part) : str := match p with OwnText => u "text()" | Whole => u "." end.
(** the text fields: which of the two, and whether the field normalizes spaces *)
Definition text_fields := str -> option (part * bool).

(** the Python side: one variable per attribute field, and one for the element's text, None if it has none; all the text
    fields of the class share it *)
Definition leaf_state := (variables * option str)%type.
Definition read_part (p : part) (norm : bool) (t : option str) : pyval :=
  match p, t with
  | OwnText, None => PNone
  | Whole, None => PStr []
  | _, Some s => PStr (if norm then normalize_space s else s)
  end.
(** deleting, or assigning None: through [text()] the text becomes empty, if there is one; through [.] nothing happens *)
Definition clear_part (p : part) (t : option str) : option str :=
  match p, t with OwnText, Some _ => Some [] | _, _ => t end.
Definition leaf_op (tf : text_fields) (ty : str -> mapper) (o : rop) (st : leaf_state) : leaf_state * pyval :=
  match tf (rop_field o) with
  | None => let (s, w) := rec_op ty o (fst st) in ((s, snd st), w)
  | Some (p, norm) =>
    match o with
    | RSet _ (PStr v) => ((fst st, Some v), PNone)
    | RSet _ _ | RDel _ => ((fst st, clear_part p (snd st)), PNone)
    | RGet _ => (st, read_part p norm (snd st))
    end
  end.
Fixpoint leaf_ops (tf : text_fields) (ty : str -> mapper) (os : list rop) (st : leaf_state) : leaf_state * list pyval :=
  match os with
  | [] => (st, [])
  | o :: os => let (st', r) := leaf_op tf ty o st in let (st'', rs) := leaf_ops tf ty os st' in (st'', r :: rs)
  end.

(** the field's XPath is one attribute step, [@name] *)
Definition own_attribute (E : env) (e : expr) : Prop := (exists ax t, e = EStep ax t []) /\ exists q, lkind E e = Some (KAttr q).
(** an element without child nodes, with its text *)
Definition is_leaf (d : node) (t : option str) : Prop := exists q a, d = Elem q a t [].
