(** Specification side of the field properties: the class of XPaths eulxml documents as supported for
    setting ("simple child and attribute nodes with simple predicates"), and what it means for two
    versions of a document to differ in one place only. *)
From Coq Require Import String Arith.
From Verif Require Export XPathCanon XPathEval.

(** what a step selects: child elements with a given name, an attribute, or text nodes *)
Inductive skind := KChild (q : qname) | KAttr (q : qname) | KText.

Definition skind_eqb (a b : skind) : bool :=
  match a, b with
  | KChild q, KChild q' | KAttr q, KAttr q' => qeqb q q'
  | KText, KText => true
  | _, _ => false
  end.

(** the kind of a supported step (name tests other than '*' with a known prefix, text()) *)
Definition kind (E : env) (s : expr) : option skind :=
  match s with
  | EStep ax (NameTest p nm) _ =>
    if str_eqb nm (u "*") then None
    else match p with
      | Some [] => None
      | _ =>
        match resolve E p with
        | None => None
        | Some uri =>
          if child_axis ax then Some (KChild (QN uri nm))
          else if attr_axis ax then
            (* @text is mistaken for text() by the code, see C10_text_attribute_refuted *)
            (if str_eqb nm (u "text") then None else Some (KAttr (QN uri nm)))
          else None
        end
      end
  | EStep ax (NodeType nm None) _ =>
    if (child_axis ax && str_eqb nm (u "text"))%bool then Some KText else None
  | _ => None
  end.

Definition preds_of (s : expr) : list expr := match s with EStep _ _ ps => ps | _ => [] end.

(** last step of a path; first step of a predicate (of its left side for '=') *)
Definition last_step (e : expr) : option expr :=
  match e with
  | EStep _ _ _ => Some e
  | EBin _ op (EStep _ _ _ as r) => if str_eqb op (u "/") then Some r else None
  | _ => None
  end.
Fixpoint lead_step (e : expr) : expr := match e with EBin l _ _ => lead_step l | _ => e end.
Definition fkind (E : env) (p : expr) : option skind := kind E (lead_step p).
Definition lkind (E : env) (e : expr) : option skind :=
  match last_step e with Some s => kind E s | None => None end.

Definition is_estep (e : expr) : bool := match e with EStep _ _ _ => true | _ => false end.

(** no predicate starts with the given kind of step *)
Definition avoids (E : env) (ps : list expr) (k : skind) : bool :=
  forallb (fun p => match fkind E p with Some k' => negb (skind_eqb k' k) | None => false end) ps.

(** attributes that are written directly on the element by its predicates, e.g. [@a='x'] *)
Definition direct_attr (E : env) (p : expr) : list skind :=
  match fkind E p with Some (KAttr q) => [KAttr q] | _ => [] end.
Fixpoint distinct (l : list skind) : bool :=
  match l with [] => true | k :: l' => negb (existsb (skind_eqb k) l') && distinct l' end.

Definition is_KText (k : option skind) : bool := match k with Some KText => true | _ => false end.
Definition is_KChild (k : option skind) : bool := match k with Some (KChild _) => true | _ => false end.

(** right side of an '=' predicate: a string, an int, or a defined variable *)
Definition rvalue_ok (E : env) (r : expr) : bool :=
  match r with
  | ELit _ | EInt _ => true
  | EVar None n => match lookup n (vars E) with Some _ => true | None => false end
  | _ => false
  end.

(** [l] can be followed by [/r]: its last step is a child step none of whose predicates starts with
    what [r] selects *)
Definition joins (E : env) (l r : expr) : bool :=
  match l with
  | EAbbrev _ => true
  | _ =>
    match last_step l, kind E r with
    | Some s, Some k => is_KChild (kind E s) && avoids E (preds_of s) k
    | _, _ => false
    end
  end.

(** Paths (optionally starting with '.' at top level) and predicates of the supported class. *)
Fixpoint ok (E : env) (dot : bool) (e : expr) : bool :=
  match e with
  | EAbbrev a => dot && str_eqb a (u ".")
  | EStep _ _ ps =>
    match kind E e with
    | Some (KChild _) =>
      forallb (fun p => ok E false p && negb (is_KText (match p with EBin l op _ =>
                          if str_eqb op (u "=") then lkind E l else lkind E p | _ => lkind E p end))) ps &&
      distinct (flat_map (direct_attr E) ps)
    | Some _ => match ps with [] => true | _ => false end
    | None => false
    end
  | EBin l op r =>
    if str_eqb op (u "/") then ok E dot l && is_estep r && ok E false r && joins E l r
    else if str_eqb op (u "=") then negb dot && is_path l && ok E false l && rvalue_ok E r
    else false
  | _ => false
  end.

(** the text of the XPath is stable under eulxml's own serialisation (C01) *)
Definition rereadable (e : expr) : bool := canon e && lex_safe (toks e).

(** The supported fields: *)
Definition supported_path (E : env) (e : expr) : bool := is_path e && ok E true e && rereadable e.

(** what the field selects in document [d] (lxml's [node.xpath(...)]) *)
Definition selects (E : env) (e : expr) (d : node) : list item := nodes_of (ev E e (IElem [] d)).

(** *** Predicates whose construction cannot fail: the values are strings XML can hold, and an element
    compared with '=' gets no child elements from its own predicates *)
Definition attr_only (E : env) (ps : list expr) : bool :=
  forallb (fun p => match fkind E p with Some (KAttr _) => true | _ => false end) ps.
Definition end_preds (e : expr) : list expr := match last_step e with Some s => preds_of s | None => [] end.
Definition value_valid (E : env) (valid : str -> bool) (r : expr) : bool :=
  match r with
  | ELit s => valid s
  | EVar None n => match lookup n (vars E) with Some (VarStr s) => valid s | _ => true end
  | _ => true
  end.
Fixpoint tame (E : env) (valid : str -> bool) (e : expr) : bool :=
  match e with
  | EStep _ _ ps => forallb (tame E valid) ps
  | EBin l op r =>
    if str_eqb op (u "=") then tame E valid l && value_valid E valid r && attr_only E (end_preds l)
    else tame E valid l && tame E valid r
  | _ => true
  end.
(** the element that receives the value gets no child elements from its own predicates *)
Definition bare_end (E : env) (e : expr) : bool :=
  match e with
  | EBin l _ r => attr_only E (preds_of r) && (negb (is_KText (kind E r)) || attr_only E (end_preds l))
  | _ => attr_only E (preds_of e)
  end.

(** *** Deletion *)
(** the parts of a path to the left of its last step *)
Fixpoint lefts (e : expr) : list expr := match e with EBin l _ _ => l :: lefts l | _ => [] end.
(** [a] is the element that the path without its last step finds first (the object's own element for a path of one step) *)
Definition first_parent (E : env) (e : expr) (d : node) (a : addr) : Prop :=
  match e with EBin l _ _ => exists n rest, selects E l d = IElem a n :: rest | _ => a = [] end.
(** the steps of a path, from the left *)
Fixpoint steps_of (e : expr) : list expr :=
  match e with EStep _ _ _ => [e] | EBin l _ r => steps_of l ++ [r] | _ => [] end.
(** all predicates of the path's steps start at an attribute, e.g. [@a] or [@a="x"] *)
Definition attr_preds (E : env) (e : expr) : bool := forallb (fun s => attr_only E (preds_of s)) (steps_of e).
(** all predicates of the path's steps have the form [@a = value] *)
Definition eq_attr_preds (E : env) (e : expr) : bool :=
  forallb (fun s => forallb (fun p => match p with EBin l op _ => str_eqb op (u "=") && match fkind E l with Some (KAttr _) => true | _ => false end | _ => false end) (preds_of s)) (steps_of e).

(** *** Shapes of results and of documents used in the statements *)
(** text() first matching a tail: the value goes elsewhere (see C10_tail_refuted) *)
Definition not_tail (l : list item) : Prop := match l with IText _ true _ :: _ => False | _ => True end.
(** [d'] is [d] without the subtree at some nonempty prefix of address [b] *)
Definition pruned (b : addr) (d d' : node) : Prop :=
  exists c j rest, b = c ++ j :: rest /\ d' = upd_at c (remove_kid j) d.
Definition named_attrs (E : env) (s : expr) (m : node) : Prop :=
  forall x, In x (attrs_of m) -> exists p, In p (preds_of s) /\ fkind E p = Some (KAttr (fst x)).

Definition spent (E : env) (ss : list expr) (b : addr) (d : node) (k : nat) (n : nat) : Prop :=
  forall m s, get_at (firstn k b) d = Some m -> nth_error ss (k - 1) = Some s -> length (kids_of m) = n /\ named_attrs E s m.

(** existing elements on the path that hold something besides the attributes their step's predicates name *)
Definition solid (E : env) (l : expr) (n : node) : Prop :=
  last_step l = None \/ kids_of n <> [] \/ exists x, In x (attrs_of n) /\ forall p, In p (end_preds l) -> fkind E p <> Some (KAttr (fst x)).
(** every existing left part is solid *)
Definition solid_lefts (E : env) (e : expr) (d : node) : Prop :=
  forall l b n rest, In l (lefts e) -> selects E l d = IElem b n :: rest -> solid E l n.
Definition is_attr_field (E : env) (e : expr) : bool := match lkind E e with Some (KAttr _) => true | Some KText => true | _ => false end.
