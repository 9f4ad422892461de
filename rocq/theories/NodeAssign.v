(** Model of assigning to a NodeField: SingleNodeManager.set with the NodeMapper (eulxml/xmlmap/fields.py:244-255, 627-644)
    and the element case of _set_in_xml (fields.py:398-409).
    lxml: [clear()] drops the attributes, the text, the children and the node's own tail; appending the children of another
    element moves them, with their tails; [val.attrib.iteritems()] gives the attributes in order.
    SIMPLIFICATION: the tail of the XmlObject's own node is outside of the document. *)
From Coq Require Import String Arith.
From Verif Require Export Fields.
From Verif Require Import XPathEval.

(** fields.py:408-409 *)
Definition copy_attrs (l : list (qname * str)) (acc : list (qname * str)) : list (qname * str) :=
  fold_left (fun acc x => attr_set (fst x) (snd x) acc) l acc.

(** fields.py:403-409: [node.clear()] (without the tail), [node.text = val.text], the children, the attributes *)
Definition graft (x n : node) : node :=
  match n with
  | Elem q _ _ _ => Elem q (copy_attrs (attrs_of x) []) (text_of x) (kids_of x)
  | Misc s => Misc s
  end.

(** [node.clear()] also drops the text after the node *)
Fixpoint drop_tail (b : addr) (d : node) : node :=
  match b with
  | [] => d
  | i :: b' =>
    match b' with
    | [] => set_kids (upd_nth i (fun k => (fst k, None))) d
    | _ => set_kids (upd_nth i (fun k => (drop_tail b' (fst k), snd k))) d
    end
  end.

(** is [b] a prefix of [c]? *)
Fixpoint at_or_below (b c : addr) : bool :=
  match b, c with
  | [], _ => true
  | i :: b', j :: c' => Nat.eqb i j && at_or_below b' c'
  | _, [] => false
  end.

(** fields.py:398-427 with the node of an XmlObject that is not part of the document; gives also what is left of that node *)
Definition put_node (r : option ref) (x : node) (d : node) : (node * node) * res unit :=
  match r with
  | Some (RElem b) =>
    match get_at b d with
    | Some (Elem _ _ _ _) => ((drop_tail b (upd_at b (graft x) d), set_kids (fun _ => []) x), Ret tt)
    | _ => ((d, x), Exc XUnmodelled)
    end
  | Some (RAttr _ _) | Some (RText _ _) => ((d, x), Exc XType)      (* an element is no attribute value or text *)
  | Some (RVal (XS _)) => ((d, x), Exc XAttr)
  | Some (RVal _) | None => ((d, x), Ret tt)
  end.

(** the same when the assigned object's node is the one at [a] in the document.  SIMPLIFICATION: if it contains the node
    written, lxml refuses to move that node's ancestor below it; not modelled. *)
Definition put_inside (r : option ref) (a : addr) (d : node) : node * res unit :=
  match r with
  | Some (RElem b) =>
    match get_at b d, get_at a d with
    | Some (Elem q _ _ _), Some x =>
      if at_or_below b a then
        if at_or_below a b then (drop_tail b (upd_at b (fun _ => Elem q [] None []) d), Ret tt)   (* val is node: cleared *)
        else (drop_tail b (upd_at b (graft x) d), Ret tt)                                          (* taken out by clear() *)
      else if at_or_below a b then (d, Exc XUnmodelled)
      else (upd_at a (set_kids (fun _ => [])) (drop_tail b (upd_at b (graft x) d)), Ret tt)
    | _, _ => (d, Exc XUnmodelled)
    end
  | Some (RAttr _ _) | Some (RText _ _) => (d, Exc XType)
  | Some (RVal (XS _)) => (d, Exc XAttr)
  | Some (RVal _) | None => (d, Ret tt)
  end.

(** fields.py:627-644 for an XmlObject *)
Definition node_set (E : env) (e : expr) (x : node) (d : node) : (node * node) * res unit :=
  match mgr_create E e d with
  | (d1, Ret r) => put_node r x d1
  | (d1, Exc y) => ((d1, x), Exc y)
  end.
Definition node_set_inside (E : env) (e : expr) (a : addr) (d : node) : node * res unit :=
  match mgr_create E e d with
  | (d1, Ret r) => put_inside r a d1
  | (d1, Exc y) => (d1, Exc y)
  end.
(** [obj.f = x] for the field with XPath text [s] *)
Definition nodefield_set (E : env) (s : str) (x : node) (d : node) : (node * node) * res unit :=
  match parse s with Ok e => node_set E e x d | _ => ((d, x), Exc XParse) end.
Definition nodefield_set_inside (E : env) (s : str) (a : addr) (d : node) : node * res unit :=
  match parse s with Ok e => node_set_inside E e a d | _ => (d, Exc XParse) end.
