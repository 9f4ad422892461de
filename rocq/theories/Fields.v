(** Model of the node-level half of eulxml/xmlmap/fields.py: finding, creating, setting and removing
    XML nodes for an XPath (lines 258-608), and SingleNodeManager (lines 613-658).
    The XML tree is [XmlTree.node]; lxml's XPath evaluation is [xpath] (XPathEval.v, XPathRead.v) applied to the AST
    that [LALR.parse] gives for the expression text (lxml has its own XPath parser; it is
    assumed to read the text as eulxml's parser does, see C02/C03).
    A document is the subtree of the XmlObject's node; every operation returns the document also
    when it raises. *)
From Coq Require Import String Arith.
From Verif Require Export LALR XPathEval.
From Verif Require XPathRead.

(** Python exceptions that can leave these functions *)
Inductive exn :=
| XMissing        (* Exception("Missing element for ...") fields.py:282-285, 313-315 *)
| XNotText        (* Exception("Cannot set string value - not a text node!") fields.py:414 *)
| XUnbound        (* UnboundLocalError *)
| XOverflow       (* OverflowError *)
| XKey | XAttr | XType | XValue | XIndex
| XBool           (* Exception("Boolean field value ...") fields.py:168 *)
| XParse          (* xpath.parse raised *)
| XUnmodelled.    (* outside the modelled fragment of XPath *)

Inductive res (A : Type) := Ret (x : A) | Exc (e : exn).
Arguments Ret {A} _. Arguments Exc {A} _.

Definition M (A : Type) := node -> node * res A.
Definition ret {A} (x : A) : M A := fun d => (d, Ret x).
Definition raise {A} (e : exn) : M A := fun d => (d, Exc e).
Definition bind {A B} (m : M A) (f : A -> M B) : M B :=
  fun d => match m d with (d', Ret x) => f x d' | (d', Exc e) => (d', Exc e) end.
(** a computation that only reads the document *)
Definition reading {A} (f : node -> res A) : M A := fun d => (d, f d).

Section Iter.
  Context {A B : Type} (f : A -> M B).
  Fixpoint iterM (l : list A) : M unit :=
    match l with
    | [] => ret tt
    | x :: l' => bind (f x) (fun _ => iterM l')
    end.
End Iter.

(** What a node-valued Python variable can hold besides None: an element, an attribute or text
    "smart string", or a plain XPath value. *)
Inductive ref :=
| RElem (a : addr)
| RAttr (a : addr) (q : qname)
| RText (a : addr) (tl : bool)
| RVal (v : xv).

Definition ref_of (i : item) : ref :=
  match i with IElem a _ => RElem a | IAttr a q _ => RAttr a q | IText a tl _ => RText a tl end.

(** fields.py:267-273: [matches and isinstance(list)] -> first; other truthy value -> itself;
    otherwise None (so 0.0, '' and False become None; NaN is truthy) *)
Definition first_match (v : xv) : option ref :=
  match v with
  | XN [] => None
  | XN (i :: _) => Some (ref_of i)
  | XNum None => Some (RVal v)
  | _ => if to_bool v then Some (RVal v) else None
  end.

(** lxml's [node.xpath(e)] with [node] at address [a]: the fragment eulxml can create nodes for ([ev]), and the other XPaths that
    only look down ([XPathRead.fev], which agrees with [ev] on that fragment, see C89_agree) *)
Definition xpath (E : env) (e : expr) (a : addr) (n : node) : option xv :=
  if supported E e then Some (ev E e (IElem a n))
  else if XPathRead.readable E e then Some (XPathRead.erase (XPathRead.fev E e (map (fun i => (2 * i + 2, 0)) a, IElem a n) 1 1))
  else None.
(** [node.xpath(text_of_e, **context)] for the already parsed text *)
Definition eval_at (E : env) (e : expr) (c : ref) (d : node) : res xv :=
  match c with
  | RElem a =>
    match get_at a d with
    | Some n => match xpath E e a n with Some v => Ret v | None => Exc XUnmodelled end
    | None => Exc XUnmodelled
    end
  | _ => Exc XAttr                                  (* str has no attribute 'xpath' *)
  end.

Definition find_ast (E : env) (e : expr) (c : ref) (d : node) : res (option ref) :=
  match eval_at E e c d with Ret v => Ret (first_match v) | Exc x => Exc x end.

(** [serialize(xast)] handed back to lxml *)
Definition reread (e : expr) : option expr :=
  match parse (serialize e) with Ok e' => Some e' | _ => None end.

(** fields.py:267-273 on [serialize(xast)] *)
Definition find_node (E : env) (e : expr) (c : option ref) (d : node) : res (option ref) :=
  match c with
  | None => Exc XAttr
  | Some c => match reread e with Some e' => find_ast E e' c d | None => Exc XUnmodelled end
  end.

(** fields.py:258-264 *)
Fixpoint terminal_step (e : expr) : option expr :=
  match e with
  | EStep _ _ _ => Some e
  | EBin _ op r => if str_mem op [u "/"; u "//"] then terminal_step r else None
  | _ => None
  end.

Definition test_name (t : nodetest) : str := match t with NameTest _ n => n | NodeType n _ => n end.

(** fields.py:601-608; [step.node_test.name == 'text'] also holds for a NameTest called text *)
Definition is_text_nodetest (s : option expr) : bool :=
  match s with Some (EStep _ t _) => str_eqb (test_name t) (u "text") | _ => false end.

(** truthiness of a prefix *)
Definition pfx (p : option str) : option str := match p with Some [] => None | _ => p end.

(** fields.py:579-599: the attribute's name ('{None}name' when the prefix is unknown) *)
Definition attr_name (E : env) (p : option str) (nm : str) : qname :=
  match pfx p with
  | None => QN None nm
  | Some x => match ns_of E x with Some uri => QN (Some uri) nm | None => QN (Some (u "None")) nm end
  end.

(** strings lxml accepts as text or attribute value (otherwise ValueError) *)
Definition xml_char (c : N) : bool :=
  (N.eqb c 9 || N.eqb c 10 || N.eqb c 13 || in_range 32 55295 c || in_range 57344 65533 c ||
   in_range 65536 1114111 c)%bool.
Definition xml_valid (s : str) : bool := forallb xml_char s.

(** lxml accepts any NCName as a name; '*' is the one name test that is not a name *)
Definition name_valid (nm : str) : bool := negb (str_eqb nm (u "*")).

(** fields.py:343-372, for AST arguments *)
Fixpoint constructible (p : expr) : bool :=
  match p with
  | EStep ax t ps =>
    (child_axis ax || attr_axis ax) &&
    match t with NameTest _ _ => true | NodeType _ _ => false end &&
    forallb constructible ps
  | EBin l op r =>
    if str_eqb op (u "/") then constructible l && constructible r
    else if str_eqb op (u "=") then
      constructible l && match r with EInt _ | ELit _ | EVar _ _ => true | _ => false end
    else true
  | _ => true
  end.

(** fields.py:318-331 *)
Definition child_ns (E : env) (p : option str) : res (option str) :=
  match nss E with
  | None => Ret None
  | Some l =>
    match pfx p with
    | None => Ret None
    | Some x => match lookup x l with Some uri => Ret (Some uri) | None => Exc XKey end
    end
  end.

Definition create_child (E : env) (p : option str) (nm : str) (ctx : option ref) (ins : option nat)
  : M (option ref) :=
  match child_ns E p with
  | Exc x => raise x
  | Ret uri =>
    if negb (name_valid nm) then raise XValue
    else match ctx with
      | Some (RElem a) => fun d =>
        match get_at a d with
        | Some n =>
          let i := match ins with Some i => Nat.min i (length (kids_of n)) | None => length (kids_of n) end in
          (upd_at a (insert_kid i (Elem (QN uri nm) [] None [])) d, Ret (Some (RElem (a ++ [i]))))
        | None => (d, Exc XUnmodelled)
        end
      | _ => raise XAttr
      end
  end.

(** fields.py:334-340: [node.set(name, '')], then looked up again by XPath *)
Definition create_attr (E : env) (p : option str) (nm : str) (ctx : option ref) : M (option ref) :=
  match ctx with
  | Some (RElem a) =>
    if negb (name_valid nm) then raise XValue
    else fun d => (upd_at a (set_attr (attr_name E p nm) []) d,
                   match resolve E (pfx p) with
                   | Some _ => Ret (Some (RAttr a (attr_name E p nm)))
                   | None => Exc XType          (* namespaces={prefix: None} *)
                   end)
  | _ => raise XAttr
  end.

(** fields.py:398-427 with a str (or None) value *)
Definition set_text_at (a : addr) (v : option str) : M unit :=
  match v with
  | Some s => if xml_valid s then fun d => (upd_at a (set_text v) d, Ret tt) else raise XValue
  | None => fun d => (upd_at a (set_text None) d, Ret tt)
  end.

Definition set_attr_at (E : env) (a : addr) (step : option expr) (v : option str) : M unit :=
  match step with
  | Some (EStep _ t _) =>
    let '(p, nm) := match t with NameTest p nm => (p, nm) | NodeType nm _ => (None, nm) end in
    if negb (name_valid nm) then raise XValue
    else match v with
      | Some s => if xml_valid s then fun d => (upd_at a (set_attr (attr_name E p nm) s) d, Ret tt) else raise XValue
      | None => raise XType
      end
  | _ => raise XAttr
  end.

Definition set_in_xml (E : env) (r : option ref) (v : option str) (step : option expr) : M unit :=
  match r with
  | Some (RElem a) => fun d =>
    match get_at a d with
    | Some n => match kids_of n with [] => set_text_at a v d | _ => (d, Exc XNotText) end
    | None => (d, Exc XUnmodelled)
    end
  | Some (RAttr a _) | Some (RText a _) =>
    if is_text_nodetest step then set_text_at a v else set_attr_at E a step v
  | Some (RVal (XS _)) => raise XAttr             (* smart string without parent *)
  | Some (RVal _) | None => ret tt                (* no getparent: silently nothing *)
  end.

(** fields.py:386-393: the value written for a predicate [left = right] *)
Definition pred_value (E : env) (r : expr) : res str :=
  match r with
  | ELit s => Ret s
  | EInt n => Ret (str_of_N n)
  | EVar _ n =>
    match lookup n (vars E) with
    | Some (VarStr s) => Ret s
    | Some (VarInt z) => Ret (str_of_Z z)
    | None => Exc XKey
    end
  | _ => Exc XUnmodelled
  end.

(** fields.py:276-315 ([Create]: _create_xml_node) and fields.py:375-395 ([Construct]:
    _construct_predicate), which call each other *)
Inductive mode := Create | Construct.

Fixpoint build (E : env) (m : mode) (e : expr) (ctx : option ref) (ins : option nat) {struct e} : M (option ref) :=
  match e with
  | EStep ax (NameTest p nm) ps =>
    if forallb constructible ps then
      bind (if child_axis ax then create_child E p nm ctx ins
            else if attr_axis ax then create_attr E p nm ctx
            else raise XUnbound)
           (fun new => bind (iterM (fun q => build E Construct q new None) ps) (fun _ => ret new))
    else raise XMissing
  | EStep ax (NodeType nm _) ps =>
    if str_eqb nm (u "text") then ret ctx else raise XMissing
  | EBin l op r =>
    match m with
    | Create =>
      if str_eqb op (u "/") then
        bind (reading (find_node E l ctx))
          (fun ln => bind (match ln with Some _ => ret ln | None => build E Create l ctx None end)
             (fun ln => build E Create r ln None))
      else raise XMissing
    | Construct =>
      if str_eqb op (u "/") then
        bind (build E Construct l ctx None) (fun leaf => build E Construct r leaf None)
      else if str_eqb op (u "=") then
        bind (build E Construct l ctx None) (fun leaf =>
        match pred_value E r with
        | Exc x => raise x
        | Ret v => bind (set_in_xml E leaf (Some v) (terminal_step l)) (fun _ => ret leaf)
        end)
      else ret None
    end
  | _ => match m with Create => raise XMissing | Construct => ret None end
  end.

(** [node.remove(child)] for the child at index i *)
Definition remove_at (a : addr) (i : nat) : M bool := fun d => (upd_at a (remove_kid i) d, Ret true).

(** [del node.attrib[name]] (fields.py:508-511) *)
Definition remove_attr_node (E : env) (p : option str) (nm : str) (ctx : ref) : M bool :=
  match ctx with
  | RElem a => fun d =>
    match get_at a d with
    | Some n =>
      match attr_get (attr_name E p nm) (attrs_of n) with
      | Some _ => (upd_at a (del_attr (attr_name E p nm)) d, Ret true)
      | None => (d, Exc XKey)
      end
    | None => (d, Exc XUnmodelled)
    end
  | _ => raise XAttr
  end.

(** is [node.xpath(serialize(pred)) is True] *)
Definition pred_true (E : env) (p : expr) (n : node) : res bool :=
  match reread p with
  | Some p' => match eval_at E p' (RElem []) n with Ret (XB true) => Ret true | Ret _ => Ret false | Exc x => Exc x end
  | None => Exc XUnmodelled
  end.

Definition last_index (a : addr) : nat := last a 0.

(** fields.py:430-577: _remove_xml, _remove_child_node, _remove_predicates and
    _empty_except_predicates.  Only '=' predicates are removed from the copy; the two cases of
    fields.py:544-557 both amount to _remove_xml of the left side (a constructible step is a child or
    attribute name test).  The copied xast with predicates removed is never used by the callers. *)
Fixpoint remove_xml (E : env) (e : expr) (if_empty : bool) (ctx : ref) {struct e} : M bool :=
  match e with
  | EStep ax (NameTest p nm) ps =>
    if child_axis ax then
      bind (reading (find_node E e (Some ctx))) (fun child =>
      match child, ctx with
      | Some (RElem b), RElem a => fun d =>
        if if_empty then
          match get_at b d with
          | None => (d, Exc XUnmodelled)
          | Some c =>
            let clean := iterM (fun q =>
              match q with
              | EBin l op r =>
                if constructible q && str_eqb op (u "=") then
                  bind (reading (pred_true E q)) (fun t =>
                  if t then match l with
                    | EStep _ _ _ | EBin _ _ _ => remove_xml E l true (RElem [])
                    | _ => ret false
                    end
                  else ret false)
                else ret false
              | _ => ret false
              end) ps in
            match clean c with
            | (_, Exc x) => (d, Exc x)
            | (c', Ret _) =>
              match kids_of c', attrs_of c' with
              | [], [] => remove_at a (last_index b) d
              | _, _ => (d, Ret false)
              end
            end
          end
        else remove_at a (last_index b) d
      | _, _ => ret false
      end)
    else if attr_axis ax then remove_attr_node E p nm ctx
    else ret false
  | EStep _ (NodeType nm _) _ =>
    if str_eqb nm (u "text") then
      match ctx with
      | RElem a => bind (set_text_at a (Some [])) (fun _ => ret true)
      | _ => raise XAttr
      end
    else ret false
  | EBin l op r =>
    if str_eqb op (u "/") then
      bind (reading (find_node E l (Some ctx))) (fun ln =>
      match ln with
      | Some lr =>
        bind (remove_xml E r if_empty lr) (fun removed =>
        if removed then bind (remove_xml E l true ctx) (fun _ => ret removed) else ret removed)
      | None => ret false
      end)
    else ret false
  | _ => ret false
  end.

(** ** SingleNodeManager (fields.py:613-658), on the field's parsed XPath [e]; the node of the
    XmlObject is the root of the document *)
Definition doc_root : ref := RElem [].

(** what a StringField returns (fields.py:100-111, 620-625): None, or the string value of the match;
    a number or boolean result makes [etree.XPath('string()')] raise TypeError *)
Definition get_string (E : env) (e : expr) (d : node) : res (option str) :=
  match eval_at E e doc_root d with
  | Exc x => Exc x
  | Ret (XN (i :: _)) => Ret (Some (item_str i))
  | Ret (XS (_ :: _ as s)) => Ret (Some s)
  | Ret v => match first_match v with None => Ret None | Some _ => Exc XType end
  end.

(** fields.py:627-644 (mapper applied already: [v] is [mapper.to_xml(value)]) *)
Definition mgr_set (E : env) (e : expr) (v : option str) : M unit :=
  bind (reading (find_ast E e doc_root)) (fun m =>
  match v with
  | None =>
    match m with
    | Some _ => bind (remove_xml E e false doc_root) (fun _ => ret tt)    (* a False result is logged *)
    | None => ret tt
    end
  | Some _ =>
    bind (match m with Some _ => ret m | None => build E Create e (Some doc_root) None end) (fun m =>
    set_in_xml E m v (terminal_step e))
  end).

(** fields.py:646-652 *)
Definition mgr_create (E : env) (e : expr) : M (option ref) :=
  bind (reading (find_ast E e doc_root)) (fun m =>
  match m with Some _ => ret m | None => build E Create e (Some doc_root) None end).

(** fields.py:654-658 *)
Definition mgr_delete (E : env) (e : expr) : M unit :=
  bind (reading (find_ast E e doc_root)) (fun m =>
  match m with Some _ => bind (remove_xml E e false doc_root) (fun _ => ret tt) | None => ret tt end).

(** A StringField on an XmlObject: the XPath text is parsed when the field is made
    (fields.py:67-68). *)
Definition with_xpath {A} (s : str) (f : expr -> M A) : M A :=
  match parse s with Ok e => f e | _ => raise XParse end.
Definition string_get (E : env) (s : str) (d : node) : res (option str) :=
  match parse s with Ok e => get_string E e d | _ => Exc XParse end.
Definition string_set (E : env) (s : str) (v : option str) : M unit := with_xpath s (fun e => mgr_set E e v).
Definition field_create (E : env) (s : str) : M (option ref) := with_xpath s (mgr_create E).
Definition field_delete (E : env) (s : str) : M unit := with_xpath s (mgr_delete E).
