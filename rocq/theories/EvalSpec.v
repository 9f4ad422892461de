(** Specification for C89: what an XPath means, after XPath 1.0 sections 2-4, for the expressions eulxml evaluates with lxml.
    A value is described by properties, not computed: a node-set is a set of nodes, a number the integers it equals (in this
    fragment there are no others), a boolean a proposition.  Only the data types come from the model: documents ([node]), the
    abstract syntax of XPaths ([expr]), the namespaces and variables given ([env]), and a node with its place in the document ([item]:
    an element, an attribute of the element at an address, or the text before its children / after it). *)
From Coq Require Import String NArith ZArith List.
From Verif Require Import PyStr XmlTree XPathAst XPathEval ReadSpec.
Import ListNotations.

(** ** String values: all the text inside, in order (no comments) *)
Definition text_or_none (o : option str) : str := match o with Some s => s | None => [] end.
Inductive text_inside : node -> str -> Prop :=
| ti_comment s : text_inside (Misc s) []
| ti_element q ats t ks s : text_after ks s -> text_inside (Elem q ats t ks) (text_or_none t ++ s)
with text_after : list (node * option str) -> str -> Prop :=
| ta_nil : text_after [] []
| ta_cons x tl ks s s' : text_inside x s -> text_after ks s' -> text_after ((x, tl) :: ks) (s ++ text_or_none tl ++ s').
Inductive string_value : item -> str -> Prop :=
| sv_elem a n s : text_inside n s -> string_value (IElem a n) s
| sv_attr a q v : string_value (IAttr a q v) v
| sv_text a tl s : string_value (IText a tl s) s.
(** the text of a node as a number *)
Definition stands_for (s : str) (z : Z) : Prop := exists n x, libxml_number s n x /\ equals z 0 n x.

(** ** Node tests: a prefix stands for the URI it is (first) bound to; no prefix, no namespace *)
Definition bound {A} (k : str) (l : list (str * A)) (v : A) : Prop :=
  exists l1 l2, l = l1 ++ (k, v) :: l2 /\ forall v', ~ In (k, v') l1.
Definition prefix_uri (E : env) (p uri : str) : Prop := exists l, nss E = Some l /\ bound p l uri.
Definition in_namespace (E : env) (p : option str) (q : qname) : Prop :=
  match p with None => q_ns q = None | Some x => exists uri, prefix_uri E x uri /\ q_ns q = Some uri end.
Definition passes (E : env) (p : option str) (n : str) (q : qname) : Prop :=
  (n = u "*" /\ (p = None \/ in_namespace E p q)) \/ (n <> u "*" /\ q_local q = n /\ in_namespace E p q).

(** ** Axes: what is directly in an element (elements, comments, text), its attributes, and what is inside it at any depth *)
Inductive child : item -> item -> Prop :=
| child_node a q ats t ks k x tl : nth_error ks k = Some (x, tl) -> child (IElem a (Elem q ats t ks)) (IElem (a ++ [k]) x)
| child_text a q ats s ks : child (IElem a (Elem q ats (Some s) ks)) (IText a false s)
| child_tail a q ats t ks k x s : nth_error ks k = Some (x, Some s) -> child (IElem a (Elem q ats t ks)) (IText (a ++ [k]) true s).
Inductive attribute : item -> item -> Prop :=
| an_attribute a q ats t ks q' v : In (q', v) ats -> attribute (IElem a (Elem q ats t ks)) (IAttr a q' v).
Inductive inside : item -> item -> Prop :=
| directly c i : child c i -> inside c i
| deeper c j i : child c j -> inside j i -> inside c i.

(** node tests: a name test wants attributes on the attribute axis and elements on all others; text() wants text *)
Inductive is_element (E : env) (p : option str) (n : str) : item -> Prop :=
| an_element a q ats t ks : passes E p n q -> is_element E p n (IElem a (Elem q ats t ks)).
Inductive is_attribute (E : env) (p : option str) (n : str) : item -> Prop :=
| named_attribute a q v : passes E p n q -> is_attribute E p n (IAttr a q v).
Inductive is_text : item -> Prop := a_text a tl s : is_text (IText a tl s).
Definition wanted (E : env) (t : nodetest) (i : item) : Prop :=
  match t with NameTest p n => is_element E p n i | NodeType n None => n = u "text" /\ is_text i | NodeType _ (Some _) => False end.

Inductive step_to (E : env) : option str -> nodetest -> item -> item -> Prop :=
| to_child ax t c i : ax = None \/ ax = Some (u "child") -> child c i -> wanted E t i -> step_to E ax t c i
| to_attribute ax p n c i : ax = Some (u "@") \/ ax = Some (u "attribute") -> attribute c i -> is_attribute E p n i -> step_to E ax (NameTest p n) c i
| to_self t c : wanted E t c -> step_to E (Some (u "self")) t c c
| to_inside t c i : inside c i -> wanted E t i -> step_to E (Some (u "descendant")) t c i
| to_inside_or_self t c i : c = i \/ inside c i -> wanted E t i -> step_to E (Some (u "descendant-or-self")) t c i.

(** ** Document order: the route from the root to a node; in an element come its attributes, then its first text, then its
    children, each with the text after it *)
Definition place := (nat * nat)%type.
Definition to_elem (a : addr) : list place := map (fun i => (2 * i + 2, 0)) a.
Inductive route (root : node) : item -> list place -> Prop :=
| route_elem a n : get_at a root = Some n -> route root (IElem a n) (to_elem a)
| route_attr a n k q v : get_at a root = Some n -> nth_error (attrs_of n) k = Some (q, v) -> route root (IAttr a q v) (to_elem a ++ [(0, k)])
| route_text a n s : get_at a root = Some n -> text_of n = Some s -> route root (IText a false s) (to_elem a ++ [(1, 0)])
| route_tail a k n x s : get_at a root = Some n -> nth_error (kids_of n) k = Some (x, Some s) -> route root (IText (a ++ [k]) true s) (to_elem a ++ [(2 * k + 3, 0)]).
Definition place_lt (x y : place) : Prop := fst x < fst y \/ fst x = fst y /\ snd x < snd y.
Inductive before : list place -> list place -> Prop :=
| before_inside x r : before [] (x :: r)
| before_here x y r r' : place_lt x y -> before (x :: r) (y :: r')
| before_deeper x r r' : before r r' -> before (x :: r) (x :: r').
Definition precedes (root : node) (i j : item) : Prop := exists r r', route root i r /\ route root j r' /\ before r r'.
(** each node after all the ones before it in the list *)
Inductive document_order (root : node) : list item -> Prop :=
| do_nil : document_order root []
| do_cons i l : (exists r, route root i r) -> Forall (precedes root i) l -> document_order root l -> document_order root (i :: l).

(** ** Values *)
(** [Unspecified]: not in the part of XPath described here *)
Inductive meaning := Nodes (X : item -> Prop) | Text (is : str -> Prop) | Num (is : Z -> Prop) | Bool (P : Prop) | Unspecified.

Definition true_of (v : meaning) : Prop :=
  match v with
  | Nodes X => exists i, X i
  | Text is => exists s, is s /\ s <> []
  | Num is => exists z, is z /\ z <> 0%Z
  | Bool P => P
  | Unspecified => False
  end.

(** 3.4 '=' and '!=': of two node-sets, some pair; numbers and strings, as numbers *)
Definition equal_values (a b : meaning) : Prop :=
  match a, b with
  | Nodes X, Nodes Y => exists i j s, X i /\ Y j /\ string_value i s /\ string_value j s
  | Nodes X, Text is | Text is, Nodes X => exists i s, X i /\ string_value i s /\ is s
  | Nodes X, Num is | Num is, Nodes X => exists i s z, X i /\ string_value i s /\ is z /\ stands_for s z
  | Bool P, v | v, Bool P => P <-> true_of v
  | Text is, Text is' => exists s, is s /\ is' s
  | Text is, Num is' | Num is', Text is => exists s z, is s /\ is' z /\ stands_for s z
  | Num is, Num is' => exists z, is z /\ is' z
  | _, _ => False
  end.
Definition different_values (a b : meaning) : Prop :=
  match a, b with
  | Nodes X, Nodes Y => exists i j s s', X i /\ Y j /\ string_value i s /\ string_value j s' /\ s <> s'
  | Nodes X, Text is | Text is, Nodes X => exists i s s', X i /\ string_value i s /\ is s' /\ s <> s'
  | Nodes X, Num is | Num is, Nodes X => exists i s z, X i /\ string_value i s /\ is z /\ ~ stands_for s z
  | Bool P, v | v, Bool P => ~ (P <-> true_of v)
  | Text is, Text is' => exists s s', is s /\ is' s' /\ s <> s'
  | Text is, Num is' | Num is', Text is => exists s z, is s /\ is' z /\ ~ stands_for s z
  | Num is, Num is' => exists z z', is z /\ is' z' /\ z <> z'
  | _, _ => False
  end.

Definition set_of (v : meaning) : item -> Prop := match v with Nodes X => X | _ => fun _ => False end.
Definition how_many (X : item -> Prop) (n : nat) : Prop := exists l, NoDup l /\ (forall i, In i l <-> X i) /\ n = List.length l.

Section In_document.
Variable root : node.
(** 2.4 predicates: a number is true at that position, which is one more than how many of the nodes come before *)
Definition position (X : item -> Prop) (i : item) (pos : nat) : Prop := exists n, how_many (fun j => X j /\ precedes root j i) n /\ pos = S n.
Definition true_at (v : meaning) (pos : nat) : Prop :=
  match v with Num is => is (Z.of_nat pos) | _ => true_of v end.
Definition kept_by (P : item -> nat -> nat -> meaning) (X : item -> Prop) (i : item) : Prop :=
  X i /\ exists pos size, position X i pos /\ how_many X size /\ true_at (P i pos size) pos.

(** the first node in document order *)
Definition first_of (X : item -> Prop) (i : item) : Prop := X i /\ forall j, X j -> j = i \/ precedes root i j.
(** 4.2: a node-set as a string is its first node's string value, an empty one the empty string *)
Definition as_string (v : meaning) (s : str) : Prop :=
  match v with
  | Nodes X => (exists i, first_of X i /\ string_value i s) \/ ((forall i, ~ X i) /\ s = [])
  | Text is => is s
  | _ => False
  end.
Inductive has_local_name : item -> str -> Prop :=
| ln_elem a q ats t ks : has_local_name (IElem a (Elem q ats t ks)) (q_local q)
| ln_attr a q v : has_local_name (IAttr a q v) (q_local q)
| ln_text a tl s : has_local_name (IText a tl s) []
| ln_comment a s : has_local_name (IElem a (Misc s)) [].
Definition local_name_of (v : meaning) (s : str) : Prop :=
  (exists i, first_of (set_of v) i /\ has_local_name i s) \/ ((forall i, ~ set_of v i) /\ s = []).

(** the words of a text, and the text with single spaces between them *)
Definition blank_text (s : str) : Prop := Forall xml_blank s.
Definition a_word (w : str) : Prop := w <> [] /\ Forall (fun c => ~ xml_blank c) w.
Inductive words : str -> list str -> Prop :=
| no_words s : blank_text s -> words s []
| more_words a w b ws : blank_text a -> a_word w -> match b with [] => True | c :: _ => xml_blank c end -> words b ws -> words (a ++ w ++ b) (w :: ws).
Fixpoint with_spaces (ws : list str) : str := match ws with [] => [] | [w] => w | w :: l => w ++ 32%N :: with_spaces l end.

Definition variable (E : env) (n : str) : meaning :=
  match lookup n (vars E) with
  | Some (VarStr s) => Text (eq s)
  | Some (VarInt z) => Num (eq z)
  | None => Unspecified
  end.

(** 4: functions; [c] stands for the context node *)
Definition length_of (v : meaning) : meaning := Num (fun z => exists s, as_string v s /\ z = Z.of_nat (List.length s)).
Definition spaces_of (v : meaning) : meaning := Text (fun s' => exists s ws, as_string v s /\ words s ws /\ s' = with_spaces ws).
Definition apply0 (n : str) (c : meaning) (pos size : nat) : meaning :=
  if str_eqb n (u "position") then Num (eq (Z.of_nat pos))
  else if str_eqb n (u "last") then Num (eq (Z.of_nat size))
  else if str_eqb n (u "true") then Bool True
  else if str_eqb n (u "false") then Bool False
  else if str_eqb n (u "string") then Text (as_string c)
  else if str_eqb n (u "string-length") then length_of c
  else if str_eqb n (u "normalize-space") then spaces_of c
  else if str_eqb n (u "local-name") then Text (local_name_of c)
  else Unspecified.
Definition apply1 (n : str) (v : meaning) : meaning :=
  if str_eqb n (u "count") then Num (fun z => exists k, how_many (set_of v) k /\ z = Z.of_nat k)
  else if str_eqb n (u "not") then Bool (~ true_of v)
  else if str_eqb n (u "boolean") then Bool (true_of v)
  else if str_eqb n (u "string") then Text (as_string v)
  else if str_eqb n (u "string-length") then length_of v
  else if str_eqb n (u "normalize-space") then spaces_of v
  else if str_eqb n (u "local-name") then Text (local_name_of v)
  else Unspecified.
Definition apply2 (n : str) (v w : meaning) : meaning :=
  if str_eqb n (u "contains") then Bool (exists s t, as_string v s /\ as_string w t /\ exists a b, s = a ++ t ++ b)
  else if str_eqb n (u "starts-with") then Bool (exists s t, as_string v s /\ as_string w t /\ exists b, s = t ++ b)
  else Unspecified.

(** what [e] means at the context node [c], the [pos]-th of [size] nodes *)
Fixpoint means (E : env) (e : expr) (c : item) (pos size : nat) : meaning :=
  match e with
  | ELit s => Text (eq s)
  | EInt n => Num (eq (Z.of_N n))
  | EVar None n => variable E n
  | EAbbrev a => if str_eqb a (u ".") then Nodes (eq c) else Unspecified
  | EStep ax t ps => Nodes (fold_left (fun X p => kept_by (fun i pos size => means E p i pos size) X) ps (step_to E ax t c))
  | EPred b ps => Nodes (fold_left (fun X p => kept_by (fun i pos size => means E p i pos size) X) ps (set_of (means E b c pos size)))
  | EBin l op r =>
    if str_eqb op (u "/") then Nodes (fun i => exists j, set_of (means E l c pos size) j /\ set_of (means E r j 1 1) i)
    else if str_eqb op (u "//") then                                               (* at any depth *)
      Nodes (fun i => exists j h, set_of (means E l c pos size) j /\ (j = h \/ inside j h) /\ set_of (means E r h 1 1) i)
    else if str_eqb op (u "|") then Nodes (fun i => set_of (means E l c pos size) i \/ set_of (means E r c pos size) i)
    else if str_eqb op (u "=") then Bool (equal_values (means E l c pos size) (means E r c pos size))
    else if str_eqb op (u "!=") then Bool (different_values (means E l c pos size) (means E r c pos size))
    else if str_eqb op (u "and") then Bool (true_of (means E l c pos size) /\ true_of (means E r c pos size))
    else if str_eqb op (u "or") then Bool (true_of (means E l c pos size) \/ true_of (means E r c pos size))
    else Unspecified
  | ECall None n args =>
    match args with
    | [] => apply0 n (Nodes (eq c)) pos size
    | [v] => apply1 n (means E v c pos size)
    | [v; w] => apply2 n (means E v c pos size) (means E w c pos size)
    | _ => Unspecified
    end
  | _ => Unspecified
  end.
End In_document.

(** an evaluator's answer has this meaning *)
Definition has_meaning (v : xv) (m : meaning) : Prop :=
  match v, m with
  | XN l, Nodes X => NoDup l /\ forall i, In i l <-> X i
  | XS s, Text is => forall s', is s' <-> s' = s
  | XNum (Some (z, O)), Num is => forall z', is z' <-> z' = z
  | XB b, Bool P => b = true <-> P
  | _, _ => False
  end.

(** documents as lxml has them: no two attributes of an element with the same name *)
Definition attributes_distinct (d : node) : Prop := forall a n, get_at a d = Some n -> NoDup (map fst (attrs_of n)).
