(** Models of the code in the vocabulary modules: Premis.__init__ (premis.py:145-150), TeiLine.indent (teimap.py:33-43),
    UnitTitle.short, Component.hasSubseries and SubordinateComponents.hasSeries (eadmap.py:159-181, 271-314), on the XML tree, with
    the field operations of Fields.v. *)
From Coq Require Import String Arith ZArith.
From Verif Require Export NodeList.
From Verif Require Import XPathEval.

(** '@n' *)
Definition atx (n : string) : expr := EStep (Some (u "@")) (NameTest None (u n)) [].

(** *** PREMIS *)
Definition premis_ns : str := u "info:lc/xmlns/premis-v2".
(** XmlObject._build_root_element (core.py:339-348) for Premis *)
Definition premis_root : node := Elem (QN (Some premis_ns) (u "premis")) [] None [].
(** premis.py:145-150 and core.py:311-337: [Premis(node, version=...)].  [o] is the node given (None: a new one); [version] is the
    keyword argument (None: not given; Some None: version=None).  The namespaces of the node do not matter for '@version':
    any environment [E].  SIMPLIFICATION: no other keyword arguments. *)
Definition premis_init (E : env) (o : option node) (version : option (option str)) : node * res unit :=
  mgr_set E (atx "version") (match version with Some v => v | None => Some (u "2.1") end) (match o with Some d => d | None => premis_root end).

(** *** TEI *)
Fixpoint cut_prefix (p s : str) : option str :=
  match p, s with
  | [], _ => Some s
  | x :: p', y :: s' => if N.eqb x y then cut_prefix p' s' else None
  | _, _ => None
  end.
(** teimap.py:37-43; None has no startswith *)
Definition tei_indent (E : env) (d : node) : res (option Z) :=
  match get_string E (atx "rend") d with
  | Exc x => Exc x
  | Ret None => Exc XAttr
  | Ret (Some s) =>
    match cut_prefix (u "indent") s with
    | None => Ret None
    | Some [] => Ret (Some 0%Z)
    | Some r => match py_int r with Some z => Ret (Some z) | None => Exc XValue end
    end
  end.

(** *** EAD *)
Definition ead_ns : str := u "urn:isbn:1-931666-22-9".
Definition Ee : env := mkEnv (Some [(u "e", ead_ns)]) [].
Definition ex (n : string) : expr := EStep None (NameTest (Some (u "e")) (u n)) [].
Definition en (n : string) : qname := QN (Some ead_ns) (u n).
(** the object returned by [short]: the object itself, or a new one on a copy *)
Inductive short_title := Itself | Copy (c : node).
(** eadmap.py:168-181; an XmlObject is always true.  Result: the original's node afterwards, and the object returned *)
Definition unit_short (d : node) : node * res short_title :=
  match find_ast Ee (ex "unitdate") doc_root d with
  | Exc x => (d, Exc x)
  | Ret None => (d, Ret Itself)
  | Ret (Some _) =>
    let c := d in                                                          (* deepcopy *)
    match find_ast Ee (ex "unitdate") doc_root c with
    | Ret (Some (RElem a)) => (d, match remove_at [] (last_index a) c with (c', Ret _) => Ret (Copy c') | (_, Exc x) => Exc x end)
    | Ret _ => (d, Exc XType)
    | Exc x => (d, Exc x)
    end
  end.

(** the NodeListFields 'e:c02|...|e:c12' and 'e:c01': the children with these names, in document order.
    SIMPLIFICATION: the union is not evaluated by XPathEval. *)
Definition level_names : list string := ["c02"; "c03"; "c04"; "c05"; "c06"; "c07"; "c08"; "c09"; "c10"; "c11"; "c12"]%string.
Definition named (ns : list string) (n : node) : bool :=
  match n with Elem q _ _ _ => existsb (fun x => qeqb q (en x)) ns | Misc _ => false end.
Definition comps (ns : list string) (d : node) : list node := filter (named ns) (map fst (kids_of d)).
Definition level (d : node) : option str := attr_get (QN None (u "level")) (attrs_of d).
Definition is_level (l : list string) (d : node) : bool := match level d with Some s => str_mem s (map u l) | None => false end.
(** eadmap.py:274-286 *)
Definition has_subseries (d : node) : bool :=
  match comps level_names d with
  | [] => false
  | c :: _ => is_level ["series"; "subseries"]%string c || match comps level_names c with [] => false | _ => true end
  end.
(** eadmap.py:301-313 *)
Definition has_series (d : node) : bool :=
  match comps ["c01"%string] d with
  | [] => false
  | c :: _ => is_level ["series"%string] c || match comps level_names c with [] => false | _ => true end
  end.
