(** Model of str(obj) for XmlObjects: XmlObject.__str__ (eulxml/xmlmap/core.py:423-426) and the __str__ methods of the
    shipped maps (mods.py:64-65; eadmap.py:73-74, 122-123, 142-143, 330-331; cerp.py:49-50, 62-63, 99-100).  Python 3:
    __unicode__ (mods.py:191-195) is an ordinary method that str() does not call.
    SIMPLIFICATION: normalize-space() is that of Mappers.v; an exception is a value. *)
From Coq Require Import String.
From Verif Require Export Mappers Shipped.
Import ListNotations.

(** what an XmlObject wraps: an element, a comment (the string-value of which is its content), or the result of an XPath on
    attributes or text (core.py:424: isinstance(self.node, str)) *)
Inductive wrapped := WNode (n : node) | WString (s : str).
(** core.py:423-426 *)
Definition default_str (w : wrapped) : str :=
  match w with
  | WString s => s
  | WNode (Misc s) => normalize_space s
  | WNode n => normalize_space (strval n)
  end.

(** the ways a shipped class writes itself *)
Inductive shows :=
| Whole                                    (* XmlObject.__str__ *)
| Field (x : str) (m : mapper)             (* return self.f *)
| Pair (sep x y : str).                    (* '%s=%s' % (self.f, self.g) *)
(** str() refuses a __str__ that does not return a string *)
Definition must_be_str (v : pyval) : res str := match v with PStr s => Ret s | _ => Exc XType end.
(** '%s' of a value read by a StringField *)
Definition percent_s (v : pyval) : res str := match v with PStr s => Ret s | PNone => Ret (u "None") | _ => Exc XUnmodelled end.
Definition read_field (E : env) (x : str) (m : mapper) (d : node) : res pyval := match parse x with Ok e => field_get E e m d | _ => Exc XParse end.
Definition obj_str (w : shows) (E : env) (d : node) : res str :=
  match w with
  | Whole => Ret (default_str (WNode d))
  | Field x m => match read_field E x m d with Ret v => must_be_str v | Exc e => Exc e end
  | Pair sep x y =>
    match read_field E x (MString false) d with
    | Exc e => Exc e
    | Ret a => match read_field E y (MString false) d with
               | Exc e => Exc e
               | Ret b => match percent_s a, percent_s b with Ret s, Ret t => Ret (s ++ sep ++ t) | Exc e, _ => Exc e | _, Exc e => Exc e end
               end
    end
  end.

Local Open Scope string_scope.
(** the classes with a __str__ of their own, subclasses that inherit it included, and the field it returns.
    mods.py:64-88 (Date and its subclasses); eadmap.py:66-74, 111-123, 127-143, 315-331; cerp.py:44-50, 56-63, 90-100 *)
Definition str_methods : list (string * string * shows) :=
  map (fun c => ("mods.py", c, Field (u "text()") (MString false)))
    ["Date"; "DateCreated"; "DateIssued"; "DateCaptured"; "DateValid"; "DateModified"; "CopyrightDate"; "DateOther"] ++
  [("eadmap.py", "Heading", Field (u ".") (MString true)); ("eadmap.py", "Container", Field (u ".") (MString false));
   ("eadmap.py", "DateField", Field (u ".") (MString false)); ("eadmap.py", "Reference", Field (u ".") MNode);
   ("cerp.py", "Parameter", Pair (u "=") (u "xm:Name") (u "xm:Value")); ("cerp.py", "Header", Pair (u ": ") (u "xm:Name") (u "xm:Value"));
   ("cerp.py", "Hash", Field (u "xm:Value") (MString false))].
Fixpoint str_method (file class : string) (l : list (string * string * shows)) : shows :=
  match l with
  | [] => Whole
  | (f, c, w) :: r => if (String.eqb file f && String.eqb class c)%bool then w else str_method file class r
  end.
Definition file_ns (file : string) : list (str * str) :=
  if String.eqb file "mods.py" then ns_mods else if String.eqb file "eadmap.py" then ns_eadmap else if String.eqb file "cerp.py" then ns_cerp
  else if String.eqb file "teimap.py" then ns_teimap else if String.eqb file "premis.py" then ns_premis else ns_dc.
(** str(obj) for an object of the class on the element [d] *)
Definition shipped_str (file class : string) (d : node) : res str := obj_str (str_method file class str_methods) (mkEnv (Some (file_ns file)) []) d.
