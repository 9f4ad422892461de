(** Models of the MODS emptiness tests (eulxml/xmlmap/mods.py) and of XmlObject.is_empty (core.py:544-550), on the XML tree,
    with the field reads of Fields.v.  An object's node is [d]; [tl] is its tail. *)
From Coq Require Import String Arith.
From Verif Require Export NodeList.
From Verif Require Import XPathEval.

Definition mods_ns : str := u "http://www.loc.gov/mods/v3".
Definition Ed : env := mkEnv (Some [(u "mods", mods_ns)]) [].
Definition mx (n : string) : expr := EStep None (NameTest (Some (u "mods")) (u n)) [].       (* 'mods:n' *)
Definition ax (n : string) : expr := EStep (Some (u "@")) (NameTest None (u n)) [].           (* '@n' *)
Definition mn (n : string) : qname := QN (Some mods_ns) (u n).

Definition set_str (o : option str) : bool := match o with Some (_ :: _) => true | _ => false end.
(** truth value of a StringField; the reads below never raise (the namespace is declared) *)
Definition str_field (e : expr) (d : node) : bool := match get_string Ed e d with Ret o => set_str o | Exc _ => false end.
(** the items of a NodeListField, the value of a NodeField *)
Definition node_items (e : expr) (d : node) : list node :=
  match matches Ed e d with Ret l => flat_map (fun i => match i with IElem _ k => [k] | _ => [] end) l | Exc _ => [] end.
Definition node_field (e : expr) (d : node) : option node := hd_error (node_items e d).

(** core.py:544-550 *)
Definition obj_empty (d : node) (tl : option str) : bool :=
  (length (kids_of d) =? 0) && (length (attrs_of d) =? 0) && negb (set_str (text_of d)) && negb (set_str tl).
(** mods.py:57-62 *)
Definition date_empty (d : node) : bool := negb (set_str (text_of d)).
(** fields.py:697-701 *)
Definition all_empty (f : node -> bool) (l : list node) : bool := forallb f l.
(** mods.py:116-121 *)
Definition origin_empty (d : node) : bool :=
  all_empty date_empty (node_items (mx "dateCreated") d) && all_empty date_empty (node_items (mx "dateIssued") d) && negb (str_field (mx "publisher") d).
(** mods.py:141-146 *)
Definition note_empty (d : node) (tl : option str) : bool :=
  (length (kids_of d) =? 0) && forallb (fun a => qeqb (fst a) (QN None (u "type"))) (attrs_of d) && negb (set_str (text_of d)) && negb (set_str tl).
(** mods.py:242-246 *)
Definition title_empty (d : node) : bool :=
  negb (str_field (mx "title") d || str_field (mx "subTitle") d || str_field (mx "partNumber") d || str_field (mx "partName") d || str_field (mx "nonSort") d || str_field (ax "type") d).
(** mods.py:264-270, 279-285, 294-300 *)
Definition detail_empty (d : node) : bool := negb (str_field (mx "number") d).
Definition extent_empty (d : node) : bool := negb (str_field (mx "start") d || str_field (mx "end") d || str_field (mx "total") d).
Definition part_empty (d : node) : bool :=
  all_empty detail_empty (node_items (mx "detail") d) &&
  match node_field (mx "extent") d with Some x => extent_empty x | None => true end && negb (str_field (ax "type") d).
