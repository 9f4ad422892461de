(** Model of XmlObject.serialize, serializeDocument, _serialize (eulxml/xmlmap/core.py:446-487) and load_xmlobject_from_string
    (core.py:558-616, validate=False).  The text is made and read by lxml (libxml2), which is outside /repo; the part of its behaviour
    needed is transcribed here:
    - etree.tostring of an element: escapes of xmlEscapeEntities and xmlBufAttrSerializeTxtContent, namespace declarations in scope
      on the outermost element, an empty element tag iff there is no text node and no child, the text after the element
      (with_tail), pretty_print as indentation of the elements without text nodes;
    - XML parsing of elements, attributes, text, comments, the five named and the decimal character references, line end and
      attribute value normalisation, namespaces in XML.
    SIMPLIFICATIONS: text is code points (UTF-8 is not modelled); the nodes that are not elements are comments; all namespace
    declarations are on the outermost element and none hides another; CDATA sections, DOCTYPE, processing instructions and hexadecimal
    references are refused by the reader (tostring never writes them for these trees), duplicate attributes are not looked for. *)
From Coq Require Import String List Arith NArith Bool.
From Verif Require Import PyStr XmlTree Fields XPathEval.
Import ListNotations.

(** ** markup with names as they are written *)
Inductive raw :=
| RElem (name : str) (ats : list (str * str)) (txt : option str) (kids : list (raw * option str))
| RComment (s : str).

(** *** writing *)
Definition text_char (c : N) : str :=
  if N.eqb c 38 then u "&amp;" else if N.eqb c 60 then u "&lt;" else if N.eqb c 62 then u "&gt;" else if N.eqb c 13 then u "&#13;" else [c].
Definition attr_char (c : N) : str :=
  if N.eqb c 34 then u "&quot;" else if N.eqb c 10 then u "&#10;" else if N.eqb c 9 then u "&#9;" else text_char c.
Definition otext (t : option str) : str := match t with Some s => flat_map text_char s | None => [] end.
Definition print_att (a : str * str) : str := 32%N :: fst a ++ [61; 34]%N ++ flat_map attr_char (snd a) ++ [34%N].
Fixpoint print (r : raw) : str :=
  match r with
  | RComment s => [60; 33; 45; 45]%N ++ s ++ [45; 45; 62]%N
  | RElem nm ats txt kids =>
    60%N :: nm ++ flat_map print_att ats ++
    match txt, kids with
    | None, [] => [47; 62]%N
    | _, _ => 62%N :: otext txt ++ flat_map (fun k => print (fst k) ++ otext (snd k)) kids ++ [60; 47]%N ++ nm ++ [62%N]
    end
  end.

(** *** reading *)
Fixpoint line_ends (s : str) : str :=
  match s with
  | 13%N :: r => 10%N :: match r with 10%N :: r' => line_ends r' | _ => line_ends r end
  | c :: r => c :: line_ends r
  | [] => []
  end.
Definition ref_char (nm : str) : option N :=
  if str_eqb nm (u "amp") then Some 38%N else if str_eqb nm (u "lt") then Some 60%N else if str_eqb nm (u "gt") then Some 62%N
  else if str_eqb nm (u "quot") then Some 34%N else if str_eqb nm (u "apos") then Some 39%N
  else match nm with
       | 35%N :: (_ :: _) as ds => if forallb asc_digit (tl nm) then let c := N_of_digits (dvals (tl nm)) in if xml_char c then Some c else None else None
       | _ => None
       end.
(** [att]: in an attribute value, where literal white space becomes a blank; [ref]: within a reference, its characters backwards *)
Fixpoint decode (att : bool) (ref : option str) (s : str) : option str :=
  match s with
  | [] => match ref with None => Some [] | Some _ => None end
  | c :: r =>
    match ref with
    | None => if N.eqb c 38 then decode att (Some []) r
              else if N.eqb c 60 || negb (xml_char c) then None
              else option_map (cons (if att && is_xws c then 32%N else c)) (decode att None r)
    | Some nm => if N.eqb c 59 then match ref_char (rev nm) with Some x => option_map (cons x) (decode att None r) | None => None end
                 else decode att (Some (c :: nm)) r
    end
  end.
Definition name_sym (c : N) : bool := xml_char c && negb (is_xws c) && negb (existsb (N.eqb c) [33; 34; 38; 39; 47; 60; 61; 62; 63]%N).
Fixpoint p_comment (s : str) : option (str * str) :=
  match s with
  | [] => None
  | c :: r =>
    if N.eqb c 45 && match r with d :: _ => N.eqb d 45 | [] => false end
    then match r with _ :: e :: r' => if N.eqb e 62 then Some ([], r') else None | _ => None end
    else if xml_char c then match p_comment r with Some (t, rest) => Some (c :: t, rest) | None => None end else None
  end.
Definition opt_text (s : str) : option str := match s with [] => None | _ => Some s end.
Definition p_text (s : str) : option (str * str) :=
  let (t, rest) := span (fun c => negb (N.eqb c 60)) s in match decode false None t with Some x => Some (x, rest) | None => None end.
Definition skip_ws (s : str) : str := lstrip is_xws s.
Fixpoint p_atts (fuel : nat) (s : str) : option (list (str * str) * str) :=
  match fuel with
  | O => None
  | S g =>
    match skip_ws s with
    | [] => None
    | c :: r =>
      if N.eqb c 47 || N.eqb c 62 then Some ([], c :: r)
      else let (nm, s1) := span name_sym (c :: r) in
           match nm, skip_ws s1 with
           | _ :: _, 61%N :: s2 =>
             match skip_ws s2 with
             | q :: s3 =>
               if N.eqb q 34 || N.eqb q 39 then
                 let (v, s4) := span (fun c => negb (N.eqb c q)) s3 in
                 match decode true None v, s4 with
                 | Some v', _ :: s5 => match p_atts g s5 with Some (l, rest) => Some ((nm, v') :: l, rest) | None => None end
                 | _, _ => None
                 end
               else None
             | [] => None
             end
           | _, _ => None
           end
    end
  end.
Definition eat (p s : str) : option str := if str_eqb (firstn (length p) s) p then Some (skipn (length p) s) else None.
Fixpoint p_elem (fuel : nat) (s : str) : option (raw * str) :=
  match fuel with
  | O => None
  | S g =>
    match s with
    | 60%N :: s0 =>
      let (nm, s1) := span name_sym s0 in
      match nm with
      | [] => None
      | _ =>
        match p_atts (S (length s1)) s1 with
        | Some (ats, 47%N :: 62%N :: rest) => Some (RElem nm ats None [], rest)
        | Some (ats, 62%N :: s2) =>
          match p_text s2 with
          | Some (t, s3) =>
            match p_kids g s3 with
            | Some (kids, s4) =>
              match eat ([60; 47]%N ++ nm) s4 with
              | Some s5 => match skip_ws s5 with 62%N :: rest => Some (RElem nm ats (opt_text t) kids, rest) | _ => None end
              | None => None
              end
            | None => None
            end
          | None => None
          end
        | _ => None
        end
      end
    | _ => None
    end
  end
with p_kids (fuel : nat) (s : str) : option (list (raw * option str) * str) :=
  match fuel with
  | O => None
  | S g =>
    match eat [60; 47]%N s with
    | Some _ => Some ([], s)
    | None =>
      match (match eat [60; 33; 45; 45]%N s with
             | Some s1 => match p_comment s1 with Some (t, rest) => Some (RComment t, rest) | None => None end
             | None => p_elem g s
             end) with
      | Some (k, s1) =>
        match p_text s1 with
        | Some (t, s2) => match p_kids g s2 with Some (ks, rest) => Some ((k, opt_text t) :: ks, rest) | None => None end
        | None => None
        end
      | None => None
      end
    end
  end.

(** ** namespaces *)
Definition nsdecls := list (option str * str).
Definition xml_uri : str := u "http://www.w3.org/XML/1998/namespace".
Definition scope (P : nsdecls) : nsdecls := P ++ [(Some (u "xml"), xml_uri)].
(** *** writing: the prefix of a name; an attribute needs one *)
Definition usable (att : bool) (p : option str) : bool := negb att || match p with Some _ => true | None => false end.
Definition raw_name (att : bool) (P : nsdecls) (q : qname) : str :=
  match q_ns q with
  | None => q_local q
  | Some uri => match find (fun d => usable att (fst d) && str_eqb (snd d) uri) (scope P) with
                | Some (Some p, _) => p ++ 58%N :: q_local q
                | _ => q_local q
                end
  end.
Fixpoint to_raw (P : nsdecls) (n : node) : raw :=
  match n with
  | Misc s => RComment s
  | Elem q ats txt kids => RElem (raw_name false P q) (map (fun a => (raw_name true P (fst a), snd a)) ats) txt (map (fun k => (to_raw P (fst k), snd k)) kids)
  end.
Definition decl_att (d : option str * str) : str * str := (match fst d with Some p => u "xmlns:" ++ p | None => u "xmlns" end, snd d).
Definition to_doc (P : nsdecls) (n : node) : raw :=
  match to_raw P n with RElem nm ats txt kids => RElem nm (map decl_att P ++ ats) txt kids | r => r end.
(** *** reading *)
Definition lookup (p : option str) (sc : nsdecls) : option str :=
  match find (fun d => ostr_eqb (fst d) p) sc with Some (_, uri) => Some uri | None => None end.
Definition decl_of (a : str * str) : option (option str * str) :=
  if str_eqb (fst a) (u "xmlns") then Some (None, snd a) else match eat (u "xmlns:") (fst a) with Some p => Some (Some p, snd a) | None => None end.
Definition decls_in (ats : list (str * str)) : nsdecls := flat_map (fun a => match decl_of a with Some d => [d] | None => [] end) ats.
Definition plain_in (ats : list (str * str)) : list (str * str) := filter (fun a => match decl_of a with Some _ => false | None => true end) ats.
Definition res_name (att : bool) (sc : nsdecls) (nm : str) : option qname :=
  match span (fun c => negb (N.eqb c 58)) nm with
  | (a, []) => Some (QN (if att then None else lookup None sc) a)
  | (a, _ :: b) => match lookup (Some a) sc with Some uri => Some (QN (Some uri) b) | None => None end
  end.
Fixpoint all_some {A} (l : list (option A)) : option (list A) :=
  match l with [] => Some [] | Some x :: r => option_map (cons x) (all_some r) | None :: _ => None end.
Fixpoint resolve (sc : nsdecls) (r : raw) : option node :=
  match r with
  | RComment s => Some (Misc s)
  | RElem nm ats txt kids =>
    let sc' := decls_in ats ++ sc in
    match res_name false sc' nm,
          all_some (map (fun a => option_map (fun q => (q, snd a)) (res_name true sc' (fst a))) (plain_in ats)),
          all_some (map (fun k => option_map (fun n => (n, snd k)) (resolve sc' (fst k))) kids) with
    | Some q, Some ats', Some kids' => Some (Elem q ats' txt kids')
    | _, _, _ => None
    end
  end.

(** ** the API *)
Definition xml_decl : str := u "<?xml version='1.0' encoding='UTF-8'?>" ++ [10%N].
Fixpoint after_decl (s : str) : str := match s with 63%N :: 62%N :: r => r | _ :: r => after_decl r | [] => [] end.
(** load_xmlobject_from_string: the declarations on the root element and the tree; None: XMLSyntaxError *)
Definition load (s : str) : option (nsdecls * node) :=
  let s1 := line_ends s in
  let s2 := match eat (u "<?xml") s1 with Some r => after_decl r | None => s1 end in
  match p_elem (S (length s2)) (skip_ws s2) with
  | Some (RElem nm ats txt kids, rest) =>
    match skip_ws rest with
    | [] => match resolve [(Some (u "xml"), xml_uri)] (RElem nm ats txt kids) with Some n => Some (decls_in ats, n) | None => None end
    | _ => None
    end
  | _ => None
  end.
(** libxml2's indentation: within an element without text nodes *)
Definition nl (d : nat) : str := 10%N :: repeat 32%N (2 * d).
Section Indent.
Context (ind : raw -> raw) (d : nat).
Fixpoint indent_kids (kids : list (raw * option str)) : list (raw * option str) :=
  match kids with
  | [] => []
  | k :: r => (ind (fst k), Some (nl (match r with [] => d | _ => S d end))) :: indent_kids r
  end.
End Indent.
Fixpoint indent (d : nat) (r : raw) : raw :=
  match r with
  | RElem nm ats None ((_ :: _) as kids) =>
    if forallb (fun k => match snd k with None => true | Some _ => false end) kids
    then RElem nm ats (Some (nl (S d))) (indent_kids (indent (S d)) d kids) else r
  | _ => r
  end.
(** the text after the element at an address *)
Fixpoint tail_at (a : addr) (d : node) : option str :=
  match a with
  | [] => None
  | [i] => match nth_error (kids_of d) i with Some (_, t) => t | None => None end
  | i :: a' => match nth_error (kids_of d) i with Some (k, _) => tail_at a' k | None => None end
  end.
(** core.py:446-455: etree.tostring(self.node, encoding='UTF-8', pretty_print=pretty), the object being at address [a] of document [d] *)
Definition serialize (P : nsdecls) (pretty : bool) (d : node) (a : addr) : option str :=
  match get_at a d with
  | Some n => Some (print (if pretty then indent 0 (to_doc P n) else to_doc P n) ++ otext (tail_at a d) ++ (if pretty then [10%N] else []))
  | None => None
  end.
(** core.py:457-468: the whole document, with an XML declaration *)
Definition serialize_document (P : nsdecls) (pretty : bool) (d : node) : str :=
  xml_decl ++ print (if pretty then indent 0 (to_doc P d) else to_doc P d) ++ (if pretty then [10%N] else []).
(** core.py:388-404: the document a stylesheet is run on; [compiled]: an etree.XSLT object is given, which lxml runs on the element itself *)
Definition xslt_input (compiled : bool) (P : nsdecls) (d : node) (a : addr) : option node :=
  if compiled then get_at a d
  else match a with
       | [] => Some d
       | _ => match serialize P false d a with Some s => option_map snd (load s) | None => None end
       end.
