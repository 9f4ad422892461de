(** Model of Message.from_email_message, eulxml/xmlmap/cerp.py:218-314 (with the fields of cerp.py:38-217), on the XML
    tree, with the field operations of Fields.v, Mappers.v and NodeList.v.
    SIMPLIFICATIONS: header values are plain str (Python's email package gives a Header object for undecodable ones); the
    XPaths 'xm:X' are given as their parse trees ([C47_paths] checks that the parser gives these); what the email package
    computes (content type, charset, file name, decoded payload, parsed dates) is part of the input. *)
From Coq Require Import String Arith ZArith.
From Verif Require Export NodeList.
From Verif Require Import XPathEval.

Definition cerp_ns : str := u "http://www.archives.ncdcr.gov/mail-account".
Definition Ex : env := mkEnv (Some [(u "xm", cerp_ns)]) [].
Definition xm (n : string) : expr := EStep None (NameTest (Some (u "xm")) (u n)) [].
Definition xn (n : string) : qname := QN (Some cerp_ns) (u n).

(** an email.message.Message *)
Record email := mkEmail {
  em_headers : list (str * str);            (* message.items(), in order *)
  em_multipart : bool;
  em_type : str;                            (* get_content_type() *)
  em_charset : option str;                  (* get_content_charset() *)
  em_filename : option str;
  em_payload : str                          (* get_payload(decode=False), decoded *)
}.
(** [message.get_all(name, [])], [message.get(name)]: header names are compared without case (ASCII) *)
Definition same_name (a b : str) : bool := str_eqb (map lower a) (map lower b).
Definition get_all (n : string) (m : email) : list str := map snd (filter (fun h => same_name (u n) (fst h)) (em_headers m)).
Definition get_first (n : string) (m : email) : option str := hd_error (get_all n m).

(** cerp.py:298-303: str.translate with a map that deletes the control characters *)
Definition deleted (c : N) : bool := N.ltb c 32 && negb (N.eqb c 9 || N.eqb c 10 || N.eqb c 13).
Definition clean (s : str) : str := filter (fun c => negb (deleted c)) s.

(** an operation on a sub-object, whose node is at [a] *)
Definition within {A} (a : addr) (m : M A) : M A := fun d =>
  match get_at a d with
  | Some n => let (n', r) := m n in (upd_at a (fun _ => n') d, r)
  | None => (d, Exc XUnmodelled)
  end.
(** [obj.create_f()], then work on [obj.f] (the element found again by its XPath) *)
Definition with_created {A} (e : expr) (m : M A) : M A :=
  bind (mgr_create Ex e) (fun r => match r with Some (RElem a) => within a m | _ => raise XUnmodelled end).

(** NodeList.append of an XmlObject (fields.py:741-788): an element is created, then replaced *)
Definition append_node (E : env) (e : expr) (n : node) : M unit :=
  bind (reading (matches E e)) (fun l =>
  bind (match last_item l with
        | Some i => match item_pos i with Ret (_, p) => build E Create e (Some doc_root) (Some (p + 1)) | Exc x => raise x end
        | None => build E Create e (Some doc_root) None
        end) (fun r =>
  match r with Some (RElem a) => fun d => (upd_at a (fun _ => n) d, Ret tt) | _ => raise XUnmodelled end)).

(** Header(name=key, value=val): a new element, then the two fields (cerp.py:56-60, 261) *)
Definition new_header (h : str * str) : node * res unit :=
  bind (mgr_set Ex (xm "Name") (Some (fst h))) (fun _ => mgr_set Ex (xm "Value") (Some (snd h))) (Elem (xn "Header") [] None []).
Fixpoint new_headers (hs : list (str * str)) : res (list node) :=
  match hs with
  | [] => Ret []
  | h :: r => match new_header h with
              | (n, Ret _) => match new_headers r with Ret ns => Ret (n :: ns) | Exc x => Exc x end
              | (_, Exc x) => Exc x
              end
  end.

Definition extend (n : string) (vs : list str) : M unit := list_extend Ex (xm n) (MString false) (map PStr vs).
Definition opt_append (n : string) (o : option str) : M unit :=
  match o with Some (c :: r) => list_append Ex (xm n) (MString false) (PStr (c :: r)) | _ => ret tt end.
Definition m_seq (l : list (M unit)) : M unit := iterM (fun x => x) l.

(** cerp.py:232-314; [id_text] is what str() gives for the value assigned to local_id, if any *)
Definition convert (parse_date : str -> str) (eol : str) (id_text : option str) (m : email) : M unit :=
  m_seq [
    match id_text with Some s => mgr_set Ex (xm "LocalId") (Some s) | None => ret tt end;
    match get_first "Message-Id" m with
    | Some (c :: r) => bind (mgr_set Ex (EBin (xm "MessageId") (u "/") (EStep (Some (u "@")) (NameTest None (u "Supplied")) [])) (Some (u "1"))) (fun _ =>
                       mgr_set Ex (xm "MessageId") (Some (c :: r)))
    | _ => ret tt
    end;
    mgr_set Ex (xm "MimeVersion") (get_first "MIME-Version" m);
    extend "OrigDate" (map parse_date (get_all "Date" m));
    extend "From" (get_all "From" m);
    extend "Sender" (get_all "From" m);
    extend "To" (get_all "To" m);
    extend "Cc" (get_all "Cc" m);
    extend "Bcc" (get_all "Bcc" m);
    extend "InReplyTo" (get_all "In-Reply-To" m);
    extend "References" (get_all "References" m);
    extend "Subject" (get_all "Subject" m);
    extend "Comments" (get_all "Comments" m);
    extend "Keywords" (get_all "Keywords" m);
    match new_headers (em_headers m) with
    | Ret ns => iterM (append_node Ex (xm "Header")) ns
    | Exc x => raise x
    end;
    if em_multipart m then ret tt
    else with_created (xm "SingleBody") (m_seq [
        match get_first "Content-Type" m with Some (_ :: _) => list_append Ex (xm "ContentType") (MString false) (PStr (em_type m)) | _ => ret tt end;
        opt_append "Charset" (em_charset m);
        opt_append "ContentName" (em_filename m);
        with_created (xm "BodyContent") (mgr_set Ex (xm "Content") (Some (clean (em_payload m))))]);
    mgr_set Ex (xm "Eol") (Some eol)].

(** cerp.py:232-234: cls(), then [result.local_id = id], where [id] is Python's built-in function *)
Definition from_email (parse_date : str -> str) (eol : str) (local_id : option str) (m : email) : node * res unit :=
  convert parse_date eol (match local_id with Some _ => Some (u "<built-in function id>") | None => None end) m (Elem (xn "Message") [] None []).
