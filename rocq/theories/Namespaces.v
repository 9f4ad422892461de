(** Model of the namespace context of an XmlObject: XmlObject.__init__ (eulxml/xmlmap/core.py:311-337) and what
    XPath evaluation makes of it (fields.py:267-269 passes the context's namespaces to lxml).  Dictionaries are
    mutable and shared by reference, so they live on a heap. *)
From Coq Require Import List Arith NArith.
From Verif Require Import PyStr.
Import ListNotations.

(** a namespace dictionary: prefix (None is the default namespace) to URI *)
Definition nsdict := list (option str * str).
Fixpoint nget (p : option str) (d : nsdict) : option str :=
  match d with [] => None | (q, x) :: r => if ostr_eqb q p then Some x else nget p r end.
Fixpoint nset (p : option str) (x : str) (d : nsdict) : nsdict :=
  match d with [] => [(p, x)] | (q, y) :: r => if ostr_eqb q p then (q, x) :: r else (q, y) :: nset p x r end.
Definition nupdate (d e : nsdict) : nsdict := fold_left (fun acc kv => nset (fst kv) (snd kv) acc) e d.

(** [if prefix] (core.py:326-327): neither None nor '' *)
Definition truthy (p : option str) : bool := match p with None | Some [] => false | Some _ => true end.
Definition doc_namespaces (nsmap : nsdict) : nsdict := filter (fun kv => truthy (fst kv)) nsmap.

(** an object: its class's ROOT_NAMESPACES, its node's nsmap, and where its namespace dictionary lives *)
Record obj := mkObj { o_root : nsdict; o_nsmap : nsdict; o_ref : nat }.
Record heap := mkHeap { h_dicts : list nsdict; h_objs : list obj }.

Fixpoint set_nth {A} (i : nat) (x : A) (l : list A) : list A :=
  match l, i with
  | [], _ => []
  | _ :: r, O => x :: r
  | y :: r, S j => y :: set_nth j x r
  end.

(** core.py:311-333.  [ctx] is the caller's context: None if there is none or it has no 'namespaces' key,
    otherwise the dictionary found there ([self.context.update(context)] stores that very dictionary). *)
Definition init (root nsmap : nsdict) (ctx : option nat) (h : heap) : heap :=
  match ctx with
  | Some r =>
    match nth_error (h_dicts h) r with
    | Some d => mkHeap (set_nth r (nupdate d root) (h_dicts h)) (h_objs h ++ [mkObj root nsmap r])
    | None => h
    end
  | None => mkHeap (h_dicts h ++ [nupdate (doc_namespaces nsmap) root]) (h_objs h ++ [mkObj root nsmap (length (h_dicts h))])
  end.

(** what a program does: the caller makes a dictionary, or wraps a node in an XmlObject *)
Inductive op := ODict (d : nsdict) | OInit (root nsmap : nsdict) (ctx : option nat).
Definition step (h : heap) (o : op) : heap :=
  match o with
  | ODict d => mkHeap (h_dicts h ++ [d]) (h_objs h)
  | OInit r n c => init r n c h
  end.
Definition run (ops : list op) : heap := fold_left step ops (mkHeap [] []).

(** XPath evaluation with these namespaces: lxml refuses a dictionary with an empty prefix (None or '') *)
Definition lxml_accepts (d : nsdict) : bool := forallb (fun kv => truthy (fst kv)) d.
Definition resolves (h : heap) (o : obj) (p : str) : option str :=
  match nth_error (h_dicts h) (o_ref o) with
  | Some d => if lxml_accepts d then nget (Some p) d else None
  | None => None
  end.
