(** Specification of "what a deletion may take away": the elements and attributes in a node, each with the names on the way to
    it, and the ones an XPath names.  Independent of the deletion code. *)
From Coq Require Import String List Permutation.
From Verif Require Export XmlTree FieldSpec.
Import ListNotations.

Inductive named := NElem (q : qname) | NAttr (q : qname) | NOther.

(** every attribute, child element and other child node below a node: the names on the way, ending with its own *)
Definition child_name (n : node) : named := match n with Elem q _ _ _ => NElem q | Misc _ => NOther end.
Fixpoint contents (n : node) : list (list named) :=
  match n with
  | Misc _ => []
  | Elem _ ats _ kids => map (fun a => [NAttr (fst a)]) ats ++ flat_map (fun k => [child_name (fst k)] :: map (cons (child_name (fst k))) (contents (fst k))) kids
  end.

(** the names along a path *)
Definition step_name (E : env) (s : expr) : list named :=
  match kind E s with Some (KChild q) => [NElem q] | Some (KAttr q) => [NAttr q] | _ => [] end.
Fixpoint way (E : env) (e : expr) : list named :=
  match e with
  | EBin l _ r => way E l ++ step_name E r
  | _ => step_name E e
  end.
(** one entry for every step of a path and of the left sides of its [... = value] predicates (and theirs) *)
Fixpoint mentioned (E : env) (e : expr) : list (list named) :=
  match e with
  | EStep _ _ ps =>
    map (fun k => [k]) (step_name E e) ++
    map (app (step_name E e)) (flat_map (fun p => match p with EBin l op _ => if str_eqb op (u "=") then mentioned E l else [] | _ => [] end) ps)
  | EBin l op r => if str_eqb op (u "/") then mentioned E l ++ map (app (way E l)) (mentioned E r) else []
  | _ => []
  end.

(** [xs] is part of [ys], counted with repetitions *)
Definition part_of {A} (xs ys : list A) : Prop := exists rest, Permutation ys (xs ++ rest).

(** what the first match of a field holds, if it is an element *)
Definition inside_match (E : env) (e : expr) (d : node) : list (list named) :=
  match selects E e d with IElem _ n :: _ => map (app (way E e)) (contents n) | _ => [] end.

(** the element whose text a text() field is *)
Definition host (E : env) (e : expr) (d : node) (b : addr) : Prop :=
  match e with EBin l _ _ => exists n rest, selects E l d = IElem b n :: rest | _ => b = [] end.
(** the document is unchanged, or one thing changed: the first match went with everything below it, or one of the elements it is in did
    ([pruned]); the attribute matched first went; the text of the element in front of /text() became empty *)
Definition one_place (E : env) (e : expr) (d d' : node) : Prop :=
  d' = d \/
  (exists b n rest, selects E e d = IElem b n :: rest /\ pruned b d d') \/
  (exists b q v rest, selects E e d = IAttr b q v :: rest /\ (d' = upd_at b (del_attr q) d \/ pruned b d d')) \/
  (lkind E e = Some KText /\ exists b, host E e d b /\ (d' = upd_at b (set_text (Some [])) d \/ pruned b d d')).
