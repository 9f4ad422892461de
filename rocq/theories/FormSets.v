(** Model of BaseXmlObjectFormSet.update_instance (eulxml/forms/xmlobject.py:814-838): saving a formset for a
    NodeListField.  The list is the one of NodeNodes.v; [cont] gives for each element what etree.tostring returns for
    it, which is what XmlObject.__eq__ compares (ObjEq.v).  A form has the element of its instance, and what saving
    it does to that element.  SIMPLIFICATIONS: the submission is valid; saving one form changes no other form's
    element, and does not depend on anything but the element; Django's BaseFormSet (deleted_forms, ordered_forms,
    initial_forms, extra_forms, has_changed) as documented for Django 1.8 to 3.2. *)
From Coq Require Import List Arith ZArith NArith Bool.
From Verif Require Import PyStr NodeList NodeNodes ObjEq.
Import ListNotations.

Record sform := mkSForm {
  sf_kid : kid;               (* form.instance.node *)
  sf_initial : bool;          (* one of initial_forms (the others are extra_forms) *)
  sf_changed : bool;          (* form.has_changed(); a ticked DELETE box is a change *)
  sf_delete : bool;           (* the DELETE box *)
  sf_order : option N;        (* the ORDER input *)
  sf_update : str -> str      (* form.update_instance() *)
}.
Record fstate := mkFState { fs_kids : list kid; fs_cont : nat -> str; fs_next : nat (* identity of the next new element *) }.

(** [==] of two XmlObjects for elements (C37) *)
Definition same (c : nat -> str) (a b : kid) : bool :=
  match obj_eq c (WElem (kid_id a)) (OpObj (WElem (kid_id b))) with EqVal b => b | EqTypeError => false end.
(** position of the first equal item, for [in] and [remove] (fields.py:717-718, 790-798) *)
Fixpoint first_same (c : nat -> str) (k : kid) (l : list kid) : option nat :=
  match l with [] => None | x :: r => if same c x k then Some 0 else option_map S (first_same c k r) end.
(** forms/xmlobject.py:818-819, 826-827 *)
Definition drop_instance (k : kid) (s : fstate) : fstate :=
  match first_same (fs_cont s) k (listed (fs_kids s)) with
  | Some i => mkFState (fst (nl_delitem (Z.of_nat i) (fs_kids s))) (fs_cont s) (fs_next s)
  | None => s
  end.
Definition set_cont (i : nat) (x : str) (c : nat -> str) : nat -> str := fun j => if Nat.eqb j i then x else c j.
(** form.update_instance() *)
Definition save_form (f : sform) (s : fstate) : fstate :=
  mkFState (fs_kids s) (set_cont (kid_id (sf_kid f)) (sf_update f (fs_cont s (kid_id (sf_kid f)))) (fs_cont s)) (fs_next s).
(** self.instances.append(form.instance) *)
Definition add_instance (k : kid) (s : fstate) : fstate :=
  mkFState (fst (nl_append (fs_next s) k (fs_kids s))) (fs_cont s) (S (fs_next s)).

(** Django: deleted_forms leaves out extra forms that were not changed *)
Definition deleted_forms (can_delete : bool) (fs : list sform) : list sform :=
  if can_delete then filter (fun f => (sf_initial f || sf_changed f) && sf_delete f) fs else [].
(** Django: ordered_forms leaves out unchanged extra forms and those to delete, and sorts by ORDER, blank ones last;
    Python's sort is stable *)
Definition order_le (a b : sform) : bool :=
  match sf_order a, sf_order b with Some x, Some y => N.leb x y | Some _, None => true | None, Some _ => false | None, None => true end.
Fixpoint insert_form (f : sform) (l : list sform) : list sform :=
  match l with [] => [f] | g :: r => if order_le f g then f :: l else g :: insert_form f r end.
Definition ordered_forms (can_delete : bool) (fs : list sform) : list sform :=
  fold_right insert_form [] (filter (fun f => (sf_initial f || sf_changed f) && negb (can_delete && sf_delete f)) fs).

(** forms/xmlobject.py:814-838 *)
Definition formset_update (can_delete can_order : bool) (fs : list sform) (s : fstate) : fstate :=
  let s1 := fold_left (fun s f => drop_instance (sf_kid f) s) (deleted_forms can_delete fs) s in
  if can_order then
    fold_left (fun s f => add_instance (sf_kid f) (save_form f (drop_instance (sf_kid f) s))) (ordered_forms can_delete fs) s1
  else
    let s2 := fold_left (fun s f => if sf_changed f then save_form f s else s) (filter sf_initial fs) s1 in
    fold_left (fun s f => if sf_changed f then add_instance (sf_kid f) (save_form f s) else s) (filter (fun f => negb (sf_initial f)) fs) s2.

(** formset.is_valid() saves every form that is not to be deleted (forms/xmlobject.py:630-638 for each; Django skips the
    validation of forms to delete), and the enclosing form's is_valid calls update_instance, so the usual
    [if form.is_valid(): form.update_instance()] is: validate, update, update. *)
Definition formset_validate (can_delete : bool) (fs : list sform) (s : fstate) : fstate :=
  fold_left (fun s f => if can_delete && sf_delete f then s else save_form f s) fs s.
