(** Model of BaseXmlObjectListFieldFormSet.update_instance (eulxml/forms/xmlobject.py:923-930) and of
    ListFieldForm.value (:890-896), on the document model of NodeList.v.
    SIMPLIFICATION: Django's part (which forms there are and what their cleaned data is) is the input. *)
From Coq Require Import String List Arith ZArith.
From Verif Require Export NodeList.
Import ListNotations.

(** forms/xmlobject.py:890-896: the cleaned value, None if validation left none *)
Definition form_value (cleaned : option pyval) : pyval := match cleaned with Some v => v | None => PNone end.
(** Python's truth value for what CharField and IntegerField produce (and None) *)
Definition truthy (v : pyval) : bool :=
  match v with
  | PNone => false
  | PStr [] => false
  | PInt z => negb (Z.eqb z 0)
  | PBool b => b
  | _ => true
  end.
(** forms/xmlobject.py:925 *)
Definition formset_values (forms : list (option pyval)) : list pyval := filter truthy (map form_value forms).
(** forms/xmlobject.py:923-930: [while len(self.instance): self.instance.pop()] is [trim] to length 0; then extend.
    Every pop shortens the list, so its length is fuel enough. *)
Definition list_formset_update (E : env) (e : expr) (m : mapper) (forms : list (option pyval)) : M unit :=
  bind (reading (list_len E e m)) (fun len =>
  bind (trim E e m 0 len) (fun _ => list_extend E e m (formset_values forms))).
